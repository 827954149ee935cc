(** Calendar facts about months, years and runs of days. *)
From Coq Require Import QArith.
From Verif Require Import Base Calendar CalendarLemmas Timestep Network AggFuncs AggFuncsSpec Aggregator AggregatorSpec.
Open Scope Z_scope.
Ltac Zify.zify_post_hook ::= Z.div_mod_to_equations.

Lemma valid_datetime_iff t :
  valid_datetime t = true <-> valid_date (dt_date t) = true /\ 0 <= dt_ns t < NS_PER_DAY.
Proof. unfold valid_datetime. rewrite !andb_true_iff. split; [intros [[A B] C]|intros [A B]]; repeat split; auto; lia. Qed.

Lemma month_bounds t : valid_date t = true ->
  month_start (month_index t) <= day_number t < month_start (month_index t + 1).
Proof.
  intros H. pose proof H as V. apply valid_date_iff in V. destruct V as [Hm Hd].
  rewrite (day_number_month t Hm), month_start_succ.
  assert (E : days_in_month (month_index t / 12) (month_index t mod 12 + 1) = days_in_month (d_year t) (d_month t)).
  { f_equal; unfold month_index; lia. }
  rewrite E. lia.
Qed.

Lemma month_unique t mi : valid_date t = true ->
  month_start mi <= day_number t < month_start (mi + 1) -> month_index t = mi.
Proof.
  intros V H. pose proof (month_bounds t V) as B.
  destruct (Z.lt_trichotomy (month_index t) mi) as [L|[E|L]]; [|exact E|].
  - pose proof (month_start_mono (month_index t + 1) mi). lia.
  - pose proof (month_start_mono (mi + 1) (month_index t)). lia.
Qed.

Lemma year_bounds t : valid_date t = true ->
  days_before_year (d_year t) <= day_number t < days_before_year (d_year t + 1).
Proof.
  intros V. assert (E : d_year t = year_of_day (day_number t)).
  { rewrite <- (date_of_day_number t V) at 1. reflexivity. }
  rewrite E. apply year_of_day_spec.
Qed.

Lemma year_unique t y : valid_date t = true ->
  days_before_year y <= day_number t < days_before_year (y + 1) -> d_year t = y.
Proof.
  intros V H. rewrite <- (date_of_day_number t V). apply year_of_day_unique, H.
Qed.

(** The number of a period and the day it starts. *)
Definition pindex (f : agg_freq) (t : datetime) : Z :=
  match f with GAnnual => d_year (dt_date t) | _ => month_index (dt_date t) end.
Definition pstart (f : agg_freq) (i : Z) : Z :=
  match f with GAnnual => days_before_year i | _ => month_start i end.

Lemma pstart_mono f i j : i <= j -> pstart f i + 28 * (j - i) <= pstart f j.
Proof.
  intros H. destruct f; cbn [pstart]; try (apply month_start_mono, H).
  pose proof (days_before_year_mono i j H). lia.
Qed.

Lemma pindex_bounds f t : valid_datetime t = true ->
  pstart f (pindex f t) * NS_PER_DAY <= instant t < pstart f (pindex f t + 1) * NS_PER_DAY.
Proof.
  intros V. apply valid_datetime_iff in V. destruct V as [V N]. unfold instant.
  destruct f; cbn [pindex pstart]; pose proof (month_bounds _ V); pose proof (year_bounds _ V); unfold NS_PER_DAY in *; lia.
Qed.

Lemma pindex_unique f t i : valid_datetime t = true ->
  pstart f i * NS_PER_DAY <= instant t < pstart f (i + 1) * NS_PER_DAY -> pindex f t = i.
Proof.
  intros V H. apply valid_datetime_iff in V. destruct V as [V N]. unfold instant in H.
  destruct f; cbn [pindex pstart] in *; [apply month_unique|apply year_unique|apply month_unique]; auto; unfold NS_PER_DAY in *; lia.
Qed.

Lemma pindex_mono f t u : valid_datetime t = true -> valid_datetime u = true ->
  instant t <= instant u -> pindex f t <= pindex f u.
Proof.
  intros Vt Vu H. pose proof (pindex_bounds f t Vt). pose proof (pindex_bounds f u Vu).
  destruct (Z_le_gt_dec (pindex f t) (pindex f u)) as [L|G]; [exact L|].
  pose proof (pstart_mono f (pindex f u + 1) (pindex f t)). unfold NS_PER_DAY in *. lia.
Qed.

Lemma same_period_index f t u : calendric f -> valid_datetime t = true -> valid_datetime u = true ->
  same_period f t u <-> pindex f t = pindex f u.
Proof.
  intros C Vt Vu. apply valid_datetime_iff in Vt, Vu. destruct Vt as [Vt _], Vu as [Vu _].
  apply valid_date_iff in Vt, Vu.
  destruct f; cbn [same_period pindex]; [|reflexivity|destruct C].
  unfold month_index. lia.
Qed.


Lemma add_span_days t n : valid_datetime t = true -> instant (add_span t (Span 0 0 n 0)) = instant t + n * NS_PER_DAY.
Proof.
  intros V. apply valid_datetime_iff in V. destruct V as [V _]. unfold add_span. cbn [sp_months sp_weeks sp_days sp_ns].
  rewrite instant_datetime_of_instant, add_months_0 by exact V. destruct t as [d s]. cbn [dt_date dt_ns]. lia.
Qed.

Lemma in_period_iff f t u : valid_datetime t = true ->
  is_date_in_period f t u = true <-> same_period f t u.
Proof.
  intros V. destruct f; cbn [is_date_in_period same_period].
  - rewrite andb_true_iff, !Z.eqb_eq. reflexivity.
  - apply Z.eqb_eq.
  - cbv zeta. rewrite andb_true_iff, add_span_days by exact V. lia.
Qed.

Lemma add_span_months t k : valid_datetime t = true ->
  add_span t (Span k 0 0 0) = DateTime (add_months (dt_date t) k) (dt_ns t).
Proof.
  intros V. apply valid_datetime_iff in V. destruct V as [V N]. unfold add_span. cbn [sp_months sp_weeks sp_days sp_ns].
  replace (_ + _ * (7 * 0 + 0) + 0) with (instant (DateTime (add_months (dt_date t) k) (dt_ns t))) by lia.
  apply datetime_of_instant_inv. apply valid_datetime_iff. cbn [dt_date dt_ns]. split; [|exact N].
  apply (add_months_spec _ k V).
Qed.

(** The next calendar period starts where it should. *)
Lemma next_period_calendar f t : calendric f -> valid_datetime t = true ->
  valid_datetime (start_of_next_period f t) = true /\
  instant (start_of_next_period f t) = pstart f (pindex f t + 1) * NS_PER_DAY.
Proof.
  intros C V. pose proof V as V'. apply valid_datetime_iff in V'. destruct V' as [Vd N].
  destruct f; [| |destruct C]; cbn [start_of_next_period]; cbv zeta; rewrite add_span_months by exact V; cbn [dt_date].
  - destruct (add_months_spec (dt_date t) 1 Vd) as (Va & Ia & _). set (a := add_months (dt_date t) 1) in *.
    pose proof Va as W. apply valid_date_iff in W.
    split.
    + apply valid_datetime_iff. cbn [dt_date dt_ns]. split; [|unfold NS_PER_DAY; lia].
      apply valid_date_iff. cbn [d_year d_month d_day]. pose proof (days_in_month_range (d_year a) (d_month a)). lia.
    + unfold instant. cbn [dt_date dt_ns]. rewrite day_number_month by (cbn [d_month]; lia). cbn [d_day pstart pindex].
      replace (month_index (Date (d_year a) (d_month a) 1)) with (month_index (dt_date t) + 1) by (rewrite <- Ia; reflexivity).
      lia.
  - destruct (add_months_spec (dt_date t) 12 Vd) as (Va & Ia & _). set (a := add_months (dt_date t) 12) in *.
    pose proof Va as W. apply valid_date_iff in W. apply valid_date_iff in Vd.
    assert (Y : d_year a = d_year (dt_date t) + 1) by (unfold month_index in Ia; lia).
    split.
    + apply valid_datetime_iff. cbn [dt_date dt_ns]. split; [|unfold NS_PER_DAY; lia].
      apply valid_date_iff. cbn [d_year d_month d_day]. pose proof (days_in_month_range (d_year a) 1). lia.
    + unfold instant. cbn [dt_date dt_ns pstart pindex]. rewrite Y. unfold day_number, day_of_year. cbn [d_year d_month d_day].
      replace (days_before_month (leap (d_year (dt_date t) + 1)) 1) with 0 by reflexivity. lia.
Qed.

(** Everything the split and the tiling need to know about the next period. *)
Lemma next_period_facts f t : freq_ok f -> valid_datetime t = true ->
  let n := start_of_next_period f t in
  valid_datetime n = true /\ instant t < instant n /\
  (forall u, instant t <= u < instant n -> same_period f t (datetime_of_instant u)) /\
  ~ same_period f t n.
Proof.
  intros F V n. destruct (match f with GDays _ => true | _ => false end) eqn:E.
  - destruct f as [| |k]; try discriminate. unfold n. cbn [start_of_next_period same_period freq_ok] in *.
    rewrite add_span_days by exact V. repeat split; try (unfold NS_PER_DAY in *; nia);
      rewrite ?instant_datetime_of_instant; try lia.
    apply datetime_of_instant_valid.
  - assert (C : calendric f) by (destruct f; try discriminate; exact I).
    destruct (next_period_calendar f t C V) as [Vn In]. fold n in Vn, In.
    pose proof (pindex_bounds f t V) as B.
    split; [exact Vn|]. split; [lia|]. split.
    + intros u Hu. apply same_period_index; auto using datetime_of_instant_valid.
      symmetry. apply pindex_unique; [apply datetime_of_instant_valid|]. rewrite instant_datetime_of_instant. lia.
    + rewrite same_period_index by auto.
      assert (Hn : pindex f n = pindex f t + 1).
      { apply pindex_unique; auto. rewrite In. pose proof (pstart_mono f (pindex f t + 1) (pindex f t + 1 + 1)).
        unfold NS_PER_DAY in *; lia. }
      lia.
Qed.

(** From one period start to the next is at least a day. *)
Lemma next_period_day f t : freq_ok f -> valid_datetime t = true ->
  instant (start_of_next_period f t) + NS_PER_DAY <= instant (start_of_next_period f (start_of_next_period f t)).
Proof.
  intros F V. destruct (match f with GDays _ => true | _ => false end) eqn:E.
  - destruct f as [| |k]; try discriminate. cbn [freq_ok] in F. cbn [start_of_next_period].
    rewrite !add_span_days; auto; [|apply datetime_of_instant_valid]. unfold NS_PER_DAY. nia.
  - assert (C : calendric f) by (destruct f; try discriminate; exact I).
    destruct (next_period_calendar f t C V) as [Vn In].
    destruct (next_period_calendar f _ C Vn) as [_ In2]. rewrite In2.
    assert (Hn : pindex f (start_of_next_period f t) = pindex f t + 1).
    { apply pindex_unique; auto. rewrite In. pose proof (pstart_mono f (pindex f t + 1) (pindex f t + 1 + 1)).
      unfold NS_PER_DAY in *; lia. }
    rewrite In, Hn. pose proof (pstart_mono f (pindex f t + 1) (pindex f t + 1 + 1)). unfold NS_PER_DAY. lia.
Qed.

Lemma date_eta d : Date (d_year d) (d_month d) (d_day d) = d.
Proof. destruct d; reflexivity. Qed.

(** Calendar periods begin exactly at the start days. *)
Lemma begins_period_iff f t : calendric f ->
  begins_period f t <-> t = pstart f (pindex f (datetime_of_instant t)) * NS_PER_DAY.
Proof.
  intros C. pose proof (datetime_of_instant_valid t) as V. set (d := datetime_of_instant t) in *.
  assert (T : t = instant d) by (unfold d; rewrite instant_datetime_of_instant; reflexivity).
  apply valid_datetime_iff in V. destruct V as [Vd N]. pose proof Vd as W. apply valid_date_iff in W.
  unfold instant in T.
  destruct f; [| |destruct C]; cbn [pstart pindex].
  - change (begins_period GMonthly t) with (d_day (dt_date d) = 1 /\ dt_ns d = 0). rewrite T. clear T. clearbody d.
    rewrite day_number_month by lia. unfold NS_PER_DAY in *. lia.
  - change (begins_period GAnnual t) with (d_month (dt_date d) = 1 /\ d_day (dt_date d) = 1 /\ dt_ns d = 0).
    rewrite T. clear T. clearbody d. rewrite day_number_month by lia.
    assert (E : days_before_year (d_year (dt_date d)) = month_start (12 * d_year (dt_date d))).
    { unfold month_start, day_number, day_of_year. cbn [d_year d_month d_day].
      replace (12 * d_year (dt_date d) / 12) with (d_year (dt_date d)) by lia.
      replace ((12 * d_year (dt_date d)) mod 12 + 1) with 1 by lia.
      replace (days_before_month (leap (d_year (dt_date d))) 1) with 0 by reflexivity. lia. }
    rewrite E. unfold month_index.
    pose proof (month_start_mono (12 * d_year (dt_date d)) (12 * d_year (dt_date d) + (d_month (dt_date d) - 1))).
    split.
    + intros (A & B & D). rewrite A, B, D. replace (12 * d_year (dt_date d) + (1 - 1)) with (12 * d_year (dt_date d)) by lia. lia.
    + intros A. assert (d_month (dt_date d) = 1) as A1 by (unfold NS_PER_DAY in *; lia). rewrite A1 in *. clear H.
      replace (12 * d_year (dt_date d) + (1 - 1)) with (12 * d_year (dt_date d)) in * by lia.
      unfold NS_PER_DAY in *. lia.
Qed.
