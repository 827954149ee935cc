From Coq Require Import ZArith Bool Lia ZifyBool.
From Verif Require Import Calendar.
Open Scope Z_scope.
Ltac Zify.zify_post_hook ::= Z.div_mod_to_equations.

Lemma days_before_year_succ y :
  days_before_year (y + 1) = days_before_year y + (if leap y then 366 else 365).
Proof.
  unfold days_before_year, leap. replace (y + 1 - 1) with y by lia.
  destruct (y mod 4 =? 0) eqn:H4; destruct (y mod 100 =? 0) eqn:H100; destruct (y mod 400 =? 0) eqn:H400;
    cbn [andb orb negb]; lia.
Qed.

Lemma days_before_year_mono_nat y k : days_before_year y + 365 * Z.of_nat k <= days_before_year (y + Z.of_nat k).
Proof.
  induction k as [|k IH]; [change (Z.of_nat 0) with 0; rewrite Z.mul_0_r, !Z.add_0_r; lia|].
  replace (y + Z.of_nat (S k)) with ((y + Z.of_nat k) + 1) by lia.
  rewrite days_before_year_succ. destruct (leap (y + Z.of_nat k)); lia.
Qed.

Lemma days_before_year_mono y y' : y <= y' -> days_before_year y + 365 * (y' - y) <= days_before_year y'.
Proof.
  intros H. pose proof (days_before_year_mono_nat y (Z.to_nat (y' - y))) as M.
  rewrite Z2Nat.id in M by lia. replace (y + (y' - y)) with y' in M by lia. exact M.
Qed.

Lemma year_of_day_spec n :
  days_before_year (year_of_day n) <= n < days_before_year (year_of_day n + 1).
Proof.
  unfold year_of_day. set (y0 := 400 * n / 146097).
  assert (H : days_before_year (y0 - 1) <= n < days_before_year (y0 + 2)).
  { unfold days_before_year, y0. lia. }
  destruct (n <? days_before_year y0) eqn:E1.
  - replace (y0 - 1 + 1) with y0 by lia. lia.
  - destruct (days_before_year (y0 + 1) <=? n) eqn:E2.
    + replace (y0 + 1 + 1) with (y0 + 2) by lia. lia.
    + lia.
Qed.

Lemma year_of_day_unique n y :
  days_before_year y <= n < days_before_year (y + 1) -> year_of_day n = y.
Proof.
  intros H. pose proof (year_of_day_spec n) as S. set (z := year_of_day n) in *.
  destruct (Z.lt_trichotomy z y) as [L|[E|L]]; [|exact E|].
  - pose proof (days_before_year_mono (z + 1) y). lia.
  - pose proof (days_before_year_mono (y + 1) z). lia.
Qed.

(** Case split on the month. *)
Lemma month_cases m : 1 <= m <= 12 ->
  m = 1 \/ m = 2 \/ m = 3 \/ m = 4 \/ m = 5 \/ m = 6 \/ m = 7 \/ m = 8 \/ m = 9 \/ m = 10 \/ m = 11 \/ m = 12.
Proof. lia. Qed.

Ltac month_split H :=
  apply month_cases in H;
  destruct H as [->|[->|[->|[->|[->|[->|[->|[->|[->|[->|[->| ->]]]]]]]]]]].

Definition dim (lp : bool) (m : Z) : Z :=
  if (m =? 2) then (if lp then 29 else 28)
  else if (m =? 4) || (m =? 6) || (m =? 9) || (m =? 11) then 30 else 31.
Lemma days_in_month_dim y m : days_in_month y m = dim (leap y) m.
Proof. reflexivity. Qed.

Lemma valid_date_iff t :
  valid_date t = true <->
  1 <= d_month t <= 12 /\ 1 <= d_day t <= days_in_month (d_year t) (d_month t).
Proof. unfold valid_date. rewrite !andb_true_iff, !Z.leb_le. tauto. Qed.

Lemma month_of_doy_spec lp m d :
  1 <= m <= 12 -> 1 <= d <= dim lp m -> month_of_doy lp (days_before_month lp m + d - 1) = m.
Proof.
  intros Hm Hd. unfold month_of_doy.
  month_split Hm; destruct lp; unfold dim in Hd; cbn in Hd; cbn [days_before_month Z.eqb Pos.eqb];
    repeat match goal with |- context [if ?b then _ else _] => destruct b eqn:? end; lia.
Qed.

Lemma doy_range lp m d :
  1 <= m <= 12 -> 1 <= d <= dim lp m ->
  1 <= days_before_month lp m + d <= (if lp then 366 else 365).
Proof.
  intros Hm Hd. month_split Hm; destruct lp; cbn [dim days_before_month Z.eqb Pos.eqb orb] in *; lia.
Qed.

Lemma day_of_year_range t : valid_date t = true ->
  1 <= day_of_year t <= (if leap (d_year t) then 366 else 365).
Proof.
  intros H. apply valid_date_iff in H. destruct H as [Hm Hd]. apply doy_range; assumption.
Qed.

Lemma year_of_day_number t : valid_date t = true -> year_of_day (day_number t) = d_year t.
Proof.
  intros H. apply year_of_day_unique. pose proof (day_of_year_range t H). unfold day_number.
  rewrite days_before_year_succ. destruct (leap (d_year t)); lia.
Qed.

Lemma date_of_day_number t : valid_date t = true -> date_of_day (day_number t) = t.
Proof.
  intros H. unfold date_of_day. rewrite year_of_day_number by exact H.
  pose proof H as H'. apply valid_date_iff in H'. destruct H' as [Hm Hd].
  destruct t as [y m d]. cbn [d_year d_month d_day] in *. unfold day_number, day_of_year. cbn [d_year d_month d_day].
  replace (days_before_year y + (days_before_month (leap y) m + d) - 1 - days_before_year y)
    with (days_before_month (leap y) m + d - 1) by lia.
  rewrite month_of_doy_spec by assumption. f_equal. lia.
Qed.

Lemma month_of_doy_valid (lp : bool) n :
  0 <= n < (if lp then 366 else 365) ->
  1 <= month_of_doy lp n <= 12 /\
  1 <= n - days_before_month lp (month_of_doy lp n) + 1 <= dim lp (month_of_doy lp n).
Proof.
  intros H. unfold month_of_doy. destruct lp; cbn [days_before_month Z.eqb Pos.eqb];
    repeat match goal with |- context [if ?b then _ else _] => destruct b eqn:? end;
    cbn [dim days_before_month Z.eqb Pos.eqb orb]; lia.
Qed.

Lemma date_of_day_valid n : valid_date (date_of_day n) = true.
Proof.
  apply valid_date_iff. unfold date_of_day. cbn [d_year d_month d_day].
  apply month_of_doy_valid. pose proof (year_of_day_spec n) as H.
  rewrite days_before_year_succ in H. destruct (leap (year_of_day n)); lia.
Qed.

Lemma day_number_date_of_day n : day_number (date_of_day n) = n.
Proof.
  unfold day_number, day_of_year, date_of_day. cbn [d_year d_month d_day]. lia.
Qed.

Lemma day_number_inj t u :
  valid_date t = true -> valid_date u = true -> day_number t = day_number u -> t = u.
Proof.
  intros Ht Hu H. rewrite <- (date_of_day_number t Ht), <- (date_of_day_number u Hu), H. reflexivity.
Qed.

Lemma datetime_of_instant_valid n : valid_datetime (datetime_of_instant n) = true.
Proof.
  unfold valid_datetime, datetime_of_instant. cbn [dt_date dt_ns]. rewrite date_of_day_valid.
  unfold NS_PER_DAY. lia.
Qed.

Lemma instant_datetime_of_instant n : instant (datetime_of_instant n) = n.
Proof.
  unfold instant, datetime_of_instant. cbn [dt_date dt_ns]. rewrite day_number_date_of_day.
  unfold NS_PER_DAY. lia.
Qed.

Lemma datetime_of_instant_inv t : valid_datetime t = true -> datetime_of_instant (instant t) = t.
Proof.
  unfold valid_datetime. rewrite !andb_true_iff. intros [[H1 H2] H3].
  unfold datetime_of_instant, instant. destruct t as [d s]. cbn [dt_date dt_ns] in *.
  assert (E : (NS_PER_DAY * day_number d + s) / NS_PER_DAY = day_number d) by (unfold NS_PER_DAY in *; lia).
  assert (E2 : (NS_PER_DAY * day_number d + s) mod NS_PER_DAY = s) by (unfold NS_PER_DAY in *; lia).
  rewrite E, E2, date_of_day_number by exact H1. reflexivity.
Qed.

Lemma instant_inj t u :
  valid_datetime t = true -> valid_datetime u = true -> instant t = instant u -> t = u.
Proof.
  intros Ht Hu H. rewrite <- (datetime_of_instant_inv t Ht), <- (datetime_of_instant_inv u Hu), H. reflexivity.
Qed.

(* ---------- months ---------- *)

(** Day number of the first day of absolute month [mi] (12 * year + month - 1). *)
Definition month_start (mi : Z) : Z :=
  day_number (Date (mi / 12) (mi mod 12 + 1) 1).

Lemma month_start_succ mi :
  month_start (mi + 1) = month_start mi + days_in_month (mi / 12) (mi mod 12 + 1).
Proof.
  unfold month_start, day_number, day_of_year. cbn [d_year d_month d_day].
  rewrite days_in_month_dim.
  assert (Hm : 1 <= mi mod 12 + 1 <= 12) by lia.
  destruct (Z.eq_dec (mi mod 12) 11) as [E|E].
  - replace ((mi + 1) / 12) with (mi / 12 + 1) by lia.
    replace ((mi + 1) mod 12) with 0 by lia. rewrite E. rewrite days_before_year_succ.
    destruct (leap (mi / 12)); destruct (leap (mi / 12 + 1)); cbn [dim days_before_month Z.eqb Pos.eqb orb Z.add Pos.add Pos.succ]; lia.
  - replace ((mi + 1) / 12) with (mi / 12) by lia.
    replace ((mi + 1) mod 12) with (mi mod 12 + 1) by lia.
    set (m := mi mod 12 + 1) in *. assert (Hm2 : 1 <= m <= 11) by lia.
    assert (C : m = 1 \/ m = 2 \/ m = 3 \/ m = 4 \/ m = 5 \/ m = 6 \/ m = 7 \/ m = 8 \/ m = 9 \/ m = 10 \/ m = 11) by lia.
    clearbody m. destruct C as [->|[->|[->|[->|[->|[->|[->|[->|[->|[->| ->]]]]]]]]]];
      destruct (leap (mi / 12)); cbn [dim days_before_month Z.eqb Pos.eqb orb Z.add Pos.add Pos.succ]; lia.
Qed.

Lemma days_in_month_range y m : 28 <= days_in_month y m <= 31.
Proof. unfold days_in_month. destruct (m =? 2); [destruct (leap y); lia|]. destruct (_ || _); lia. Qed.

Lemma month_start_mono_nat mi k :
  month_start mi + 28 * Z.of_nat k <= month_start (mi + Z.of_nat k).
Proof.
  induction k as [|k IH]; [change (Z.of_nat 0) with 0; rewrite Z.mul_0_r, !Z.add_0_r; lia|].
  replace (mi + Z.of_nat (S k)) with (mi + Z.of_nat k + 1) by lia.
  rewrite month_start_succ.
  pose proof (days_in_month_range ((mi + Z.of_nat k) / 12) ((mi + Z.of_nat k) mod 12 + 1)). lia.
Qed.

Lemma month_start_mono a b : a <= b -> month_start a + 28 * (b - a) <= month_start b.
Proof.
  intros H. pose proof (month_start_mono_nat a (Z.to_nat (b - a))) as M.
  rewrite Z2Nat.id in M by lia. replace (a + (b - a)) with b in M by lia. exact M.
Qed.

(** Absolute month number of a date. *)
Definition month_index (t : date) : Z := 12 * d_year t + (d_month t - 1).

Lemma day_number_month t :
  1 <= d_month t <= 12 -> day_number t = month_start (month_index t) + d_day t - 1.
Proof.
  intros Hm. unfold month_start, month_index, day_number, day_of_year. cbn [d_year d_month d_day].
  replace ((12 * d_year t + (d_month t - 1)) / 12) with (d_year t) by lia.
  replace ((12 * d_year t + (d_month t - 1)) mod 12 + 1) with (d_month t) by lia. lia.
Qed.

Lemma add_months_spec t k :
  valid_date t = true ->
  valid_date (add_months t k) = true /\
  month_index (add_months t k) = month_index t + k /\
  d_day (add_months t k) = Z.min (d_day t) (days_in_month (d_year (add_months t k)) (d_month (add_months t k))).
Proof.
  intros H. apply valid_date_iff in H. destruct H as [Hm Hd].
  unfold add_months, month_index. cbn [d_year d_month d_day].
  set (mi := 12 * d_year t + (d_month t - 1) + k). split; [|split; [lia|reflexivity]].
  apply valid_date_iff. cbn [d_year d_month d_day].
  pose proof (days_in_month_range (mi / 12) (mi mod 12 + 1)). lia.
Qed.

Lemma add_months_0 t : valid_date t = true -> add_months t 0 = t.
Proof.
  intros H. pose proof H as H'. apply valid_date_iff in H'. destruct H' as [Hm Hd].
  unfold add_months. destruct t as [y m d]. cbn [d_year d_month d_day] in *.
  replace ((12 * y + (m - 1) + 0) / 12) with y by lia.
  replace ((12 * y + (m - 1) + 0) mod 12 + 1) with m by lia.
  f_equal. lia.
Qed.

Lemma add_months_strict t j k :
  valid_date t = true -> j < k -> day_number (add_months t j) < day_number (add_months t k).
Proof.
  intros H Hjk. destruct (add_months_spec t j H) as (Vj & Ij & _). destruct (add_months_spec t k H) as (Vk & Ik & _).
  apply valid_date_iff in Vj. apply valid_date_iff in Vk. destruct Vj as [Mj Dj], Vk as [Mk Dk].
  rewrite (day_number_month (add_months t j)) by exact Mj. rewrite (day_number_month (add_months t k)) by exact Mk.
  rewrite Ij, Ik.
  pose proof (month_start_succ (month_index t + j)) as S1.
  pose proof (month_start_mono (month_index t + j + 1) (month_index t + k)) as M1.
  rewrite <- Ij in S1.
  assert (E : days_in_month (month_index (add_months t j) / 12) (month_index (add_months t j) mod 12 + 1)
            = days_in_month (d_year (add_months t j)) (d_month (add_months t j))).
  { f_equal; unfold month_index; lia. }
  rewrite E in S1. rewrite Ij in S1. lia.
Qed.
