(** Proofs about profiles. *)
From Coq Require Import QArith Qround Qabs Lqa.
From Verif Require Import Base Calendar CalendarLemmas Timestep TimestepLemmas Network LpRowLemmas
  Profiles ProfilesSpec.
Local Open Scope Z_scope.

Lemma at_index_ok (values : list Q) i :
  0 <= i < Z.of_nat (length values) ->
  exists v, (index_or_panic values (Z.to_nat i) : profile_value) = Ok v /\ configured values i v.
Proof.
  intros H. unfold index_or_panic, configured.
  destruct (nth_error_lt_Some values (Z.to_nat i)) as [v E]; [lia|].
  rewrite E. eauto.
Qed.

Lemma valid_datetime_iff t :
  valid_datetime t = true <-> valid_date (dt_date t) = true /\ 0 <= dt_ns t < NS_PER_DAY.
Proof.
  unfold valid_datetime. rewrite !andb_true_iff. split; intros H; [destruct H as [[H1 H2] H3]|destruct H as [H1 H2]];
    repeat split; trivial; lia.
Qed.

Lemma day_place_range t : valid_date t = true -> 0 <= day_place t <= 365.
Proof. intros H. unfold day_place. rewrite <- doy_index_fixed by exact H. apply doy_index_range. exact H. Qed.

(* ---------- daily, diurnal ---------- *)

Lemma daily_value values t :
  length values = 366%nat -> valid_datetime t = true ->
  exists v, daily_profile values t = Ok v /\ configured values (day_place (dt_date t)) v.
Proof.
  intros L V. apply valid_datetime_iff in V. destruct V as [V _]. unfold daily_profile.
  rewrite doy_index_fixed by exact V. apply at_index_ok. rewrite L. pose proof (day_place_range _ V). lia.
Qed.

Lemma diurnal_value values t :
  length values = 24%nat -> valid_datetime t = true ->
  exists v h, diurnal_profile values t = Ok v /\ configured values h v /\
    NS_PER_HOUR * h <= dt_ns t < NS_PER_HOUR * (h + 1).
Proof.
  intros L V. apply valid_datetime_iff in V. destruct V as [_ V]. unfold diurnal_profile.
  destruct (at_index_ok values (dt_ns t / NS_PER_HOUR)) as (v & E & C).
  - rewrite L. unfold NS_PER_DAY, NS_PER_HOUR in *.
    pose proof (Z.div_pos (dt_ns t) 3600000000000). pose proof (Z.div_lt_upper_bound (dt_ns t) 3600000000000 24). lia.
  - exists v, (dt_ns t / NS_PER_HOUR). split; [exact E|]. split; [exact C|]. unfold NS_PER_HOUR.
    pose proof (Z.mul_div_le (dt_ns t) 3600000000000). pose proof (Z.mul_succ_div_gt (dt_ns t) 3600000000000). lia.
Qed.

Lemma daily_schema values :
  (length values = 366%nat -> daily_from_schema values = Ok values) /\
  (length values <> 366%nat -> length values <> 365%nat -> daily_from_schema values = Err (length values)) /\
  (length values = 365%nat -> exists full, daily_from_schema values = Ok full /\ length full = 366%nat /\
    forall t, valid_datetime t = true -> exists v,
      daily_profile full t = Ok v /\
      configured values (if (d_month (dt_date t) =? 2) && (d_day (dt_date t) =? 29) then 58
                         else days_before_month false (d_month (dt_date t)) + d_day (dt_date t) - 1) v).
Proof.
  unfold daily_from_schema. split; [intros ->; reflexivity|]. split.
  - intros A B. destruct (length values =? 366)%nat eqn:E1; [lia|]. destruct (length values =? 365)%nat eqn:E2; [lia|]. reflexivity.
  - intros L. rewrite L. cbn [Nat.eqb]. unfold index_or_panic.
    destruct (nth_error_lt_Some values 58) as [f E]; [lia|]. rewrite E. cbn [rbind].
    eexists. split; [reflexivity|]. split.
    { rewrite app_length. cbn [length]. rewrite firstn_length, skipn_length. lia. }
    intros t V. apply valid_datetime_iff in V. destruct V as [V _]. unfold daily_profile.
    rewrite doy_index_fixed by exact V. pose proof V as V'. apply valid_date_iff in V'. destruct V' as [Hm Hd].
    rewrite days_in_month_dim in Hd. pose proof (day_place_range _ V) as R. unfold day_place in R.
    set (i := days_before_month true (d_month (dt_date t)) + d_day (dt_date t) - 1) in *.
    set (j := if (d_month (dt_date t) =? 2) && (d_day (dt_date t) =? 29) then 58 else _).
    assert (J : (j = i /\ i <= 58) \/ (j = 58 /\ i = 59) \/ (j = i - 1 /\ 60 <= i)).
    { subst i j. clear R. destruct (dt_date t) as [y m d]. cbn [d_year d_month d_day] in *.
      destruct (leap y) eqn:El; month_split Hm; cbn [dim days_before_month Z.eqb Pos.eqb orb andb] in *;
        repeat match goal with |- context [if ?b then _ else _] => destruct b eqn:? end; lia. }
    assert (Lf : length (firstn 59 values) = 59%nat) by (rewrite firstn_length; lia).
    assert (N : nth_error (firstn 59 values ++ f :: skipn 59 values) (Z.to_nat i) = nth_error values (Z.to_nat j)).
    { destruct J as [[-> J]|[[-> ->]|[-> J]]].
      - rewrite nth_error_app1 by lia.
        rewrite <- (firstn_skipn 59 values) at 2. rewrite nth_error_app1 by lia. reflexivity.
      - rewrite nth_error_app2 by lia. rewrite Lf. exact (eq_sym E).
      - rewrite nth_error_app2 by lia. rewrite Lf.
        replace (Z.to_nat i - 59)%nat with (S (Z.to_nat i - 60)) by lia. cbn [nth_error].
        rewrite <- (firstn_skipn 59 values) at 2. rewrite nth_error_app2 by lia. rewrite Lf. f_equal. lia. }
    unfold index_or_panic. rewrite N. unfold configured.
    destruct (nth_error_lt_Some values (Z.to_nat j)) as [v Ev]; [lia|]. rewrite Ev. exists v.
    split; [reflexivity|]. split; [lia|reflexivity].
Qed.

(* ---------- weekly ---------- *)

Lemma qfloor_seventh i : Qfloor (inject_Z i / 7) = i / 7.
Proof. unfold Qfloor, Qdiv, Qmult, Qinv, inject_Z. cbn -[Z.div]. rewrite Z.mul_1_r. reflexivity. Qed.

Lemma current_index_spec values w t :
  weekly_try_from values = Some w -> valid_datetime t = true ->
  wk_values w = values /\ (wk_weeks w = length values) /\ (length values = 52%nat \/ length values = 53%nat) /\
  Z.of_nat (current_index w t) = Z.min (day_place (dt_date t) / 7) (Z.of_nat (length values) - 1).
Proof.
  intros T V. apply valid_datetime_iff in V. destruct V as [V _].
  assert (W : wk_values w = values /\ wk_weeks w = length values /\ (length values = 52%nat \/ length values = 53%nat)).
  { unfold weekly_try_from in T. destruct (length values =? 52)%nat eqn:E1; [|destruct (length values =? 53)%nat eqn:E2; [|discriminate]];
      injection T as <-; cbn [wk_values wk_weeks]; repeat split; lia. }
  destruct W as (W1 & W2 & W3). split; [exact W1|]. split; [exact W2|]. split; [exact W3|].
  unfold current_index, current_week_index. rewrite qfloor_seventh. rewrite W2.
  rewrite doy_index_fixed by exact V. pose proof (day_place_range _ V) as R. fold (day_place (dt_date t)).
  pose proof (Z.div_pos (day_place (dt_date t)) 7). lia.
Qed.

Lemma try_from_spec values : (exists w, weekly_try_from values = Some w) <-> (length values = 52%nat \/ length values = 53%nat).
Proof.
  unfold weekly_try_from. destruct (length values =? 52)%nat eqn:E1; [split; [lia|eauto]|].
  destruct (length values =? 53)%nat eqn:E2; [split; [lia|eauto]|]. split; [intros [w H]; discriminate|lia].
Qed.

(** The part of a 7-day week gone, in nanoseconds. *)
Definition into_week (t : datetime) : Z := (NS_PER_DAY * day_place (dt_date t) + dt_ns t) mod (7 * NS_PER_DAY).

Lemma week_position t :
  valid_datetime t = true ->
  (current_week_index t true == (NS_PER_DAY * day_place (dt_date t) + dt_ns t) # (7 * 86400000000000))%Q.
Proof.
  intros V. apply valid_datetime_iff in V. destruct V as [V _].
  unfold current_week_index, fractional_day_of_year. rewrite doy_index_fixed by exact V. fold (day_place (dt_date t)).
  set (i := day_place (dt_date t)). set (n := dt_ns t). clearbody i n.
  unfold Qeq, Qdiv, Qmult, Qplus, Qinv, inject_Z, NS_PER_DAY. cbn [Qnum Qden]. lia.
Qed.

Lemma weekly_interpolate_spec t a b :
  valid_datetime t = true -> at_fraction a b (into_week t) (7 * NS_PER_DAY) (weekly_interpolate t a b).
Proof.
  intros V. split; [unfold NS_PER_DAY; lia|]. unfold weekly_interpolate.
  pose proof (week_position t V) as P. set (n := NS_PER_DAY * day_place (dt_date t) + dt_ns t) in *.
  assert (F : Qfloor (current_week_index t true) = n / (7 * NS_PER_DAY)).
  { rewrite (Qfloor_comp _ _ P). reflexivity. }
  rewrite F. rewrite P. unfold into_week. fold n.
  assert (E : ((n # (7 * 86400000000000)) - inject_Z (n / (7 * NS_PER_DAY)) ==
    inject_Z (n mod (7 * NS_PER_DAY)) / inject_Z (7 * NS_PER_DAY))%Q).
  { rewrite (Z.mod_eq n (7 * NS_PER_DAY)) by (unfold NS_PER_DAY; lia).
    set (q := n / (7 * NS_PER_DAY)). rewrite Qmake_Qdiv.
    change (Z.pos (7 * 86400000000000)) with (7 * NS_PER_DAY).
    unfold Z.sub. rewrite inject_Z_plus, inject_Z_opp, (inject_Z_mult (7 * NS_PER_DAY)).
    set (D := inject_Z (7 * NS_PER_DAY)). assert (D0 : ~ (D == 0)%Q) by (intros C; discriminate C).
    field. exact D0. }
  rewrite E. reflexivity.
Qed.

Lemma weekly_value values w t :
  weekly_try_from values = Some w -> valid_datetime t = true ->
  let n := Z.of_nat (length values) in
  let week := Z.min (day_place (dt_date t) / 7) (n - 1) in
  (exists v, weekly_profile w None t = Ok v /\ configured values week v) /\
  (exists v a b, weekly_profile w (Some First) t = Ok v /\ configured values week a /\
     configured values ((week + 1) mod n) b /\ at_fraction a b (into_week t) (7 * NS_PER_DAY) v) /\
  (exists v a b, weekly_profile w (Some Last) t = Ok v /\ configured values ((week - 1) mod n) a /\
     configured values week b /\ at_fraction a b (into_week t) (7 * NS_PER_DAY) v).
Proof.
  intros T V n week. destruct (current_index_spec _ _ _ T V) as (W1 & W2 & W3 & I).
  fold n in I. fold week in I.
  assert (R : 0 <= week < n).
  { pose proof (proj1 (valid_datetime_iff t) V) as [V' _]. pose proof (day_place_range _ V').
    pose proof (Z.div_pos (day_place (dt_date t)) 7). subst week n. lia. }
  assert (C : exists v, weekly_current w t = Ok v /\ configured values week v).
  { unfold weekly_current. rewrite W1. replace (current_index w t) with (Z.to_nat week) by lia.
    apply at_index_ok. exact R. }
  assert (N : exists v, weekly_next w t = Ok v /\ configured values ((week + 1) mod n) v).
  { unfold weekly_next. rewrite W1, W2. destruct (length values - 1 <=? current_index w t)%nat eqn:E.
    - replace ((week + 1) mod n) with 0; [apply (at_index_ok values 0); fold n; lia|].
      replace (week + 1) with n by (subst n; lia). rewrite Z_mod_same_full. reflexivity.
    - rewrite Z.mod_small by (subst n; lia).
      replace (current_index w t + 1)%nat with (Z.to_nat (week + 1)) by lia. apply at_index_ok. subst n; lia. }
  assert (P : exists v, weekly_prev w t = Ok v /\ configured values ((week - 1) mod n) v).
  { unfold weekly_prev. rewrite W1, W2. destruct (current_index w t =? 0)%nat eqn:E.
    - replace ((week - 1) mod n) with (n - 1).
      + replace (length values - 1)%nat with (Z.to_nat (n - 1)) by (subst n; lia). apply at_index_ok. subst n; lia.
      + replace (week - 1) with (n - 1 + (-1) * n) by lia. rewrite Z_mod_plus_full. rewrite Z.mod_small; lia.
    - rewrite Z.mod_small by lia.
      replace (current_index w t - 1)%nat with (Z.to_nat (week - 1)) by lia. apply at_index_ok. subst n; lia. }
  destruct C as (c & Ec & Cc), N as (nx & En & Cn), P as (pv & Ep & Cp). split; [|split].
  - exists c. split; [exact Ec|exact Cc].
  - exists (weekly_interpolate t c nx), c, nx. cbn [weekly_profile]. rewrite Ec, En. cbn [rbind].
    repeat split; try (apply Cc || apply Cn); apply (weekly_interpolate_spec t c nx V).
  - exists (weekly_interpolate t pv c), pv, c. cbn [weekly_profile]. rewrite Ep, Ec. cbn [rbind].
    repeat split; try (apply Cc || apply Cp); apply (weekly_interpolate_spec t pv c V).
Qed.

Lemma at_fraction_convex a b num den v :
  at_fraction a b num den v -> 0 <= num <= den -> convex_of a b v.
Proof.
  intros [D E] R. exists (inject_Z num / inject_Z den)%Q.
  assert (D' : (0 < inject_Z den)%Q) by (unfold Qlt, inject_Z; cbn [Qnum Qden]; lia).
  split; [|split].
  - apply Qle_shift_div_l; [exact D'|]. unfold Qle, Qmult, inject_Z; cbn [Qnum Qden]. lia.
  - apply Qle_shift_div_r; [exact D'|]. unfold Qle, Qmult, inject_Z; cbn [Qnum Qden]. lia.
  - rewrite E. ring.
Qed.

Lemma convex_between a b v : convex_of a b v ->
  (a <= b -> a <= v /\ v <= b)%Q /\ (b <= a -> b <= v /\ v <= a)%Q.
Proof.
  intros (w & W0 & W1 & E).
  split; intros H; split; rewrite E; nra.
Qed.

Lemma into_week_range t : 0 <= into_week t <= 7 * NS_PER_DAY.
Proof. unfold into_week. pose proof (Z.mod_pos_bound (NS_PER_DAY * day_place (dt_date t) + dt_ns t) (7 * NS_PER_DAY)). unfold NS_PER_DAY in *. lia. Qed.

(* ---------- monthly ---------- *)

Lemma first_of_month_instant t : 1 <= d_month t <= 12 ->
  instant (first_of_month t) = NS_PER_DAY * month_start (month_index t).
Proof.
  intros H. unfold instant, first_of_month. cbn [dt_date dt_ns].
  rewrite day_number_month by exact H. unfold month_index. cbn [d_year d_month d_day]. lia.
Qed.

Lemma last_of_month_instant t : 1 <= d_month t <= 12 ->
  instant (last_of_month t) = NS_PER_DAY * (month_start (month_index t) + days_in_month (d_year t) (d_month t) - 1).
Proof.
  intros H. unfold instant, last_of_month. cbn [dt_date dt_ns].
  rewrite day_number_month by exact H. unfold month_index. cbn [d_year d_month d_day]. lia.
Qed.

Lemma month_index_div t : 1 <= d_month t <= 12 ->
  month_index t / 12 = d_year t /\ month_index t mod 12 + 1 = d_month t.
Proof. intros H. unfold month_index. lia. Qed.

Lemma interpolate_first_spec t a b :
  valid_datetime t = true ->
  at_fraction a b (NS_PER_DAY * (d_day (dt_date t) - 1) + dt_ns t)
    (NS_PER_DAY * days_in_month (d_year (dt_date t)) (d_month (dt_date t))) (interpolate_first t a b).
Proof.
  intros V. apply valid_datetime_iff in V. destruct V as [V _].
  pose proof (days_in_month_range (d_year (dt_date t)) (d_month (dt_date t))) as R.
  split; [unfold NS_PER_DAY; lia|].
  pose proof (proj1 (valid_date_iff _) V) as [Hm Hd].
  destruct (add_months_spec (dt_date t) 1 V) as (V1 & I1 & _). pose proof (proj1 (valid_date_iff _) V1) as [Hm1 _].
  unfold interpolate_first, since.
  rewrite !first_of_month_instant by assumption. rewrite I1. rewrite month_start_succ.
  destruct (month_index_div (dt_date t) Hm) as [-> ->].
  assert (E : instant t = NS_PER_DAY * (month_start (month_index (dt_date t)) + d_day (dt_date t) - 1) + dt_ns t).
  { unfold instant. rewrite day_number_month by exact Hm. reflexivity. }
  rewrite E. apply Qplus_comp; [reflexivity|]. apply Qmult_comp; [reflexivity|].
  apply Qmult_comp; [|apply Qinv_comp]; apply inject_Z_injective; lia.
Qed.

Lemma interpolate_last_spec t a b :
  valid_datetime t = true ->
  at_fraction a b (NS_PER_DAY * d_day (dt_date t) + dt_ns t)
    (NS_PER_DAY * days_in_month (d_year (dt_date t)) (d_month (dt_date t))) (interpolate_last t a b).
Proof.
  intros V. apply valid_datetime_iff in V. destruct V as [V _].
  pose proof (days_in_month_range (d_year (dt_date t)) (d_month (dt_date t))) as R.
  split; [unfold NS_PER_DAY; lia|].
  pose proof (proj1 (valid_date_iff _) V) as [Hm Hd].
  destruct (add_months_spec (dt_date t) (-1) V) as (V1 & I1 & _). pose proof (proj1 (valid_date_iff _) V1) as [Hm1 _].
  unfold interpolate_last, since.
  rewrite !last_of_month_instant by assumption.
  pose proof (month_start_succ (month_index (add_months (dt_date t) (-1)))) as S1.
  destruct (month_index_div _ Hm1) as [Y M]. rewrite Y, M in S1.
  replace (month_index (add_months (dt_date t) (-1)) + 1) with (month_index (dt_date t)) in S1 by lia.
  assert (E : instant t = NS_PER_DAY * (month_start (month_index (dt_date t)) + d_day (dt_date t) - 1) + dt_ns t).
  { unfold instant. rewrite day_number_month by exact Hm. reflexivity. }
  rewrite E. rewrite S1. apply Qplus_comp; [reflexivity|]. apply Qmult_comp; [reflexivity|].
  apply Qmult_comp; [|apply Qinv_comp]; apply inject_Z_injective; lia.
Qed.

Lemma monthly_value values t :
  length values = 12%nat -> valid_datetime t = true ->
  let m := d_month (dt_date t) in
  let month_length := NS_PER_DAY * days_in_month (d_year (dt_date t)) m in
  (exists v, monthly_profile values None t = Ok v /\ configured values (m - 1) v) /\
  (exists v a b, monthly_profile values (Some First) t = Ok v /\
     configured values (m - 1) a /\ configured values (m mod 12) b /\
     at_fraction a b (NS_PER_DAY * (d_day (dt_date t) - 1) + dt_ns t) month_length v) /\
  (exists v a b, monthly_profile values (Some Last) t = Ok v /\
     configured values ((m - 2) mod 12) a /\ configured values (m - 1) b /\
     at_fraction a b (NS_PER_DAY * d_day (dt_date t) + dt_ns t) month_length v).
Proof.
  intros L V m ml. pose proof (proj1 (valid_datetime_iff t) V) as [V' _].
  pose proof (proj1 (valid_date_iff _) V') as [Hm _]. fold m in Hm.
  destruct (at_index_ok values (m - 1)) as (c & Ec & Cc); [lia|].
  destruct (at_index_ok values (m mod 12)) as (nx & En & Cn); [rewrite L; lia|].
  destruct (at_index_ok values ((m - 2) mod 12)) as (p & Ep & Cp); [rewrite L; lia|].
  unfold monthly_profile. fold m. split; [|split].
  - exists c. split; assumption.
  - exists (interpolate_first t c nx), c, nx.
    rewrite Z.rem_mod_nonneg by lia. rewrite Ec, En. cbn [rbind].
    split; [reflexivity|]. split; [exact Cc|]. split; [exact Cn|]. apply interpolate_first_spec. exact V.
  - exists (interpolate_last t p c), p, c.
    replace ((if m =? 1 then 12 else m - 1) - 1) with ((m - 2) mod 12).
    + rewrite Ec, Ep. cbn [rbind]. split; [reflexivity|]. split; [exact Cp|]. split; [exact Cc|].
      apply interpolate_last_spec. exact V.
    + destruct (m =? 1) eqn:E; [replace m with 1 by lia; reflexivity|rewrite Z.mod_small by lia; lia].
Qed.

(* ---------- the same day in every year ---------- *)

Lemma interpolate_first_eq t a b :
  valid_datetime t = true ->
  interpolate_first t a b =
  (a + (b - a) * (inject_Z (NS_PER_DAY * (d_day (dt_date t) - 1) + dt_ns t) /
    inject_Z (NS_PER_DAY * days_in_month (d_year (dt_date t)) (d_month (dt_date t)))))%Q.
Proof.
  intros V. apply valid_datetime_iff in V. destruct V as [V _].
  pose proof (proj1 (valid_date_iff _) V) as [Hm Hd].
  destruct (add_months_spec (dt_date t) 1 V) as (V1 & I1 & _). pose proof (proj1 (valid_date_iff _) V1) as [Hm1 _].
  unfold interpolate_first, since.
  rewrite !first_of_month_instant by assumption. rewrite I1. rewrite month_start_succ.
  destruct (month_index_div (dt_date t) Hm) as [-> ->].
  assert (E : instant t = NS_PER_DAY * (month_start (month_index (dt_date t)) + d_day (dt_date t) - 1) + dt_ns t).
  { unfold instant. rewrite day_number_month by exact Hm. reflexivity. }
  rewrite E. f_equal. f_equal. f_equal; apply (f_equal inject_Z); lia.
Qed.

Lemma interpolate_last_eq t a b :
  valid_datetime t = true ->
  interpolate_last t a b =
  (a + (b - a) * (inject_Z (NS_PER_DAY * d_day (dt_date t) + dt_ns t) /
    inject_Z (NS_PER_DAY * days_in_month (d_year (dt_date t)) (d_month (dt_date t)))))%Q.
Proof.
  intros V. apply valid_datetime_iff in V. destruct V as [V _].
  pose proof (proj1 (valid_date_iff _) V) as [Hm Hd].
  destruct (add_months_spec (dt_date t) (-1) V) as (V1 & I1 & _). pose proof (proj1 (valid_date_iff _) V1) as [Hm1 _].
  unfold interpolate_last, since.
  rewrite !last_of_month_instant by assumption.
  pose proof (month_start_succ (month_index (add_months (dt_date t) (-1)))) as S1.
  destruct (month_index_div _ Hm1) as [Y M]. rewrite Y, M in S1.
  replace (month_index (add_months (dt_date t) (-1)) + 1) with (month_index (dt_date t)) in S1 by lia.
  assert (E : instant t = NS_PER_DAY * (month_start (month_index (dt_date t)) + d_day (dt_date t) - 1) + dt_ns t).
  { unfold instant. rewrite day_number_month by exact Hm. reflexivity. }
  rewrite E. rewrite S1. f_equal. f_equal. f_equal; apply (f_equal inject_Z); lia.
Qed.

Lemma same_day_index t u :
  valid_datetime t = true -> valid_datetime u = true -> same_calendar_day t u ->
  day_of_year_index (dt_date t) = day_of_year_index (dt_date u).
Proof.
  intros V W (M & D & N). apply valid_datetime_iff in V, W. destruct V as [V _], W as [W _].
  rewrite !doy_index_fixed by assumption. rewrite M, D. reflexivity.
Qed.

Lemma same_day_values t u :
  valid_datetime t = true -> valid_datetime u = true -> same_calendar_day t u ->
  (forall values, daily_profile values t = daily_profile values u) /\
  (forall values, diurnal_profile values t = diurnal_profile values u) /\
  (forall w interp, weekly_profile w interp t = weekly_profile w interp u) /\
  (forall values, monthly_profile values None t = monthly_profile values None u) /\
  (forall values interp, days_in_month (d_year (dt_date t)) (d_month (dt_date t)) =
      days_in_month (d_year (dt_date u)) (d_month (dt_date u)) ->
    monthly_profile values interp t = monthly_profile values interp u).
Proof.
  intros V W S. pose proof (same_day_index t u V W S) as I. destruct S as (M & D & N).
  assert (WI : forall b, current_week_index t b = current_week_index u b).
  { intros []; unfold current_week_index, fractional_day_of_year; rewrite I; [rewrite N|]; reflexivity. }
  assert (CI : forall w, current_index w t = current_index w u).
  { intros w. unfold current_index. rewrite WI. reflexivity. }
  split; [intros; unfold daily_profile; rewrite I; reflexivity|].
  split; [intros; unfold diurnal_profile; rewrite N; reflexivity|].
  split; [|split].
  - intros w [[]|]; unfold weekly_profile, weekly_current, weekly_next, weekly_prev, weekly_interpolate;
      rewrite ?CI, ?WI; reflexivity.
  - intros. unfold monthly_profile. rewrite M. reflexivity.
  - intros values [[]|] L; unfold monthly_profile; rewrite ?M; [| |reflexivity].
    + destruct (index_or_panic values (Z.to_nat (d_month (dt_date u) - 1))); cbn [rbind]; try reflexivity.
      destruct (index_or_panic values _); cbn [rbind]; try reflexivity.
      rewrite !interpolate_first_eq by assumption. rewrite L, D, N. reflexivity.
    + destruct (index_or_panic values (Z.to_nat ((if d_month (dt_date u) =? 1 then 12 else d_month (dt_date u) - 1) - 1))); cbn [rbind]; try reflexivity.
      destruct (index_or_panic values _); cbn [rbind]; try reflexivity.
      rewrite !interpolate_last_eq by assumption. rewrite L, D, N. reflexivity.
Qed.

(* ---------- uniform drawdown ---------- *)

Lemma is_leap_year_leap y : is_leap_year y = leap y.
Proof.
  assert (R : forall k, 0 < k -> (Z.rem y k =? 0) = (y mod k =? 0)).
  { intros k K. destruct (Z.rem y k =? 0) eqn:E1, (y mod k =? 0) eqn:E2; trivial.
    - apply Z.eqb_eq, Z.rem_divide, Z.mod_divide in E1; lia.
    - apply Z.eqb_eq, Z.mod_divide, Z.rem_divide in E2; lia. }
  unfold is_leap_year, leap. rewrite !R by lia. reflexivity.
Qed.

Lemma day_of_year_place t :
  valid_date t = true ->
  day_of_year t = day_place t + 1 - (if negb (leap (d_year t)) && (59 <? day_place t) then 1 else 0).
Proof.
  intros V. pose proof (doy_index_fixed t V) as I. fold (day_place t) in I. unfold day_of_year_index in I.
  destruct (leap (d_year t)); cbn [negb andb] in *; [lia|].
  destruct (58 <? day_of_year t - 1) eqn:E; destruct (59 <? day_place t) eqn:F; lia.
Qed.

Lemma not_leap_place t : valid_date t = true -> leap (d_year t) = false -> day_place t <> 59.
Proof.
  intros V Hl. apply valid_date_iff in V. destruct V as [Hm Hd]. rewrite days_in_month_dim, Hl in Hd.
  destruct t as [y m d]. unfold day_place. cbn [d_year d_month d_day] in *.
  month_split Hm; cbn [dim days_before_month Z.eqb Pos.eqb orb] in *; lia.
Qed.

(** The value of the code in terms of the days since a reset and the length of
    the period, [extra] days off. *)
Definition drawdown_line (residual total into : Z) : Q :=
  (1 - (1 - inject_Z residual / inject_Z total) * (inject_Z into / inject_Z total))%Q.

Lemma reset_doy_spec day month doy : reset_day_of_year day month = Some doy ->
  1 <= month <= 12 /\ 1 <= day <= dim true month /\ doy = days_before_month true month + day.
Proof.
  unfold reset_day_of_year. destruct (valid_date (Date 2016 month day)) eqn:V; [|discriminate].
  intros H. injection H as <-. apply valid_date_iff in V. cbn [d_year d_month d_day] in V.
  rewrite days_in_month_dim in V. change (leap 2016) with true in V.
  unfold day_of_year. cbn [d_year d_month d_day]. change (leap 2016) with true. lia.
Qed.

Lemma year_in_period month day y t into total :
  in_period month day y t into total -> valid_date t = true -> d_year t = y \/ d_year t = y + 1.
Proof.
  intros (V0 & V1 & -> & -> & R) V.
  pose proof (day_of_year_range _ V0) as R0. pose proof (day_of_year_range _ V1) as R1. pose proof (day_of_year_range _ V) as Rt.
  unfold day_number in R. cbn [d_year reset_date] in *.
  pose proof (days_before_year_succ y). pose proof (days_before_year_succ (y + 1)).
  destruct (Z.lt_trichotomy (d_year t) y) as [L|[L|L]]; [|lia|].
  - pose proof (days_before_year_mono (d_year t + 1) y). pose proof (days_before_year_succ (d_year t)).
    destruct (leap (d_year t)); lia.
  - destruct (Z.eq_dec (d_year t) (y + 1)); [lia|].
    pose proof (days_before_year_mono (y + 2) (d_year t)). replace (y + 1 + 1) with (y + 2) in * by lia.
    destruct (leap (y + 1)); lia.
Qed.

Lemma drawdown_value day month doy residual y t into total :
  reset_day_of_year day month = Some doy -> valid_datetime t = true ->
  in_period month day y (dt_date t) into total ->
  let extra := if (doy <=? 60) && negb (leap y) && (day_number (Date y 3 1) <=? day_number (dt_date t)) then 1 else 0 in
  (uniform_drawdown residual doy t == drawdown_line residual total (into + extra))%Q.
Proof.
  intros Rd Vt P extra. apply valid_datetime_iff in Vt. destruct Vt as [V _].
  destruct (year_in_period _ _ _ _ _ _ P V) as [Yt|Yt];
  destruct P as (V0 & V1 & EI & ET & R);
  destruct (reset_doy_spec _ _ _ Rd) as (Hm & Hd & Ed);
  unfold uniform_drawdown; rewrite !is_leap_year_leap; rewrite doy_index_fixed by exact V; fold (day_place (dt_date t));
  pose proof (day_place_range _ V) as Rp;
  pose proof (day_of_year_place _ V) as D; pose proof (day_of_year_place _ V0) as D0; pose proof (day_of_year_place _ V1) as D1;
  set (p := day_place (dt_date t)) in *;
  assert (P0 : day_place (reset_date month day y) = doy - 1) by (unfold day_place, reset_date; cbn [d_month d_day]; lia);
  assert (P1 : day_place (reset_date month day (y + 1)) = doy - 1) by (unfold day_place, reset_date; cbn [d_month d_day]; lia);
  rewrite P0 in D0; rewrite P1 in D1; unfold day_number in EI, ET, extra; cbn [reset_date d_year] in *;
  rewrite ?Yt in *; pose proof (days_before_year_succ y) as DS;
  change (day_of_year (Date y 3 1)) with (days_before_month (leap y) 3 + 1) in extra;
  change (days_before_month (leap y) 3) with (59 + (if leap y then 1 else 0)) in extra;
  pose proof (not_leap_place _ V0) as F0; pose proof (not_leap_place _ V1) as F1; pose proof (not_leap_place _ V) as Ft;
  rewrite P0 in F0; rewrite P1 in F1; fold p in Ft; cbn [reset_date d_year] in F0, F1; rewrite Yt in Ft;
  assert (EX : extra = if (doy <=? 60) && negb (leap y) &&
     (days_before_year y + (59 + (if leap y then 1 else 0) + 1) - 1 <=? days_before_year (d_year (dt_date t)) + day_of_year (dt_date t) - 1)
     then 1 else 0) by reflexivity; rewrite Yt in EX; clearbody extra p.
  - (* the year of the reset *)
    assert (K : p + 1 - doy <? 0 = false).
    { destruct (leap y); cbn [negb andb] in *; destruct (59 <? p) eqn:?; destruct (59 <? doy - 1) eqn:?; lia. }
    rewrite K.
    assert (Z1 : p + 1 - doy = into + extra /\ (if leap (if 60 <? doy then y + 1 else y) then 366 else 365) = total).
    { destruct (60 <? doy) eqn:?; destruct (leap y) eqn:?; destruct (leap (y + 1)) eqn:?;
        cbn [negb andb] in *; destruct (59 <? p) eqn:?; destruct (59 <? doy - 1) eqn:?; destruct (doy <=? 60) eqn:?;
        cbn [negb andb] in *;
        try match type of EX with context [if ?b then _ else _] => destruct b eqn:? end;
        repeat match goal with |- context [if ?b then _ else _] => destruct b eqn:? end; lia. }
    destruct Z1 as [Z1 Z2]. rewrite Z1, Z2. unfold drawdown_line.
    assert (T0 : ~ (inject_Z total == 0)%Q) by (unfold Qeq; cbn [Qnum Qden inject_Z]; lia).
    field. exact T0.
  - (* the year after *)
    assert (K : p + 1 - doy <? 0 = true).
    { destruct (leap (y + 1)); destruct (leap y); cbn [negb andb] in *; destruct (59 <? p) eqn:?; destruct (59 <? doy - 1) eqn:?; lia. }
    rewrite K. replace (y + 1 - 1) with y by lia.
    assert (Z1 : (if negb (leap (y + 1)) && (60 <? p + 1) then p + 1 - doy + 366 - 1 else p + 1 - doy + 366) = into + extra /\
                 (if leap (if 60 <? doy then y + 1 else y) then 366 else 365) = total).
    { destruct (60 <? doy) eqn:?; destruct (leap y) eqn:?; destruct (leap (y + 1)) eqn:?;
        cbn [negb andb] in *; destruct (59 <? p) eqn:?; destruct (60 <? p + 1) eqn:?; destruct (59 <? doy - 1) eqn:?; destruct (doy <=? 60) eqn:?;
        cbn [negb andb] in *;
        try match type of EX with context [if ?b then _ else _] => destruct b eqn:? end;
        repeat match goal with |- context [if ?b then _ else _] => destruct b eqn:? end; lia. }
    destruct Z1 as [Z1 Z2]. rewrite Z1, Z2. unfold drawdown_line.
    assert (T0 : ~ (inject_Z total == 0)%Q) by (unfold Qeq; cbn [Qnum Qden inject_Z]; lia).
    field. exact T0.
Qed.

Lemma drawdown_line_bounds residual total into :
  0 <= residual <= total -> 0 <= into <= total -> 0 < total ->
  (inject_Z residual / inject_Z total <= drawdown_line residual total into /\
   drawdown_line residual total into <= 1)%Q.
Proof.
  intros R I T. unfold drawdown_line.
  assert (D' : (0 < inject_Z total)%Q) by (unfold Qlt, inject_Z; cbn [Qnum Qden]; lia).
  assert (A : (0 <= inject_Z residual / inject_Z total)%Q)
    by (apply Qle_shift_div_l; [exact D'|unfold Qle, Qmult, inject_Z; cbn [Qnum Qden]; lia]).
  assert (B : (inject_Z residual / inject_Z total <= 1)%Q)
    by (apply Qle_shift_div_r; [exact D'|unfold Qle, Qmult, inject_Z; cbn [Qnum Qden]; lia]).
  assert (C : (0 <= inject_Z into / inject_Z total)%Q)
    by (apply Qle_shift_div_l; [exact D'|unfold Qle, Qmult, inject_Z; cbn [Qnum Qden]; lia]).
  assert (E : (inject_Z into / inject_Z total <= 1)%Q)
    by (apply Qle_shift_div_r; [exact D'|unfold Qle, Qmult, inject_Z; cbn [Qnum Qden]; lia]).
  generalize dependent (inject_Z residual / inject_Z total)%Q.
  generalize dependent (inject_Z into / inject_Z total)%Q. intros i I0 I1 r R0 R1.
  assert (0 <= (1 - r) * i)%Q by nra. assert (0 <= (1 - r) * (1 - i))%Q by nra. split; nra.
Qed.

(** The code's count of days, whatever the reset day. *)
Lemma drawdown_counts day month doy residual t :
  reset_day_of_year day month = Some doy -> valid_datetime t = true ->
  exists total into, (total = 365 \/ total = 366) /\ 0 <= into <= total /\
    (uniform_drawdown residual doy t == drawdown_line residual total into)%Q /\
    (into = 0 <-> d_month (dt_date t) = month /\ d_day (dt_date t) = day).
Proof.
  intros Rd Vt. apply valid_datetime_iff in Vt. destruct Vt as [V _].
  destruct (reset_doy_spec _ _ _ Rd) as (Hm & Hd & Ed).
  unfold uniform_drawdown. rewrite !is_leap_year_leap. rewrite doy_index_fixed by exact V. fold (day_place (dt_date t)).
  pose proof (day_place_range _ V) as Rp. pose proof (not_leap_place _ V) as Ft.
  assert (Same : day_place (dt_date t) + 1 = doy <-> d_month (dt_date t) = month /\ d_day (dt_date t) = day).
  { unfold day_place. pose proof V as V'. apply valid_date_iff in V'. destruct V' as [Hm' Hd']. rewrite days_in_month_dim in Hd'.
    split.
    - intros E. assert (Hd2 : 1 <= d_day (dt_date t) <= dim true (d_month (dt_date t))).
      { destruct (leap (d_year (dt_date t))); [exact Hd'|]. unfold dim in *. destruct (d_month (dt_date t) =? 2); lia. }
      clear - E Ed Hm Hm' Hd Hd2. destruct (dt_date t) as [y m d]. cbn [d_year d_month d_day] in *.
      month_split Hm; month_split Hm'; cbn [dim days_before_month Z.eqb Pos.eqb orb] in *; lia.
    - intros [-> ->]. lia. }
  assert (Dr : 1 <= doy <= 366).
  { clear - Hm Hd Ed. month_split Hm; cbn [dim days_before_month Z.eqb Pos.eqb orb] in *; lia. }
  set (p := day_place (dt_date t)) in *. clearbody p. set (yt := d_year (dt_date t)) in *.
  set (yy := if 60 <? doy then (if p + 1 - doy <? 0 then yt - 1 else yt) + 1 else (if p + 1 - doy <? 0 then yt - 1 else yt)).
  set (T := if leap yy then 366 else 365).
  set (I := if p + 1 - doy <? 0 then (if negb (leap yt) && (60 <? p + 1) then p + 1 - doy + 366 - 1 else p + 1 - doy + 366) else p + 1 - doy).
  exists T, I. split; [subst T; destruct (leap yy); lia|]. split; [|split].
  - subst I T yy. clear Rd Ed Hd Same. destruct (p + 1 - doy <? 0) eqn:K; destruct (60 <? doy) eqn:J;
      [replace (yt - 1 + 1) with yt by lia| | |]; destruct (leap yt) eqn:L; cbn [negb andb];
      try (specialize (Ft eq_refl)); try destruct (60 <? p + 1) eqn:Q60;
      repeat match goal with |- context [if leap ?b then _ else _] => destruct (leap b) eqn:? end; lia.
  - assert (T0 : ~ (inject_Z T == 0)%Q) by (unfold Qeq, inject_Z; cbn [Qnum Qden]; subst T; destruct (leap yy); lia).
    unfold drawdown_line. clearbody I T. field. exact T0.
  - rewrite <- Same. subst I. destruct (p + 1 - doy <? 0) eqn:K; [destruct (negb (leap yt) && (60 <? p + 1)) eqn:?|]; lia.
Qed.

(* ---------- radial basis functions ---------- *)

Lemma dot_rbf f pts w d :
  dot (map (fun c : Z * Q => radial_compute f (Z.abs (fst c - d))) pts) w = rbf_at pts f w d.
Proof.
  unfold dot, rbf_at. revert w. induction pts as [|c pts IH]; intros w; [reflexivity|].
  destruct w as [|x w]; [reflexivity|]. specialize (IH w). unfold qsum in *. cbn [map combine fold_right fst snd].
  rewrite IH. replace (Z.abs (fst c - d)) with (Z.abs (d - fst c)) by lia. reflexivity.
Qed.

Lemma interpolate_rbf_Ok solve pts f xs out :
  interpolate_rbf solve pts f xs = Ok out ->
  exists w, solve (rbf_matrix pts f) (rbf_rhs pts) = Some w /\ out = map (rbf_at pts f w) xs.
Proof.
  unfold interpolate_rbf. destruct (solve _ _) as [w|]; [|discriminate]. intros E. injection E as <-. eauto.
Qed.

Lemma rbf_at_points_all solve pts f xs out :
  sound_solver solve -> interpolate_rbf solve pts f xs = Ok out ->
  exists w, out = map (rbf_at pts f w) xs /\ forall p, In p pts -> (rbf_at pts f w (fst p) == snd p)%Q.
Proof.
  intros S E. destruct (interpolate_rbf_Ok _ _ _ _ _ E) as (w & Ew & ->).
  exists w. split; [reflexivity|]. intros p I.
  destruct (S _ _ _ Ew) as [_ F]. apply In_nth_error in I. destruct I as [i I].
  pose proof (Forall2_nth_error _ _ _ i (map (fun c : Z * Q => radial_compute f (Z.abs (fst c - fst p))) pts) (snd p) F) as G.
  rewrite <- dot_rbf. apply G.
  - unfold rbf_matrix. rewrite nth_error_map, I. reflexivity.
  - unfold rbf_rhs. rewrite nth_error_map, I. reflexivity.
Qed.

Lemma rbf_profile_short solve pts f prof :
  interpolate_rbf_profile solve pts f = Ok prof ->
  exists short, interpolate_rbf solve (repeated_points pts) f (map Z.of_nat (seq 0 365)) = Ok short /\
    length short = 365%nat /\ daily_from_schema short = Ok prof.
Proof.
  unfold interpolate_rbf_profile. destruct (interpolate_rbf _ _ _ _) as [short|e|] eqn:E; cbn [rbind]; try discriminate.
  assert (L : length short = 365%nat).
  { destruct (interpolate_rbf_Ok _ _ _ _ _ E) as (w & _ & ->). rewrite map_length, map_length, seq_length. reflexivity. }
  unfold index_or_panic. destruct (nth_error short 58) as [x|] eqn:N; cbn [rbind]; [|discriminate].
  intros H. injection H as <-. exists short. split; [reflexivity|]. split; [exact L|].
  unfold daily_from_schema, index_or_panic. rewrite L. cbn [Nat.eqb]. rewrite N. cbn [rbind]. f_equal.
  assert (A : forall k (l : list Q), nth_error l k = Some x ->
    firstn (S k) l ++ x :: skipn (S k) l = firstn k l ++ [x] ++ skipn k l).
  { induction k as [|k IH]; intros l Hl; destruct l as [|h l]; try discriminate; cbn [nth_error] in Hl.
    - injection Hl as ->. reflexivity.
    - specialize (IH l Hl). cbn [firstn skipn app] in *. f_equal. exact IH. }
  apply A. exact N.
Qed.

Lemma rbf_value solve pts f prof d y :
  sound_solver solve -> interpolate_rbf_profile solve pts f = Ok prof ->
  In (d, y) (repeated_points pts) -> 0 <= d < 365 ->
  forall t, valid_datetime t = true ->
    (d = short_place (dt_date t) /\ ~ feb29 (dt_date t)) \/ (d = 58 /\ feb29 (dt_date t)) ->
    exists v, rbf_profile prof t = Ok v /\ (v == y)%Q.
Proof.
  intros S E I D t V P. destruct (rbf_profile_short _ _ _ _ E) as (short & Es & L & Ef).
  destruct (rbf_at_points_all _ _ _ _ _ S Es) as (w & Eo & W).
  destruct (proj2 (proj2 (daily_schema short)) L) as (full & Ef' & _ & F).
  rewrite Ef in Ef'. injection Ef' as <-. destruct (F t V) as (v & Ev & C).
  exists v. split; [exact Ev|]. specialize (W _ I). cbn [fst snd] in W.
  assert (Cd : configured short d v).
  { destruct P as [[-> N]|[-> N]]; unfold feb29, short_place in *.
    - destruct ((d_month (dt_date t) =? 2) && (d_day (dt_date t) =? 29)) eqn:B; [exfalso; lia|exact C].
    - destruct ((d_month (dt_date t) =? 2) && (d_day (dt_date t) =? 29)) eqn:B; [exact C|exfalso; lia]. }
  destruct Cd as [_ Cd]. rewrite Eo in Cd. rewrite !nth_error_map in Cd.
  rewrite (nth_error_nth' (seq 0 365) 0%nat) in Cd by (rewrite seq_length; lia).
  rewrite seq_nth in Cd by lia. cbn [option_map] in Cd. injection Cd as <-.
  rewrite Z2Nat.id by lia. exact W.
Qed.

Lemma rbf_panics solve pts f d e y z :
  sound_solver solve -> In (d, y) (repeated_points pts) -> In (e, z) (repeated_points pts) ->
  d = e -> ~ (y == z)%Q -> interpolate_rbf_profile solve pts f = Panic.
Proof.
  intros S I J -> N. unfold interpolate_rbf_profile.
  destruct (interpolate_rbf solve (repeated_points pts) f (map Z.of_nat (seq 0 365))) as [short|x|] eqn:E; cbn [rbind]; [|destruct x|reflexivity].
  destruct (rbf_at_points_all _ _ _ _ _ S E) as (w & _ & W). exfalso. apply N.
  rewrite <- (W _ I), <- (W _ J). reflexivity.
Qed.

Lemma repeated_in pts d y : In (d, y) (repeated_points pts) <->
  In (d, y) pts \/ In (d + 365, y) pts \/ In (d - 365, y) pts.
Proof.
  unfold repeated_points. rewrite !in_app_iff, !in_map_iff. split.
  - intros [([a b] & E & I)|[I|([a b] & E & I)]]; [right; left|left; exact I|right; right];
      cbn [fst snd] in E; injection E as <- <-; [replace (a - 365 + 365) with a by lia|replace (a + 365 - 365) with a by lia]; exact I.
  - intros [I|[I|I]]; [right; left; exact I|left|right; right]; eexists; (split; [|exact I]); cbn [fst snd]; f_equal; lia.
Qed.

Lemma combine_in_nth {A B} (l : list A) (m : list B) i a b :
  nth_error l i = Some a -> nth_error m i = Some b -> In (a, b) (combine l m).
Proof.
  revert m i. induction l as [|x l IH]; intros m i Ha Hb; [destruct i; discriminate|].
  destruct m as [|y m]; [destruct i; discriminate|]. destruct i as [|i]; cbn [nth_error combine] in *.
  - injection Ha as ->. injection Hb as ->. left. reflexivity.
  - right. exact (IH m i Ha Hb).
Qed.

Lemma rbf_update_now solve pts f s s' :
  rbf_update solve pts f s = Ok s' ->
  interpolate_rbf_profile solve (rbf_points pts (rbf_x s) (rbf_y s)) f = Ok (rbf_now s') /\
  rbf_x s' = rbf_x s /\ rbf_y s' = rbf_y s.
Proof.
  unfold rbf_update. destruct (interpolate_rbf_profile _ _ _) as [p|e|]; cbn [rbind]; try discriminate.
  intros H. injection H as <-. cbn [rbf_now rbf_x rbf_y]. auto.
Qed.

(** The points a state stands for. *)
Lemma rbf_points_in pts xs ys i d0 y0 :
  nth_error pts i = Some (d0, y0) ->
  (forall x, xs = Some x -> length x = length pts) -> (forall y, ys = Some y -> length y = length pts) ->
  exists d y, In (d, y) (rbf_points pts xs ys) /\
    (match xs with Some x => nth_error x i = Some d | None => d = d0 end) /\
    (match ys with Some v => nth_error v i = Some y | None => y = y0 end).
Proof.
  intros N Hx Hy.
  assert (Nx : nth_error (map fst pts) i = Some d0) by (rewrite nth_error_map, N; reflexivity).
  assert (Ny : nth_error (map snd pts) i = Some y0) by (rewrite nth_error_map, N; reflexivity).
  pose proof (nth_error_Some_lt _ _ _ N) as Li.
  destruct xs as [x|], ys as [v|]; cbn [rbf_points].
  - destruct (nth_error_lt_Some x i) as [d Ed]; [rewrite (Hx x eq_refl); exact Li|].
    destruct (nth_error_lt_Some v i) as [y Ey]; [rewrite (Hy v eq_refl); exact Li|].
    exists d, y. split; [exact (combine_in_nth _ _ _ _ _ Ed Ey)|]. auto.
  - destruct (nth_error_lt_Some x i) as [d Ed]; [rewrite (Hx x eq_refl); exact Li|].
    exists d, y0. split; [exact (combine_in_nth _ _ _ _ _ Ed Ny)|]. auto.
  - destruct (nth_error_lt_Some v i) as [y Ey]; [rewrite (Hy v eq_refl); exact Li|].
    exists d0, y. split; [exact (combine_in_nth _ _ _ _ _ Nx Ey)|]. auto.
  - exists d0, y0. split; [exact (nth_error_In _ _ N)|]. auto.
Qed.
