(** C29 (profiles), C30 (uniform drawdown) and C51 (radial basis function
    profiles).  Models: Profiles.v; vocabulary: ProfilesSpec.v. *)
From Coq Require Import QArith Lqa.
From Verif Require Import Base Calendar CalendarLemmas Timestep Network Profiles ProfilesSpec ProfilesLemmas.
Local Open Scope Z_scope.

(** C29.  A daily profile gives the configured value of the calendar day. *)
Theorem C29_daily : forall values t,
  length values = 366%nat -> valid_datetime t = true ->
  exists v, daily_profile values t = Ok v /\ configured values (day_place (dt_date t)) v.
Proof. exact daily_value. Qed.
Print Assumptions C29_daily.

(** C29.  A file may give 366 values, or 365 with 29 February taking the value of
    28 February; every other number is refused with an error. *)
Theorem C29_daily_from_file : forall values,
  (length values = 366%nat -> daily_from_schema values = Ok values) /\
  (length values <> 366%nat -> length values <> 365%nat -> daily_from_schema values = Err (length values)) /\
  (length values = 365%nat -> exists full, daily_from_schema values = Ok full /\ length full = 366%nat /\
    forall t, valid_datetime t = true -> exists v,
      daily_profile full t = Ok v /\
      configured values (if (d_month (dt_date t) =? 2) && (d_day (dt_date t) =? 29) then 58
                         else days_before_month false (d_month (dt_date t)) + d_day (dt_date t) - 1) v).
Proof. exact daily_schema. Qed.
Print Assumptions C29_daily_from_file.

(** C29.  A diurnal profile gives the configured value of the hour. *)
Theorem C29_diurnal : forall values t,
  length values = 24%nat -> valid_datetime t = true ->
  exists v h, diurnal_profile values t = Ok v /\ configured values h v /\
    NS_PER_HOUR * h <= dt_ns t < NS_PER_HOUR * (h + 1).
Proof. exact diurnal_value. Qed.
Print Assumptions C29_diurnal.

(** C29.  Weekly profiles have 52 or 53 values. *)
Theorem C29_weekly_lengths : forall values,
  (exists w, weekly_try_from values = Some w) <-> (length values = 52%nat \/ length values = 53%nat).
Proof. exact try_from_spec. Qed.
Print Assumptions C29_weekly_lengths.

(** C29.  A weekly profile gives the value of the seven-day week, counted from
    1 January in a year with a 29 February; what is left at the end of the year
    belongs to the last week.  Interpolating, it runs from this week's value to
    the next (or from the previous to this) in proportion to the part of the
    seven days gone, the first week following the last. *)
Theorem C29_weekly : forall values w t,
  weekly_try_from values = Some w -> valid_datetime t = true ->
  let n := Z.of_nat (length values) in
  let week := Z.min (day_place (dt_date t) / 7) (n - 1) in
  let gone := (NS_PER_DAY * day_place (dt_date t) + dt_ns t) mod (7 * NS_PER_DAY) in
  (exists v, weekly_profile w None t = Ok v /\ configured values week v) /\
  (exists v a b, weekly_profile w (Some First) t = Ok v /\ configured values week a /\
     configured values ((week + 1) mod n) b /\ at_fraction a b gone (7 * NS_PER_DAY) v) /\
  (exists v a b, weekly_profile w (Some Last) t = Ok v /\ configured values ((week - 1) mod n) a /\
     configured values week b /\ at_fraction a b gone (7 * NS_PER_DAY) v).
Proof. exact weekly_value. Qed.
Print Assumptions C29_weekly.

(** C29.  A monthly profile gives the month's value.  Interpolating from the
    first of the month, it runs from this month's value to the next in proportion
    to the part of the month gone; interpolating to the last day, it runs from
    the previous month's value on that month's last day to this month's on its
    last day. *)
Theorem C29_monthly : forall values t,
  length values = 12%nat -> valid_datetime t = true ->
  let m := d_month (dt_date t) in
  let month_length := NS_PER_DAY * days_in_month (d_year (dt_date t)) m in
  (exists v, monthly_profile values None t = Ok v /\ configured values (m - 1) v) /\
  (exists v a b, monthly_profile values (Some First) t = Ok v /\
     configured values (m - 1) a /\ configured values (m mod 12) b /\
     at_fraction a b (NS_PER_DAY * (d_day (dt_date t) - 1) + dt_ns t) month_length v) /\
  (exists v a b, monthly_profile values (Some Last) t = Ok v /\
     configured values ((m - 2) mod 12) a /\ configured values (m - 1) b /\
     at_fraction a b (NS_PER_DAY * d_day (dt_date t) + dt_ns t) month_length v).
Proof. exact monthly_value. Qed.
Print Assumptions C29_monthly.

(** C29.  What is interpolated lies between the two neighbouring values. *)
Theorem C29_weekly_between : forall values w interp t v,
  weekly_try_from values = Some w -> valid_datetime t = true ->
  weekly_profile w (Some interp) t = Ok v ->
  exists i a b, configured values i a /\ configured values ((i + 1) mod Z.of_nat (length values)) b /\
    convex_of a b v.
Proof.
  intros values w interp t v T V E. destruct (weekly_value values w t T V) as (_ & F & L).
  set (n := Z.of_nat (length values)) in *.
  assert (N : 52 <= n) by (destruct (proj1 (C29_weekly_lengths values) (ex_intro _ w T)); subst n; lia).
  destruct interp.
  - destruct F as (v' & a & b & E' & A & B & C). rewrite E in E'. injection E' as <-.
    eexists _, a, b. split; [exact A|]. split; [exact B|]. exact (at_fraction_convex _ _ _ _ _ C (into_week_range t)).
  - destruct L as (v' & a & b & E' & A & B & C). rewrite E in E'. injection E' as <-.
    eexists _, a, b. split; [exact A|]. split; [|exact (at_fraction_convex _ _ _ _ _ C (into_week_range t))].
    destruct B as [R B]. fold n in R. rewrite Zplus_mod_idemp_l.
    replace (Z.min (day_place (dt_date t) / 7) (n - 1) - 1 + 1) with (Z.min (day_place (dt_date t) / 7) (n - 1)) by lia.
    rewrite Z.mod_small by lia. split; [exact R|exact B].
Qed.
Print Assumptions C29_weekly_between.

Theorem C29_monthly_first_between : forall values t v,
  length values = 12%nat -> valid_datetime t = true ->
  monthly_profile values (Some First) t = Ok v ->
  exists a b, configured values (d_month (dt_date t) - 1) a /\ configured values (d_month (dt_date t) mod 12) b /\
    convex_of a b v.
Proof.
  intros values t v L V E. destruct (monthly_value values t L V) as (_ & (v' & a & b & E' & A & B & C) & _).
  rewrite E in E'. injection E' as <-. exists a, b. split; [exact A|]. split; [exact B|].
  apply (at_fraction_convex _ _ _ _ _ C). apply valid_datetime_iff in V. destruct V as [V N].
  apply valid_date_iff in V. unfold NS_PER_DAY in *. lia.
Qed.
Print Assumptions C29_monthly_first_between.

(** C29, all but the hours of the last day of a month. *)
Theorem C29_monthly_last_between_partial : forall values t v,
  length values = 12%nat -> valid_datetime t = true ->
  d_day (dt_date t) < days_in_month (d_year (dt_date t)) (d_month (dt_date t)) \/ dt_ns t = 0 ->
  monthly_profile values (Some Last) t = Ok v ->
  exists a b, configured values ((d_month (dt_date t) - 2) mod 12) a /\ configured values (d_month (dt_date t) - 1) b /\
    convex_of a b v.
Proof.
  intros values t v L V H E. destruct (monthly_value values t L V) as (_ & _ & (v' & a & b & E' & A & B & C)).
  rewrite E in E'. injection E' as <-. exists a, b. split; [exact A|]. split; [exact B|].
  apply (at_fraction_convex _ _ _ _ _ C). apply valid_datetime_iff in V. destruct V as [V N].
  apply valid_date_iff in V. unfold NS_PER_DAY in *. lia.
Qed.
Print Assumptions C29_monthly_last_between_partial.

Definition rising : list Q := [0;0;0;0;0;0;0;0;0;0;0;1]%Q.
(** What is missing there: after midnight on the last day the code goes past the
    month's value.  The value below is above every configured value. *)
Theorem C29_monthly_last_overshoots_refuted : exists values t v,
  length values = 12%nat /\ valid_datetime t = true /\
  monthly_profile values (Some Last) t = Ok v /\ Forall (fun c => (c < v)%Q) values.
Proof.
  exists rising, (DateTime (Date 2021 12 31) (12 * NS_PER_HOUR)).
  eexists. split; [reflexivity|]. split; [reflexivity|]. split; [vm_compute; reflexivity|].
  unfold rising. repeat constructor.
Qed.
Print Assumptions C29_monthly_last_overshoots_refuted.

(** C29.  The same time of the same calendar day has the same value in every
    year, except for monthly profiles interpolated in February. *)
Theorem C29_same_day_every_year_partial : forall t u,
  valid_datetime t = true -> valid_datetime u = true -> same_calendar_day t u ->
  (forall values, daily_profile values t = daily_profile values u) /\
  (forall values, diurnal_profile values t = diurnal_profile values u) /\
  (forall w interp, weekly_profile w interp t = weekly_profile w interp u) /\
  (forall values, monthly_profile values None t = monthly_profile values None u) /\
  (forall values interp, d_month (dt_date t) <> 2 \/ leap (d_year (dt_date t)) = leap (d_year (dt_date u)) ->
    monthly_profile values interp t = monthly_profile values interp u).
Proof.
  intros t u V W S. destruct (same_day_values t u V W S) as (A & B & C & D & E).
  split; [exact A|]. split; [exact B|]. split; [exact C|]. split; [exact D|].
  intros values interp H. apply E. destruct S as (M & _ & _). rewrite <- M. unfold days_in_month.
  destruct (d_month (dt_date t) =? 2) eqn:F; [|reflexivity]. destruct H as [H|H]; [lia|rewrite H; reflexivity].
Qed.
Print Assumptions C29_same_day_every_year_partial.

Definition spring : list Q := [0;28;0;0;0;0;0;0;0;0;0;0]%Q.
(** What is missing: an interpolated February depends on its length. *)
Theorem C29_february_differs_refuted : exists values interp t u v w,
  length values = 12%nat /\ valid_datetime t = true /\ valid_datetime u = true /\ same_calendar_day t u /\
  monthly_profile values interp t = Ok v /\ monthly_profile values interp u = Ok w /\ ~ (v == w)%Q.
Proof.
  exists spring, (Some First), (DateTime (Date 2021 2 15) 0), (DateTime (Date 2020 2 15) 0).
  eexists _, _. split; [reflexivity|]. split; [reflexivity|]. split; [reflexivity|].
  split; [repeat split|]. split; [vm_compute; reflexivity|]. split; [vm_compute; reflexivity|].
  intros E. discriminate E.
Qed.
Print Assumptions C29_february_differs_refuted.

Example C29_example :
  daily_profile (map (fun i => inject_Z (Z.of_nat i)) (seq 0 366)) (DateTime (Date 2021 3 1) 0) = Ok (60 # 1) /\
  (exists w, weekly_try_from (map (fun i => inject_Z (Z.of_nat i)) (seq 0 52)) = Some w /\
     weekly_profile w None (DateTime (Date 2021 12 31) 0) = Ok (51 # 1)) /\
  monthly_profile spring (Some First) (DateTime (Date 2021 1 1) 0) <> Panic.
Proof.
  split; [vm_compute; reflexivity|]. split; [eexists; split; [reflexivity|vm_compute; reflexivity]|].
  vm_compute. discriminate.
Qed.

(** C30.  A reset after February: in the period of [total] days from one reset to
    the next, the profile on the day [into] days after the reset is on the
    straight line from 1 to the residual proportion. *)
Theorem C30_uniform_after_february : forall day month doy residual y t into total,
  reset_day_of_year day month = Some doy -> 3 <= month -> valid_datetime t = true ->
  in_period month day y (dt_date t) into total ->
  (uniform_drawdown residual doy t ==
   1 - (1 - inject_Z residual / inject_Z total) * (inject_Z into / inject_Z total))%Q.
Proof.
  intros day month doy residual y t into total Rd M V P.
  rewrite (drawdown_value _ _ _ residual _ _ _ _ Rd V P).
  destruct (reset_doy_spec _ _ _ Rd) as (Hm & Hd & Ed).
  replace (doy <=? 60) with false; [cbn [andb]; rewrite Z.add_0_r; reflexivity|].
  clear - M Hm Hd Ed. month_split Hm; cbn [dim days_before_month Z.eqb Pos.eqb orb] in *; lia.
Qed.
Print Assumptions C30_uniform_after_february.

(** C30.  It falls by the same positive amount from each day to the next. *)
Theorem C30_falls_evenly : forall day month doy residual y t u into total,
  reset_day_of_year day month = Some doy -> 3 <= month -> 0 <= residual <= 255 ->
  valid_datetime t = true -> valid_datetime u = true ->
  in_period month day y (dt_date t) into total -> in_period month day y (dt_date u) (into + 1) total ->
  (uniform_drawdown residual doy t - uniform_drawdown residual doy u ==
   (1 - inject_Z residual / inject_Z total) / inject_Z total)%Q /\
  (0 < (1 - inject_Z residual / inject_Z total) / inject_Z total)%Q.
Proof.
  intros day month doy residual y t u into total Rd M R V W P P'.
  rewrite (C30_uniform_after_february _ _ _ residual _ _ _ _ Rd M V P).
  rewrite (C30_uniform_after_february _ _ _ residual _ _ _ _ Rd M W P').
  assert (T : 365 <= total).
  { destruct P as (V0 & V1 & _ & -> & _). pose proof (not_leap_place _ V0) as F0. pose proof (not_leap_place _ V1) as F1.
    unfold day_number. rewrite (day_of_year_place _ V0), (day_of_year_place _ V1).
    unfold day_place, reset_date in *. cbn [d_year d_month d_day] in *.
    pose proof (days_before_year_succ y).
    destruct (leap y); destruct (leap (y + 1)); cbn [negb andb];
      destruct (59 <? days_before_month true month + day - 1) eqn:Hb; try lia;
    destruct (reset_doy_spec _ _ _ Rd) as (Hm & Hd & Ed); clear - M Hm Hd Ed Hb H;
    month_split Hm; cbn [dim days_before_month Z.eqb Pos.eqb orb] in *; lia. }
  assert (D' : (0 < inject_Z total)%Q) by (unfold Qlt, inject_Z; cbn [Qnum Qden]; lia).
  split.
  - rewrite inject_Z_plus. change (inject_Z 1) with 1%Q. field. lra.
  - apply Qlt_shift_div_l; [exact D'|]. rewrite Qmult_0_l.
    assert (inject_Z residual / inject_Z total < 1)%Q; [|lra].
    apply Qlt_shift_div_r; [exact D'|]. unfold Qlt, Qmult, inject_Z. cbn [Qnum Qden]. lia.
Qed.
Print Assumptions C30_falls_evenly.

(** C30.  Every reset day, 29 February included, and every date: the profile is
    between the residual proportion and 1, and 1 exactly on the reset day. *)
Theorem C30_range : forall day month doy residual t,
  reset_day_of_year day month = Some doy -> 0 <= residual <= 255 -> valid_datetime t = true ->
  exists total, (total = 365 \/ total = 366) /\
    (inject_Z residual / inject_Z total <= uniform_drawdown residual doy t)%Q /\
    (uniform_drawdown residual doy t <= 1)%Q /\
    ((uniform_drawdown residual doy t == 1)%Q <-> d_month (dt_date t) = month /\ d_day (dt_date t) = day).
Proof.
  intros day month doy residual t Rd R V.
  destruct (drawdown_counts _ _ _ residual _ Rd V) as (total & into & T & I & E & Z0).
  exists total. split; [exact T|]. rewrite <- Z0. rewrite E.
  destruct (drawdown_line_bounds residual total into) as [A B]; [lia|lia|lia|].
  split; [exact A|]. split; [exact B|]. unfold drawdown_line.
  assert (D' : (0 < inject_Z total)%Q) by (unfold Qlt, inject_Z; cbn [Qnum Qden]; lia).
  assert (F : (inject_Z residual / inject_Z total < 1)%Q).
  { apply Qlt_shift_div_r; [exact D'|]. unfold Qlt, Qmult, inject_Z. cbn [Qnum Qden]. lia. }
  split.
  - intros H. destruct (Z.eq_dec into 0) as [->|N]; [reflexivity|exfalso].
    assert (P : (0 < inject_Z into / inject_Z total)%Q).
    { apply Qlt_shift_div_l; [exact D'|]. unfold Qlt, Qmult, inject_Z. cbn [Qnum Qden]. lia. }
    revert H P F. generalize (inject_Z into / inject_Z total)%Q, (inject_Z residual / inject_Z total)%Q.
    intros i r H P F. nra.
  - intros ->. change (inject_Z 0) with 0%Q. unfold Qdiv. ring.
Qed.
Print Assumptions C30_range.

(** C30, a reset in January or February: the line holds in periods that start in
    a leap year, and in the others up to the end of February. *)
Theorem C30_uniform_early_reset_partial : forall day month doy residual y t into total,
  reset_day_of_year day month = Some doy -> month <= 2 -> valid_datetime t = true ->
  in_period month day y (dt_date t) into total ->
  leap y = true \/ day_number (dt_date t) < day_number (Date y 3 1) ->
  (uniform_drawdown residual doy t ==
   1 - (1 - inject_Z residual / inject_Z total) * (inject_Z into / inject_Z total))%Q.
Proof.
  intros day month doy residual y t into total Rd M V P H.
  rewrite (drawdown_value _ _ _ residual _ _ _ _ Rd V P).
  replace ((doy <=? 60) && negb (leap y) && (day_number (Date y 3 1) <=? day_number (dt_date t))) with false.
  - rewrite Z.add_0_r. reflexivity.
  - destruct H as [->|H]; [cbn [negb]; rewrite andb_false_r; reflexivity|].
    replace (day_number (Date y 3 1) <=? day_number (dt_date t)) with false by lia. rewrite andb_false_r. reflexivity.
Qed.
Print Assumptions C30_uniform_early_reset_partial.

(** What is missing: from 1 March of such a year that is not a leap year the
    profile is one day ahead of the line, on every day of the rest of the period. *)
Theorem C30_early_reset_a_day_ahead : forall day month doy residual y t into total,
  reset_day_of_year day month = Some doy -> month <= 2 -> valid_datetime t = true ->
  in_period month day y (dt_date t) into total ->
  leap y = false -> day_number (Date y 3 1) <= day_number (dt_date t) ->
  (uniform_drawdown residual doy t ==
   1 - (1 - inject_Z residual / inject_Z total) * (inject_Z (into + 1) / inject_Z total))%Q.
Proof.
  intros day month doy residual y t into total Rd M V P L H.
  rewrite (drawdown_value _ _ _ residual _ _ _ _ Rd V P).
  replace (doy <=? 60) with true.
  - rewrite L. replace (day_number (Date y 3 1) <=? day_number (dt_date t)) with true by lia. reflexivity.
  - destruct (reset_doy_spec _ _ _ Rd) as (Hm & Hd & Ed). clear - M Hm Hd Ed.
    month_split Hm; cbn [dim days_before_month Z.eqb Pos.eqb orb] in *; lia.
Qed.
Print Assumptions C30_early_reset_a_day_ahead.

(** Hence the fall from 28 February to 1 March is twice that of the day before:
    the full statement of C30 fails for a reset on 1 January. *)
Theorem C30_falls_evenly_refuted : exists doy t u w,
  reset_day_of_year 1 1 = Some doy /\
  valid_datetime t = true /\ valid_datetime u = true /\ valid_datetime w = true /\
  day_number (dt_date u) = day_number (dt_date t) + 1 /\ day_number (dt_date w) = day_number (dt_date u) + 1 /\
  (uniform_drawdown 0 doy u - uniform_drawdown 0 doy w ==
   2 * (uniform_drawdown 0 doy t - uniform_drawdown 0 doy u))%Q /\
  ~ (uniform_drawdown 0 doy t == uniform_drawdown 0 doy u)%Q.
Proof.
  exists 1, (DateTime (Date 2021 2 27) 0), (DateTime (Date 2021 2 28) 0), (DateTime (Date 2021 3 1) 0).
  split; [vm_compute; reflexivity|]. split; [vm_compute; reflexivity|]. split; [vm_compute; reflexivity|].
  split; [vm_compute; reflexivity|]. split; [vm_compute; reflexivity|]. split; [vm_compute; reflexivity|].
  split; [vm_compute; reflexivity|]. intros E. vm_compute in E. discriminate E.
Qed.
Print Assumptions C30_falls_evenly_refuted.

(** C30.  Residual days of 256 and more given in a file are taken modulo 256. *)
Theorem C30_residual_wraps_refuted : exists residual doy,
  residual = 256 /\ drawdown_from_schema (Some 1) (Some 4) (Some residual) = Some (0, doy).
Proof. exists 256, 92. split; reflexivity. Qed.
Print Assumptions C30_residual_wraps_refuted.
(** Otherwise a profile is as in the file; what is not given is 1 January and no
    residual days. *)
Theorem C30_from_file : forall reset_day reset_month residual_days day month residual,
  (reset_day = Some day \/ (reset_day = None /\ day = 1)) ->
  (reset_month = Some month \/ (reset_month = None /\ month = 1)) ->
  (residual_days = Some residual \/ (residual_days = None /\ residual = 0)) ->
  1 <= day <= 31 -> 1 <= month <= 12 -> 0 <= residual <= 255 ->
  drawdown_from_schema reset_day reset_month residual_days =
  match reset_day_of_year day month with Some doy => Some (residual, doy) | None => None end.
Proof.
  intros rd rm rr day month residual Ed Em Er D M R.
  assert (E : drawdown_from_schema rd rm rr = match reset_day_of_year (as_i8 day) (as_i8 month) with Some doy => Some (as_u8 residual, doy) | None => None end).
  { destruct Ed as [->|[-> ->]], Em as [->|[-> ->]], Er as [->|[-> ->]]; reflexivity. }
  rewrite E. unfold as_i8, as_u8.
  rewrite !Z.mod_small by lia. replace (day <? 128) with true by lia. replace (month <? 128) with true by lia. reflexivity.
Qed.
Print Assumptions C30_from_file.

Example C30_example :
  reset_day_of_year 1 4 = Some 92 /\
  in_period 4 1 2019 (Date 2020 3 31) 365 366 /\ in_period 4 1 2020 (Date 2021 3 31) 364 365 /\
  (uniform_drawdown 30 92 (DateTime (Date 2021 3 31) 0) == 1 - (1 - (30 # 365)) * (364 # 365))%Q /\
  in_period 1 1 2021 (Date 2021 2 28) 58 365.
Proof.
  split; [vm_compute; reflexivity|]. unfold in_period.
  split; [vm_compute; intuition discriminate|]. split; [vm_compute; intuition discriminate|].
  split; [vm_compute; reflexivity|]. vm_compute. intuition discriminate.
Qed.

(** C51.  A radial basis function profile takes the value of a point on the day
    of the year the point names, counting 1 January as day 0 of a year of 365
    days; 29 February takes the value of 28 February.  Points count 365 days
    before and after as well. *)
Theorem C51_through_the_points : forall solve points f profile d y t,
  sound_solver solve -> interpolate_rbf_profile solve points f = Ok profile ->
  In (d, y) points \/ In (d + 365, y) points -> 0 <= d < 365 -> valid_datetime t = true ->
  (d = short_place (dt_date t) /\ ~ feb29 (dt_date t)) \/ (d = 58 /\ feb29 (dt_date t)) ->
  exists v, rbf_profile profile t = Ok v /\ (v == y)%Q.
Proof.
  intros solve points f profile d y t S E I D V P.
  assert (I' : In (d, y) (repeated_points points)) by (apply repeated_in; destruct I; auto).
  exact (rbf_value _ _ _ _ _ _ S E I' D t V P).
Qed.
Print Assumptions C51_through_the_points.

(** C51.  It has a value on every date, the same every year. *)
Theorem C51_total_and_periodic : forall solve points f profile t u,
  interpolate_rbf_profile solve points f = Ok profile ->
  valid_datetime t = true -> valid_datetime u = true ->
  d_month (dt_date t) = d_month (dt_date u) -> d_day (dt_date t) = d_day (dt_date u) ->
  exists v, rbf_profile profile t = Ok v /\ rbf_profile profile u = Ok v.
Proof.
  intros solve points f profile t u E V W M D. destruct (rbf_profile_short _ _ _ _ E) as (short & _ & L & Ef).
  destruct (proj2 (proj2 (daily_schema short)) L) as (full & Ef' & Lf & F).
  rewrite Ef in Ef'. injection Ef' as <-. destruct (F t V) as (v & Ev & C). exists v. split; [exact Ev|].
  change (daily_profile profile u = Ok v). rewrite <- Ev. unfold daily_profile.
  apply valid_datetime_iff in V, W. destruct V as [V _], W as [W _].
  rewrite !TimestepLemmas.doy_index_fixed by assumption. rewrite M, D. reflexivity.
Qed.
Print Assumptions C51_total_and_periodic.

(** C51.  Two different values for the same day (or for days a year apart) make
    the set-up of the network panic instead of returning an error. *)
Theorem C51_conflicting_points_panic : forall solve points f d e y z,
  sound_solver solve -> In (d, y) points -> In (e, z) points ->
  d = e \/ d = e + 365 -> ~ (y == z)%Q ->
  rbf_setup solve points f = Panic.
Proof.
  intros solve points f d e y z S I J H N. unfold rbf_setup.
  assert (I' : In (d, y) (repeated_points points)) by (apply repeated_in; auto).
  assert (J' : In (d, z) (repeated_points points)).
  { apply repeated_in. destruct H as [-> | ->]; [auto|]. right. right. replace (e + 365 - 365) with e by lia. exact J. }
  rewrite (rbf_panics solve points f d d y z S I' J' eq_refl N). reflexivity.
Qed.
Print Assumptions C51_conflicting_points_panic.

(** C51.  Setting new values (or new days) for the points: a wrong number is an
    error; otherwise the profile passes through the new points, keeping the days
    (or values) set before, and those of the model where none were set. *)
Theorem C51_set_values : forall solve points f values s,
  (length values <> length points -> rbf_set_values solve points f values s = None) /\
  (forall s' i d0 y0, sound_solver solve ->
     (forall x, rbf_x s = Some x -> length x = length points) ->
     rbf_set_values solve points f values s = Some (Ok s') -> nth_error points i = Some (d0, y0) ->
     exists d y, nth_error values i = Some y /\
       match rbf_x s with Some x => nth_error x i = Some d | None => d = d0 end /\
       rbf_y s' = Some values /\ rbf_x s' = rbf_x s /\
       forall t, 0 <= d < 365 -> valid_datetime t = true -> d = short_place (dt_date t) -> ~ feb29 (dt_date t) ->
         exists v, rbf_profile (rbf_now s') t = Ok v /\ (v == y)%Q).
Proof.
  intros solve points f values s. unfold rbf_set_values. split.
  - intros N. destruct (length values =? length points)%nat eqn:E; [lia|reflexivity].
  - intros s' i d0 y0 S Hx E N. destruct (length values =? length points)%nat eqn:L; [|discriminate].
    injection E as E. destruct (rbf_update_now _ _ _ _ _ E) as (U & X & Y). cbn [rbf_x rbf_y] in U, X, Y.
    destruct (rbf_points_in points (rbf_x s) (Some values) i d0 y0 N Hx) as (d & y & I & A & B).
    { intros v Hv. injection Hv as <-. lia. }
    exists d, y. split; [exact B|]. split; [exact A|]. split; [exact Y|]. split; [exact X|].
    intros t D V P F. apply (C51_through_the_points _ _ _ _ d y t S U (or_introl I) D V). left. auto.
Qed.
Print Assumptions C51_set_values.
Theorem C51_set_days : forall solve points f days s,
  (length days <> length points -> rbf_set_days solve points f days s = None) /\
  (forall s' i d0 y0, sound_solver solve ->
     (forall y, rbf_y s = Some y -> length y = length points) ->
     rbf_set_days solve points f days s = Some (Ok s') -> nth_error points i = Some (d0, y0) ->
     exists d y, nth_error days i = Some d /\
       match rbf_y s with Some v => nth_error v i = Some y | None => y = y0 end /\
       rbf_x s' = Some days /\ rbf_y s' = rbf_y s /\
       forall t, 0 <= d < 365 -> valid_datetime t = true -> d = short_place (dt_date t) -> ~ feb29 (dt_date t) ->
         exists v, rbf_profile (rbf_now s') t = Ok v /\ (v == y)%Q).
Proof.
  intros solve points f days s. unfold rbf_set_days. split.
  - intros N. destruct (length days =? length points)%nat eqn:E; [lia|reflexivity].
  - intros s' i d0 y0 S Hy E N. destruct (length days =? length points)%nat eqn:L; [|discriminate].
    injection E as E. destruct (rbf_update_now _ _ _ _ _ E) as (U & X & Y). cbn [rbf_x rbf_y] in U, X, Y.
    destruct (rbf_points_in points (Some days) (rbf_y s) i d0 y0 N) as (d & y & I & A & B); [|exact Hy|].
    { intros v Hv. injection Hv as <-. lia. }
    exists d, y. split; [exact A|]. split; [exact B|]. split; [exact X|]. split; [exact Y|].
    intros t D V P F. apply (C51_through_the_points _ _ _ _ d y t S U (or_introl I) D V). left. auto.
Qed.
Print Assumptions C51_set_days.

(** C51.  The bounds given to an optimiser for a point's day contain the point
    and stay within 1 and 365. *)
Theorem C51_day_bounds : forall range p,
  1 <= fst p <= 365 -> 0 <= range ->
  1 <= rbf_day_lower range p <= fst p /\ fst p <= rbf_day_upper range p <= 365 /\
  (rbf_day_lower range p = 1 \/ rbf_day_lower range p = fst p - range) /\
  (rbf_day_upper range p = 365 \/ rbf_day_upper range p = fst p + range).
Proof.
  intros range p P R. unfold rbf_day_lower, rbf_day_upper, U32_MAX.
  destruct (fst p <? range) eqn:?; destruct (4294967295 <? fst p + range) eqn:?; lia.
Qed.
Print Assumptions C51_day_bounds.

(** A solver that checks one answer, for the examples. *)
Definition checked (w : list Q) (m : list (list Q)) (b : list Q) : option (list Q) :=
  if (length w =? length b)%nat && (length m =? length b)%nat &&
     forallb (fun rb => Qeq_bool (dot (fst rb) w) (snd rb)) (combine m b)
  then Some w else None.
Lemma checked_sound w : sound_solver (checked w).
Proof.
  intros m b x. unfold checked. destruct (_ && _ && _) eqn:E; [|discriminate]. intros H. injection H as <-.
  rewrite !andb_true_iff in E. destruct E as [[L M] F]. split; [lia|].
  clear L. revert b M F. induction m as [|r m IH]; intros [|c b] M F; cbn [length] in M; try discriminate; [constructor|].
  cbn [combine forallb fst snd] in F. apply andb_true_iff in F. destruct F as [F G].
  constructor; [apply Qeq_bool_iff; exact F|]. apply IH; [exact M|exact G].
Qed.
Definition two_points : list (Z * Q) := [(1, 5 # 1); (100, 0 # 1)].
Definition two_weights : list Q :=
  [-1825 # 82071; 1825 # 52668; -1825 # 52668; 1825 # 52668; -1825 # 52668; 2320 # 82071].

(** C51.  The model file calls a point's position an ordinal day of the year and
    the optimiser's bounds start at 1, but the point for day 1 is met on
    2 January: on 1 January, the first day of the year, the profile is not 5. *)
Theorem C51_ordinal_day_refuted : exists profile v w,
  sound_solver (checked two_weights) /\
  interpolate_rbf_profile (checked two_weights) two_points RLinear = Ok profile /\
  In (1, 5 # 1) two_points /\ day_of_year (Date 2021 1 1) = 1 /\
  rbf_profile profile (DateTime (Date 2021 1 1) 0) = Ok v /\ ~ (v == 5 # 1)%Q /\
  rbf_profile profile (DateTime (Date 2021 1 2) 0) = Ok w /\ (w == 5 # 1)%Q.
Proof.
  destruct (interpolate_rbf_profile (checked two_weights) two_points RLinear) as [p|e|] eqn:E;
    [|destruct e|vm_compute in E; discriminate E].
  assert (S := checked_sound two_weights).
  destruct (C51_through_the_points _ _ _ _ 1 (5 # 1) (DateTime (Date 2021 1 2) 0) S E) as (w & Ew & W);
    [left; left; reflexivity|lia|reflexivity|left; split; [reflexivity|intros [H _]; discriminate H]|].
  destruct (rbf_profile_short _ _ _ _ E) as (short & Es & L & Ef).
  assert (P : rbf_profile p (DateTime (Date 2021 1 1) 0) = Ok (rbf_at (repeated_points two_points) RLinear two_weights 0)).
  { vm_compute in E. injection E as <-. vm_compute. reflexivity. }
  exists p, (rbf_at (repeated_points two_points) RLinear two_weights 0), w.
  split; [exact S|]. split; [reflexivity|]. split; [left; reflexivity|]. split; [reflexivity|].
  split; [exact P|]. split; [intros H; vm_compute in H; discriminate H|]. split; [exact Ew|exact W].
Qed.
Print Assumptions C51_ordinal_day_refuted.
