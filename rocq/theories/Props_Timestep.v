(** Properties C06-C08: time-steps and the day-of-year index. *)
From Verif Require Import Base Calendar CalendarLemmas Timestep TimestepLemmas.
Open Scope Z_scope.

(** C06.  Time-steps of a fixed length of [h] hours or [d] days tile the period. *)
Theorem C06_fixed_steps_tile : forall start stop k,
  valid_datetime start = true -> instant start <= instant stop ->
  match k with Hours h => 0 < h | Days d => 0 < d | Frequency _ => False end ->
  exists n, forall fuel, (n <= fuel)%nat ->
    exists l, build_time fuel start stop k = Ok l /\
      (exists t r, l = t :: r /\ ts_date t = start) /\
      (forall i t, nth_error l i = Some t ->
         ts_index t = Z.of_nat i /\ ts_duration t = step_length k /\
         valid_datetime (ts_date t) = true /\
         instant (ts_date t) = instant start + Z.of_nat i * step_length k /\
         instant (ts_date t) <= instant stop) /\
      instant stop < instant start + Z.of_nat (length l) * step_length k.
Proof. exact build_fixed_props. Qed.
Print Assumptions C06_fixed_steps_tile.

(** A period that ends before it starts is rejected. *)
Theorem C06_empty_period_rejected : forall start stop k fuel,
  instant stop < instant start ->
  match k with Hours h => 0 < h | Days d => 0 < d
             | Frequency f => freq_ok f /\ f_negative f = false /\ freq_is_zero f = false end ->
  (0 < fuel)%nat -> build_time fuel start stop k = Err NoTimesteps.
Proof. exact build_empty. Qed.
Print Assumptions C06_empty_period_rejected.

Example C06_example :
  let start := DateTime (Date 2020 2 27) 0 in
  let stop := DateTime (Date 2020 3 3) 0 in
  valid_datetime start = true /\ instant start <= instant stop /\
  match build_time 10 start stop (Days 2) with
  | Ok l => map (fun t => dt_date (ts_date t)) l = [Date 2020 2 27; Date 2020 2 29; Date 2020 3 2]
  | _ => False
  end.
Proof. vm_compute. repeat split; discriminate. Qed.

(** C07.  Calendar frequencies: step [i] starts at start + i * span, each step
    reaches exactly to the next, and the last one reaches past the end date. *)
Theorem C07_frequency_steps_tile : forall start stop f,
  valid_datetime start = true -> instant start <= instant stop ->
  freq_ok f -> f_negative f = false -> freq_is_zero f = false ->
  exists n, forall fuel, (n <= fuel)%nat ->
    exists l, build_time fuel start stop (Frequency f) = Ok l /\
      (exists t r, l = t :: r /\ ts_date t = start) /\
      (forall i t, nth_error l i = Some t ->
         ts_index t = Z.of_nat i /\ valid_datetime (ts_date t) = true /\ 0 < ts_duration t /\
         ts_date t = add_span start (span_mul (Span (f_months f) (f_weeks f) (f_days f) (f_ns f)) (Z.of_nat i)) /\
         instant (ts_date t) <= instant stop) /\
      (forall i t u, nth_error l i = Some t -> nth_error l (S i) = Some u ->
         instant (ts_date u) = instant (ts_date t) + ts_duration t) /\
      (forall t, nth_error l (length l - 1) = Some t -> instant stop < instant (ts_date t) + ts_duration t).
Proof. exact build_freq_props. Qed.
Print Assumptions C07_frequency_steps_tile.

(** Month frequencies land in month start + m*i, on the start day or the month's last day. *)
Theorem C07_month_steps_calendar : forall start m i,
  valid_datetime start = true ->
  let t := add_span start (span_mul (Span m 0 0 0) i) in
  dt_ns t = dt_ns start /\
  month_index (dt_date t) = month_index (dt_date start) + m * i /\
  d_day (dt_date t) = Z.min (d_day (dt_date start)) (days_in_month (d_year (dt_date t)) (d_month (dt_date t))).
Proof. exact month_steps_calendar. Qed.
Print Assumptions C07_month_steps_calendar.

(** A frequency that does not advance is rejected instead of looping. *)
Theorem C07_non_positive_rejected : forall start stop f fuel,
  f_negative f = true \/ freq_is_zero f = true ->
  build_time fuel start stop (Frequency f) = Err NonPositiveTimestepDuration.
Proof. exact build_freq_rejects. Qed.
Print Assumptions C07_non_positive_rejected.

(** Mirrors test_month_ends in timestep.rs 464-481. *)
Example C07_example :
  let start := DateTime (Date 2021 1 31) 0 in
  match build_time 10 start (DateTime (Date 2021 4 30) 0) (Frequency (Freq 1 0 0 0 false)) with
  | Ok l => map (fun t => (dt_date (ts_date t), ts_duration t / NS_PER_DAY)) l =
            [(Date 2021 1 31, 28); (Date 2021 2 28, 31); (Date 2021 3 31, 30); (Date 2021 4 30, 31)]
  | _ => False
  end.
Proof. vm_compute. reflexivity. Qed.

(** C06/C07: a domain reports a fixed step length exactly when all steps have it. *)
Theorem C07_fixed_step_duration : forall l d,
  fixed_step_duration l = Some d <-> l <> [] /\ Forall (fun t => ts_duration t = d) l.
Proof. exact fixed_step_duration_spec. Qed.
Print Assumptions C07_fixed_step_duration.

(** C08.  The profile index names a calendar day: its position in a leap year. *)
Theorem C08_index_is_leap_year_position : forall t,
  valid_date t = true ->
  day_of_year_index t = days_before_month true (d_month t) + d_day t - 1.
Proof. exact doy_index_fixed. Qed.
Print Assumptions C08_index_is_leap_year_position.

Theorem C08_index_range : forall t, valid_date t = true -> 0 <= day_of_year_index t <= 365.
Proof. exact doy_index_range. Qed.
Print Assumptions C08_index_range.

Theorem C08_index_injective : forall t u,
  valid_date t = true -> valid_date u = true -> day_of_year_index t = day_of_year_index u ->
  d_month t = d_month u /\ d_day t = d_day u.
Proof. exact doy_index_inj. Qed.
Print Assumptions C08_index_injective.

Theorem C08_only_feb29_has_59 : forall t,
  valid_date t = true -> (day_of_year_index t = 59 <-> d_month t = 2 /\ d_day t = 29).
Proof. exact doy_index_feb29. Qed.
Print Assumptions C08_only_feb29_has_59.

Theorem C08_next_day : forall t u,
  valid_date t = true -> valid_date u = true -> day_number u = day_number t + 1 ->
  d_year u = d_year t ->
  day_of_year_index u = day_of_year_index t +
    (if negb (leap (d_year t)) && (d_month t =? 2) && (d_day t =? 28) then 2 else 1).
Proof. exact doy_index_next. Qed.
Print Assumptions C08_next_day.

Example C08_example :
  valid_date (Date 2021 3 1) = true /\ valid_date (Date 2020 3 1) = true /\
  day_of_year_index (Date 2021 3 1) = 60 /\ day_of_year_index (Date 2020 3 1) = 60 /\
  day_of_year_index (Date 2020 2 29) = 59 /\ day_of_year_index (Date 2021 12 31) = 365.
Proof. vm_compute. repeat split. Qed.
