(** Profile parameters: pywr-core/src/parameters/profiles/.  Numbers are exact
    rationals.  The error type is empty: none of these parameters returns an
    error when it is computed; an index outside an array is a panic. *)
From Coq Require Import QArith Qround Qabs.
From Verif Require Import Base Calendar Timestep Network.
Local Open Scope Z_scope.

Notation profile_value := (res Empty_set Q).

(** [usize] and [i8] conversions of an index that is not negative. *)
Notation at_index values i := (index_or_panic values (Z.to_nat i) : profile_value) (only parsing).

(** timestep.rs 231-244: [fractional_day_of_year].  [as_secs_f64] is exact here:
    nanoseconds since midnight over the nanoseconds of a day. *)
Definition fractional_day_of_year (t : datetime) : Q :=
  (inject_Z (day_of_year_index (dt_date t)) + inject_Z (dt_ns t) / inject_Z NS_PER_DAY)%Q.

(** profiles/daily.rs 20-27. *)
Definition daily_profile (values : list Q) (t : datetime) : profile_value :=
  at_index values (day_of_year_index (dt_date t)).

(** profiles/diurnal.rs 23-30; [time().hour()] is the whole hours since midnight. *)
Definition diurnal_profile (values : list Q) (t : datetime) : profile_value :=
  at_index values (dt_ns t / NS_PER_HOUR).

(** profiles/weekly.rs 17-21: [WeeklyProfileValues].  The array length is the
    constructor; here the number of weeks is kept beside the values. *)
Record weekly_values : Type := Weekly { wk_weeks : nat; wk_values : list Q }.

(** profiles/weekly.rs 147-157: [try_from]. *)
Definition weekly_try_from (values : list Q) : option weekly_values :=
  if (length values =? 52)%nat then Some (Weekly 52 values)
  else if (length values =? 53)%nat then Some (Weekly 53 values)
  else None.

(** profiles/weekly.rs 24-34: [current_week_index]. *)
Definition current_week_index (t : datetime) (with_seconds : bool) : Q :=
  ((if with_seconds then fractional_day_of_year t else inject_Z (day_of_year_index (dt_date t))) / 7)%Q.

(** profiles/weekly.rs 36-48: [current_index]; [as usize] truncates. *)
Definition current_index (w : weekly_values) (t : datetime) : nat :=
  Nat.min (Z.to_nat (Qfloor (current_week_index t false))) (wk_weeks w - 1).

(** profiles/weekly.rs 50-61: [current]. *)
Definition weekly_current (w : weekly_values) (t : datetime) : profile_value :=
  index_or_panic (wk_values w) (current_index w t).

(** profiles/weekly.rs 63-85: [next]. *)
Definition weekly_next (w : weekly_values) (t : datetime) : profile_value :=
  let i := current_index w t in
  if (wk_weeks w - 1 <=? i)%nat then index_or_panic (wk_values w) 0
  else index_or_panic (wk_values w) (i + 1).

(** profiles/weekly.rs 87-108: [prev]. *)
Definition weekly_prev (w : weekly_values) (t : datetime) : profile_value :=
  let i := current_index w t in
  if (i =? 0)%nat then index_or_panic (wk_values w) (wk_weeks w - 1)
  else index_or_panic (wk_values w) (i - 1).

(** profiles/weekly.rs 110-116: [interpolate]. *)
Definition weekly_interpolate (t : datetime) (first_value last_value : Q) : Q :=
  let current_pos := current_week_index t true in
  let week_delta := (current_pos - inject_Z (Qfloor current_pos))%Q in
  (first_value + (last_value - first_value) * week_delta)%Q.

(** profiles/weekly.rs 10-14 and monthly.rs 10-14. *)
Inductive interp_day : Type := First | Last.

(** profiles/weekly.rs 118-138, 173-180: [value] and [compute]. *)
Definition weekly_profile (w : weekly_values) (interp : option interp_day) (t : datetime) : profile_value :=
  match interp with
  | None => weekly_current w t
  | Some First =>
      rbind (weekly_current w t) (fun first_value =>
      rbind (weekly_next w t) (fun last_value => Ok (weekly_interpolate t first_value last_value)))
  | Some Last =>
      rbind (weekly_prev w t) (fun first_value =>
      rbind (weekly_current w t) (fun last_value => Ok (weekly_interpolate t first_value last_value)))
  end.

(** jiff [first_of_month().start_of_day()] and [last_of_month().start_of_day()]. *)
Definition first_of_month (t : date) : datetime := DateTime (Date (d_year t) (d_month t) 1) 0.
Definition last_of_month (t : date) : datetime :=
  DateTime (Date (d_year t) (d_month t) (days_in_month (d_year t) (d_month t))) 0.

(** [a.duration_since(b).as_secs_f64()] up to the common unit. *)
Definition since (a b : datetime) : Q := inject_Z (instant a - instant b).

(** profiles/monthly.rs 23-38: [interpolate_first].  Adding a month never leaves
    the calendar here, which has no last year. *)
Definition interpolate_first (t : datetime) (first_value last_value : Q) : Q :=
  let start_of_month := first_of_month (dt_date t) in
  let start_of_next_month := first_of_month (add_months (dt_date t) 1) in
  let fraction_of_month := (since t start_of_month / since start_of_next_month start_of_month)%Q in
  (first_value + (last_value - first_value) * fraction_of_month)%Q.

(** profiles/monthly.rs 40-55: [interpolate_last]. *)
Definition interpolate_last (t : datetime) (first_value last_value : Q) : Q :=
  let end_of_last_month := last_of_month (add_months (dt_date t) (-1)) in
  let end_of_month := last_of_month (dt_date t) in
  let fraction_of_month := (since t end_of_last_month / since end_of_month end_of_last_month)%Q in
  (first_value + (last_value - first_value) * fraction_of_month)%Q.

(** profiles/monthly.rs 62-89: [compute]. *)
Definition monthly_profile (values : list Q) (interp : option interp_day) (t : datetime) : profile_value :=
  let month := d_month (dt_date t) in
  match interp with
  | Some First =>
      let next_month0 := Z.rem month 12 in
      rbind (at_index values (month - 1)) (fun first_value =>
      rbind (at_index values next_month0) (fun last_value =>
      Ok (interpolate_first t first_value last_value)))
  | Some Last =>
      let last_month := if month =? 1 then 12 else month - 1 in
      rbind (at_index values (last_month - 1)) (fun first_value =>
      rbind (at_index values (month - 1)) (fun last_value =>
      Ok (interpolate_last t first_value last_value)))
  | None => at_index values (month - 1)
  end.

(** profiles/uniform_drawdown.rs 9-11: [is_leap_year]. *)
Definition is_leap_year (year : Z) : bool :=
  (Z.rem year 4 =? 0) && (negb (Z.rem year 100 =? 0) || (Z.rem year 400 =? 0)).

(** profiles/uniform_drawdown.rs 102-121: [build]; the day of the year of the
    reset date in 2016, or nothing when 2016 has no such date. *)
Definition reset_day_of_year (reset_day reset_month : Z) : option Z :=
  let d := Date 2016 reset_month reset_day in
  if valid_date d then Some (day_of_year d) else None.

(** profiles/uniform_drawdown.rs 25-64: [compute]. *)
Definition uniform_drawdown (residual_days reset_doy : Z) (t : datetime) : Q :=
  let date_year := d_year (dt_date t) in
  let current_doy := day_of_year_index (dt_date t) + 1 in
  let days0 := current_doy - reset_doy in
  let year0 := if days0 <? 0 then date_year - 1 else date_year in
  let year := if 60 <? reset_doy then year0 + 1 else year0 in
  let total_days_in_period := if is_leap_year year then 366 else 365 in
  let days_into_period :=
    if days0 <? 0
    then (if negb (is_leap_year date_year) && (60 <? current_doy) then days0 + 366 - 1 else days0 + 366)
    else days0 in
  let residual_proportion := (inject_Z residual_days / inject_Z total_days_in_period)%Q in
  let slope := ((residual_proportion - 1) / inject_Z total_days_in_period)%Q in
  (1 + slope * inject_Z days_into_period)%Q.

(** Radial basis function profiles, profiles/rbf.rs.  All x values are whole
    numbers of days, as [interpolate_rbf_profile] passes them. *)

(** profiles/rbf.rs 290-314: [RadialBasisFunction] and [compute].  The functions
    that need roots, exponentials or logarithms are any function of the distance. *)
Inductive radial_function : Type := RLinear | RCubic | RQuintic | ROther (f : Z -> Q).
Definition radial_compute (f : radial_function) (r : Z) : Q :=
  match f with
  | RLinear => inject_Z r
  | RCubic => inject_Z (r ^ 3)
  | RQuintic => inject_Z (r ^ 5)
  | ROther g => g r
  end.

(** profiles/rbf.rs 322-327: the matrix (row by row) and the right-hand side. *)
Definition rbf_matrix (points : list (Z * Q)) (f : radial_function) : list (list Q) :=
  map (fun r => map (fun c => radial_compute f (Z.abs (fst c - fst r))) points) points.
Definition rbf_rhs (points : list (Z * Q)) : list Q := map snd points.

(** profiles/rbf.rs 336-346: the value at day [doy]. *)
Definition rbf_at (points : list (Z * Q)) (f : radial_function) (weights : list Q) (doy : Z) : Q :=
  qsum (map (fun pw => (radial_compute f (Z.abs (doy - fst (fst pw))) * snd pw)%Q) (combine points weights)).

(** profiles/rbf.rs 316-349: [interpolate_rbf].  [solve] stands for nalgebra's
    [lu().solve()]; a failure is a panic ([expect]). *)
Definition interpolate_rbf (solve : list (list Q) -> list Q -> option (list Q))
  (points : list (Z * Q)) (f : radial_function) (xs : list Z) : res Empty_set (list Q) :=
  match solve (rbf_matrix points f) (rbf_rhs points) with
  | None => Panic
  | Some weights => Ok (map (rbf_at points f weights) xs)
  end.

(** profiles/rbf.rs 351-376: [interpolate_rbf_profile]. *)
Definition repeated_points (points : list (Z * Q)) : list (Z * Q) :=
  map (fun p => (fst p - 365, snd p)) points ++ points ++ map (fun p => (fst p + 365, snd p)) points.
Definition interpolate_rbf_profile (solve : list (list Q) -> list Q -> option (list Q))
  (points : list (Z * Q)) (f : radial_function) : res Empty_set (list Q) :=
  rbind (interpolate_rbf solve (repeated_points points) f (map Z.of_nat (seq 0 365))) (fun short_profile =>
  rbind (index_or_panic short_profile 58) (fun feb28 =>
  Ok (firstn 58 short_profile ++ [feb28] ++ skipn 58 short_profile))).

(** profiles/rbf.rs 135-145: [compute], reading the profile in the state. *)
Definition rbf_profile (profile : list Q) (t : datetime) : profile_value :=
  at_index profile (day_of_year_index (dt_date t)).

(** profiles/rbf.rs 52-60: [RbfProfileInternalState]. *)
Record rbf_state : Type := RbfState {
  rbf_now : list Q; rbf_x : option (list Z); rbf_y : option (list Q) }.

(** profiles/rbf.rs 89-99: the points [update_profile] uses. *)
Definition rbf_points (points : list (Z * Q)) (xs : option (list Z)) (ys : option (list Q)) : list (Z * Q) :=
  match xs, ys with
  | Some x, Some y => combine x y
  | Some x, None => combine x (map snd points)
  | None, Some y => combine (map fst points) y
  | None, None => points
  end.

Section Rbf.
Variable solve : list (list Q) -> list Q -> option (list Q).
Variable points : list (Z * Q).
Variable f : radial_function.

(** profiles/rbf.rs 63-71, 110-117: [setup]. *)
Definition rbf_setup : res Empty_set rbf_state :=
  rbind (interpolate_rbf_profile solve points f) (fun p => Ok (RbfState p None None)).

(** profiles/rbf.rs 87-102: [update_profile]. *)
Definition rbf_update (s : rbf_state) : res Empty_set rbf_state :=
  rbind (interpolate_rbf_profile solve (rbf_points points (rbf_x s) (rbf_y s)) f) (fun p =>
  Ok (RbfState p (rbf_x s) (rbf_y s))).

(** profiles/rbf.rs 174-193 and 228-247: the two [set_variables]; [None] is the
    error for a wrong number of values, which leaves the state alone. *)
Definition rbf_set_values (values : list Q) (s : rbf_state) : option (res Empty_set rbf_state) :=
  if (length values =? length points)%nat
  then Some (rbf_update (RbfState (rbf_now s) (rbf_x s) (Some values))) else None.
Definition rbf_set_days (values : list Z) (s : rbf_state) : option (res Empty_set rbf_state) :=
  if (length values =? length points)%nat
  then Some (rbf_update (RbfState (rbf_now s) (Some values) (rbf_y s))) else None.
End Rbf.

(** profiles/rbf.rs 255-287: the bounds on a point's day, [u32] arithmetic.
    [days_of_year_range] is not negative. *)
Definition U32_MAX : Z := 4294967295.
Definition rbf_day_lower (range : Z) (p : Z * Q) : Z :=
  Z.max (if fst p <? range then 1 else fst p - range) 1.
Definition rbf_day_upper (range : Z) (p : Z * Q) : Z :=
  Z.min (if U32_MAX <? fst p + range then 365 else fst p + range) 365.

(** pywr-schema/src/parameters/profiles.rs 39-58: a daily profile of 365 values
    gets a value for 29 February; any other length but 366 is an error. *)
Definition daily_from_schema (values : list Q) : res nat (list Q) :=
  if (length values =? 366)%nat then Ok values
  else if (length values =? 365)%nat then
    rbind (index_or_panic values 58) (fun feb_28 => Ok (firstn 59 values ++ feb_28 :: skipn 59 values))
  else Err (length values).

(** Rust casts from [u64]: [as i8] and [as u8] keep the lowest byte. *)
Definition as_u8 (v : Z) : Z := v mod 256.
Definition as_i8 (v : Z) : Z := let b := v mod 256 in if b <? 128 then b else b - 256.

(** pywr-schema/src/parameters/profiles.rs 189-207: residual days and reset day
    of the year of a uniform drawdown profile in a model file. *)
Definition drawdown_from_schema (reset_day reset_month residual_days : option Z) : option (Z * Z) :=
  let or d v := match v with Some x => x | None => d end in
  match reset_day_of_year (as_i8 (or 1 reset_day)) (as_i8 (or 1 reset_month)) with
  | Some doy => Some (as_u8 (or 0 residual_days), doy)
  | None => None
  end.
