(** Model of the civil (proleptic Gregorian) calendar that pywr-core takes from
    the jiff crate: [jiff::civil::DateTime] with [in_leap_year], [day_of_year],
    date + Span arithmetic and [duration_since] (timestep.rs 1, 204-245, 317-352).
    jiff itself is not in /repo; its documented behaviour is modelled here.
    Simplification: no year bounds (jiff panics outside years -9999..9999).
    Instants and durations are whole nanoseconds. *)
From Coq Require Import ZArith Bool.
Open Scope Z_scope.

Record date : Type := Date { d_year : Z; d_month : Z; d_day : Z }.

(** [DateTime::in_leap_year], used at timestep.rs 207-209 and 225. *)
Definition leap (y : Z) : bool :=
  (y mod 4 =? 0) && (negb (y mod 100 =? 0) || (y mod 400 =? 0)).

Definition days_in_month (y m : Z) : Z :=
  if (m =? 2) then (if leap y then 29 else 28)
  else if (m =? 4) || (m =? 6) || (m =? 9) || (m =? 11) then 30
  else 31.

(** Days before month [m] in a leap / non-leap year. *)
Definition days_before_month (lp : bool) (m : Z) : Z :=
  let l := if lp then 1 else 0 in
  if m =? 1 then 0 else if m =? 2 then 31 else if m =? 3 then 59 + l
  else if m =? 4 then 90 + l else if m =? 5 then 120 + l else if m =? 6 then 151 + l
  else if m =? 7 then 181 + l else if m =? 8 then 212 + l else if m =? 9 then 243 + l
  else if m =? 10 then 273 + l else if m =? 11 then 304 + l else 334 + l.

Definition valid_date (t : date) : bool :=
  (1 <=? d_month t) && (d_month t <=? 12) &&
  (1 <=? d_day t) && (d_day t <=? days_in_month (d_year t) (d_month t)).

(** Number of days from a fixed epoch to 1 January of year [y]. *)
Definition days_before_year (y : Z) : Z :=
  365 * y + (y - 1) / 4 - (y - 1) / 100 + (y - 1) / 400.

(** [DateTime::day_of_year] (one based), timestep.rs 215-217. *)
Definition day_of_year (t : date) : Z :=
  days_before_month (leap (d_year t)) (d_month t) + d_day t.

(** Day number of a date: consecutive calendar days have consecutive numbers. *)
Definition day_number (t : date) : Z :=
  days_before_year (d_year t) + day_of_year t - 1.

(** Inverse of [day_number]. *)
Definition year_of_day (n : Z) : Z :=
  let y0 := (400 * n) / 146097 in
  if n <? days_before_year y0 then y0 - 1
  else if days_before_year (y0 + 1) <=? n then y0 + 1 else y0.
Definition month_of_doy (lp : bool) (doy0 : Z) : Z :=
  let b := days_before_month lp in
  if doy0 <? b 2 then 1 else if doy0 <? b 3 then 2 else if doy0 <? b 4 then 3
  else if doy0 <? b 5 then 4 else if doy0 <? b 6 then 5 else if doy0 <? b 7 then 6
  else if doy0 <? b 8 then 7 else if doy0 <? b 9 then 8 else if doy0 <? b 10 then 9
  else if doy0 <? b 11 then 10 else if doy0 <? b 12 then 11 else 12.
Definition date_of_day (n : Z) : date :=
  let y := year_of_day n in
  let doy0 := n - days_before_year y in
  let m := month_of_doy (leap y) doy0 in
  Date y m (doy0 - days_before_month (leap y) m + 1).

(** [date + months] in jiff: move the month, then constrain the day. *)
Definition add_months (t : date) (k : Z) : date :=
  let mi := 12 * d_year t + (d_month t - 1) + k in
  let y := mi / 12 in
  let m := mi mod 12 + 1 in
  Date y m (Z.min (d_day t) (days_in_month y m)).

(** A civil date-time: a date and the nanoseconds since midnight. *)
Definition NS_PER_DAY : Z := 86400000000000.
Definition NS_PER_HOUR : Z := 3600000000000.
Record datetime : Type := DateTime { dt_date : date; dt_ns : Z }.

(** Linear position of a date-time; [a.duration_since(b)] is the difference. *)
Definition instant (t : datetime) : Z := NS_PER_DAY * day_number (dt_date t) + dt_ns t.
Definition datetime_of_instant (n : Z) : datetime :=
  DateTime (date_of_day (n / NS_PER_DAY)) (n mod NS_PER_DAY).

(** jiff [Span] restricted to the units built at timestep.rs 325-337. *)
Record span : Type := Span { sp_months : Z; sp_weeks : Z; sp_days : Z; sp_ns : Z }.
(** [span * n] scales every unit. *)
Definition span_mul (s : span) (n : Z) : span :=
  Span (sp_months s * n) (sp_weeks s * n) (sp_days s * n) (sp_ns s * n).
(** [datetime + span]: months with the day constrained, then weeks and days,
    then the time part. *)
Definition add_span (t : datetime) (s : span) : datetime :=
  datetime_of_instant
    (instant (DateTime (add_months (dt_date t) (sp_months s)) (dt_ns t))
     + NS_PER_DAY * (7 * sp_weeks s + sp_days s) + sp_ns s).
Definition valid_datetime (t : datetime) : bool :=
  valid_date (dt_date t) && (0 <=? dt_ns t) && (dt_ns t <? NS_PER_DAY).
