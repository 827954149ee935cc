(** Model of pywr-core/src/timestep.rs.  Date-times are civil date-times of
    [Calendar]; durations are whole nanoseconds.  The `while` loops run on
    explicit fuel; running out of fuel is [None], never a normal result. *)
From Verif Require Import Base Calendar.
Open Scope Z_scope.

(** timestep.rs 105-109: [Timestep]. *)
Record timestep : Type := Timestep { ts_date : datetime; ts_index : Z; ts_duration : Z }.

(** timestep.rs 199-201: [is_first]. *)
Definition is_first (t : timestep) : bool := ts_index t =? 0.

(** timestep.rs 223-229: [day_of_year_index]. *)
Definition day_of_year_index (t : date) : Z :=
  let i := day_of_year t - 1 in
  if negb (leap (d_year t)) && (58 <? i) then i + 1 else i.

(** timestep.rs 33-38: [PywrDuration::from_days] (via hours) and [from_hours]. *)
Definition from_days (d : Z) : Z := NS_PER_HOUR * (d * 24).
Definition from_hours (h : Z) : Z := NS_PER_HOUR * h.

(** [DateTime + SignedDuration]. *)
Definition add_duration (t : datetime) (d : Z) : datetime := datetime_of_instant (instant t + d).

(** timestep.rs 247-257: [Timestep + PywrDuration]. *)
Definition next_timestep (t : timestep) (d : Z) : timestep :=
  Timestep (add_duration (ts_date t) d) (ts_index t + 1) d.

(** Comparison of date-times, used by `while current.date <= self.end`. *)
Definition dt_le (a b : datetime) : bool := instant a <=? instant b.

(** timestep.rs 302-312: [generate_timesteps_from_fixed_duration]. *)
Fixpoint fixed_loop (fuel : nat) (current : timestep) (stop : datetime) (d : Z)
  : option (list timestep) :=
  match fuel with
  | O => None
  | S fuel' =>
      if dt_le (ts_date current) stop
      then match fixed_loop fuel' (next_timestep current d) stop d with
           | Some r => Some (current :: r)
           | None => None
           end
      else Some []
  end.
Definition generate_fixed (fuel : nat) (start stop : datetime) (d : Z) : option (list timestep) :=
  fixed_loop fuel (Timestep start 0 d) stop d.

(** polars [Duration] as used at timestep.rs 318-337 (parsing of the string is
    polars code and is not modelled): non-negative fields and a sign. *)
Record freq : Type := Freq { f_months : Z; f_weeks : Z; f_days : Z; f_ns : Z; f_negative : bool }.
Definition freq_is_zero (f : freq) : bool :=
  (f_months f =? 0) && (f_weeks f =? 0) && (f_days f =? 0) && (f_ns f =? 0).
Definition days_only (f : freq) : bool := (f_months f =? 0) && (f_weeks f =? 0) && (f_ns f =? 0).
Definition weeks_only (f : freq) : bool := (f_months f =? 0) && (f_days f =? 0) && (f_ns f =? 0).
Definition months_only (f : freq) : bool := (f_weeks f =? 0) && (f_days f =? 0) && (f_ns f =? 0).

(** timestep.rs 325-337: the span built from the parsed duration. *)
Definition freq_span (f : freq) : span :=
  if days_only f then Span 0 0 (f_days f) 0
  else if weeks_only f then Span 0 (f_weeks f) 0 0
  else if months_only f then Span (f_months f) 0 0 0
  else Span (f_months f) (f_weeks f) (f_days f) (f_ns f).

(** timestep.rs 339-351: the loop; [n] is [timesteps.len()]. *)
Fixpoint freq_loop (fuel : nat) (start : datetime) (sp : span) (current stop : datetime) (n : Z)
  : option (list timestep) :=
  match fuel with
  | O => None
  | S fuel' =>
      if dt_le current stop
      then let next := add_span start (span_mul sp (n + 1)) in
           match freq_loop fuel' start sp next stop (n + 1) with
           | Some r => Some (Timestep current n (instant next - instant current) :: r)
           | None => None
           end
      else Some []
  end.

Inductive time_error : Type := NoTimesteps | NonPositiveTimestepDuration | OutOfFuel.
Inductive step_kind : Type := Hours (h : Z) | Days (d : Z) | Frequency (f : freq).

(** timestep.rs 289-299, 317-322: [TimeDomainBuilder::timesteps]. *)
Definition timesteps (fuel : nat) (start stop : datetime) (k : step_kind)
  : res time_error (list timestep) :=
  match k with
  | Hours h => match generate_fixed fuel start stop (from_hours h) with
               | Some l => Ok l | None => Err OutOfFuel end
  | Days d => match generate_fixed fuel start stop (from_days d) with
              | Some l => Ok l | None => Err OutOfFuel end
  | Frequency f =>
      if f_negative f || freq_is_zero f then Err NonPositiveTimestepDuration
      else match freq_loop fuel start (freq_span f) start stop 0 with
           | Some l => Ok l | None => Err OutOfFuel end
  end.

(** timestep.rs 354-363: [TimeDomainBuilder::build]. *)
Definition build_time (fuel : nat) (start stop : datetime) (k : step_kind)
  : res time_error (list timestep) :=
  rbind (timesteps fuel start stop k) (fun l =>
  match l with [] => Err NoTimesteps | _ => Ok l end).

(** timestep.rs 376-380: [fixed_step_duration]. *)
Definition fixed_step_duration (l : list timestep) : option Z :=
  match l with
  | [] => None
  | t :: _ => if forallb (fun u => ts_duration u =? ts_duration t) l then Some (ts_duration t) else None
  end.
