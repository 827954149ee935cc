(** Periodic aggregation of recorded values:
    pywr-core/src/recorders/aggregator/mod.rs.  Dates are unbounded, so the
    panics on a date outside jiff's range are not modelled. *)
From Coq Require Import QArith.
From Verif Require Import Base Calendar Timestep Network AggFuncs.
Open Scope Z_scope.

Notation pvalue := (period_value Q).

(** aggregator/mod.rs 7-12: [AggregationFrequency].  The number of days is a
    [NonZeroI64]. *)
Inductive agg_freq : Type := GMonthly | GAnnual | GDays (days : Z).

(** aggregator/mod.rs 15-27: [is_date_in_period]. *)
Definition is_date_in_period (f : agg_freq) (period_start date : datetime) : bool :=
  match f with
  | GMonthly =>
      (d_year (dt_date period_start) =? d_year (dt_date date)) &&
      (d_month (dt_date period_start) =? d_month (dt_date date))
  | GAnnual => d_year (dt_date period_start) =? d_year (dt_date date)
  | GDays n =>
      let period_end := add_span period_start (Span 0 0 n 0) in
      (instant period_start <=? instant date) && (instant date <? instant period_end)
  end.

(** aggregator/mod.rs 29-47: [start_of_next_period]. *)
Definition start_of_next_period (f : agg_freq) (current : datetime) : datetime :=
  match f with
  | GMonthly =>
      let next := add_span current (Span 1 0 0 0) in
      DateTime (Date (d_year (dt_date next)) (d_month (dt_date next)) 1) 0
  | GAnnual =>
      let next := add_span current (Span 12 0 0 0) in
      DateTime (Date (d_year (dt_date next)) 1 1) 0
  | GDays n => add_span current (Span 0 0 n 0)
  end.

(** aggregator/mod.rs 51-76: the loop of [split_value_into_periods], on fuel.
    [None] when the fuel runs out. *)
Fixpoint split_loop (fuel : nat) (f : agg_freq) (current stop : datetime) (value : Q)
  : option (list pvalue) :=
  match fuel with
  | O => None
  | S fuel' =>
      if instant current <? instant stop then
        let next := start_of_next_period f current in
        let duration :=
          if instant next <=? instant stop then instant next - instant current
          else instant stop - instant current in
        match split_loop fuel' f next stop value with
        | Some rest => Some (PV current duration value :: rest)
        | None => None
        end
      else Some []
  end.

(** aggregator/mod.rs 180-183: [PeriodValue::end]. *)
Definition pv_end {A} (v : period_value A) : datetime := add_duration (pv_start v) (pv_dur v).

(** aggregator/mod.rs 51-76: [split_value_into_periods].  The fuel is enough
    whenever the loop ends (proved); a loop which never ends is an [Err]. *)
Definition split_value_into_periods (f : agg_freq) (v : pvalue) : res unit (list pvalue) :=
  match split_loop (Z.to_nat (pv_dur v / NS_PER_DAY + 3)) f (pv_start v) (pv_end v) (pv_value v) with
  | Some l => Ok l
  | None => Err tt
  end.

(** aggregator/mod.rs 79-82: [PeriodicAggregatorState]. *)
Definition pstate : Type := option (list pvalue).

(** aggregator/mod.rs 85-128: [PeriodicAggregatorState::process_value]. *)
Definition state_process_value (f : agg_freq) (func : agg_f64) (s : pstate) (value : pvalue)
  : res unit (option pvalue * pstate) :=
  match s with
  | Some [] => Panic
  | Some ((first :: _) as current) =>
      if is_date_in_period f (pv_start first) (pv_start value) then Ok (None, Some (current ++ [value]))
      else
        let agg_period :=
          match calc_period_values func current with
          | Some a => Some (PV (pv_start first) (instant (pv_start value) - instant (pv_start first)) a)
          | None => None
          end in
        Ok (agg_period, Some [value])
  | None => Ok (None, Some [value])
  end.

(** aggregator/mod.rs 130-136: [process_value_no_period]. *)
Definition process_value_no_period (s : pstate) (value : pvalue) : pstate :=
  match s with
  | Some current => Some (current ++ [value])
  | None => Some [value]
  end.

(** aggregator/mod.rs 138-163: [PeriodicAggregatorState::calc_aggregation]. *)
Definition calc_aggregation (func : agg_f64) (s : pstate) : res unit (option pvalue) :=
  match s with
  | Some current =>
      match calc_period_values func current with
      | Some a =>
          match current with
          | [] => Panic
          | first :: _ =>
              let start := pv_start first in
              let stop := pv_start (last current first) in
              Ok (Some (PV start (instant stop - instant start) a))
          end
      | None => Ok None
      end
  | None => Ok None
  end.

(** aggregator/mod.rs 166-170: [PeriodicAggregator]. *)
Record level : Type := Level { lv_freq : option agg_freq; lv_func : agg_f64 }.

(** aggregator/mod.rs 240-252: the loop over the parts of a value. *)
Fixpoint process_parts (f : agg_freq) (func : agg_f64) (s : pstate) (parts : list pvalue)
    (agg_value : option pvalue) : res unit (option pvalue * pstate) :=
  match parts with
  | [] => Ok (agg_value, s)
  | v :: rest =>
      rbind (state_process_value f func s v) (fun '(av, s') =>
        match av with
        | Some _ =>
            match agg_value with
            | Some _ => Panic
            | None => process_parts f func s' rest av
            end
        | None => process_parts f func s' rest agg_value
        end)
  end.

(** aggregator/mod.rs 231-258: [PeriodicAggregator::process_value]. *)
Definition level_process_value (l : level) (s : pstate) (value : pvalue)
  : res unit (option pvalue * pstate) :=
  match lv_freq l with
  | Some f => rbind (split_value_into_periods f value) (fun parts => process_parts f (lv_func l) s parts None)
  | None => Ok (None, process_value_no_period s value)
  end.

(** aggregator/mod.rs 272-289: [Aggregator] with its optional child. *)
Inductive aggregator : Type :=
| ABase (l : level)
| ANest (l : level) (child : aggregator).

(** aggregator/mod.rs 265-269: [AggregatorState]. *)
Inductive agg_state : Type :=
| SBase (s : pstate)
| SNest (s : pstate) (child : agg_state).

(** aggregator/mod.rs 291-296: [Aggregator::setup]. *)
Fixpoint setup (a : aggregator) : agg_state :=
  match a with
  | ABase _ => SBase None
  | ANest _ child => SNest None (setup child)
  end.

(** aggregator/mod.rs 299-312: [Aggregator::append_value]. *)
Fixpoint append_value (a : aggregator) (st : agg_state) (value : pvalue)
  : res unit (option pvalue * agg_state) :=
  match a, st with
  | ABase l, SBase s =>
      rbind (level_process_value l s value) (fun '(o, s') => Ok (o, SBase s'))
  | ANest l child, SNest s cst =>
      rbind (append_value child cst value) (fun '(co, cst') =>
        match co with
        | Some v => rbind (level_process_value l s v) (fun '(o, s') => Ok (o, SNest s' cst'))
        | None => Ok (None, SNest s cst')
        end)
  | _, _ => Panic
  end.

(** aggregator/mod.rs 318-333: [Aggregator::finalise]. *)
Fixpoint finalise (a : aggregator) (st : agg_state) : res unit (option pvalue * agg_state) :=
  match a, st with
  | ABase l, SBase s => rbind (calc_aggregation (lv_func l) s) (fun o => Ok (o, SBase s))
  | ANest l child, SNest s cst =>
      rbind (finalise child cst) (fun '(co, cst') =>
        rbind (match co with
               | Some v => rbind (level_process_value l s v) (fun '(_, s') => Ok s')
               | None => Ok s
               end) (fun s' =>
          rbind (calc_aggregation (lv_func l) s') (fun o => Ok (o, SNest s' cst'))))
  | _, _ => Panic
  end.

(** The values appended one after another, as [MetricSet::save] does each
    time-step (metric_set.rs 127-183): what each call returned, and the state. *)
Fixpoint append_all (a : aggregator) (st : agg_state) (values : list pvalue)
  : res unit (list (option pvalue) * agg_state) :=
  match values with
  | [] => Ok ([], st)
  | v :: rest =>
      rbind (append_value a st v) (fun '(o, st') =>
        rbind (append_all a st' rest) (fun '(os, st'') => Ok (o :: os, st'')))
  end.
