(** What it means for aggregated periods to tile time, independently of how the
    aggregator finds them. *)
From Coq Require Import QArith.
From Verif Require Import Base Calendar Timestep Network AggFuncs AggFuncsSpec Aggregator.
Open Scope Z_scope.

(** A value holds from its start up to, not including, its stop. *)
Definition start_of (v : pvalue) : Z := instant (pv_start v).
Definition stop_of (v : pvalue) : Z := start_of v + pv_dur v.

(** A value recorded for a time-step of positive length. *)
Definition recorded (v : pvalue) : Prop := valid_datetime (pv_start v) = true /\ 0 < pv_dur v.

(** Each value starts where the one before it stops. *)
Fixpoint consecutive (l : list pvalue) : Prop :=
  match l with
  | v :: (w :: _) as rest => stop_of v = start_of w /\ consecutive rest
  | _ => True
  end.

(** The values a sequence of calls returned. *)
Definition emitted (outs : list (option pvalue)) : list pvalue :=
  flat_map (fun o => match o with Some v => [v] | None => [] end) outs.

(** Day counts are positive. *)
Definition freq_ok (f : agg_freq) : Prop := match f with GDays n => 0 < n | _ => True end.

(** Two dates in one calendar month, one calendar year, or the second within n
    days of the first. *)
Definition same_period (f : agg_freq) (a b : datetime) : Prop :=
  match f with
  | GMonthly => d_year (dt_date a) = d_year (dt_date b) /\ d_month (dt_date a) = d_month (dt_date b)
  | GAnnual => d_year (dt_date a) = d_year (dt_date b)
  | GDays n => instant a <= instant b < instant a + n * NS_PER_DAY
  end.

(** Every moment of a value lies in the period of its start. *)
Definition within_a_period (f : agg_freq) (v : pvalue) : Prop :=
  forall t, start_of v <= t < stop_of v -> same_period f (pv_start v) (datetime_of_instant t).

(** [parts] are consecutive pieces of [v], carry its value and make up the whole of it. *)
Definition covers (v : pvalue) (parts : list pvalue) : Prop :=
  Forall recorded parts /\ consecutive parts /\
  Forall (fun p => pv_value p = pv_value v) parts /\
  exists a b, head parts = Some a /\ last parts a = b /\ pv_start a = pv_start v /\ stop_of b = stop_of v.

(** [e] is the aggregate of exactly the values of [g]. *)
Definition aggregates (func : agg_f64) (g : list pvalue) (e : pvalue) : Prop :=
  exists a, head g = Some a /\ pv_start e = pv_start a /\ stop_of e = stop_of (last g a) /\
            calc_period_values func g = Some (pv_value e).

(** The values of a group start in the period of the first of them. *)
Definition one_period (f : agg_freq) (g : list pvalue) : Prop :=
  match g with
  | [] => True
  | a :: _ => Forall (fun p => same_period f (pv_start a) (pv_start p)) g
  end.

(** The first value of each group is outside the period of the group before. *)
Fixpoint apart (f : agg_freq) (gs : list (list pvalue)) : Prop :=
  match gs with
  | (a :: _) :: (((b :: _) :: _) as rest) => ~ same_period f (pv_start a) (pv_start b) /\ apart f rest
  | _ => True
  end.

(** Value times length in days, added up. *)
Definition integral (l : list pvalue) : Q := total (map (fun v => pv_value v * days_of v)%Q l).

(** Everything held back by an aggregator and its children. *)
Fixpoint held_back (st : agg_state) : list pvalue :=
  let own s := match s with Some l => l | None => [] end in
  match st with
  | SBase s => own s
  | SNest s child => own s ++ held_back child
  end.

(** All levels of an aggregator. *)
Fixpoint levels (a : aggregator) : list level :=
  match a with
  | ABase l => [l]
  | ANest l child => l :: levels child
  end.
Definition periodic (l : level) : Prop := match lv_freq l with Some f => freq_ok f | None => False end.

(** The moments at which a calendar period begins. *)
Definition begins_period (f : agg_freq) (t : Z) : Prop :=
  match f with
  | GMonthly => let d := datetime_of_instant t in d_day (dt_date d) = 1 /\ dt_ns d = 0
  | GAnnual =>
      let d := datetime_of_instant t in d_month (dt_date d) = 1 /\ d_day (dt_date d) = 1 /\ dt_ns d = 0
  | GDays _ => False
  end.

(** A value short enough to be recorded: it meets the beginning of at most one
    period; for n-day periods it is at most n days long. *)
Definition short_enough (f : agg_freq) (v : pvalue) : Prop :=
  match f with
  | GDays n => pv_dur v <= n * NS_PER_DAY
  | _ => forall t u, start_of v <= t < stop_of v -> start_of v <= u < stop_of v ->
                     begins_period f t -> begins_period f u -> t = u
  end.

(** An aggregator over one kind of period, and one that only ends with the run. *)
Definition flat (f : agg_freq) (func : agg_f64) : aggregator := ABase (Level (Some f) func).
Definition unending (func : agg_f64) : aggregator := ABase (Level None func).

(** Day counts, where there are any, are positive. *)
Definition level_ok (l : level) : Prop := match lv_freq l with Some f => freq_ok f | None => True end.

(** The periods [es] lie end to end, begin with the first value and do not go
    beyond the last. *)
Definition emits_well (values es : list pvalue) : Prop :=
  Forall recorded es /\ consecutive es /\
  match es, values with
  | [], _ => True
  | e :: r, v :: w => pv_start e = pv_start v /\ stop_of (last r e) <= stop_of (last w v)
  | _ :: _, [] => False
  end.

(** Calendar periods. *)
Definition calendric (f : agg_freq) : Prop := match f with GDays _ => False | _ => True end.

(** A period which stays within one month or year and ends with the beginning
    of a month or year. *)
Definition calendar_period (f : agg_freq) (e : pvalue) : Prop :=
  (forall t, start_of e <= t < stop_of e -> same_period f (pv_start e) (datetime_of_instant t)) /\ begins_period f (stop_of e).
