(** What the memory recorder should hold. *)
From Coq Require Import QArith.
From Verif Require Import Base Calendar Timestep Network AggFuncs AggFuncsSpec Aggregator AggregatorSpec Memory.
Open Scope nat_scope.

(** The values of all metrics of one metric set in one scenario, and one of them. *)
Definition values_at (s i : nat) (st : saved_step) : list Q := nth i (nth s (sv_values st) []) [].
Definition value_at (s i j : nat) (st : saved_step) : Q := nth j (values_at s i st) 0%Q.

(** A time-step has values for every scenario, every metric set and every metric. *)
Definition complete (sets : list metric_set) (num_scenarios : nat) (st : saved_step) : Prop :=
  length (sv_values st) = num_scenarios /\
  Forall (fun vs => Forall2 (fun ms l => length l = length (ms_metrics ms)) sets vs) (sv_values st).

(** The history of one metric. *)
Definition history (s i j : nat) (steps : list saved_step) : list pvalue :=
  map (fun st => PV (sv_date st) (sv_dur st) (value_at s i j st)) steps.

(** One metric's column of a list of rows. *)
Definition column (j : nat) (rows : list row) : list pvalue :=
  map (fun r => PV (pv_start r) (pv_dur r) (nth j (pv_value r) 0%Q)) rows.

(** An optional value as a list. *)
Definition if_any {A} (o : option A) : list A := match o with Some a => [a] | None => [] end.

(** Position of the record of scenario [i], period [k], metric [j] in the
    long-format export: after all records of the scenarios before, the periods
    before and the metrics before. *)
Definition record_position (num_metrics : nat) (data : list (list row)) (i k j : nat) : nat :=
  num_metrics * list_sum (map (@length row) (firstn i data)) + num_metrics * k + j.

(** The sum over everything. *)
Definition grand_total (data : list (list row)) : Q :=
  total (map (fun rows => total (map (fun r => total (pv_value r)) rows)) data).
