(** A run of the whole network (WholeRunSpec.v) seen as a run of a model file
    (SchemaRun.v). *)
From Coq Require Import Ascii String.
From Coq Require Import QArith.
From Verif Require Import Base Calendar Timestep Network NetworkBuild NetworkSpec Lp LpSpec NetState NetStateSpec Formulas SchemaNodes
  SchemaMetrics SchemaSpec SchemaRun MetricSets SchemaParams WholeRun WholeRunSpec LpEnv NodeParams.
Local Open Scope string_scope.
Local Open Scope list_scope.
Local Open Scope nat_scope.

(** The values of a declared parameter that are read before the solve. *)
Definition own_metrics (d : pdecl) : list umetric :=
  match d with
  | PMuskingum p _ _ _ _ _ => [UParam p (Some "inflow_factor"); UParam p (Some "rhs")]
  | PDelay p _ _ _ | PProduct p _ | PSum p _ | PDifference p _ _ _ _ | PVolumeBetween p _ _ _
  | PInterpolated p _ _ | PPolynomial p _ _ | PHydropower p _ _ _ _ | PDeficit p _ _ => [UParam p None]
  end.

(** [name] says which metric has which number: those of [ms] have their place in
    the list, and every metric that a parameter of a node reads or is read by
    has a number of its own. *)
Record numbering (key : umetric -> nat) (name : nat -> lmetric) (ms : list lmetric) (a : added) (net : Network.network) : Prop := {
  nu_ms : forall k m, nth_error ms k = Some m -> name k = m;
  nu_network : forall k, In k (network_keys net) -> k < length ms;
  nu_key : forall m, In m (flat_map reads (ad_params a) ++ flat_map own_metrics (ad_params a)) ->
    match m with UConst _ | SchemaNodes.UOther _ => True | _ => name (key m) = metric_of name m end }.

Section Trace.
Variables (key : umetric -> nat) (name : nat -> lmetric) (V : valuation) (other_f : moment -> nat -> lmetric -> Q).

(** Time-step [t] of the simulation as one of the file: before the solve metrics
    have the values read then, after it those read then; a parameter keeps what
    it was before the solve. *)
Definition seen (t : nat) (p : sim_step) : run_step :=
  let s := with_env (fun k => read_f V other_f Before t (name k)) (sim_lp p) in
  mkRunStep s (sim_x p) (fun m => match m with UParam _ _ => SchemaSpec.value key s m | _ => read_f V other_f After t (metric_of name m) end).
Definition seen_run (steps : list sim_step) : list run_step :=
  map (fun tp => seen (fst tp) (snd tp)) (combine (seq 0 (length steps)) steps).
End Trace.
