(** A run of a model file: a sequence of solved time-steps in which the
    parameters that the file's nodes create take the values their code gives
    them.  Sources: pywr-core/src/network.rs 758-813 (order of the phases),
    state/mod.rs, and the parameters in Formulas.v, ParamsTemporal.v,
    ControlCurves.v and AggFuncs.v. *)
From Verif Require Import Base Calendar Network NetworkBuild NetworkSpec Lp LpSpec AggFuncs ParamsTemporal ControlCurves Formulas
  SchemaNodes SchemaMetrics SchemaSpec.
Local Open Scope string_scope.
Local Open Scope nat_scope.

(** One time-step: the state the solver was given, the solution it found, and
    the value each metric has after the solve.  A metric's value before the
    solve is its value in [rs_state]. *)
Record run_step := mkRunStep { rs_state : lp_state; rs_x : nat -> Q; rs_after : umetric -> Q }.

Section Run.
Variable key : umetric -> nat.

Definition before (t : run_step) (m : umetric) : Q := value key (rs_state t) m.
Definition befores (t : run_step) (m : option umetric) : option (res calc_error Q) := option_map (fun m => Ok (before t m)) m.
Definition afters (t : run_step) (m : option umetric) : option (res calc_error Q) := option_map (fun m => Ok (rs_after t m)) m.

(** The values of a parameter that a schema node declares, step by step.  The
    parameters are evaluated in an order in which the metrics they read are
    known (theorems C18, C19); here each is related to the metrics it reads. *)
Definition follows (tr : list run_step) (d : pdecl) : Prop :=
  match d with
  | PDelay p m n q =>
      exists vs, hooked_run delay_before delay_after (delay_setup n q) (map (fun t => rs_after t m) tr) = Ok vs /\
        Forall2 (fun t v => before t (UParam p None) == v)%Q tr vs
  | PMuskingum p i o k w ini =>
      forall j t, nth_error tr j = Some t -> exists f r,
        muskingum_before (j =? 0) ini (Ok (before t i)) (Ok (before t o)) (Ok (before t k)) (Ok (before t w)) = Ok (f, r) /\
        (before t (UParam p (Some "inflow_factor")) == f /\ before t (UParam p (Some "rhs")) == r)%Q
  | PProduct p ms => forall t, In t tr -> (before t (UParam p None) == calc_iter_f64 FProduct (map (before t) ms))%Q
  | PSum p ms => forall t, In t tr -> (before t (UParam p None) == calc_iter_f64 FSum (map (before t) ms))%Q
  | PDifference p a b mn mx =>
      forall t, In t tr -> exists q,
        difference_before (Ok (before t a)) (Ok (before t b)) (befores t mn) (befores t mx) = Ok q /\ (before t (UParam p None) == q)%Q
  | PVolumeBetween p total u l =>
      forall t, In t tr -> exists q,
        volume_between (Ok (before t total)) (option_map (fun m => Ok (before t m)) u) (option_map (fun m => Ok (before t m)) l) = Ok q /\
        (before t (UParam p None) == q)%Q
  | PInterpolated p m pts =>
      forall t, In t tr -> exists q,
        interpolated (Ok (before t m)) (map (fun p => (Ok (fst p), Ok (snd p))) pts) true = Ok q /\ (before t (UParam p None) == q)%Q
  | PPolynomial p m cs =>
      forall t, In t tr -> exists q, polynomial cs 1 0 (Ok (before t m)) = Ok q /\ (before t (UParam p None) == q)%Q
  | PHydropower p fl tg el h =>
      forall t, In t tr ->
        (tg <> None -> exists q, hydropower_before h (befores t tg) (befores t el) None None = Ok q /\ (before t (UParam p None) == q)%Q) /\
        exists q, hydropower_after h (Some (Ok (rs_after t fl))) (afters t el) = Ok q /\ (rs_after t (UParamAfter p) == q)%Q
  | PDeficit p fl mx =>
      forall t, In t tr -> exists q, deficit (Ok (rs_after t fl)) (Ok (rs_after t mx)) = Ok q /\ (rs_after t (UParamAfter p) == q)%Q
  end.

(** The metrics a declared parameter reads before the solve. *)
Definition reads (d : pdecl) : list umetric :=
  let opt o := match o with Some m => [m] | None => [] end in
  match d with
  | PDelay _ _ _ _ | PDeficit _ _ _ => []
  | PMuskingum _ i o k w _ => [i; o; k; w]
  | PProduct _ ms | PSum _ ms => ms
  | PDifference _ a b mn mx => [a; b] ++ opt mn ++ opt mx
  | PVolumeBetween _ t u l => [t] ++ opt u ++ opt l
  | PInterpolated _ m _ | PPolynomial _ m _ => [m]
  | PHydropower _ _ tg el _ => opt tg ++ opt el
  end.

(** [tr] is the beginning of a run of the model file [sc]. *)
Record file_run (step : option Z) (sc : schema) (a : added) (net : network) (tr : list run_step) : Prop := {
  (* every time-step has been solved *)
  fr_steps : forall t, In t tr -> simulated key step sc a net (rs_state t) (rs_x t);
  (* after the solve flows are those of the solution *)
  fr_after : forall t m q, In t tr -> flow_value (declaration a) net (edge_flow net (rs_x t)) m = Some q -> (rs_after t m == q)%Q;
  (* before the solve they are still those of the time-step before *)
  fr_before : forall j t t' m q, nth_error tr j = Some t -> nth_error tr (S j) = Some t' -> In m (flat_map reads (ad_params a)) ->
    flow_value (declaration a) net (edge_flow net (rs_x t)) m = Some q -> (before t' m == q)%Q;
  (* and 0 in the first one *)
  fr_first : forall t m q, nth_error tr 0 = Some t -> In m (flat_map reads (ad_params a)) ->
    flow_value (declaration a) net (fun _ => 0%Q) m = Some q -> (before t m == q)%Q;
  (* what was computed before the solve does not change *)
  fr_kept : forall t p k, In t tr -> (rs_after t (UParam p k) == before t (UParam p k))%Q;
  fr_params : forall d, In d (ad_params a) -> follows tr d }.
End Run.
