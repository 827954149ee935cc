(** What a run of a network with parameters consists of. *)
From Coq Require Import QArith.
From Verif Require Import Base Calendar Timestep ParamBuild ParamEval ParamEvalSpec Network NetworkBuild NetworkSpec Lp LpSpec NetState NetStateSpec Formulas SchemaNodes
  SchemaMetrics SchemaVirtual MetricSets SchemaParams ParamTiers ParamTiersSpec WholeRun.
Local Open Scope list_scope.
Local Open Scope nat_scope.

(** A network that has been set up: its nodes are those of [a], the parameters
    [cps] are among its parameters, and the solver, whatever it returns, returns
    a solution of its programme. *)
Record set_up {X : Type} (a : added) (net : Network.network) (solver : list lp_state -> lp -> option (nat -> Q)) (fm : Q) (order : list (list nat))
    (cd : coding) (sm : sem (pvalue X) (pint X) timestep whole run_error) (cps : list cparam) (ms : list lmetric) (nd : network_def)
    (nw : ParamEval.network) (coll : collection) : Prop := {
  su_net : build_network (declaration a) = Ok net;
  su_order : valid_order net order;
  su_solver : forall ss l x, solver ss l = Some x -> feasible l x;
  su_drives : exists b0, create fm order net = Ok b0 /\ drives a net solver cd b0 sm;
  su_params : exists er, implements cd ts_date er sm cps;
  su_metrics : network_metrics net cd ms nd;
  su_build : exists nodes other bs mp, network_of cd cps bs nd /\ build nodes other bs = Some (Ok (coll, mp)) /\ resolve_network mp nd = Ok nw }.

(** [steps] are the time-steps of a simulation (C14 to C18), in which the metrics
    [ms] of the nodes have the values that the parameters [V] and the state of
    the network give them, and the metrics that read the network read the state
    that the simulation has before the solve and after it. *)
Record whole_run (a : added) (net : Network.network) (fm : Q) (order : list (list nat)) (ms : list lmetric) (V : valuation)
    (other_f : moment -> nat -> lmetric -> Q) (ts : list timestep) (steps : list sim_step) : Prop := {
  wr_run : run net fm order steps;
  wr_times : map sim_t steps = ts;
  wr_values : forall t p k m, nth_error steps t = Some p -> nth_error ms k = Some m ->
    sim_env p k = read_f V other_f Before t m;
  wr_before : forall t p m q, nth_error steps t = Some p -> of_network m = true -> observe a net (sim_start p) m = Ok q ->
    other_f Before t m = q;
  wr_after : forall t p m q, nth_error steps t = Some p -> of_network m = true -> observe a net (sim_end p) m = Ok q ->
    other_f After t m = q }.

(** The value of a metric of a node in time-step [t]: a literal, or what the
    metric [ms] has under its number. *)
Definition given (V : valuation) (other_f : moment -> nat -> lmetric -> Q) (ms : list lmetric) (t : nat) (m : Network.metric) : Q :=
  match m with MConst q => q | MDyn k => read_f V other_f Before t (nth k ms (LmConst 0)) end.
Definition numbered_metric (ms : list lmetric) (m : option Network.metric) : Prop :=
  match m with Some (MDyn k) => k < length ms | _ => True end.

(** [q] keeps to limits given by metrics. *)
Definition between (V : valuation) other_f ms t (lower upper : option Network.metric) (q : Q) : Prop :=
  (match lower with Some m => given V other_f ms t m <= q | None => 0 <= q end /\
   match upper with Some m => q <= given V other_f ms t m | None => q <= F64_MAX end)%Q.

(** What is recorded as the flow of a node. *)
Definition flow_metric (n : node_type) (u : uname) : lmetric :=
  LmNode (match n with TOutput => UNodeInFlow u | _ => UNodeOutFlow u end).

(** Time-steps are numbered from zero and have a positive length. *)
Definition regular (ts : list timestep) : Prop :=
  forall k t, nth_error ts k = Some t -> ts_index t = Z.of_nat k /\ (0 < ts_days t)%Q.

(** Metrics of flows. *)
Definition is_flow (m : umetric) : bool :=
  match m with
  | UNodeInFlow _ | UNodeOutFlow _ | UMultiNodeInFlow _ | UMultiNodeOutFlow _ | UMultiEdgeFlow _ => true
  | _ => false
  end.

(** How full a storage is; one without room counts as full. *)
Definition proportion (v m : Q) : Q := if Qeq_bool m 0 then 1%Q else (v / m)%Q.

(** The flow of node number [i] according to what is recorded: for a storage,
    what is added to it. *)
Definition recorded_flow (a : added) (net : Network.network) (other_f : moment -> nat -> lmetric -> Q) (t i : nat) : Q :=
  match nth_error (net_nodes net) i, nth_error (map nb_name (ad_nodes a)) i with
  | Some n, Some u =>
      match n_type n with
      | TOutput => other_f After t (LmNode (UNodeInFlow u))
      | TStorage => other_f After t (LmNode (UNodeInFlow u)) - other_f After t (LmNode (UNodeOutFlow u))
      | _ => other_f After t (LmNode (UNodeOutFlow u))
      end
  | _, _ => 0
  end%Q.
