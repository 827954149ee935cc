(** The parts of a network at work together: in each time-step parameters are
    evaluated, the nodes are prepared, the solver reads the metrics of the nodes
    and finds flows, these are written to the state, and what reads the network
    reads this state.  ParamEval.v has the order of these phases and leaves the
    nodes and the solver open; NetState.v and Lp.v have the nodes and the solver
    and leave the values of metrics open.  Sources: pywr-core/src/network.rs
    758-814 [step], 995-1034 [compute_components] and 1043-1074 [after];
    solvers/highs/mod.rs 367-437 [solve], and those of the other solvers.  How these
    hand the programme over differs and is left out here: HiGHS limits updated
    coefficients to 1e10 in size and runs again after an unknown status, CBC
    refuses updated coefficients, and microlp builds its problem anew (Backends.v). *)
From Coq Require Import QArith.
From Verif Require Import Base Calendar Timestep ParamBuild ParamEval Network NetworkBuild NetworkSpec Lp NetState Formulas SchemaNodes SchemaMetrics
  SchemaVirtual MetricSets SchemaParams ParamTiers.
Local Open Scope list_scope.
Local Open Scope nat_scope.

(** What can go wrong in a time-step. *)
Inductive run_error :=
| ECalc (e : calc_error) | EState (e : state_error) | EUpdate (e : update_error) | ENotANumber | ENoSolution | ENotResolved.
Definition in_state {A} (r : NetState.sres A) : res run_error A :=
  match r with Ok a => Ok a | Err e => Err (EState e) | Panic => Panic end.

(** The state of the network and that of the solver: its programme, and the
    states for which it has been updated so far. *)
Record whole := mkWhole { w_state : net_state; w_built : built; w_seen : list lp_state }.

Section Whole.
Context {X : Type}.
Variables (a : added) (net : Network.network).
(** The solver returns any solution; it may depend on what it solved before. *)
Variable solver : list lp_state -> lp -> option (nat -> Q).

(** ** Metrics of nodes *)

(** The numbers of the metrics by which initial and maximum volumes are given:
    node.rs 1147-1155 [StorageNode], virtual_storage.rs 366-377.  They are
    [SimpleMetricF64]s, read when the nodes are prepared. *)
Definition key_of (m : Network.metric) : list nat := match m with MDyn k => [k] | MConst _ => [] end.
Definition keys_of (m : option Network.metric) : list nat := match m with Some m => key_of m | None => [] end.
Definition init_keys (i : init_volume) : list nat :=
  match i with IVDistAbsolute _ p => key_of p | IVDistProportional t _ p => key_of t ++ key_of p | _ => [] end.
Definition volume_keys : list nat :=
  flat_map (fun n => keys_of (n_minv n) ++ keys_of (n_maxv n) ++ init_keys (n_init n)) (net_nodes net) ++
  flat_map (fun v => keys_of (v_minv v) ++ keys_of (v_maxv v) ++ init_keys (v_init v)) (net_vss net).

(** metric.rs 182-322 [MetricF64::get_value]: what is read is a number, or the
    time-step fails. *)
Definition number_read (r : res run_error (pvalue X)) : res run_error Q :=
  match r with Ok (PvF q) => Ok q | Ok _ => Err ENotANumber | Err e => Err e | Panic => Panic end.
(** The values of the metrics [ks]. *)
Definition env_of (ks : list nat) (qs : list Q) : env :=
  fun k => match assoc Nat.eqb k (combine ks qs) with Some q => q | None => 0%Q end.

(** network.rs 1009-1024: nodes and virtual storages before the solve. *)
Definition prepare (t : timestep) (rs : list (res run_error (pvalue X))) (w : whole) : res run_error whole :=
  rbind (rmap number_read rs) (fun qs =>
  rbind (in_state (before_phase net (env_of volume_keys qs) t (w_state w))) (fun st =>
  Ok (mkWhole st (w_built w) (w_seen w)))).

(** solvers/highs/mod.rs 367-437 [solve]: the programme is updated, solved, and
    the flows written to the state (network.rs 791-794); state/mod.rs 1146-1168
    [complete].  Simplification: every metric of a node is read once and before
    the programme is updated; in the code each is read where it is used. *)
Definition solve_step (t : timestep) (rs : list (res run_error (pvalue X))) (w : whole) : res run_error whole :=
  rbind (rmap number_read rs) (fun qs =>
  let e := env_of (seq 0 (length qs)) qs in
  let s := lp_state_of (w_state w) e t in
  match update net (w_built w) s with
  | Ok b =>
      match solver (w_seen w) (bt_lp b) with
      | Some x =>
          rbind (in_state (after_solve net e t (edge_flow net x) (w_state w))) (fun st =>
          Ok (mkWhole st b (w_seen w ++ [s])))
      | None => Err ENoSolution
      end
  | Err e => Err (EUpdate e)
  | Panic => Panic
  end).

(** ** Metrics that read the network *)

Definition resolved {A} (o : option (NetState.sres A)) : res run_error A :=
  match o with Some r => in_state r | None => Err ENotResolved end.
Definition node_number (u : uname) : option nat := get_node_index_by_name (declaration a) u.

(** metric.rs 182-322 [get_value] and 568-783 [resolve]: flows and volumes. *)
Definition observe_node (st : net_state) (m : umetric) : res run_error Q :=
  match m with
  | UNodeInFlow u => resolved (option_map (get_in_flow st) (node_number u))
  | UNodeOutFlow u => resolved (option_map (get_out_flow st) (node_number u))
  | UNodePropVolume u => resolved (option_map (get_node_proportional_volume st) (node_number u))
  | UMultiNodeInFlow us =>
      resolved (option_map (fun is => rbind (rmap (get_in_flow st) is) (fun qs => Ok (qsum qs))) (all_some (map node_number us)))
  | UMultiNodeOutFlow us =>
      resolved (option_map (fun is => rbind (rmap (get_out_flow st) is) (fun qs => Ok (qsum qs))) (all_some (map node_number us)))
  | UMultiEdgeFlow es =>
      resolved (option_map (fun ks => rbind (rmap (get_edge_flow st) ks) (fun qs => Ok (qsum qs)))
                  (all_some (map (get_edge_index_by_name (declaration a)) es)))
  | _ => resolved (volume_value a st m)
  end.
Definition observe_virtual (st : net_state) (m : vmetric) : res run_error Q :=
  let over g u := match agg_index a u with Some k => option_map g (nth_error (net_aggs net) k) | None => None end in
  match m with
  | VmAggInFlow u => resolved (over (agg_node_in_flow st) u)
  | VmAggOutFlow u => resolved (over (agg_node_out_flow st) u)
  | _ => resolved (vvolume_value a st m)
  end.
Definition observe (st : net_state) (m : lmetric) : res run_error Q :=
  match m with
  | LmNode u | LmEdge u _ => observe_node st u
  | LmVirtual v => observe_virtual st v
  | _ => Err ENotResolved
  end.
(** What [observe] is about; a transfer reads another network. *)
Definition of_network (m : lmetric) : bool :=
  match m with LmNode _ | LmEdge _ _ | LmVirtual _ => true | _ => false end.

(** ** The whole *)

(** An evaluation of the network ([sem] of ParamEval.v) in which nodes, solver
    and the metrics on the network are those modelled here.  [b0] is the
    programme the solver starts with. *)
Record drives (cd : coding) (b0 : built) (sm : sem (pvalue X) (pint X) timestep whole run_error) : Prop := {
  dr_net0 : sm_net0 sm = mkWhole (NetState.initial_state net) b0 [];
  dr_before : forall t rs w, sm_nodes_before sm t rs w = prepare t rs w;
  dr_solve : forall t rs w, sm_solve sm t rs w = solve_step t rs w;
  dr_observe : forall w m, of_network m = true -> uref_f cd m = ParamBuild.UOther (cd_f cd m) ->
    sm_observe sm w (cd_f cd m) = match observe (w_state w) m with Ok q => Ok (PvF q) | Err e => Err e | Panic => Panic end }.

(** The metrics of the network: [ms] are those of the nodes (cost, limits,
    factors, volumes), by their numbers (network.rs 2102-2224). *)
Definition network_metrics (cd : coding) (ms : list lmetric) (nd : network_def) : Prop :=
  nd_solve nd = map (uref_f cd) ms /\
  nd_simple nd = map (fun k => uref_f cd (nth k ms (LmConst 0))) volume_keys /\
  (forall k, In k volume_keys -> k < length ms).

End Whole.
