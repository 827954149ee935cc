(** The network a solver sees: nodes, edges, aggregated nodes and virtual
    storage nodes, the values read from the state at one time-step, and the
    flow/volume limits and costs derived from them.

    Numbers: an [f64] is an exact rational [Q]; rounding, NaN and infinities
    are not modelled except where a definition says so. *)
From Verif Require Import Base Calendar.
From Coq Require Export QArith Qminmax Qabs Lqa.
Open Scope Q_scope.

(** [f64::MAX] = (2^53 - 1) * 2^971. *)
Definition F64_MAX : Q := inject_Z ((2 ^ 53 - 1) * 2 ^ 971)%Z.

(** Rust's [f64::max]/[f64::min] on numbers. *)
Definition fmax (a b : Q) : Q := if Qle_bool a b then b else a.
Definition fmin (a b : Q) : Q := if Qle_bool a b then a else b.

(** [iter().sum::<f64>()].  The code adds left to right; the order is
    irrelevant for rationals. *)
Definition qsum (l : list Q) : Q := fold_right Qplus 0 l.

(** metric.rs [MetricF64], reduced to what the solver can tell apart: a metric
    whose value is known at setup ([try_get_constant_value] returns [Some]) or
    one that is looked up in the state each time-step.  The look-up itself (a
    parameter, node, edge, ... value) is the number [k] in an environment. *)
Inductive metric := MConst (q : Q) | MDyn (k : nat).

Definition env := nat -> Q.

(** [MetricF64::get_value].  Simplification: a failing look-up aborts the
    time-step in the code; it is not modelled here. *)
Definition metric_value (e : env) (m : metric) : Q :=
  match m with MConst q => q | MDyn k => e k end.

(** [MetricF64::try_get_constant_value]. *)
Definition metric_const (m : metric) : option Q :=
  match m with MConst q => Some q | MDyn _ => None end.

(** node.rs:435-441 [NodeType]. *)
Inductive node_type := TInput | TOutput | TLink | TStorage.

(** node.rs [CostAggFunc] and 898-904 [NodeCost]. *)
Inductive cost_agg := CSum | CMax | CMin.
Record node_cost := mkCost {
  c_local : option metric;
  c_vs : list nat;            (* virtual storage nodes that use this node *)
  c_agg : option cost_agg }.

(** node.rs:1038-1067 [StorageInitialVolume]. *)
Inductive init_volume :=
| IVAbsolute (q : Q)
| IVProportional (q : Q)
| IVDistAbsolute (absolute : Q) (prior_max : metric)
| IVDistProportional (total : metric) (proportion : Q) (prior_max : metric).

(** node.rs:427-433 [Node] with the fields of its four variants
    (946-951, 977-982, 1008-1014, 1147-1155).  [n_in]/[n_out] are the incoming
    and outgoing edge indices ([Input] has no incoming list, [Output] no
    outgoing list: they are empty here).  [n_min]/[n_max] are the flow limits
    of a non-storage node; [n_minv]/[n_maxv]/[n_init] belong to storages. *)
Record node := mkNode {
  n_type : node_type;
  n_in : list nat;
  n_out : list nat;
  n_min : option metric;
  n_max : option metric;
  n_minv : option metric;
  n_maxv : option metric;
  n_init : init_volume;
  n_cost : node_cost }.

(** edge.rs:18-23 [Edge]; the index is the position in [net_edges]. *)
Record edge := mkEdge { e_from : nat; e_to : nat }.

(** aggregated_node.rs:15-31 [Factors], 143-150 [Exclusivity], 201-208
    [Relationship], 246-252 [AggregatedNode]. *)
Inductive factors :=
| FProportion (fs : list metric)
| FRatio (fs : list metric)
| FCoefficients (fs : list metric) (rhs : option metric).
Inductive relationship :=
| RFactored (f : factors)
| RExclusive (min_active max_active : nat).
Record agg_node := mkAgg {
  a_nodes : list (list nat);
  a_min : option metric;
  a_max : option metric;
  a_rel : option relationship }.

(** virtual_storage.rs:290-315 and 366-377. *)
Inductive vs_reset := ResetNever | ResetDayOfYear (day month : Z) | ResetMonths (months : Z).
Inductive vs_reset_volume := ResetInitial | ResetMax.
Inductive vs_period :=
| AlwaysActive
| ActivePeriod (start_day start_month end_day end_month : Z).
Record vs_node := mkVs {
  v_nodes : list nat;
  v_factors : list Q;
  v_init : init_volume;
  v_minv : option metric;
  v_maxv : option metric;
  v_reset : vs_reset;
  v_reset_volume : vs_reset_volume;
  v_window : option nat;      (* NonZeroUsize *)
  v_period : vs_period;
  v_cost : option metric }.

(** network.rs [Network], the parts a solver uses. *)
Record network := mkNet {
  net_nodes : list node;
  net_edges : list edge;
  net_aggs : list agg_node;
  net_vss : list vs_node }.

(** virtual_storage.rs:318-341 [VirtualStorageActivePeriod::is_active]. *)
Definition vs_is_active (p : vs_period) (d : date) : bool :=
  match p with
  | AlwaysActive => true
  | ActivePeriod sd sm ed em =>
      let after_start :=
        ((sm <? d_month d) || ((d_month d =? sm) && (sd <=? d_day d)))%Z%bool in
      let before_end :=
        ((d_month d <? em) || ((d_month d =? em) && (d_day d <=? ed)))%Z%bool in
      if ((sm <? em) || ((sm =? em) && (sd <=? ed)))%Z%bool
      then andb after_start before_end
      else orb after_start before_end
  end.

(** virtual_storage.rs:467-469 [iter_nodes_with_factors]: [zip] stops at the
    shorter list. *)
Definition vs_terms (v : vs_node) : list (nat * Q) := combine (v_nodes v) (v_factors v).

(** The part of [State] and [Timestep] the solver reads: metric values, the
    current volume of each storage and virtual storage, the date and the
    number of days of the time-step. *)
Record lp_state := mkSt {
  st_env : env;
  st_volume : nat -> Q;
  st_vs_volume : nat -> Q;
  st_date : date;
  st_days : Q }.

(** node.rs:813-865 [FlowConstraints]; 881-895 [StorageConstraints]. *)
Definition get_min (e : env) (m : option metric) : Q :=
  match m with None => 0 | Some m => metric_value e m end.
Definition get_max (e : env) (m : option metric) : Q :=
  match m with None => F64_MAX | Some m => metric_value e m end.
Definition get_const_min (m : option metric) : option Q :=
  match m with None => Some 0 | Some m => metric_const m end.
Definition get_const_max (m : option metric) : option Q :=
  match m with None => Some F64_MAX | Some m => metric_const m end.

(** node.rs:454-474 [NodeBounds]. *)
Inductive node_bounds :=
| BFlow (min_flow max_flow : Q)
| BVolume (available missing : Q).

(** node.rs:660-691 [Node::get_const_bounds]. *)
Definition get_const_bounds (n : node) : option (Q * Q) :=
  match n_type n with
  | TStorage => None
  | _ => match get_const_min (n_min n), get_const_max (n_max n) with
         | Some lo, Some hi => Some (lo, hi)
         | _, _ => None
         end
  end.

(** node.rs:694-717 [Node::get_bounds]; [i] is the node's index. *)
Definition get_bounds (s : lp_state) (i : nat) (n : node) : node_bounds :=
  match n_type n with
  | TStorage =>
      let available := st_volume s i - get_min (st_env s) (n_minv n) in
      let missing := get_max (st_env s) (n_maxv n) - st_volume s i in
      BVolume available missing
  | _ => BFlow (get_min (st_env s) (n_min n)) (get_max (st_env s) (n_max n))
  end.

(** virtual_storage.rs:481-491 [get_available_volume_bounds]. *)
Definition vs_available_missing (s : lp_state) (i : nat) (v : vs_node) : Q * Q :=
  let min_vol := get_min (st_env s) (v_minv v) in
  let max_vol := get_max (st_env s) (v_maxv v) in
  let current := st_vs_volume s i in
  (fmax (current - min_vol) 0, fmax (max_vol - current) 0).

(** virtual_storage.rs:402-407 [get_cost]. *)
Definition vs_cost (e : env) (v : vs_node) : Q :=
  match v_cost v with None => 0 | Some m => metric_value e m end.

(** node.rs:907-942 [NodeCost::get_cost].  Simplification: a virtual storage
    index that does not exist (an [Err] in the code, excluded by the network
    builder) contributes nothing. *)
Definition get_cost (net : network) (e : env) (c : node_cost) : Q :=
  let cost := match c_local c with None => 0 | Some m => metric_value e m end in
  let vs_costs := flat_map (fun i => match nth_error (net_vss net) i with
                                     | Some v => [vs_cost e v]
                                     | None => []
                                     end) (c_vs c) in
  match c_agg c with
  | None => cost
  | Some CSum => fold_left Qplus vs_costs cost
  | Some CMax => fold_left fmax vs_costs cost
  | Some CMin => fold_left fmin vs_costs cost
  end.

(** node.rs:719-726 / 728-735. *)
Definition outgoing_cost (net : network) (e : env) (n : node) : Q :=
  let c := get_cost net e (n_cost n) in
  match n_type n with
  | TInput => c
  | TLink => c / 2
  | TOutput => c
  | TStorage => - c
  end.
Definition incoming_cost (net : network) (e : env) (n : node) : Q :=
  let c := get_cost net e (n_cost n) in
  match n_type n with
  | TInput => c
  | TLink => c / 2
  | TOutput => c
  | TStorage => c
  end.
