(** How the metrics that schema nodes and edges make are evaluated in a built
    network.  Source: pywr-core/src/metric.rs. *)
From Verif Require Import Base Calendar Network NetworkBuild NetworkSpec Lp LpSpec SchemaNodes.
Local Open Scope nat_scope.

(** network.rs 2054-2062 [build_resolution_map]: edge names to indices (names
    are distinct, [edge_index_map] checks that). *)
Definition get_edge_index_by_name (b : net_builder) (e : uname * uname) : option nat :=
  position (uedge_eqb e) (b_edges b).

Fixpoint all_some {A} (l : list (option A)) : option (list A) :=
  match l with
  | [] => Some []
  | None :: _ => None
  | Some x :: r => option_map (cons x) (all_some r)
  end.

(** metric.rs 568-783 [UnresolvedMetricF64::resolve] followed by 200-318
    [MetricF64::get_value], for metrics that read flows, in a step that ended
    with the edge flows [f]: what a node's state reports as its inflow and
    outflow is [inflow] and [outflow] (theorem C15_node_flows).  [None]: the
    metric does not resolve (a name is unknown) or is of another kind. *)
Definition flow_value (b : net_builder) (net : network) (f : nat -> Q) (m : umetric) : option Q :=
  match m with
  | UConst q => Some q
  | UNodeInFlow u => option_map (inflow net f) (get_node_index_by_name b u)
  | UNodeOutFlow u => option_map (outflow net f) (get_node_index_by_name b u)
  | UMultiNodeInFlow us =>
      option_map (fun is => qsum (map (inflow net f) is)) (all_some (map (get_node_index_by_name b) us))
  | UMultiNodeOutFlow us =>
      option_map (fun is => qsum (map (outflow net f) is)) (all_some (map (get_node_index_by_name b) us))
  | UMultiEdgeFlow es =>
      option_map (fun ks => qsum (map f ks)) (all_some (map (get_edge_index_by_name b) es))
  | _ => None
  end.
