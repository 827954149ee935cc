(** The metrics of virtual nodes in a model file, and metrics that read volumes.
    Sources: pywr-schema/src/nodes/virtual_nodes/aggregated.rs 211-230, 359-377;
    virtual_storage.rs 302-321; pywr-core/src/metric.rs 200-318. *)
From Verif Require Import Base Calendar Network NetworkBuild NetworkSpec Lp LpSpec NetState SchemaNodes SchemaMetrics.
Local Open Scope nat_scope.

(** metric.rs 458-496 [UnresolvedMetricF64], the cases virtual nodes make. *)
Inductive vmetric :=
| VmAggInFlow (u : uname) | VmAggOutFlow (u : uname)
| VmAggVolume (u : uname) | VmAggPropVolume (u : uname)
| VmVsVolume (u : uname) | VmVsPropVolume (u : uname).

(** [VirtualNode::create_metric]: aggregated.rs 211-230 (default: outflow),
    359-377 (default: volume); virtual_storage.rs 302-321 (default: volume). *)
Definition vnode_metric (v : vnode) (t : option attribute) : SchemaNodes.sres vmetric :=
  match v with
  | VAggregated name _ _ _ _ =>
      match attribute_or AtOutflow t with
      | AtOutflow => Ok (VmAggOutFlow (whole name))
      | AtInflow => Ok (VmAggInFlow (whole name))
      | k => Err (AttributeNotSupported k)
      end
  | VAggStorage name _ =>
      match attribute_or AtVolume t with
      | AtVolume => Ok (VmAggVolume (whole name))
      | AtPropVolume => Ok (VmAggPropVolume (whole name))
      | k => Err (AttributeNotSupported k)
      end
  | VStorage name _ _ _ _ _ _ _ _ _ =>
      match attribute_or AtVolume t with
      | AtVolume => Ok (VmVsVolume (whole name))
      | AtPropVolume => Ok (VmVsPropVolume (whole name))
      | k => Err (AttributeNotSupported k)
      end
  end.

(** network.rs 2055-2086 [build_resolution_map]: names to indices. *)
Definition agg_index (a : added) (u : uname) : option nat := position (fun ab => uname_eqb (ab_name ab) u) (ad_aggs a).
Definition vs_index (a : added) (u : uname) : option nat := position (fun vb => uname_eqb (vb_name vb) u) (ad_vss a).
Definition stores_of (a : added) (us : list uname) : option (list nat) :=
  all_some (map (get_node_index_by_name (declaration a)) us).
Definition agg_stores (a : added) (u : uname) : option (list nat) :=
  match find (fun p => uname_eqb (fst p) u) (ad_agg_storages a) with Some p => stores_of a (snd p) | None => None end.

(** metric.rs 200-229: the total inflow, or outflow, over all nodes of the
    groups, in a step that ended with the edge flows [f]. *)
Definition vflow_value (a : added) (net : network) (f : nat -> Q) (m : vmetric) : option Q :=
  let over (g : nat -> Q) u :=
    match agg_index a u with
    | Some k => option_map (fun ag => qsum (map g (concat (a_nodes ag)))) (nth_error (net_aggs net) k)
    | None => None
    end in
  match m with
  | VmAggInFlow u => over (inflow net f) u
  | VmAggOutFlow u => over (outflow net f) u
  | _ => None
  end.

(** metric.rs 191-199 and 257-290: volumes. *)
Definition volume_value (a : added) (st : net_state) (m : umetric) : option (NetState.sres Q) :=
  match m with
  | UNodeVolume u => option_map (get_node_volume st) (get_node_index_by_name (declaration a) u)
  | UNodeMaxVolume u => option_map (get_node_max_volume st) (get_node_index_by_name (declaration a) u)
  | UAggStorageVolume u => option_map (agg_storage_volume st) (agg_stores a u)
  | UAggStoragePropVolume u => option_map (agg_storage_proportional st) (agg_stores a u)
  | _ => None
  end.
Definition vvolume_value (a : added) (st : net_state) (m : vmetric) : option (NetState.sres Q) :=
  match m with
  | VmAggVolume u => option_map (agg_storage_volume st) (agg_stores a u)
  | VmAggPropVolume u => option_map (agg_storage_proportional st) (agg_stores a u)
  | VmVsVolume u => option_map (get_vs_volume st) (vs_index a u)
  | VmVsPropVolume u => option_map (get_vs_proportional_volume st) (vs_index a u)
  | _ => None
  end.
