(** Building a network from its declaration: network.rs [NetworkBuilder] and
    the [build] methods of the node builders. *)
From Verif Require Import Base Calendar Network.
Open Scope nat_scope.

(** node.rs:740-743 [UnresolvedNode]: a name and an optional sub-name. *)
Definition uname := (string * option string)%type.
Definition uname_eqb (a b : uname) : bool :=
  String.eqb (fst a) (fst b) &&
  match snd a, snd b with
  | Some x, Some y => String.eqb x y
  | None, None => true
  | _, _ => false
  end.

(** node.rs:72-82 [NodeBuilder].  Metrics are already resolved here. *)
Record node_builder := mkNb {
  nb_name : uname;
  nb_type : node_type;
  nb_cost : option metric;
  nb_cost_agg : option cost_agg;
  nb_min : option metric;
  nb_max : option metric;
  nb_init : option init_volume;
  nb_minv : option metric;
  nb_maxv : option metric }.

(** aggregated_node.rs:556-562 [AggregatedNodeBuilder]. *)
Record agg_builder := mkAb {
  ab_name : uname;
  ab_nodes : list (list uname);
  ab_min : option metric;
  ab_max : option metric;
  ab_rel : option relationship }.

(** virtual_storage.rs:38-50 [VirtualStorageNodeBuilder]. *)
Record vs_builder := mkVb {
  vb_name : uname;
  vb_nodes : list uname;
  vb_factors : option (list Q);
  vb_init : init_volume;
  vb_minv : option metric;
  vb_maxv : option metric;
  vb_reset : vs_reset;
  vb_reset_volume : vs_reset_volume;
  vb_window : option nat;
  vb_period : vs_period;
  vb_cost : option metric }.

(** network.rs:1828-1837 [NetworkBuilder], without parameters, aggregated
    storages, recorders and metric sets. *)
Record net_builder := mkNetB {
  b_nodes : list node_builder;
  b_edges : list (uname * uname);
  b_aggs : list agg_builder;
  b_vss : list vs_builder }.

(** network.rs:1761-1822 and node.rs:44-69. *)
Inductive build_error :=
| DuplicateNodeName (u : uname)
| DuplicateEdge (e : uname * uname)
| NodeNotFoundForEdge (u : uname)
| NodeConnectToSelf (u : uname)
| DuplicateAggregatedNodeName (u : uname)
| NodeNotFoundForVirtualStorage (u : uname)
| NodeIndexNotFound (u : uname)
| NoOutgoingEdges (u : uname)
| NoIncomingEdges (u : uname)
| UnexpectedOutgoingEdges (u : uname)
| UnexpectedIncomingEdges (u : uname)
| InitialVolumeNotDefined (u : uname).

Definition bres := res build_error.

(** A [HashMap] is an association list; [insert] of a new key appends. *)
Fixpoint assoc {K V} (eqb : K -> K -> bool) (k : K) (m : list (K * V)) : option V :=
  match m with
  | [] => None
  | (k', v) :: r => if eqb k k' then Some v else assoc eqb k r
  end.

(** The loop of network.rs:1891-1906 [node_index_map], 1908-1922
    [edge_index_map], 1961-1976 [aggregated_node_map] and 1997-2012
    [virtual_storage_node_map]: number the keys, reject a repeated one. *)
Fixpoint index_map {K} (eqb : K -> K -> bool) (err : K -> build_error)
    (i : nat) (keys : list K) (m : list (K * nat)) : bres (list (K * nat)) :=
  match keys with
  | [] => Ok m
  | k :: r =>
      match assoc eqb k m with
      | Some _ => Err (err k)
      | None => index_map eqb err (S i) r (m ++ [(k, i)])
      end
  end.

Definition uedge_eqb (a b : uname * uname) : bool :=
  uname_eqb (fst a) (fst b) && uname_eqb (snd a) (snd b).

(** [HashMap<NodeIndex, Vec<EdgeIndex>>] and [entry(k).or_default().push(v)]. *)
Fixpoint push_at (k v : nat) (m : list (nat * list nat)) : list (nat * list nat) :=
  match m with
  | [] => [(k, [v])]
  | (k', vs) :: r => if k =? k' then (k', vs ++ [v]) :: r else (k', vs) :: push_at k v r
  end.
Definition get_list (k : nat) (m : list (nat * list nat)) : list nat :=
  match assoc Nat.eqb k m with Some l => l | None => [] end.

(** network.rs:1924-1959 [node_edge_maps]: incoming and outgoing edges. *)
Fixpoint node_edge_maps (ix : list (uname * nat)) (i : nat) (es : list (uname * uname))
    (inc out : list (nat * list nat)) : bres (list (nat * list nat) * list (nat * list nat)) :=
  match es with
  | [] => Ok (inc, out)
  | (f, t) :: r =>
      match assoc uname_eqb f ix with
      | None => Err (NodeNotFoundForEdge f)
      | Some fi =>
          match assoc uname_eqb t ix with
          | None => Err (NodeNotFoundForEdge t)
          | Some ti =>
              if fi =? ti then Err (NodeConnectToSelf t)
              else node_edge_maps ix (S i) r (push_at ti i inc) (push_at fi i out)
          end
      end
  end.

(** network.rs:2016-2037 [node_associated_vs_nodes]. *)
Fixpoint vs_assoc_nodes (ix : list (uname * nat)) (vi : nat) (us : list uname)
    (m : list (nat * list nat)) : bres (list (nat * list nat)) :=
  match us with
  | [] => Ok m
  | u :: r => match assoc uname_eqb u ix with
              | None => Err (NodeNotFoundForVirtualStorage u)
              | Some i => vs_assoc_nodes ix vi r (push_at i vi m)
              end
  end.
Fixpoint vs_assoc_all (ix : list (uname * nat)) (vi : nat) (vss : list vs_builder)
    (m : list (nat * list nat)) : bres (list (nat * list nat)) :=
  match vss with
  | [] => Ok m
  | v :: r => rbind (vs_assoc_nodes ix vi (vb_nodes v) m) (fun m' => vs_assoc_all ix (S vi) r m')
  end.

(** node.rs:335-424 [NodeBuilder::build].  [index] not found cannot happen
    (the map was made from the same list) but is kept. *)
Definition build_node (ix : list (uname * nat)) (inc out vsm : list (nat * list nat))
    (nb : node_builder) : bres node :=
  match assoc uname_eqb (nb_name nb) ix with
  | None => Err (NodeIndexNotFound (nb_name nb))
  | Some i =>
      let cost := mkCost (Some (match nb_cost nb with Some c => c | None => MConst 0 end))
                         (get_list i vsm) (nb_cost_agg nb) in
      let incoming := get_list i inc in
      let outgoing := get_list i out in
      match nb_type nb with
      | TInput =>
          if length outgoing =? 0 then Err (NoOutgoingEdges (nb_name nb))
          else if negb (length incoming =? 0) then Err (UnexpectedIncomingEdges (nb_name nb))
          else Ok (mkNode TInput [] outgoing (nb_min nb) (nb_max nb) None None (IVAbsolute 0) cost)
      | TOutput =>
          if negb (length outgoing =? 0) then Err (UnexpectedOutgoingEdges (nb_name nb))
          else if length incoming =? 0 then Err (NoIncomingEdges (nb_name nb))
          else Ok (mkNode TOutput incoming [] (nb_min nb) (nb_max nb) None None (IVAbsolute 0) cost)
      | TLink =>
          if length outgoing =? 0 then Err (NoOutgoingEdges (nb_name nb))
          else if length incoming =? 0 then Err (NoIncomingEdges (nb_name nb))
          else Ok (mkNode TLink incoming outgoing (nb_min nb) (nb_max nb) None None (IVAbsolute 0) cost)
      | TStorage =>
          match nb_init nb with
          | None => Err (InitialVolumeNotDefined (nb_name nb))
          | Some iv => Ok (mkNode TStorage incoming outgoing None None (nb_minv nb) (nb_maxv nb) iv cost)
          end
      end
  end.

Definition resolve (ix : list (uname * nat)) (u : uname) : bres nat :=
  match assoc uname_eqb u ix with
  | None => Err (NodeIndexNotFound u)
  | Some i => Ok i
  end.

(** aggregated_node.rs:607-686 [AggregatedNodeBuilder::build]. *)
Definition build_agg (ix : list (uname * nat)) (ab : agg_builder) : bres agg_node :=
  rbind (rmap (fun us => rmap (resolve ix) us) (ab_nodes ab)) (fun ns =>
  Ok (mkAgg ns (ab_min ab) (ab_max ab) (ab_rel ab))).

(** virtual_storage.rs:239-287 [VirtualStorageNodeBuilder::build]. *)
Definition build_vs (ix : list (uname * nat)) (vb : vs_builder) : bres vs_node :=
  let fs := match vb_factors vb with
            | Some l => l
            | None => repeat 1%Q (length (vb_nodes vb))
            end in
  rbind (rmap (resolve ix) (vb_nodes vb)) (fun ns =>
  Ok (mkVs ns fs (vb_init vb) (vb_minv vb) (vb_maxv vb) (vb_reset vb) (vb_reset_volume vb)
           (vb_window vb) (vb_period vb) (vb_cost vb))).

(** network.rs:2155-2182: construct the edges. *)
Definition build_edge (ix : list (uname * nat)) (e : uname * uname) : bres edge :=
  match assoc uname_eqb (fst e) ix with
  | None => Err (NodeNotFoundForEdge (fst e))
  | Some fi => match assoc uname_eqb (snd e) ix with
               | None => Err (NodeNotFoundForEdge (snd e))
               | Some ti => Ok (mkEdge fi ti)
               end
  end.

(** network.rs:2055-2086 [build_resolution_map] followed by 2089-2224 [build]. *)
Definition build_network (b : net_builder) : bres network :=
  rbind (index_map uname_eqb DuplicateNodeName 0 (map nb_name (b_nodes b)) []) (fun ix =>
  rbind (index_map uedge_eqb DuplicateEdge 0 (b_edges b) []) (fun _ =>
  rbind (node_edge_maps ix 0 (b_edges b) [] []) (fun io =>
  rbind (index_map uname_eqb DuplicateAggregatedNodeName 0 (map ab_name (b_aggs b)) []) (fun _ =>
  rbind (index_map uname_eqb DuplicateAggregatedNodeName 0 (map vb_name (b_vss b)) []) (fun _ =>
  rbind (vs_assoc_all ix 0 (b_vss b) []) (fun vsm =>
  rbind (rmap (build_node ix (fst io) (snd io) vsm) (b_nodes b)) (fun nodes =>
  rbind (rmap (build_agg ix) (b_aggs b)) (fun aggs =>
  rbind (rmap (build_vs ix) (b_vss b)) (fun vss =>
  rbind (rmap (build_edge ix) (b_edges b)) (fun edges =>
  Ok (mkNet nodes edges aggs vss))))))))))).

(** network.rs:1117-1139 [get_node_index_by_name]: the first node with the
    given name and sub-name.  A built node keeps the name of its builder and,
    as [node_meta.index()], its position; the model's nodes carry no name, so
    the lookup runs over the builder's names. *)
Definition get_node_index_by_name (b : net_builder) (u : uname) : option nat :=
  position (uname_eqb u) (map nb_name (b_nodes b)).
