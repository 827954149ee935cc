(** Property C37: a built network is the declared one. *)
From Verif Require Import Base Calendar Network NetworkBuild NetworkSpec NetworkBuildLemmas.
Open Scope nat_scope.

(** Nodes keep their declared order, kind and limits, and list exactly the
    edges that touch them; the edge rules of each kind hold. *)
Theorem C37_nodes_as_declared : forall b net, build_network b = Ok net ->
  NoDup (map nb_name (b_nodes b)) /\
  length (net_nodes net) = length (b_nodes b) /\
  forall i nb n, nth_error (b_nodes b) i = Some nb -> nth_error (net_nodes net) i = Some n ->
    n_type n = nb_type nb /\ n_in n = in_edges net i /\ n_out n = out_edges net i /\
    degrees_ok (n_type n) (n_in n) (n_out n) /\
    (nb_type nb <> TStorage -> n_min n = nb_min nb /\ n_max n = nb_max nb) /\
    (nb_type nb = TStorage -> n_minv n = nb_minv nb /\ n_maxv n = nb_maxv nb /\ Some (n_init n) = nb_init nb) /\
    c_local (n_cost n) = Some (match nb_cost nb with Some c => c | None => MConst 0 end) /\
    c_agg (n_cost n) = nb_cost_agg nb.
Proof.
  intros b net H. split; [exact (proj1 (proj1 (build_network_inv b net) H))|]. exact (built_nodes b net H).
Qed.
Print Assumptions C37_nodes_as_declared.

(** Every edge joins the two nodes it names, in order, and never one node to itself. *)
Theorem C37_edges_as_declared : forall b net, build_network b = Ok net ->
  Forall2 (fun ue e => declared b (e_from e) (fst ue) /\ declared b (e_to e) (snd ue) /\ e_from e <> e_to e)
          (b_edges b) (net_edges net).
Proof. exact built_edges. Qed.
Print Assumptions C37_edges_as_declared.

(** A name looks up the node declared under it, and nothing else. *)
Theorem C37_names_resolve : forall b net u i, build_network b = Ok net ->
  (get_node_index_by_name b u = Some i <-> declared b i u).
Proof. exact lookup_declared. Qed.
Print Assumptions C37_names_resolve.

(** Aggregated nodes and virtual storages refer to the nodes they name. *)
Theorem C37_references_as_declared : forall b net, build_network b = Ok net ->
  Forall2 (fun ab a => Forall2 (Forall2 (fun u i => declared b i u)) (ab_nodes ab) (a_nodes a) /\
                       a_min a = ab_min ab /\ a_max a = ab_max ab /\ a_rel a = ab_rel ab)
          (b_aggs b) (net_aggs net) /\
  Forall2 (fun vb v => Forall2 (fun u i => declared b i u) (vb_nodes vb) (v_nodes v) /\
                       v_factors v = match vb_factors vb with Some l => l | None => repeat 1%Q (length (vb_nodes vb)) end /\
                       v_init v = vb_init vb /\ v_minv v = vb_minv vb /\ v_maxv v = vb_maxv vb /\
                       v_reset v = vb_reset vb /\ v_reset_volume v = vb_reset_volume vb /\
                       v_window v = vb_window vb /\ v_period v = vb_period vb /\ v_cost v = vb_cost vb)
          (b_vss b) (net_vss net) /\
  (forall i n k, nth_error (net_nodes net) i = Some n ->
     (In k (c_vs (n_cost n)) <-> exists v, nth_error (net_vss net) k = Some v /\ In i (v_nodes v))).
Proof.
  intros b net H. split; [exact (built_agg_refs b net H)|].
  split; [exact (built_vs_refs b net H) | exact (built_vs_backrefs b net H)].
Qed.
Print Assumptions C37_references_as_declared.

(** Every built network is well formed (used by the LP properties). *)
Theorem C37_built_well_formed : forall b net, build_network b = Ok net -> wf_network net.
Proof. exact build_network_wf. Qed.
Print Assumptions C37_built_well_formed.

(** Exactly the valid declarations build; the others are rejected with an error, never a panic. *)
Theorem C37_builds_iff_valid : forall b,
  ((exists net, build_network b = Ok net) <-> valid_declaration b) /\ build_network b <> Panic.
Proof. intros b. split; [apply build_iff_valid | apply build_not_Panic]. Qed.
Print Assumptions C37_builds_iff_valid.

Definition nm (s : string) : uname := (s, None).
Definition C37_builder : net_builder :=
  mkNetB [mkNb (nm "catchment") TInput None None None (Some (MDyn 0)) None None None;
          mkNb (nm "res") TStorage (Some (MConst (-1))) None None None (Some (IVProportional (1#2))) None (Some (MConst 100));
          mkNb (nm "river") TLink None None (Some (MConst 2)) None None None None;
          mkNb (nm "demand") TOutput (Some (MConst (-10))) None None (Some (MConst 5)) None None None;
          mkNb (nm "sea") TOutput None None None None None None None]
         [(nm "catchment", nm "res"); (nm "res", nm "river"); (nm "res", nm "demand"); (nm "river", nm "sea")]
         [mkAb (nm "agg") [[nm "river"]; [nm "demand"]] None (Some (MConst 6)) None]
         [mkVb (nm "licence") [nm "demand"] None (IVAbsolute 50) None (Some (MConst 50)) ResetNever ResetInitial None AlwaysActive None].
Example C37_example : exists net, build_network C37_builder = Ok net /\
  n_in (nth 1 (net_nodes net) (nth 0 (net_nodes net) (mkNode TLink [] [] None None None None (IVAbsolute 0) (mkCost None [] None)))) = [0] /\
  map (fun n => n_out n) (net_nodes net) = [[0]; [1; 2]; [3]; []; []] /\
  map (fun n => c_vs (n_cost n)) (net_nodes net) = [[]; []; []; [0]; []] /\
  get_node_index_by_name C37_builder (nm "demand") = Some 3.
Proof. eexists. split; [vm_compute; reflexivity|]. vm_compute. repeat split. Qed.
Example C37_duplicate_rejected : exists e,
  build_network (mkNetB (b_nodes C37_builder ++ b_nodes C37_builder) (b_edges C37_builder) [] []) = Err e.
Proof. eexists. vm_compute. reflexivity. Qed.
