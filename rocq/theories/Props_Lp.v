(** C09-C13: the linear programme solved at every time-step. *)
From Verif Require Import Base Calendar Network NetworkBuild NetworkSpec NetworkBuildLemmas Lp LpSpec
  LpColLemmas LpRowLemmas LpUpdateLemmas LpLemmas LpRelLemmas Props_Network.
Open Scope nat_scope.

Lemma solved_unfold net fm order ss s x : solved net fm order ss s x ->
  valid_order net order /\ exists b0 b V F, create fm order net = Ok b0 /\ created net fm order b0 V F /\
    update net b0 s = Ok b /\ feasible (bt_lp b) x.
Proof.
  intros (Ho & b0 & b & Hc & Hu & Hf). split; [exact Ho|]. destruct (create_props _ _ _ _ Hc) as (V & F & Hcr).
  exists b0, b, V, F. split; [exact Hc|]. split; [exact Hcr|]. split; [|exact Hf].
  exact (updates_last net ss s b0 b (created_ready _ _ _ _ _ _ Hcr) Hu).
Qed.

(** C09: at every link, what the solution puts in equals what it takes out,
    whatever rows and columns the programme was given and whatever time-steps
    came before. *)
Theorem C09_link_mass_balance : forall net fm order ss s x,
  wf_network net -> solved net fm order ss s x -> balanced net (edge_flow net x).
Proof.
  intros net fm order ss s x wf H. destruct (solved_unfold _ _ _ _ _ _ H) as (_ & b0 & b & V & F & _ & Hcr & Hu & Hf).
  exact (solved_balanced net wf fm order b0 V F Hcr s b Hu x Hf).
Qed.
Print Assumptions C09_link_mass_balance.

(** No edge carries a negative flow. *)
Theorem C09_edge_flows_non_negative : forall net fm order ss s x e,
  wf_network net -> solved net fm order ss s x -> e < length (net_edges net) -> (0 <= edge_flow net x e <= fm)%Q.
Proof.
  intros net fm order ss s x e wf H He. destruct (solved_unfold _ _ _ _ _ _ H) as (_ & b0 & b & V & F & _ & Hcr & Hu & Hf).
  exact (solved_edge net wf fm order b0 V F Hcr s b Hu x Hf e He).
Qed.
Print Assumptions C09_edge_flows_non_negative.

(** C10: every edge has a column of the programme. *)
Theorem C10_every_edge_has_a_column : forall net e, wf_network net -> e < length (net_edges net) ->
  cm_get (edge_columns net) e = Some (col_for_edge net e) /\ col_for_edge net e < cm_ncols (edge_columns net).
Proof. intros net e wf. apply edge_column_exists. exact wf. Qed.
Print Assumptions C10_every_edge_has_a_column.

(** Edges with one column have equal flows in every balanced assignment. *)
Theorem C10_shared_columns_are_equal_flows : forall net f e1 e2, wf_network net -> balanced net f ->
  e1 < length (net_edges net) -> e2 < length (net_edges net) -> col_for_edge net e1 = col_for_edge net e2 -> (f e1 == f e2)%Q.
Proof. intros net f e1 e2 wf Hb H1 H2 He. apply (same_balanced net f e1 e2 Hb). apply (same_column net wf); assumption. Qed.
Print Assumptions C10_shared_columns_are_equal_flows.

(** Without factors or exclusivity the programme always exists, ... *)
Theorem C10_programme_exists : forall net fm ss s, wf_network net -> net_edges net <> [] -> no_relationships net ->
  exists b0 b, create fm [] net = Ok b0 /\ updates net b0 (ss ++ [s]) = Ok b.
Proof.
  intros net fm ss s wf He Hno. destruct (create_succeeds net wf fm [] He Hno) as (b0 & Hb0).
  destruct (create_props _ _ _ _ Hb0) as (V & F & Hcr). exists b0.
  pose proof (created_ready _ _ _ _ _ _ Hcr) as Hr.
  assert (Hall : forall l b, updates net b0 l = Ok b -> forall r, exists b', updates net b r = Ok b').
  { intros l b Hl r. revert l b Hl. induction r as [|t r IH]; intros l b Hl; [exists b; reflexivity|].
    destruct (update_succeeds net fm b0 V F t Hcr Hno) as (b1 & Hb1). cbn [updates].
    rewrite (update_after_history net b0 l b t Hr Hl), Hb1. cbn [rbind].
    apply (IH (l ++ [t])). clear - Hl Hr Hb1. revert Hl.
    assert (Happ : forall l b2, updates net b2 l = Ok b -> updates net b2 (l ++ [t]) = update net b t).
    { clear. induction l as [|u l IH]; intros b2 H; cbn [updates app] in *.
      - injection H as ->. destruct (update net b t); reflexivity.
      - destruct (update net b2 u) as [b3| |]; try discriminate. cbn [rbind] in *. apply IH. exact H. }
    intros Hl. rewrite (Happ l b0 Hl), (update_after_history net b0 l b t Hr Hl). exact Hb1. }
  destruct (Hall [] b0 eq_refl (ss ++ [s])) as (b & Hb). exists b. auto.
Qed.
Print Assumptions C10_programme_exists.

(** ... every solution of it is an allocation that respects the model ... *)
Theorem C10_solutions_are_allocations : forall net fm ss s x, wf_network net -> no_relationships net -> (0 < st_days s)%Q ->
  solved net fm [] ss s x -> flows_ok net s fm (edge_flow net x).
Proof.
  intros net fm ss s x wf Hno Hd H. destruct (solved_unfold _ _ _ _ _ _ H) as (Ho & b0 & b & V & F & _ & Hcr & Hu & Hf).
  constructor.
  - exact (solved_edge net wf fm [] b0 V F Hcr s b Hu x Hf).
  - exact (solved_balanced net wf fm [] b0 V F Hcr s b Hu x Hf).
  - intros i n Hn. exact (solved_node net wf fm [] b0 V F Hcr s b Hu x Hf i n Hd Hn eq_refl).
  - exact (solved_agg net wf fm [] b0 V F Hcr s b Hu x Hf).
  - intros i v Hv. exact (solved_vs net wf fm [] b0 V F Hcr s b Hu x Hf i v Hd Hv).
Qed.
Print Assumptions C10_solutions_are_allocations.

(** ... and every allocation that respects the model is a solution of it
    (unless it needs a number beyond the solver's infinity). *)
Theorem C10_allocations_are_solutions : forall net fm ss s f, wf_network net -> net_edges net <> [] -> no_relationships net ->
  (0 < st_days s)%Q -> (0 <= fm)%Q -> flows_ok net s fm f -> totals_finite net fm f ->
  exists x, solved net fm [] ss s x /\ forall e, e < length (net_edges net) -> (edge_flow net x e == f e)%Q.
Proof.
  intros net fm ss s f wf He Hno Hd Hfm Hok Hfin.
  destruct (C10_programme_exists net fm ss s wf He Hno) as (b0 & b & Hb0 & Hb).
  destruct (create_props _ _ _ _ Hb0) as (V & F & Hcr).
  pose proof (updates_last net ss s b0 b (created_ready _ _ _ _ _ _ Hcr) Hb) as Hu.
  destruct (realise net wf fm [] b0 V F Hcr s b f Hd Hfm Hno eq_refl Hu Hok Hfin) as (x & Hx & Hxe).
  exists x. split; [|exact Hxe]. split.
  - split; [constructor|]. intros t. split; [intros []|]. intros (a & Ha & Hx' & _). unfold has_exclusivity in Hx'. rewrite (Hno a Ha) in Hx'. discriminate.
  - exists b0, b. auto.
Qed.
Print Assumptions C10_allocations_are_solutions.

(** C11: every node keeps to its current limits: the flow of inputs, outputs
    and links, the volume of storages (members of mutually exclusive sets are
    the subject of C39). *)
Theorem C11_node_limits : forall net fm order ss s x i n, wf_network net -> (0 < st_days s)%Q ->
  solved net fm order ss s x -> nth_error (net_nodes net) i = Some n -> ~ in_exclusive_set net i ->
  node_ok net s (edge_flow net x) i n.
Proof.
  intros net fm order ss s x i n wf Hd H Hn Hex. destruct (solved_unfold _ _ _ _ _ _ H) as (Ho & b0 & b & V & F & _ & Hcr & Hu & Hf).
  apply (solved_node net wf fm order b0 V F Hcr s b Hu x Hf i n Hd Hn). apply (no_bins net order i _ Ho). exact Hex.
Qed.
Print Assumptions C11_node_limits.

(** The total flow of an aggregated node keeps to its limits. *)
Theorem C11_aggregated_node_limits : forall net fm order ss s x a, wf_network net ->
  solved net fm order ss s x -> In a (net_aggs net) ->
  within_limits (st_env s) (a_min a) (a_max a) (group_flow net (edge_flow net x) (concat (a_nodes a))).
Proof.
  intros net fm order ss s x a wf H Ha. destruct (solved_unfold _ _ _ _ _ _ H) as (Ho & b0 & b & V & F & _ & Hcr & Hu & Hf).
  exact (solved_agg net wf fm order b0 V F Hcr s b Hu x Hf a Ha).
Qed.
Print Assumptions C11_aggregated_node_limits.

(** An active virtual storage is not charged beyond its limits. *)
Theorem C11_virtual_storage_limits : forall net fm order ss s x k v, wf_network net -> (0 < st_days s)%Q ->
  solved net fm order ss s x -> nth_error (net_vss net) k = Some v -> vs_ok net s (edge_flow net x) k v.
Proof.
  intros net fm order ss s x k v wf Hd H Hv. destruct (solved_unfold _ _ _ _ _ _ H) as (Ho & b0 & b & V & F & _ & Hcr & Hu & Hf).
  exact (solved_vs net wf fm order b0 V F Hcr s b Hu x Hf k v Hd Hv).
Qed.
Print Assumptions C11_virtual_storage_limits.

(** C12: the programme after an update - bounds, coefficients, objective - is
    the one a freshly built solver would get. *)
Theorem C12_no_trace_of_earlier_steps : forall net fm order b0 ss b s, create fm order net = Ok b0 ->
  updates net b0 ss = Ok b -> update net b s = update net b0 s.
Proof.
  intros net fm order b0 ss b s Hc Hu. destruct (create_props _ _ _ _ Hc) as (V & F & Hcr).
  exact (update_after_history net b0 ss b s (created_ready _ _ _ _ _ _ Hcr) Hu).
Qed.
Print Assumptions C12_no_trace_of_earlier_steps.

(** Hence what is feasible in a time-step is the same after any two histories. *)
Theorem C12_histories_are_indistinguishable : forall net fm order ss1 ss2 s x,
  solved net fm order ss1 s x ->
  (exists b0 b, create fm order net = Ok b0 /\ updates net b0 ss2 = Ok b) -> solved net fm order ss2 s x.
Proof.
  intros net fm order ss1 ss2 s x H (b0' & b2 & Hc' & Hu2). destruct (solved_unfold _ _ _ _ _ _ H) as (Ho & b0 & b & V & F & Hc & Hcr & Hu & Hf).
  rewrite Hc in Hc'. injection Hc' as <-. split; [exact Ho|]. exists b0, b. split; [exact Hc|]. split; [|exact Hf].
  assert (Happ : forall l b2 b3, updates net b3 l = Ok b2 -> updates net b3 (l ++ [s]) = update net b2 s).
  { clear. induction l as [|u l IH]; intros b2 b3 H; cbn [updates app] in *.
    - injection H as ->. destruct (update net b2 s); reflexivity.
    - destruct (update net b3 u) as [b4| |]; try discriminate. cbn [rbind] in *. apply IH. exact H. }
  rewrite (Happ ss2 b2 b0 Hu2), (C12_no_trace_of_earlier_steps net fm order b0 ss2 b2 s Hc Hu2). exact Hu.
Qed.
Print Assumptions C12_histories_are_indistinguishable.

(** C13: the objective of a solution is the sum over the edges of flow times
    edge cost (outgoing cost of the upstream plus incoming cost of the
    downstream node) ... *)
Theorem C13_objective_is_edge_costs : forall net fm order b0 ss s b x, wf_network net ->
  create fm order net = Ok b0 -> updates net b0 (ss ++ [s]) = Ok b ->
  (objective (bt_lp b) x ==
   qsum (map (fun ie => edge_cost net (st_env s) (snd ie) * edge_flow net x (fst ie))
             (combine (seq 0 (length (net_edges net))) (net_edges net))))%Q.
Proof.
  intros net fm order b0 ss s b x wf Hc Hb. destruct (create_props _ _ _ _ Hc) as (V & F & Hcr).
  pose proof (updates_last net ss s b0 b (created_ready _ _ _ _ _ _ Hcr) Hb) as Hu.
  unfold update in Hu. destruct (update_ops net b0 s) as [ops| |] eqn:Eo; try discriminate. cbn [rbind] in Hu.
  match type of Hu with rbind ?e _ = _ => destruct e as [rows| |] eqn:Er; try discriminate end. cbn [rbind] in Hu.
  assert (Hob : lp_obj (bt_lp b) = update_edge_objectives net (st_env s) (lp_obj (bt_lp b0))).
  { injection Hu as <-. reflexivity. }
  change (objective (bt_lp b) x) with (obj_value 0 (lp_obj (bt_lp b)) x). rewrite Hob. apply (objective_edges net wf).
  rewrite (cr_obj _ _ _ _ _ _ Hcr), (cr_cols _ _ _ _ _ _ Hcr), app_length, !repeat_length. apply Nat.le_add_r.
Qed.
Print Assumptions C13_objective_is_edge_costs.

(** ... which for a solution is, node by node, cost times flow: throughput of a
    link, flow of an input or output, net inflow of a storage. *)
Theorem C13_objective_is_node_costs : forall net fm order b0 ss s b x, wf_network net ->
  create fm order net = Ok b0 -> updates net b0 (ss ++ [s]) = Ok b -> feasible (bt_lp b) x ->
  (objective (bt_lp b) x == total_cost net s (edge_flow net x))%Q.
Proof.
  intros net fm order b0 ss s b x wf Hc Hb Hf. rewrite (C13_objective_is_edge_costs net fm order b0 ss s b x wf Hc Hb).
  apply (edge_costs_are_node_costs net wf). destruct (create_props _ _ _ _ Hc) as (V & F & Hcr).
  pose proof (updates_last net ss s b0 b (created_ready _ _ _ _ _ _ Hcr) Hb) as Hu.
  exact (solved_balanced net wf fm order b0 V F Hcr s b Hu x Hf).
Qed.
Print Assumptions C13_objective_is_node_costs.

(** The cost of a node's flow: its own, alone or combined with the costs of
    exactly the virtual storages that use the node. *)
Theorem C13_node_cost : forall bld net s i n, build_network bld = Ok net -> nth_error (net_nodes net) i = Some n ->
  is_node_cost net s n (node_cost_of net s n) /\
  (forall k, In k (c_vs (n_cost n)) <-> exists v, nth_error (net_vss net) k = Some v /\ In i (v_nodes v)).
Proof.
  intros bld net s i n Hb Hn. destruct (C37_references_as_declared bld net Hb) as (_ & _ & Hk). split.
  - apply node_cost_spec. intros k Hin. apply (Hk i n k Hn) in Hin. destruct Hin as (v & Hv & _). apply (nth_error_Some_lt _ _ _ Hv).
  - intros k. exact (Hk i n k Hn).
Qed.
Print Assumptions C13_node_cost.

(** *** A concrete case: a catchment feeds a reservoir, which feeds a river link
    (edges 1 and 3 share a column) and a demand under a licence. *)
Definition C09_net : network := match build_network C37_builder with Ok n => n | _ => mkNet [] [] [] [] end.
Lemma C09_net_built : build_network C37_builder = Ok C09_net.
Proof. vm_compute. reflexivity. Qed.
Lemma C09_net_wf : wf_network C09_net.
Proof. exact (C37_built_well_formed _ _ C09_net_built). Qed.
Definition C09_state (inflow vol lic : Q) : lp_state :=
  mkSt (fun _ => inflow) (fun _ => vol) (fun _ => lic) (Date 2020 2 28) 1.
Definition C09_x (c : nat) : Q := nth c [3; 2; 4]%Q 0%Q.

Example C09_solved : solved C09_net F64_MAX [] [C09_state 9 20 1; C09_state 1 1 1] (C09_state 7 50 50) C09_x.
Proof. apply solved_check_sound; [apply valid_order_nil|]; vm_compute; reflexivity. Qed.
Example C10_columns : map (col_for_edge C09_net) (seq 0 4) = [0; 1; 2; 1] /\ no_relationships C09_net.
Proof. split; [vm_compute; reflexivity|]. unfold no_relationships. vm_compute. intros a [<- | []]. reflexivity. Qed.
Example C09_flows : balanced C09_net (edge_flow C09_net C09_x) /\ (edge_flow C09_net C09_x 3 == 2)%Q.
Proof. split; [exact (C09_link_mass_balance _ _ _ _ _ _ C09_net_wf C09_solved) | vm_compute; reflexivity]. Qed.
Example C13_example : (total_cost C09_net (C09_state 7 50 50) (edge_flow C09_net C09_x) == -37)%Q.
Proof. vm_compute. reflexivity. Qed.
Example C11_example : ~ in_exclusive_set C09_net 2 /\ (0 < st_days (C09_state 7 50 50))%Q /\ exists n, nth_error (net_nodes C09_net) 2 = Some n.
Proof.
  split; [|split; [reflexivity | eexists; vm_compute; reflexivity]].
  intros (a & ns & Ha & (mn & mx & Hr) & _). rewrite (proj2 C10_columns a Ha) in Hr. discriminate.
Qed.
