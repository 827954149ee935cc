(** C67: virtual nodes of a model file act on the flows and volumes of the nodes
    they refer to. *)
From Coq Require Import Lqa.
From Verif Require Import Base Calendar Timestep Network NetworkBuild NetworkSpec NetworkBuildLemmas Lp LpSpec LpRowLemmas Props_Network Props_Lp
  Props_LpRel NetState NetStateSpec Props_NetState SchemaNodes SchemaMetrics SchemaSpec SchemaLemmas SchemaNodeLemmas SchemaEdgeLemmas Props_Schema
  Props_SchemaEdges Props_SchemaMore SchemaRunCheck SchemaVirtual SchemaVirtualSpec SchemaVirtualLemmas SchemaVirtualRefs.
Local Open Scope string_scope.
Local Open Scope list_scope.
Local Open Scope nat_scope.

(** *** Aggregated nodes *)

(** The total of the flows referred to keeps to the limits. *)
Theorem C67_aggregated_limits : forall key step sc a net s x name refs mn mx rel,
  simulated key step sc a net s x -> In (VAggregated name refs mn mx rel) (sc_vnodes sc) ->
  exists qs, Forall2 (ref_flow sc a net x) refs qs /\ limited key s mn mx (qsum qs).
Proof.
  intros key step sc a net s x name refs mn mx rel H Hv. destruct (loaded_agg _ _ _ _ _ _ _ H _ _ _ _ _ Hv) as (groups & Hg & Ha).
  destruct (agg_limits _ _ _ _ _ _ _ H _ _ _ _ _ Ha) as (gs & HF & Hl). exists (map (group_flow net (edge_flow net x)) gs).
  split; [exact (refs_flows _ _ _ _ _ _ _ H _ _ _ Hg HF)|]. unfold limited in *. rewrite <- group_flow_concat. exact Hl.
Qed.
Print Assumptions C67_aggregated_limits.

Lemma map_to_metric_const key (fs : list umetric) : Forall (fun m => exists q, constant m q) fs ->
  exists qs, map (to_metric key) fs = map MConst qs /\ forall s, map (value key s) fs = qs.
Proof.
  intros HF. induction HF as [|m fs (q & Hq) HF (qs & E1 & E2)]; [exists []; split; reflexivity|]. exists (q :: qs). cbn [map].
  rewrite (constant_metric key m q Hq), E1. split; [reflexivity|]. intros s. rewrite E2. f_equal. unfold value. rewrite (constant_metric key m q Hq). reflexivity.
Qed.
Lemma map_value key s fs : map (metric_value (st_env s)) (map (to_metric key) fs) = map (value key s) fs.
Proof. rewrite map_map. reflexivity. Qed.
Lemma Forall_value key s (P : Q -> Prop) fs : Forall (fun m => P (value key s m)) fs -> Forall (fun m => P (metric_value (st_env s) m)) (map (to_metric key) fs).
Proof. intros HF. apply Forall_map. exact HF. Qed.
Lemma Forall_values key s (P : Q -> Prop) fs : Forall (fun m => P (value key s m)) fs <-> Forall P (map (value key s) fs).
Proof. rewrite Forall_map. reflexivity. Qed.

(** Each further flow is its share of the total, and the first is the rest.
    Full statement: for all factors.  Proved for constants, and for varying
    factors if no other aggregated node with factors shares its nodes
    ([separate]); C38 shows that the others can fail. *)
Theorem C67_proportions_partial : forall key step sc a net s x name refs mn mx fs,
  simulated key step sc a net s x -> In (VAggregated name refs mn mx (Some (SrProportion fs))) (sc_vnodes sc) ->
  length refs = S (length fs) -> Forall (fun m => 0 <= value key s m)%Q fs -> (qsum (map (value key s) fs) < 1)%Q ->
  Forall (fun m => exists q, constant m q) fs \/ separate a net (whole name) ->
  exists q0 qs, Forall2 (ref_flow sc a net x) refs (q0 :: qs) /\
    let total := qsum (q0 :: qs) in
    (q0 == (1 - qsum (map (value key s) fs)) * total)%Q /\ Forall2 (fun q m => q == value key s m * total)%Q qs fs.
Proof.
  intros key step sc a net s x name refs mn mx fs H Hv Hlen Hpos Hsum Hc. destruct (loaded_agg _ _ _ _ _ _ _ H _ _ _ _ _ Hv) as (groups & Hg & Ha).
  destruct (built_agg _ _ _ _ _ _ _ H _ Ha) as (k & g & Hk & Eg & HF & _ & _ & Hr). cbn [ab_nodes ab_rel agg option_map to_relationship] in HF, Hr.
  destruct (sm_solved _ _ _ _ _ _ _ H) as (fm & order & ss & Hs). pose proof (C37_built_well_formed _ _ (sm_build _ _ _ _ _ _ _ H)) as wf.
  pose proof (refs_flows _ _ _ _ _ _ _ H _ _ _ Hg HF) as Hq.
  assert (Hl : S (length (map (to_metric key) fs)) = length (a_nodes g)).
  { rewrite map_length. rewrite <- (Forall2_length' _ _ _ HF), <- (Forall2_length' _ _ _ (proj1 (rmap_Ok_Forall2 _ _ _) Hg)). symmetry. exact Hlen. }
  assert (Hp : proportions_hold net (edge_flow net x) (a_nodes g) (map (value key s) fs)).
  { destruct Hc as [Hc|Hc].
    - destruct (map_to_metric_const key fs Hc) as (qs & E1 & E2). rewrite E2. rewrite E1 in Hr, Hl. rewrite map_length in Hl.
      apply (C38_constant_proportions net fm order ss s x g qs wf Hs (nth_error_In _ _ Eg) Hr Hl); [|rewrite <- (E2 s); exact Hsum].
      rewrite <- (E2 s). apply Forall_values. exact Hpos.
    - rewrite <- map_value. apply (C38_dynamic_proportions_partial net fm order ss s x k g _ wf Hs Eg (Hc k _ g Hk eq_refl Eg) Hr Hl).
      + apply Forall_value. exact Hpos.
      + rewrite map_value. exact Hsum. }
  destruct (a_nodes g) as [|g0 gs]; [contradiction|]. cbn [map] in Hq. exists (group_flow net (edge_flow net x) g0), (map (group_flow net (edge_flow net x)) gs).
  split; [exact Hq|]. cbn [proportions_hold map] in Hp. destruct Hp as [Hp1 Hp2]. split; [exact Hp1|].
  clear -Hp2. revert Hp2. generalize (qsum (group_flow net (edge_flow net x) g0 :: map (group_flow net (edge_flow net x)) gs)) as t. intros t. revert gs.
  induction fs as [|m fs IH]; intros gs Hp; inversion Hp as [|g ? gs' ? E Hp']; subst; cbn [map]; constructor; [exact E | exact (IH _ Hp')].
Qed.
Print Assumptions C67_proportions_partial.

(** The flows are to the first one as their factors. *)
Theorem C67_ratios_partial : forall key step sc a net s x name refs mn mx m0 fs,
  simulated key step sc a net s x -> In (VAggregated name refs mn mx (Some (SrRatio (m0 :: fs)))) (sc_vnodes sc) ->
  length refs = S (length fs) -> Forall (fun m => 0 <= value key s m)%Q (m0 :: fs) ->
  Forall (fun m => exists q, constant m q) (m0 :: fs) \/ separate a net (whole name) ->
  exists q0 qs, Forall2 (ref_flow sc a net x) refs (q0 :: qs) /\ Forall2 (fun q m => q * value key s m0 == q0 * value key s m)%Q qs fs.
Proof.
  intros key step sc a net s x name refs mn mx m0 fs H Hv Hlen Hpos Hc. destruct (loaded_agg _ _ _ _ _ _ _ H _ _ _ _ _ Hv) as (groups & Hg & Ha).
  destruct (built_agg _ _ _ _ _ _ _ H _ Ha) as (k & g & Hk & Eg & HF & _ & _ & Hr). cbn [ab_nodes ab_rel agg option_map to_relationship] in HF, Hr.
  destruct (sm_solved _ _ _ _ _ _ _ H) as (fm & order & ss & Hs). pose proof (C37_built_well_formed _ _ (sm_build _ _ _ _ _ _ _ H)) as wf.
  pose proof (refs_flows _ _ _ _ _ _ _ H _ _ _ Hg HF) as Hq.
  assert (Hl : length (map (to_metric key) (m0 :: fs)) = length (a_nodes g)).
  { rewrite map_length. rewrite <- (Forall2_length' _ _ _ HF), <- (Forall2_length' _ _ _ (proj1 (rmap_Ok_Forall2 _ _ _) Hg)). symmetry. exact Hlen. }
  assert (Hp : ratios_hold net (edge_flow net x) (a_nodes g) (map (value key s) (m0 :: fs))).
  { destruct Hc as [Hc|Hc].
    - destruct (map_to_metric_const key _ Hc) as (qs & E1 & E2). rewrite E2. rewrite E1 in Hr, Hl. rewrite map_length in Hl.
      apply (C38_constant_ratios net fm order ss s x g qs wf Hs (nth_error_In _ _ Eg) Hr Hl).
      + intros ->. discriminate (E2 s).
      + rewrite <- (E2 s). apply Forall_values. exact Hpos.
    - rewrite <- map_value. apply (C38_dynamic_ratios_partial net fm order ss s x k g _ wf Hs Eg (Hc k _ g Hk eq_refl Eg) Hr Hl).
      + discriminate.
      + apply Forall_value. exact Hpos. }
  cbn [map] in Hp. destruct (a_nodes g) as [|g0 gs]; [contradiction|]. cbn [map] in Hq. exists (group_flow net (edge_flow net x) g0), (map (group_flow net (edge_flow net x)) gs).
  split; [exact Hq|]. cbn [ratios_hold] in Hp. clear -Hp. revert gs Hp. generalize (value key s m0), (group_flow net (edge_flow net x) g0). intros v0 q0.
  induction fs as [|m fs IH]; intros gs Hp; inversion Hp as [|g ? gs' ? E Hp']; subst; cbn [map]; constructor; [exact E | exact (IH _ Hp')].
Qed.
Print Assumptions C67_ratios_partial.

(** Two flows, weighted, add up to the right-hand side. *)
Theorem C67_coefficients_partial : forall key step sc a net s x name r0 r1 mn mx m0 m1 rhs,
  simulated key step sc a net s x -> In (VAggregated name [r0; r1] mn mx (Some (SrCoefficients [m0; m1] rhs))) (sc_vnodes sc) ->
  ((exists q, constant m0 q) /\ (exists q, constant m1 q) /\ (forall m, rhs = Some m -> exists q, constant m q)) \/
  (separate a net (whole name) /\ (metric_const (to_metric key m0) = None \/ metric_const (to_metric key m1) = None)) ->
  exists q0 q1, ref_flow sc a net x r0 q0 /\ ref_flow sc a net x r1 q1 /\
    (value key s m0 * q0 + value key s m1 * q1 == value_or key s rhs 0)%Q.
Proof.
  intros key step sc a net s x name r0 r1 mn mx m0 m1 rhs H Hv Hc. destruct (loaded_agg _ _ _ _ _ _ _ H _ _ _ _ _ Hv) as (groups & Hg & Ha).
  destruct (built_agg _ _ _ _ _ _ _ H _ Ha) as (k & g & Hk & Eg & HF & _ & _ & Hr). cbn [ab_nodes ab_rel agg option_map to_relationship map] in HF, Hr.
  destruct (sm_solved _ _ _ _ _ _ _ H) as (fm & order & ss & Hs). pose proof (C37_built_well_formed _ _ (sm_build _ _ _ _ _ _ _ H)) as wf.
  pose proof (refs_flows _ _ _ _ _ _ _ H _ _ _ Hg HF) as Hq. pose proof (Forall2_length' _ _ _ Hq) as Hl. rewrite map_length in Hl. cbn [length] in Hl.
  assert (Hp : coefficients_hold net (edge_flow net x) (a_nodes g) [value key s m0; value key s m1] (value_or key s rhs 0)).
  { destruct Hc as [((c0 & H0) & (c1 & H1) & Hrhs)|[Hsep Hdyn]].
    - rewrite (constant_metric key m0 c0 H0), (constant_metric key m1 c1 H1) in Hr. rewrite (constant_value key s m0 c0 H0), (constant_value key s m1 c1 H1).
      apply (C38_constant_coefficients net fm order ss s x g c0 c1 _ wf Hs (nth_error_In _ _ Eg)); [|symmetry; exact Hl].
      destruct rhs as [m|]; cbn [to_metrics option_map value_or] in *.
      + destruct (Hrhs m eq_refl) as (q & Hm). rewrite (constant_metric key m q Hm) in Hr. rewrite (constant_value key s m q Hm). left. exact Hr.
      + right. split; [exact Hr | reflexivity].
    - pose proof (C38_dynamic_coefficients_partial net fm order ss s x k g _ _ _ wf Hs Eg (Hsep k _ g Hk eq_refl Eg) Hr (eq_sym Hl)) as Hp.
      assert (Hd : metric_const (to_metric key m0) = None \/ metric_const (to_metric key m1) = None \/
                   match to_metrics key rhs with Some m => metric_const m <> None | None => True end) by tauto.
      specialize (Hp Hd). unfold value. destruct rhs; exact Hp. }
  destruct (a_nodes g) as [|g0 [|g1 [|? ?]]]; try discriminate Hl. cbn [map] in Hq. inversion Hq as [|? ? ? ? Q0 Hq']; subst. inversion Hq' as [|? ? ? ? Q1 _]; subst.
  exists (group_flow net (edge_flow net x) g0), (group_flow net (edge_flow net x) g1). split; [exact Q0|]. split; [exact Q1|]. exact Hp.
Qed.
Print Assumptions C67_coefficients_partial.

(** Mutual exclusivity: at most the declared number of references (one, if none
    is declared) carry flow, for parts with constant limits. *)
Theorem C67_exclusive_max_partial : forall key step sc a net s x name refs mn mx lo hi,
  simulated key step sc a net s x -> In (VAggregated name refs mn mx (Some (SrExclusive lo hi))) (sc_vnodes sc) ->
  parts_limited a net (whole name) (fun _ _ => True) ->
  exists qs, Forall2 (ref_flow sc a net x) refs qs /\ flowing qs <= match hi with Some n => n | None => 1 end.
Proof.
  intros key step sc a net s x name refs mn mx lo hi H Hv Hc. destruct (loaded_agg _ _ _ _ _ _ _ H _ _ _ _ _ Hv) as (groups & Hg & Ha).
  destruct (built_agg _ _ _ _ _ _ _ H _ Ha) as (k & g & Hk & Eg & HF & _ & _ & Hr). cbn [ab_nodes ab_rel agg option_map to_relationship] in HF, Hr.
  destruct (sm_solved _ _ _ _ _ _ _ H) as (fm & order & ss & Hs). pose proof (C37_built_well_formed _ _ (sm_build _ _ _ _ _ _ _ H)) as wf.
  exists (map (group_flow net (edge_flow net x)) (a_nodes g)). split; [exact (refs_flows _ _ _ _ _ _ _ H _ _ _ Hg HF)|].
  pose proof (C39_at_most_max_active net fm order ss s x g _ _ wf Hs (nth_error_In _ _ Eg) Hr (Hc k _ g Hk eq_refl Eg)) as Hm.
  eapply Nat.le_trans; [|exact Hm]. unfold flowing, sets_active. generalize (a_nodes g) as gs. induction gs as [|is gs IH]; [apply le_n|].
  cbn [map filter]. destruct (Qle_bool (group_flow net (edge_flow net x) is) 0) eqn:E; cbn [negb].
  - destruct (existsb (carries net (edge_flow net x)) is); cbn [length]; lia.
  - assert (Ex : existsb (carries net (edge_flow net x)) is = true).
    { destruct (existsb (carries net (edge_flow net x)) is) eqn:Ex; [reflexivity|]. exfalso.
      assert (Hz : (group_flow net (edge_flow net x) is <= 0)%Q).
      { clear -Ex. unfold group_flow. induction is as [|i is IH]; [apply Qle_refl|]. cbn [existsb map] in *. apply orb_false_iff in Ex. destruct Ex as [E1 E2].
        rewrite qsum_cons. specialize (IH E2). unfold carries in E1. apply negb_false_iff in E1. apply Qle_bool_iff in E1. lra. }
      apply Qle_bool_iff in Hz. congruence. }
    rewrite Ex. cbn [length]. lia.
Qed.
Print Assumptions C67_exclusive_max_partial.

(** At least the declared number carry flow, for parts with constant lower
    limits other than 0 and references that select some part. *)
Theorem C67_exclusive_min_partial : forall key step sc a net s x name refs mn mx lo hi,
  simulated key step sc a net s x -> In (VAggregated name refs mn mx (Some (SrExclusive lo hi))) (sc_vnodes sc) ->
  parts_limited a net (whole name) (fun l _ => ~ (l == 0)%Q) -> (forall r, In r refs -> ref_nodes sc r <> Ok []) ->
  exists qs, Forall2 (ref_flow sc a net x) refs qs /\ match lo with Some n => n | None => 0 end <= flowing qs.
Proof.
  intros key step sc a net s x name refs mn mx lo hi H Hv Hc Hne. destruct (loaded_agg _ _ _ _ _ _ _ H _ _ _ _ _ Hv) as (groups & Hg & Ha).
  destruct (built_agg _ _ _ _ _ _ _ H _ Ha) as (k & g & Hk & Eg & HF & _ & _ & Hr). cbn [ab_nodes ab_rel agg option_map to_relationship] in HF, Hr.
  destruct (sm_solved _ _ _ _ _ _ _ H) as (fm & order & ss & Hs). pose proof (C37_built_well_formed _ _ (sm_build _ _ _ _ _ _ _ H)) as wf.
  exists (map (group_flow net (edge_flow net x)) (a_nodes g)). split; [exact (refs_flows _ _ _ _ _ _ _ H _ _ _ Hg HF)|].
  pose proof (C39_at_least_min_active_partial net fm order ss s x g _ _ wf Hs (nth_error_In _ _ Eg) Hr (Hc k _ g Hk eq_refl Eg)) as Hm.
  eapply Nat.le_trans; [exact Hm|]. unfold flowing, sets_fully_active.
  assert (Hnn : forall is i, In is (a_nodes g) -> In i is -> (0 <= node_flow net (edge_flow net x) i)%Q) by exact (refs_non_negative _ _ _ _ _ _ _ H _ _ _ Hg HF).
  assert (Hem : forall is, In is (a_nodes g) -> is <> []).
  { intros is Hi ->. destruct (Forall2_In_r _ _ _ _ HF Hi) as (us & Hus & F). inversion F; subst. apply rmap_Ok_Forall2 in Hg.
    destruct (Forall2_In_r _ _ _ _ Hg Hus) as (r & Hr' & E). exact (Hne r Hr' E). }
  revert Hnn Hem. generalize (a_nodes g) as gs. clear. induction gs as [|is gs IH]; intros Hnn Hem; [apply le_n|].
  specialize (IH (fun js i Hj => Hnn js i (or_intror Hj)) (fun js Hj => Hem js (or_intror Hj))). cbn [map filter].
  destruct (forallb (carries net (edge_flow net x)) is) eqn:E; [|destruct (negb _); cbn [length]; lia].
  assert (Hp : Qle_bool (group_flow net (edge_flow net x) is) 0 = false).
  { destruct (Qle_bool (group_flow net (edge_flow net x) is) 0) eqn:Ep; [|reflexivity]. exfalso. apply Qle_bool_iff in Ep.
    destruct is as [|i is]; [exact (Hem [] (or_introl eq_refl) eq_refl)|]. cbn [forallb] in E. apply andb_prop in E. destruct E as [E1 _].
    unfold group_flow in Ep. cbn [map] in Ep. rewrite qsum_cons in Ep.
    assert (Hr : (0 <= qsum (map (node_flow net (edge_flow net x)) is))%Q).
    { assert (Hz : forall l, incl l is -> (0 <= qsum (map (node_flow net (edge_flow net x)) l))%Q).
      { induction l as [|j l IHl]; intros Hl; [apply Qle_refl|]. cbn [map]. rewrite qsum_cons.
        pose proof (Hnn _ j (or_introl eq_refl) (or_intror (Hl j (or_introl eq_refl)))). specialize (IHl (fun y Hy => Hl y (or_intror Hy))). lra. }
      apply Hz, incl_refl. }
    unfold carries in E1. apply negb_true_iff in E1. assert (Hi : (node_flow net (edge_flow net x) i <= 0)%Q) by lra. apply Qle_bool_iff in Hi. congruence. }
  rewrite Hp. cbn [negb length]. lia.
Qed.
Print Assumptions C67_exclusive_min_partial.

(** What an aggregated node reports as its inflow is the total of the flows
    referred to if none of them enters the network there, and what it reports as
    its outflow if none of them leaves the network there. *)
Theorem C67_reported_flow_partial : forall key step sc a net s x name refs mn mx rel t,
  simulated key step sc a net s x -> In (VAggregated name refs mn mx rel) (sc_vnodes sc) ->
  (t = Some AtInflow /\ Forall (fun r => forall n, In n (sc_nodes sc) -> snode_name n = rf_name r -> ~ source n (rf_component r)) refs) \/
  ((t = Some AtOutflow \/ t = None) /\ Forall (fun r => forall n, In n (sc_nodes sc) -> snode_name n = rf_name r -> ~ sink n (rf_component r)) refs) ->
  exists qs, Forall2 (ref_flow sc a net x) refs qs /\ vnode_flow_is a net x (VAggregated name refs mn mx rel) t (qsum qs).
Proof.
  intros key step sc a net s x name refs mn mx rel t H Hv Ht. destruct (loaded_agg _ _ _ _ _ _ _ H _ _ _ _ _ Hv) as (groups & Hg & Ha).
  destruct (built_agg _ _ _ _ _ _ _ H _ Ha) as (k & g & Hk & Eg & HF & _). cbn [ab_nodes agg] in HF.
  exists (map (group_flow net (edge_flow net x)) (a_nodes g)). split; [exact (refs_flows _ _ _ _ _ _ _ H _ _ _ Hg HF)|].
  assert (Ei : agg_index a (whole name) = Some k).
  { unfold agg_index. change (whole name) with (ab_name (agg key (whole name) groups mn mx (option_map (to_relationship key) rel))).
    apply position_nodup; [|exact Hk]. exact (proj1 (proj2 (C57_names_never_collide _ _ _ _ (sm_load _ _ _ _ _ _ _ H)))). }
  destruct Ht as [[-> Hs]|[Ht Hs]].
  - exists (VmAggInFlow (whole name)). eexists. split; [reflexivity|]. cbn [vflow_value]. rewrite Ei, Eg. split; [reflexivity|].
    exact (refs_in _ _ _ _ _ _ _ H _ _ _ Hg HF Hs).
  - exists (VmAggOutFlow (whole name)). eexists. split; [destruct Ht as [-> | ->]; reflexivity|]. cbn [vflow_value]. rewrite Ei, Eg. split; [reflexivity|].
    exact (refs_out _ _ _ _ _ _ _ H _ _ _ Hg HF Hs).
Qed.
Print Assumptions C67_reported_flow_partial.
