(** Proofs about networks built from a model file. *)
From Coq Require Import Lqa.
From Verif Require Import Base Calendar Network NetworkBuild NetworkSpec NetworkBuildLemmas Lp LpSpec LpRowLemmas Props_Network Props_Lp
  Props_LpRel SchemaNodes SchemaMetrics SchemaSpec.
Local Open Scope nat_scope.

(** *** What is loaded *)
Lemma fold_merge_nodes l : ad_nodes (fold_right merge nothing l) = flat_map ad_nodes l.
Proof. induction l as [|p l IH]; [reflexivity|]. cbn [fold_right flat_map merge ad_nodes]. rewrite IH. reflexivity. Qed.
Lemma fold_merge_edges l : ad_edges (fold_right merge nothing l) = flat_map ad_edges l.
Proof. induction l as [|p l IH]; [reflexivity|]. cbn [fold_right flat_map merge ad_edges]. rewrite IH. reflexivity. Qed.
Lemma fold_merge_aggs l : ad_aggs (fold_right merge nothing l) = flat_map ad_aggs l.
Proof. induction l as [|p l IH]; [reflexivity|]. cbn [fold_right flat_map merge ad_aggs]. rewrite IH. reflexivity. Qed.
Lemma fold_merge_vss l : ad_vss (fold_right merge nothing l) = flat_map ad_vss l.
Proof. induction l as [|p l IH]; [reflexivity|]. cbn [fold_right flat_map merge ad_vss]. rewrite IH. reflexivity. Qed.
Lemma fold_merge_agg_storages l : ad_agg_storages (fold_right merge nothing l) = flat_map ad_agg_storages l.
Proof. induction l as [|p l IH]; [reflexivity|]. cbn [fold_right flat_map merge ad_agg_storages]. rewrite IH. reflexivity. Qed.
Lemma fold_merge_params l : ad_params (fold_right merge nothing l) = flat_map ad_params l.
Proof. induction l as [|p l IH]; [reflexivity|]. cbn [fold_right flat_map merge ad_params]. rewrite IH. reflexivity. Qed.

Lemma load_schema_inv key step sc a : load_schema key step sc = Ok a ->
  validate sc = true /\ exists ns vs es,
    Forall2 (fun n p => add_node key n = Ok p) (sc_nodes sc) ns /\
    Forall2 (fun v p => add_vnode key sc step v = Ok p) (sc_vnodes sc) vs /\
    Forall2 (fun e p => add_edge sc e = Ok p) (sc_edges sc) es /\
    a = fold_right merge nothing (ns ++ vs ++ es).
Proof.
  unfold load_schema. destruct (validate sc); [|discriminate]. intros H. split; [reflexivity|].
  apply rbind_Ok in H. destruct H as (ns & Hn & H). apply rbind_Ok in H. destruct H as (vs & Hv & H).
  apply rbind_Ok in H. destruct H as (es & He & H). exists ns, vs, es.
  apply rmap_Ok_Forall2 in Hn. apply rmap_Ok_Forall2 in Hv. apply rmap_Ok_Forall2 in He. injection H as <-. auto.
Qed.

Record part_of (p a : added) : Prop := {
  po_nodes : incl (ad_nodes p) (ad_nodes a);
  po_edges : incl (ad_edges p) (ad_edges a);
  po_aggs : incl (ad_aggs p) (ad_aggs a);
  po_vss : incl (ad_vss p) (ad_vss a);
  po_agg_storages : incl (ad_agg_storages p) (ad_agg_storages a);
  po_params : incl (ad_params p) (ad_params a) }.

Lemma part_of_fold p l : In p l -> part_of p (fold_right merge nothing l).
Proof.
  intros H. constructor; rewrite ?fold_merge_nodes, ?fold_merge_edges, ?fold_merge_aggs, ?fold_merge_vss,
    ?fold_merge_agg_storages, ?fold_merge_params; intros y Hy; apply in_flat_map; exists p; auto.
Qed.

Section Loaded.
Variables (key : umetric -> nat) (step : option Z) (sc : schema) (a : added).
Hypothesis Hload : load_schema key step sc = Ok a.

Lemma loaded_node n : In n (sc_nodes sc) -> exists p, add_node key n = Ok p /\ part_of p a.
Proof.
  intros Hn. destruct (load_schema_inv _ _ _ _ Hload) as (_ & ns & vs & es & H1 & _ & _ & ->).
  destruct (Forall2_In_l _ _ _ _ H1 Hn) as (p & Hp & E). exists p. split; [exact E|]. apply part_of_fold, in_or_app. left. exact Hp.
Qed.
Lemma loaded_vnode v : In v (sc_vnodes sc) -> exists p, add_vnode key sc step v = Ok p /\ part_of p a.
Proof.
  intros Hn. destruct (load_schema_inv _ _ _ _ Hload) as (_ & ns & vs & es & _ & H1 & _ & ->).
  destruct (Forall2_In_l _ _ _ _ H1 Hn) as (p & Hp & E). exists p. split; [exact E|].
  apply part_of_fold, in_or_app. right. apply in_or_app. left. exact Hp.
Qed.
Lemma loaded_edge e : In e (sc_edges sc) -> exists ps, connection_pairs sc e = Ok ps /\ incl ps (ad_edges a).
Proof.
  intros Hn. destruct (load_schema_inv _ _ _ _ Hload) as (_ & ns & vs & es & _ & _ & H1 & ->).
  destruct (Forall2_In_l _ _ _ _ H1 Hn) as (p & Hp & E). unfold add_edge in E. apply rbind_Ok in E. destruct E as (ps & E & Ep).
  exists ps. split; [exact E|]. injection Ep as <-.
  apply (po_edges _ _ (part_of_fold _ _ (in_or_app _ _ _ (or_intror (in_or_app _ _ _ (or_intror Hp)))))).
Qed.
End Loaded.

(** *** What is built *)
Section Built.
Variables (key : umetric -> nat) (step : option Z) (sc : schema) (a : added) (net : network) (s : lp_state) (x : nat -> Q).
Hypothesis H : simulated key step sc a net s x.
Local Notation b := (declaration a).
Let Hb : build_network b = Ok net := sm_build _ _ _ _ _ _ _ H.
Let wf : wf_network net := C37_built_well_formed b net Hb.
Local Notation f := (edge_flow net x).

Lemma built_node nb : In nb (ad_nodes a) -> exists i n, declared b i (nb_name nb) /\ nth_error (net_nodes net) i = Some n /\
  node_as_declared net b i nb n.
Proof.
  intros Hn. destruct (In_nth_error _ _ Hn) as (i & Hi). destruct (built_nodes b net Hb) as (Hl & Hd).
  assert (Hlt : i < length (net_nodes net)) by (rewrite Hl; apply (nth_error_Some_lt _ _ _ Hi)).
  destruct (nth_error_lt_Some _ _ Hlt) as (n & En). exists i, n.
  split; [unfold declared; apply map_nth_error; exact Hi|]. split; [exact En|]. exact (Hd i nb n Hi En).
Qed.

Lemma declared_unique i j u : declared b i u -> declared b j u -> i = j.
Proof. apply declared_fun. exact (proj1 (C37_nodes_as_declared b net Hb)). Qed.

Lemma lookup_name i u : declared b i u -> get_node_index_by_name b u = Some i.
Proof. intros Hd. apply (C37_names_resolve b net u i Hb). exact Hd. Qed.

Lemma lookup_names us is : Forall2 (fun u i => declared b i u) us is -> all_some (map (get_node_index_by_name b) us) = Some is.
Proof.
  intros HF. induction HF as [|u i us is Hd HF IH]; [reflexivity|]. cbn [map all_some]. rewrite (lookup_name i u Hd), IH. reflexivity.
Qed.

Lemma built_agg ab : In ab (ad_aggs a) -> exists k g, nth_error (ad_aggs a) k = Some ab /\ nth_error (net_aggs net) k = Some g /\
  Forall2 (Forall2 (fun u i => declared b i u)) (ab_nodes ab) (a_nodes g) /\
  a_min g = ab_min ab /\ a_max g = ab_max ab /\ a_rel g = ab_rel ab.
Proof.
  intros Ha. destruct (In_nth_error _ _ Ha) as (k & Hk). pose proof (proj1 (C37_references_as_declared b net Hb)) as HF.
  assert (Hlt : k < length (net_aggs net)) by (rewrite <- (Forall2_length' _ _ _ HF); apply (nth_error_Some_lt _ _ _ Hk)).
  destruct (nth_error_lt_Some _ _ Hlt) as (g & Eg). exists k, g. split; [exact Hk|]. split; [exact Eg|].
  exact (Forall2_nth_error _ _ _ _ _ _ HF Hk Eg).
Qed.

(** *** Flows *)
Lemma flow_link i n : nth_error (net_nodes net) i = Some n -> n_type n = TLink ->
  node_flow net f i = outflow net f i /\ (inflow net f i == outflow net f i)%Q.
Proof.
  intros En Et. split; [unfold node_flow; rewrite En, Et; reflexivity|].
  destruct (sm_solved _ _ _ _ _ _ _ H) as (fm & order & ss & Hs). exact (C09_link_mass_balance net fm order ss s x wf Hs i n En Et).
Qed.
Lemma flow_output i n : nth_error (net_nodes net) i = Some n -> n_type n = TOutput -> node_flow net f i = inflow net f i.
Proof. intros En Et. unfold node_flow. rewrite En, Et. reflexivity. Qed.
Lemma flow_input i n : nth_error (net_nodes net) i = Some n -> n_type n = TInput -> node_flow net f i = outflow net f i.
Proof. intros En Et. unfold node_flow. rewrite En, Et. reflexivity. Qed.

Lemma edge_non_negative k : k < length (net_edges net) -> (0 <= f k)%Q.
Proof.
  intros Hk. destruct (sm_solved _ _ _ _ _ _ _ H) as (fm & order & ss & Hs).
  exact (proj1 (C09_edge_flows_non_negative net fm order ss s x k wf Hs Hk)).
Qed.
Lemma sum_non_negative (l : list nat) : (forall k, In k l -> k < length (net_edges net)) -> (0 <= qsum (map f l))%Q.
Proof.
  intros Hl. induction l as [|k l IH]; [apply Qle_refl|]. cbn [map]. rewrite qsum_cons.
  pose proof (edge_non_negative k (Hl k (or_introl eq_refl))). specialize (IH (fun j Hj => Hl j (or_intror Hj))). lra.
Qed.
Lemma inflow_non_negative i : (0 <= inflow net f i)%Q.
Proof. apply sum_non_negative. intros k Hk. unfold in_edges, edge_ids in Hk. apply filter_In in Hk. destruct Hk as [Hk _]. apply in_seq in Hk. lia. Qed.
Lemma outflow_non_negative i : (0 <= outflow net f i)%Q.
Proof. apply sum_non_negative. intros k Hk. unfold out_edges, edge_ids in Hk. apply filter_In in Hk. destruct Hk as [Hk _]. apply in_seq in Hk. lia. Qed.

Lemma within_limited mn mx q : within_limits (st_env s) (to_metrics key mn) (to_metrics key mx) q -> limited key s mn mx q.
Proof. unfold within_limits, limited. destruct mn, mx; exact (fun h => h). Qed.

(** A flow node keeps to its limits. *)
Lemma part_limits u t c mn mx : In (flow_node key t u c mn mx) (ad_nodes a) -> t <> TStorage -> not_exclusive a net u -> (0 < st_days s)%Q ->
  exists i, declared b i u /\ limited key s mn mx (node_flow net f i).
Proof.
  intros Hn Ht Hex Hdays. destruct (built_node _ Hn) as (i & n & Hd & En & Hnd). exists i. split; [exact Hd|].
  destruct (sm_solved _ _ _ _ _ _ _ H) as (fm & order & ss & Hs).
  pose proof (C11_node_limits net fm order ss s x i n wf Hdays Hs En (Hex i Hd)) as Hok. unfold node_ok in Hok.
  destruct Hnd as (Hty & _ & _ & _ & Hm & _). cbn [nb_type flow_node] in Hty, Hm. destruct (Hm Ht) as [H1 H2].
  rewrite Hty, H1, H2 in Hok. destruct t; try congruence; apply within_limited; exact Hok.
Qed.

Lemma agg_limits u groups mn mx r : In (agg key u groups mn mx r) (ad_aggs a) ->
  exists gs, Forall2 (Forall2 (fun u i => declared b i u)) groups gs /\ limited key s mn mx (group_flow net f (concat gs)).
Proof.
  intros Ha. destruct (built_agg _ Ha) as (k & g & _ & Eg & HF & H1 & H2 & _). cbn [ab_nodes ab_min ab_max agg] in HF, H1, H2.
  exists (a_nodes g). split; [exact HF|]. destruct (sm_solved _ _ _ _ _ _ _ H) as (fm & order & ss & Hs).
  pose proof (C11_aggregated_node_limits net fm order ss s x g wf Hs (nth_error_In _ _ Eg)) as Hw. rewrite H1, H2 in Hw.
  apply within_limited. exact Hw.
Qed.

(** Two groups, one a proportion of the total. *)
Lemma agg_proportion u g0 g1 q mn mx : In (agg key u [[g0]; [g1]] mn mx (Some (RFactored (FProportion [MConst q])))) (ad_aggs a) ->
  (0 <= q < 1)%Q -> exists i j, declared b i g0 /\ declared b j g1 /\
    (node_flow net f j == q * (node_flow net f i + node_flow net f j))%Q.
Proof.
  intros Ha Hq. destruct (built_agg _ Ha) as (k & g & _ & Eg & HF & _ & _ & Hr). cbn [ab_nodes ab_rel agg] in HF, Hr.
  destruct (sm_solved _ _ _ _ _ _ _ H) as (fm & order & ss & Hs).
  inversion HF as [|? l0 ? lr F0 Fr E0 E1]; subst. inversion Fr as [|? l1 ? lr' F1 Fr' E2 E3]; subst. inversion Fr'; subst.
  inversion F0 as [|? i ? ? Hi F0' E4 E5]; subst. inversion F0'; subst. inversion F1 as [|? j ? ? Hj F1' E6 E7]; subst. inversion F1'; subst.
  exists i, j. split; [exact Hi|]. split; [exact Hj|].
  assert (Hp : proportions_hold net f (a_nodes g) [q]).
  { apply (C38_constant_proportions net fm order ss s x g [q] wf Hs (nth_error_In _ _ Eg) Hr).
    - rewrite <- E1. reflexivity.
    - constructor; [lra|constructor].
    - cbn [qsum fold_right]. lra. }
  rewrite <- E1 in Hp. cbn [proportions_hold map] in Hp. destruct Hp as [_ Hp]. inversion Hp as [|? ? ? ? Hpp _]; subst.
  unfold group_flow in Hpp. cbn [map qsum fold_right] in Hpp. lra.
Qed.

Lemma agg_ratio u g0 g1 q mn mx : In (agg key u [[g0]; [g1]] mn mx (Some (RFactored (FRatio [MConst 1; MConst q])))) (ad_aggs a) ->
  (0 <= q)%Q -> exists i j, declared b i g0 /\ declared b j g1 /\ (node_flow net f j == q * node_flow net f i)%Q.
Proof.
  intros Ha Hq. destruct (built_agg _ Ha) as (k & g & _ & Eg & HF & _ & _ & Hr). cbn [ab_nodes ab_rel agg] in HF, Hr.
  destruct (sm_solved _ _ _ _ _ _ _ H) as (fm & order & ss & Hs).
  inversion HF as [|? l0 ? lr F0 Fr E0 E1]; subst. inversion Fr as [|? l1 ? lr' F1 Fr' E2 E3]; subst. inversion Fr'; subst.
  inversion F0 as [|? i ? ? Hi F0' E4 E5]; subst. inversion F0'; subst. inversion F1 as [|? j ? ? Hj F1' E6 E7]; subst. inversion F1'; subst.
  exists i, j. split; [exact Hi|]. split; [exact Hj|].
  assert (Hp : ratios_hold net f (a_nodes g) [1; q]%Q).
  { apply (C38_constant_ratios net fm order ss s x g [1; q]%Q wf Hs (nth_error_In _ _ Eg) Hr).
    - rewrite <- E1. reflexivity.
    - discriminate.
    - constructor; [lra|]. constructor; [exact Hq | constructor]. }
  rewrite <- E1 in Hp. cbn [ratios_hold] in Hp. inversion Hp as [|? ? ? ? Hpp _]; subst.
  unfold group_flow in Hpp. cbn [map qsum fold_right] in Hpp. lra.
Qed.

End Built.
