(** Aggregated nodes and virtual storages of a model file. *)
From Coq Require Import Lqa.
From Verif Require Import Base Calendar Network NetworkBuild NetworkSpec NetworkBuildLemmas Lp LpSpec LpRowLemmas Props_Network Props_Lp
  Props_LpRel NetState NetStateSpec SchemaNodes SchemaMetrics SchemaSpec SchemaLemmas SchemaNodeLemmas SchemaEdgeLemmas Props_Schema Props_SchemaEdges Props_SchemaMore
  SchemaVirtual SchemaVirtualSpec SchemaVirtualLemmas.
Local Open Scope string_scope.
Local Open Scope list_scope.
Local Open Scope nat_scope.

Lemma group_flow_concat net f gs : (group_flow net f (concat gs) == qsum (map (group_flow net f) gs))%Q.
Proof. induction gs as [|g gs IH]; [reflexivity|]. cbn [concat map]. unfold group_flow in *. rewrite map_app, qsum_app, IH, qsum_cons. reflexivity. Qed.

Section Virtual.
Variables (key : umetric -> nat) (step : option Z) (sc : schema) (a : added) (net : network) (s : lp_state) (x : nat -> Q).
Hypothesis H : simulated key step sc a net s x.
Local Notation b := (declaration a).
Local Notation f := (edge_flow net x).

Lemma refs_flows refs groups gs : rmap (ref_nodes sc) refs = Ok groups -> Forall2 (Forall2 (fun u i => declared b i u)) groups gs ->
  Forall2 (ref_flow sc a net x) refs (map (group_flow net f) gs).
Proof.
  intros Hg. apply rmap_Ok_Forall2 in Hg. revert gs. induction Hg as [|r g refs groups E HF IH]; intros gs HG; inversion HG as [|? is ? gs' Hi HG']; subst; cbn [map]; constructor.
  - unfold ref_nodes in E. apply rbind_Ok in E. destruct E as (n & En & E). destruct (find_node_Ok _ _ _ En) as [Hin Hn].
    exists n. split; [exact Hin|]. split; [exact Hn|]. exact (group_ref _ _ _ _ _ _ _ H n _ _ _ Hin E Hi).
  - exact (IH _ HG').
Qed.
Lemma refs_in refs groups gs : rmap (ref_nodes sc) refs = Ok groups -> Forall2 (Forall2 (fun u i => declared b i u)) groups gs ->
  Forall (fun r => forall n, In n (sc_nodes sc) -> snode_name n = rf_name r -> ~ source n (rf_component r)) refs ->
  (qsum (map (inflow net f) (concat gs)) == qsum (map (group_flow net f) gs))%Q.
Proof.
  intros Hg. apply rmap_Ok_Forall2 in Hg. revert gs. induction Hg as [|r g refs groups E HF IH]; intros gs HG Hs; inversion HG as [|? is ? gs' Hi HG']; subst; [reflexivity|].
  inversion Hs as [|? ? Hr Hs']; subst. cbn [concat map]. rewrite map_app, qsum_app, qsum_cons, (IH _ HG' Hs').
  unfold ref_nodes in E. apply rbind_Ok in E. destruct E as (n & En & E). destruct (find_node_Ok _ _ _ En) as [Hin Hn].
  destruct (group_typed _ _ _ _ _ _ _ H n _ _ _ Hin E Hi) as (_ & KI & _). rewrite (KI (Hr n Hin Hn)). reflexivity.
Qed.
Lemma refs_out refs groups gs : rmap (ref_nodes sc) refs = Ok groups -> Forall2 (Forall2 (fun u i => declared b i u)) groups gs ->
  Forall (fun r => forall n, In n (sc_nodes sc) -> snode_name n = rf_name r -> ~ sink n (rf_component r)) refs ->
  (qsum (map (outflow net f) (concat gs)) == qsum (map (group_flow net f) gs))%Q.
Proof.
  intros Hg. apply rmap_Ok_Forall2 in Hg. revert gs. induction Hg as [|r g refs groups E HF IH]; intros gs HG Hs; inversion HG as [|? is ? gs' Hi HG']; subst; [reflexivity|].
  inversion Hs as [|? ? Hr Hs']; subst. cbn [concat map]. rewrite map_app, qsum_app, qsum_cons, (IH _ HG' Hs').
  unfold ref_nodes in E. apply rbind_Ok in E. destruct E as (n & En & E). destruct (find_node_Ok _ _ _ En) as [Hin Hn].
  destruct (group_typed _ _ _ _ _ _ _ H n _ _ _ Hin E Hi) as (_ & _ & KO). rewrite (KO (Hr n Hin Hn)). reflexivity.
Qed.
(** No flow is negative. *)
Lemma refs_non_negative refs groups gs : rmap (ref_nodes sc) refs = Ok groups -> Forall2 (Forall2 (fun u i => declared b i u)) groups gs ->
  forall g i, In g gs -> In i g -> (0 <= node_flow net f i)%Q.
Proof.
  intros Hg HG g i Hgi Hi. apply rmap_Ok_Forall2 in Hg. destruct (Forall2_In_r _ _ _ _ HG Hgi) as (us & Hus & HF).
  destruct (Forall2_In_r _ _ _ _ Hg Hus) as (r & _ & E). unfold ref_nodes in E. apply rbind_Ok in E. destruct E as (n & En & E).
  destruct (find_node_Ok _ _ _ En) as [Hin _]. destruct (Forall2_In_r _ _ _ _ HF Hi) as (u & Hu & Hd).
  destruct (group_typed _ _ _ _ _ _ _ H n _ _ _ Hin E HF) as (K & _). destruct (K u Hu) as (nb & Hnb & Enb & Hty & _). subst u.
  destruct (built_node _ _ _ _ _ _ _ H _ Hnb) as (j & nd & Hj & End & Ety & _). rewrite (declared_unique _ _ _ _ _ _ _ H i j _ Hd Hj).
  destruct (sm_solved _ _ _ _ _ _ _ H) as (fm & order & ss & Hs).
  apply (node_flow_nonneg net f j nd); [|exact End | rewrite Ety; exact Hty]. intros k Hk. exact (edge_non_negative _ _ _ _ _ _ _ H k Hk).
Qed.

Lemma loaded_agg name refs mn mx rel : In (VAggregated name refs mn mx rel) (sc_vnodes sc) ->
  exists groups, rmap (ref_nodes sc) refs = Ok groups /\ In (agg key (whole name) groups mn mx (option_map (to_relationship key) rel)) (ad_aggs a).
Proof.
  intros Hv. destruct (loaded_vnode _ _ _ _ (sm_load _ _ _ _ _ _ _ H) _ Hv) as (p & Hp & Hpo). cbn [add_vnode] in Hp.
  apply rbind_Ok in Hp. destruct Hp as (groups & Hg & Hp). injection Hp as <-. exists groups. split; [exact Hg|].
  apply (po_aggs _ _ Hpo). left. reflexivity.
Qed.
End Virtual.

Lemma position_nodup {A} (nm : A -> uname) l k y : NoDup (map nm l) -> nth_error l k = Some y -> position (fun z => uname_eqb (nm z) (nm y)) l = Some k.
Proof.
  revert k. induction l as [|z l IH]; intros [|k] Hnd Hk; try discriminate Hk; cbn [map] in Hnd; inversion Hnd as [|? ? Hni Hnd']; subst; cbn [nth_error] in Hk; cbn [position].
  - injection Hk as ->. replace (uname_eqb (nm y) (nm y)) with true by (symmetry; apply uname_eqb_eq; reflexivity). reflexivity.
  - destruct (uname_eqb (nm z) (nm y)) eqn:E; [exfalso; apply Hni; apply uname_eqb_eq in E; rewrite E; apply in_map; exact (nth_error_In _ _ Hk)|].
    rewrite (IH k Hnd' Hk). reflexivity.
Qed.
