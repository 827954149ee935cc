(** Columns of the programme are chains of edges through links. *)
From Verif Require Import Base Calendar Network NetworkBuild NetworkSpec NetworkBuildLemmas Lp LpSpec LpColLemmas.
From Coq Require Import Relations.
Open Scope nat_scope.

Section Chains.
Variable net : network.
Hypothesis wf : wf_network net.

Definition link_in (m : colmap) (c : nat) (a b : nat) : Prop := linked net a b /\ cm_get m a = Some c /\ cm_get m b = Some c.
Definition chain (m : colmap) (c : nat) : nat -> nat -> Prop := clos_refl_sym_trans nat (link_in m c).
Record chained (m : colmap) : Prop := {
  ch_fresh : forall e c, cm_get m e = Some c -> c < cm_ncols m;
  ch_edge : forall e c, cm_get m e = Some c -> e < length (net_edges net);
  ch_chain : forall e f c, cm_get m e = Some c -> cm_get m f = Some c -> chain m c e f }.

Lemma chain_mono m m' c e f : (forall g, cm_get m g = Some c -> cm_get m' g = Some c) -> chain m c e f -> chain m' c e f.
Proof.
  intros H Hc. induction Hc as [a b (Hl & Ha & Hb)|a|a b _ IH|a b d _ IH1 _ IH2].
  - apply rst_step. split; [exact Hl|]. split; apply H; assumption.
  - apply rst_refl.
  - apply rst_sym, IH.
  - eapply rst_trans; eassumption.
Qed.
(** A new edge [e] with a new column. *)
Lemma chained_new m e : chained m -> cm_get m e = None -> e < length (net_edges net) ->
  chained (mkCm (S (cm_ncols m)) ((e, cm_ncols m) :: cm_edges m)).
Proof.
  intros [Hf Hd Hc] He Hlt. constructor; cbn [cm_ncols].
  - intros g c. rewrite cm_get_cons. destruct (g =? e); intros H; [injection H as <-; lia|]. specialize (Hf _ _ H). lia.
  - intros g c. rewrite cm_get_cons. destruct (Nat.eqb_spec g e) as [->|]; intros H; [exact Hlt | apply (Hd _ _ H)].
  - intros g h c. rewrite !cm_get_cons. destruct (Nat.eqb_spec g e) as [->|Hg], (Nat.eqb_spec h e) as [->|Hh]; intros H1 H2.
    + apply rst_refl.
    + injection H1 as <-. specialize (Hf _ _ H2). lia.
    + injection H2 as <-. specialize (Hf _ _ H1). lia.
    + apply (chain_mono m); [|apply Hc; assumption]. intros k Hk. rewrite cm_get_cons. destruct (Nat.eqb_spec k e) as [->|]; [congruence | exact Hk].
Qed.
(** A new edge [e] in the column of an edge it is linked with. *)
Lemma chained_join m e f c : chained m -> cm_get m e = None -> cm_get m f = Some c -> e < length (net_edges net) ->
  (linked net e f \/ linked net f e) -> chained (mkCm (cm_ncols m) ((e, c) :: cm_edges m)).
Proof.
  intros [Hf Hd Hc] He Hfc Hlt Hl. constructor; cbn [cm_ncols].
  - intros g c'. rewrite cm_get_cons. destruct (g =? e); intros H; [injection H as <-; apply (Hf _ _ Hfc) | apply (Hf _ _ H)].
  - intros g c'. rewrite cm_get_cons. destruct (Nat.eqb_spec g e) as [->|]; intros H; [exact Hlt | apply (Hd _ _ H)].
  - assert (Hm : forall c' k, cm_get m k = Some c' -> cm_get (mkCm (cm_ncols m) ((e, c) :: cm_edges m)) k = Some c').
    { intros c' k Hk. rewrite cm_get_cons. destruct (Nat.eqb_spec k e) as [->|]; [congruence | exact Hk]. }
    assert (Hee : cm_get (mkCm (cm_ncols m) ((e, c) :: cm_edges m)) e = Some c) by (rewrite cm_get_cons, Nat.eqb_refl; reflexivity).
    assert (Hef : chain (mkCm (cm_ncols m) ((e, c) :: cm_edges m)) c e f).
    { destruct Hl as [Hl|Hl]; [apply rst_step | apply rst_sym, rst_step]; (split; [exact Hl | split; auto]). }
    intros g h c'. rewrite !cm_get_cons. destruct (Nat.eqb_spec g e) as [->|Hg], (Nat.eqb_spec h e) as [->|Hh]; intros H1 H2.
    + apply rst_refl.
    + injection H1 as <-. apply rst_trans with f; [exact Hef | apply (chain_mono m _ _ _ _ (Hm c)), Hc; assumption].
    + injection H2 as <-. apply rst_trans with f; [apply (chain_mono m _ _ _ _ (Hm c)), Hc; assumption | apply rst_sym, Hef].
    + apply (chain_mono m _ _ _ _ (Hm c')), Hc; assumption.
Qed.
Lemma chained_simple m e : chained m -> e < length (net_edges net) -> chained (add_simple_edge m e).
Proof. intros H He. unfold add_simple_edge. destruct (cm_get m e) eqn:E; [exact H | apply chained_new; assumption]. Qed.
Lemma chained_equal m e f : chained m -> e <> f -> e < length (net_edges net) -> f < length (net_edges net) -> linked net f e ->
  chained (add_equal_edges m e f).
Proof.
  intros H Hne He Hf Hl. unfold add_equal_edges. destruct (cm_get m e) as [c|] eqn:E, (cm_get m f) as [d|] eqn:F.
  - exact H.
  - apply chained_join with e; auto.
  - apply chained_join with f; auto.
  - pose proof (chained_new m e H E He) as H1.
    change (chained (mkCm (cm_ncols (mkCm (S (cm_ncols m)) ((e, cm_ncols m) :: cm_edges m))) ((f, cm_ncols m) :: cm_edges (mkCm (S (cm_ncols m)) ((e, cm_ncols m) :: cm_edges m))))).
    apply chained_join with e; [exact H1 | | | exact Hf | left; exact Hl].
    + rewrite cm_get_cons. destruct (Nat.eqb_spec f e); [congruence | exact F].
    + rewrite cm_get_cons, Nat.eqb_refl. reflexivity.
Qed.
Lemma chained_column m i ed : nth_error (net_edges net) i = Some ed -> chained m -> chained (add_edge_column (net_nodes net) m i ed).
Proof.
  intros Hi H. unfold add_edge_column.
  destruct (wf_edges net wf ed (nth_error_In _ _ Hi)) as (Hfrom & Hto & Hneq).
  destruct (nth_error_lt_Some (net_nodes net) (e_from ed) Hfrom) as (n & Hn). rewrite Hn.
  destruct (wf_nodes net wf _ _ Hn) as (Hin & Hout & _).
  pose proof (nth_error_Some_lt _ _ _ Hi) as Hlt. pose proof (chained_simple m i H Hlt) as Hs.
  destruct (n_type n) eqn:Ht; try exact Hs.
  destruct (n_in n) as [|e_in [|? ?]] eqn:Ein; try exact Hs. destruct (n_out n) as [|e_out [|? ?]] eqn:Eout; try exact Hs.
  assert (Hio : In i (out_edges net (e_from ed))) by (apply out_edges_In; eauto). rewrite <- Hout in Hio. destruct Hio as [->|[]].
  assert (Hc : In e_in (in_edges net (e_from ed))) by (rewrite <- Hin; left; reflexivity).
  apply chained_equal; [exact H | | exact Hlt | apply (in_edges_lt net _ _ Hc) |].
  - intros ->. apply in_edges_In in Hc. destruct Hc as (ed' & Hed' & Hte). assert (ed' = ed) by congruence. subst. congruence.
  - exists (e_from ed), n. auto.
Qed.
Lemma chained_columns : forall es pre m, net_edges net = pre ++ es -> chained m -> chained (add_edge_columns (net_nodes net) m (length pre) es).
Proof.
  induction es as [|ed es IH]; intros pre m Heq H; cbn [add_edge_columns]; [exact H|].
  assert (Hi : nth_error (net_edges net) (length pre) = Some ed) by (rewrite Heq, nth_error_app2, Nat.sub_diag by lia; reflexivity).
  replace (S (length pre)) with (length (pre ++ [ed])) by (rewrite app_length; cbn; lia).
  apply IH; [rewrite <- app_assoc; exact Heq | apply chained_column; assumption].
Qed.
Lemma edge_columns_chained : chained (edge_columns net).
Proof. apply (chained_columns (net_edges net) [] cm_empty eq_refl). constructor; cbn; discriminate. Qed.

(** Every column belongs to an edge. *)
Lemma column_has_edge c : c < cm_ncols (edge_columns net) -> exists e, e < length (net_edges net) /\ col_for_edge net e = c.
Proof.
  intros Hc. destruct (edge_columns_inv net wf) as (Hinv & _). destruct (ci_onto _ _ Hinv c Hc) as (e & He). exists e.
  split; [apply (ch_edge _ edge_columns_chained _ _ He)|]. unfold col_for_edge. rewrite He. reflexivity.
Qed.

(** [f] follows [e] in its column: they are the only edges of a link. *)
Definition after (e f : nat) : Prop := linked net e f /\ col_for_edge net e = col_for_edge net f.
Definition at_end (e : nat) : Prop := forall f, ~ after e f.
Definition at_start (e : nat) : Prop := forall f, ~ after f e.

Lemma chain_after e f : e < length (net_edges net) -> f < length (net_edges net) -> col_for_edge net e = col_for_edge net f -> clos_refl_sym_trans nat after e f.
Proof.
  intros He Hf Hc. destruct (edge_column_exists net wf e He) as (H1 & _). destruct (edge_column_exists net wf f Hf) as (H2 & _). rewrite <- Hc in H2.
  pose proof (ch_chain _ edge_columns_chained e f _ H1 H2) as H. generalize dependent (col_for_edge net e). intros c _ _ _ H. clear - H. induction H as [a b (Hl & Ha & Hb)|a|a b _ IH|a b d _ IH1 _ IH2].
  - apply rst_step. split; [exact Hl|]. unfold col_for_edge. rewrite Ha, Hb. reflexivity.
  - apply rst_refl.
  - apply rst_sym, IH.
  - eapply rst_trans; eassumption.
Qed.
Lemma after_comparable e f : clos_refl_sym_trans nat after e f -> clos_refl_trans_1n nat after e f \/ clos_refl_trans_1n nat after f e.
Proof.
  assert (F : forall a b c, after a b -> after a c -> b = c) by (intros a b c (H1 & _) (H2 & _); apply (linked_fun net a); assumption).
  assert (I : forall a b c, after a c -> after b c -> a = b) by (intros a b c (H1 & _) (H2 & _); apply (linked_inj net a b c); assumption).
  intros H. apply clos_rst_rst1n in H. induction H as [e|e e' f Hstep H IH]; [left; constructor|]. destruct Hstep as [Hl|Hl].
  - destruct IH as [IH|IH]; [left; econstructor; eassumption|].
    (* e -> e', f ->* e' *)
    apply clos_rt1n_rt, clos_rt_rtn1 in IH. revert Hl. inversion IH as [|g ? Hg Hfg]; subst; intros Hl.
    + left. econstructor; [exact Hl | constructor].
    + rewrite (I _ _ _ Hg Hl) in Hfg. right. apply clos_rt_rt1n, clos_rtn1_rt, Hfg.
  - destruct IH as [IH|IH].
    + inversion IH as [|g ? Hg Hgf]; subst; [right; econstructor; [exact Hl | constructor]|]. rewrite (F _ _ _ Hg Hl) in Hgf. left. exact Hgf.
    + right. apply clos_rt_rt1n. eapply rt_trans; [apply clos_rt1n_rt, IH | apply rt_step, Hl].
Qed.
Lemma one_end e f : e < length (net_edges net) -> f < length (net_edges net) -> col_for_edge net e = col_for_edge net f -> at_end e -> at_end f -> e = f.
Proof.
  intros He Hf Hc Ee Ef. destruct (after_comparable e f (chain_after e f He Hf Hc)) as [H|H]; inversion H as [|g ? Hg _]; subst; auto; exfalso; [apply (Ee _ Hg) | apply (Ef _ Hg)].
Qed.
Lemma one_start e f : e < length (net_edges net) -> f < length (net_edges net) -> col_for_edge net e = col_for_edge net f -> at_start e -> at_start f -> e = f.
Proof.
  intros He Hf Hc Ee Ef. destruct (after_comparable e f (chain_after e f He Hf Hc)) as [H|H]; apply clos_rt1n_rt, clos_rt_rtn1 in H; inversion H as [|g ? Hg _]; subst; auto; exfalso; [apply (Ef _ Hg) | apply (Ee _ Hg)].
Qed.
End Chains.
