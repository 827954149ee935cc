(** Columns: every edge has one, and edges that share one carry equal flow. *)
From Verif Require Import Base Calendar Network NetworkBuild NetworkSpec NetworkBuildLemmas Lp LpSpec.
From Coq Require Import Relations.
Open Scope nat_scope.

Section Cols.
Variable net : network.
Hypothesis wf : wf_network net.

(** [f] is the only way out of a link whose only way in is [e]. *)
Definition linked (e f : nat) : Prop :=
  exists i n, nth_error (net_nodes net) i = Some n /\ n_type n = TLink /\
              in_edges net i = [e] /\ out_edges net i = [f].
Definition same : nat -> nat -> Prop := clos_refl_sym_trans nat linked.

Lemma in_edges_In i e : In e (in_edges net i) <-> exists ed, nth_error (net_edges net) e = Some ed /\ e_to ed = i.
Proof.
  unfold in_edges, edge_ids. rewrite filter_In, in_seq. unfold ends_at. split.
  - intros [Hlt H]. destruct (nth_error (net_edges net) e) as [ed|]; [|discriminate].
    apply Nat.eqb_eq in H. eauto.
  - intros (ed & Hed & Ht). rewrite Hed. split; [apply nth_error_Some_lt in Hed; lia | apply Nat.eqb_eq; exact Ht].
Qed.
Lemma out_edges_In i e : In e (out_edges net i) <-> exists ed, nth_error (net_edges net) e = Some ed /\ e_from ed = i.
Proof.
  unfold out_edges, edge_ids. rewrite filter_In, in_seq. unfold starts_at. split.
  - intros [Hlt H]. destruct (nth_error (net_edges net) e) as [ed|]; [|discriminate].
    apply Nat.eqb_eq in H. eauto.
  - intros (ed & Hed & Ht). rewrite Hed. split; [apply nth_error_Some_lt in Hed; lia | apply Nat.eqb_eq; exact Ht].
Qed.
Lemma in_edges_NoDup i : NoDup (in_edges net i).
Proof. apply NoDup_filter, seq_NoDup. Qed.
Lemma out_edges_NoDup i : NoDup (out_edges net i).
Proof. apply NoDup_filter, seq_NoDup. Qed.

Lemma linked_fun e f g : linked e f -> linked e g -> f = g.
Proof.
  intros (i & n & _ & _ & Hi & Ho) (j & m & _ & _ & Hi' & Ho').
  assert (He : In e (in_edges net i)) by (rewrite Hi; left; reflexivity).
  assert (He' : In e (in_edges net j)) by (rewrite Hi'; left; reflexivity).
  apply in_edges_In in He. apply in_edges_In in He'.
  destruct He as (ed & Hed & <-). destruct He' as (ed' & Hed' & Hj).
  assert (ed' = ed) by congruence. subst ed'. rewrite Hj in Ho. congruence.
Qed.
Lemma linked_inj e f g : linked e g -> linked f g -> e = f.
Proof.
  intros (i & n & _ & _ & Hi & Ho) (j & m & _ & _ & Hi' & Ho').
  assert (He : In g (out_edges net i)) by (rewrite Ho; left; reflexivity).
  assert (He' : In g (out_edges net j)) by (rewrite Ho'; left; reflexivity).
  apply out_edges_In in He. apply out_edges_In in He'.
  destruct He as (ed & Hed & <-). destruct He' as (ed' & Hed' & Hj).
  assert (ed' = ed) by congruence. subst ed'. rewrite Hj in Hi. congruence.
Qed.

(** Paths along links in one direction. *)
Definition reach : nat -> nat -> Prop := clos_refl_trans_1n nat linked.
Lemma reach_comparable e f g : reach e f -> reach e g -> reach f g \/ reach g f.
Proof.
  intros Hf. revert g. induction Hf as [e|e e' f Hl Hf IH]; intros g Hg; [left; exact Hg|].
  inversion Hg as [|e'' ? Hl' Hg']; subst.
  - right. econstructor; [exact Hl | exact Hf].
  - rewrite (linked_fun _ _ _ Hl' Hl) in Hg'. apply IH. exact Hg'.
Qed.
Lemma reach_snoc e f : reach e f -> e = f \/ exists g, reach e g /\ linked g f.
Proof.
  induction 1 as [e|e e' f Hl Hf IH]; [left; reflexivity|]. right.
  destruct IH as [->|(g & Hg & Hgf)].
  - exists e. split; [constructor | exact Hl].
  - exists g. split; [econstructor; eassumption | exact Hgf].
Qed.
Lemma reach_trans e f g : reach e f -> reach f g -> reach e g.
Proof. induction 1 as [e|e e' f Hl Hf IH]; intros Hg; [exact Hg|]. econstructor; [exact Hl | apply IH; exact Hg]. Qed.
Lemma reach_into e g f : reach e g -> reach f g -> reach e f \/ reach f e.
Proof.
  intros He. revert f. apply clos_rt1n_rt, clos_rt_rtn1 in He.
  induction He as [|g' g Hl He IH]; intros f Hf; [right; exact Hf|].
  destruct (reach_snoc _ _ Hf) as [->|(g'' & Hg'' & Hl'')].
  - left. apply clos_rt_rt1n. apply clos_rtn1_rt. econstructor; [exact Hl | exact He].
  - rewrite (linked_inj _ _ _ Hl'' Hl) in Hg''. apply IH. exact Hg''.
Qed.
Lemma same_reach e f : same e f -> reach e f \/ reach f e.
Proof.
  intros H. apply clos_rst_rst1n in H.
  induction H as [e|e e' f Hstep H IH]; [left; constructor|].
  destruct Hstep as [Hl|Hl].
  - destruct IH as [IH|IH].
    + left. econstructor; [exact Hl | exact IH].
    + apply reach_into with e'; [econstructor; [exact Hl | constructor] | exact IH].
  - destruct IH as [IH|IH].
    + apply reach_comparable with e'; [econstructor; [exact Hl | constructor] | exact IH].
    + right. eapply reach_trans; [exact IH|]. econstructor; [exact Hl | constructor].
Qed.

(** Two edges into a node that has several inputs are never the same, nor two
    edges out of a node that has several outputs. *)
Lemma in_edge_no_successor i e : In e (in_edges net i) -> length (in_edges net i) <> 1 -> forall f, ~ linked e f.
Proof.
  intros He Hl f (j & n & _ & _ & Hi & _). apply in_edges_In in He. destruct He as (ed & Hed & <-).
  assert (He : In e (in_edges net j)) by (rewrite Hi; left; reflexivity).
  apply in_edges_In in He. destruct He as (ed' & Hed' & <-).
  assert (ed' = ed) by congruence. subst ed'. rewrite Hi in Hl. cbn in Hl. lia.
Qed.
Lemma out_edge_no_predecessor i e : In e (out_edges net i) -> length (out_edges net i) <> 1 -> forall f, ~ linked f e.
Proof.
  intros He Hl f (j & n & _ & _ & _ & Ho). apply out_edges_In in He. destruct He as (ed & Hed & <-).
  assert (He : In e (out_edges net j)) by (rewrite Ho; left; reflexivity).
  apply out_edges_In in He. destruct He as (ed' & Hed' & <-).
  assert (ed' = ed) by congruence. subst ed'. rewrite Ho in Hl. cbn in Hl. lia.
Qed.
Lemma two_in {A} (l : list A) x y : In x l -> In y l -> x <> y -> length l <> 1.
Proof. intros Hx Hy Hne Hl. destruct l as [|a [|b l]]; cbn in *; [lia| |lia]. destruct Hx as [<-|[]], Hy as [<-|[]]; congruence. Qed.

Lemma in_edges_distinct i e f : In e (in_edges net i) -> In f (in_edges net i) -> same e f -> e = f.
Proof.
  intros He Hf Hs. destruct (Nat.eq_dec e f) as [|Hne]; [assumption|].
  pose proof (two_in _ _ _ He Hf Hne) as Hl.
  destruct (same_reach _ _ Hs) as [H|H]; inversion H; subst; auto; exfalso.
  - eapply (in_edge_no_successor i e He Hl); eassumption.
  - eapply (in_edge_no_successor i f Hf Hl); eassumption.
Qed.
Lemma out_edges_distinct i e f : In e (out_edges net i) -> In f (out_edges net i) -> same e f -> e = f.
Proof.
  intros He Hf Hs. destruct (Nat.eq_dec e f) as [|Hne]; [assumption|].
  pose proof (two_in _ _ _ He Hf Hne) as Hl.
  destruct (same_reach _ _ Hs) as [H|H]; destruct (reach_snoc _ _ H) as [|(g & _ & Hg)]; auto; exfalso.
  - eapply (out_edge_no_predecessor i f Hf Hl); eassumption.
  - eapply (out_edge_no_predecessor i e He Hl); eassumption.
Qed.

(** The invariant of the column map. *)
Record cm_inv (m : colmap) : Prop := {
  ci_lt : forall e c, cm_get m e = Some c -> c < cm_ncols m;
  ci_same : forall e f c, cm_get m e = Some c -> cm_get m f = Some c -> same e f;
  ci_onto : forall c, c < cm_ncols m -> exists e, cm_get m e = Some c }.

Lemma cm_get_cons e c n l e' : cm_get (mkCm n ((e, c) :: l)) e' = if e' =? e then Some c else assoc Nat.eqb e' l.
Proof. reflexivity. Qed.

Lemma add_simple_inv m e : cm_inv m -> cm_inv (add_simple_edge m e) /\ cm_get (add_simple_edge m e) e <> None /\
  (forall f, cm_get m f <> None -> cm_get (add_simple_edge m e) f <> None).
Proof.
  intros [Hlt Hs Hon]. unfold add_simple_edge. destruct (cm_get m e) as [c|] eqn:E.
  - split; [constructor; assumption|]. split; [congruence|auto].
  - split; [constructor; cbn [cm_ncols]|].
    + intros e' c. rewrite cm_get_cons. destruct (e' =? e) eqn:Q.
      * intros H. injection H as <-. lia.
      * intros H. specialize (Hlt e' c H). lia.
    + intros e' f c. rewrite !cm_get_cons. destruct (e' =? e) eqn:Q1, (f =? e) eqn:Q2.
      * apply Nat.eqb_eq in Q1. apply Nat.eqb_eq in Q2. subst. intros _ _. apply rst_refl.
      * intros H1 H2. injection H1 as <-. specialize (Hlt f _ H2). lia.
      * intros H1 H2. injection H2 as <-. specialize (Hlt e' _ H1). lia.
      * intros H1 H2. apply (Hs e' f c H1 H2).
    + intros c Hc. destruct (Nat.eq_dec c (cm_ncols m)) as [->|Hne].
      * exists e. rewrite cm_get_cons, Nat.eqb_refl. reflexivity.
      * destruct (Hon c ltac:(lia)) as (f & Hf). exists f. rewrite cm_get_cons.
        destruct (f =? e) eqn:Q; [apply Nat.eqb_eq in Q; congruence | exact Hf].
    + split; [rewrite cm_get_cons, Nat.eqb_refl; discriminate|].
      intros f Hf. rewrite cm_get_cons. destruct (f =? e); [discriminate | exact Hf].
Qed.

Lemma add_equal_inv m e f : e <> f -> same e f -> cm_inv m ->
  cm_inv (add_equal_edges m e f) /\ cm_get (add_equal_edges m e f) e <> None /\
  (forall g, cm_get m g <> None -> cm_get (add_equal_edges m e f) g <> None).
Proof.
  intros Hne Hef [Hlt Hs Hon]. unfold add_equal_edges.
  destruct (cm_get m e) as [c|] eqn:E, (cm_get m f) as [d|] eqn:F.
  - split; [constructor; assumption|]. split; [congruence|auto].
  - split; [constructor; cbn [cm_ncols]|].
    + intros e' c'. rewrite cm_get_cons. destruct (e' =? f) eqn:Q.
      * intros H. injection H as <-. apply (Hlt e c E).
      * apply Hlt.
    + intros g h c'. rewrite !cm_get_cons. destruct (g =? f) eqn:Q1, (h =? f) eqn:Q2.
      * apply Nat.eqb_eq in Q1. apply Nat.eqb_eq in Q2. subst. intros _ _. apply rst_refl.
      * apply Nat.eqb_eq in Q1. subst g. intros H1 H2. injection H1 as <-.
        apply rst_trans with e; [apply rst_sym; exact Hef | apply (Hs e h c E H2)].
      * apply Nat.eqb_eq in Q2. subst h. intros H1 H2. injection H2 as <-.
        apply rst_trans with e; [apply (Hs g e c H1 E) | exact Hef].
      * intros H1 H2. apply (Hs g h c' H1 H2).
    + intros c' Hc. destruct (Hon c' Hc) as (g & Hg). exists g. rewrite cm_get_cons.
      destruct (g =? f) eqn:Q; [apply Nat.eqb_eq in Q; congruence | exact Hg].
    + split; [rewrite cm_get_cons; destruct (e =? f) eqn:Q; [apply Nat.eqb_eq in Q; contradiction|]; unfold cm_get in E; rewrite E; discriminate|].
      intros g Hg. rewrite cm_get_cons. destruct (g =? f); [discriminate | exact Hg].
  - split; [constructor; cbn [cm_ncols]|].
    + intros e' c'. rewrite cm_get_cons. destruct (e' =? e) eqn:Q.
      * intros H. injection H as <-. apply (Hlt f d F).
      * apply Hlt.
    + intros g h c'. rewrite !cm_get_cons. destruct (g =? e) eqn:Q1, (h =? e) eqn:Q2.
      * apply Nat.eqb_eq in Q1. apply Nat.eqb_eq in Q2. subst. intros _ _. apply rst_refl.
      * apply Nat.eqb_eq in Q1. subst g. intros H1 H2. injection H1 as <-.
        apply rst_trans with f; [exact Hef | apply (Hs f h d F H2)].
      * apply Nat.eqb_eq in Q2. subst h. intros H1 H2. injection H2 as <-.
        apply rst_trans with f; [apply (Hs g f d H1 F) | apply rst_sym; exact Hef].
      * intros H1 H2. apply (Hs g h c' H1 H2).
    + intros c' Hc. destruct (Hon c' Hc) as (g & Hg). exists g. rewrite cm_get_cons.
      destruct (g =? e) eqn:Q; [apply Nat.eqb_eq in Q; congruence | exact Hg].
    + split; [rewrite cm_get_cons, Nat.eqb_refl; discriminate|].
      intros g Hg. rewrite cm_get_cons. destruct (g =? e); [discriminate | exact Hg].
  - assert (Hget : forall g, cm_get (mkCm (S (cm_ncols m)) ((f, cm_ncols m) :: (e, cm_ncols m) :: cm_edges m)) g
                    = if g =? f then Some (cm_ncols m) else if g =? e then Some (cm_ncols m) else cm_get m g).
    { intros g. reflexivity. }
    assert (Hnew : forall g, cm_get (mkCm (S (cm_ncols m)) ((f, cm_ncols m) :: (e, cm_ncols m) :: cm_edges m)) g = Some (cm_ncols m) ->
                   g = f \/ g = e).
    { intros g. rewrite Hget. destruct (g =? f) eqn:Q1; [apply Nat.eqb_eq in Q1; auto|].
      destruct (g =? e) eqn:Q2; [apply Nat.eqb_eq in Q2; auto|]. intros H. specialize (Hlt g _ H). lia. }
    split; [constructor; cbn [cm_ncols]|].
    + intros g c'. rewrite Hget. destruct (g =? f); [intros H; injection H as <-; lia|].
      destruct (g =? e); [intros H; injection H as <-; lia|]. intros H. specialize (Hlt g c' H). lia.
    + intros g h c' H1 H2. destruct (Nat.eq_dec c' (cm_ncols m)) as [->|Hc].
      * destruct (Hnew g H1) as [->| ->], (Hnew h H2) as [->| ->];
          [apply rst_refl | apply rst_sym; exact Hef | exact Hef | apply rst_refl].
      * rewrite Hget in H1, H2.
        destruct (g =? f); [congruence|]. destruct (g =? e); [congruence|].
        destruct (h =? f); [congruence|]. destruct (h =? e); [congruence|]. apply (Hs g h c' H1 H2).
    + intros c' Hc. destruct (Nat.eq_dec c' (cm_ncols m)) as [->|Hc'].
      * exists f. rewrite Hget, Nat.eqb_refl. reflexivity.
      * destruct (Hon c' ltac:(lia)) as (g & Hg). exists g. rewrite Hget.
        destruct (g =? f) eqn:Q1; [apply Nat.eqb_eq in Q1; congruence|].
        destruct (g =? e) eqn:Q2; [apply Nat.eqb_eq in Q2; congruence|]. exact Hg.
    + split.
      * rewrite Hget. destruct (e =? f); [discriminate|]. rewrite Nat.eqb_refl. discriminate.
      * intros g Hg. rewrite Hget. destruct (g =? f); [discriminate|]. destruct (g =? e); [discriminate | exact Hg].
Qed.

Lemma add_edge_column_inv m i ed : nth_error (net_edges net) i = Some ed -> cm_inv m ->
  cm_inv (add_edge_column (net_nodes net) m i ed) /\
  cm_get (add_edge_column (net_nodes net) m i ed) i <> None /\
  (forall g, cm_get m g <> None -> cm_get (add_edge_column (net_nodes net) m i ed) g <> None).
Proof.
  intros Hi Hinv. unfold add_edge_column.
  destruct (wf_edges net wf ed (nth_error_In _ _ Hi)) as (Hfrom & Hto & Hneq).
  destruct (nth_error_lt_Some (net_nodes net) (e_from ed) Hfrom) as (n & Hn). rewrite Hn.
  destruct (wf_nodes net wf _ _ Hn) as (Hin & Hout & Hdeg).
  assert (Hsimple := add_simple_inv m i Hinv).
  destruct (n_type n) eqn:Ht; try exact Hsimple.
  destruct (n_in n) as [|e_in [|? ?]] eqn:Ein; try exact Hsimple.
  destruct (n_out n) as [|e_out [|? ?]] eqn:Eout; try exact Hsimple.
  assert (Hio : In i (out_edges net (e_from ed))) by (apply out_edges_In; eauto).
  rewrite <- Hout in Hio. destruct Hio as [->|[]].
  apply add_equal_inv; [| |exact Hinv].
  - intros ->. assert (Hc : In e_in (in_edges net (e_from ed))) by (rewrite <- Hin; left; reflexivity).
    apply in_edges_In in Hc. destruct Hc as (ed' & Hed' & Hte). assert (ed' = ed) by congruence. subst. congruence.
  - apply rst_sym, rst_step. exists (e_from ed), n. auto.
Qed.

Lemma add_edge_columns_inv : forall es pre m, net_edges net = pre ++ es -> cm_inv m ->
  (forall k, k < length pre -> cm_get m k <> None) ->
  cm_inv (add_edge_columns (net_nodes net) m (length pre) es) /\
  (forall k, k < length (net_edges net) -> cm_get (add_edge_columns (net_nodes net) m (length pre) es) k <> None).
Proof.
  induction es as [|ed es IH]; intros pre m Heq Hinv Hpre; cbn [add_edge_columns].
  - split; [exact Hinv|]. rewrite Heq, app_nil_r. exact Hpre.
  - assert (Hi : nth_error (net_edges net) (length pre) = Some ed).
    { rewrite Heq, nth_error_app2, Nat.sub_diag by lia. reflexivity. }
    destruct (add_edge_column_inv m _ _ Hi Hinv) as (H1 & H2 & H3).
    replace (S (length pre)) with (length (pre ++ [ed])) by (rewrite app_length; cbn; lia).
    apply IH; [rewrite <- app_assoc; exact Heq | exact H1|].
    intros k Hk. rewrite app_length in Hk. cbn in Hk.
    destruct (Nat.eq_dec k (length pre)) as [->|Hne]; [exact H2|]. apply H3, Hpre. lia.
Qed.

Lemma edge_columns_inv : cm_inv (edge_columns net) /\
  (forall k, k < length (net_edges net) -> cm_get (edge_columns net) k <> None).
Proof.
  apply (add_edge_columns_inv (net_edges net) [] cm_empty); [reflexivity| |intros k Hk; cbn in Hk; lia].
  constructor; cbn; try discriminate. intros c Hc. lia.
Qed.

Lemma edge_column_exists e : e < length (net_edges net) ->
  cm_get (edge_columns net) e = Some (col_for_edge net e) /\ col_for_edge net e < cm_ncols (edge_columns net).
Proof.
  intros He. destruct edge_columns_inv as (Hinv & Hall). specialize (Hall e He). unfold col_for_edge.
  destruct (cm_get (edge_columns net) e) as [c|] eqn:E; [|congruence].
  split; [reflexivity | apply (ci_lt _ Hinv e c E)].
Qed.

Lemma same_column e f : e < length (net_edges net) -> f < length (net_edges net) ->
  col_for_edge net e = col_for_edge net f -> same e f.
Proof.
  intros He Hf Hc. destruct edge_columns_inv as (Hinv & _).
  destruct (edge_column_exists e He) as [H1 _]. destruct (edge_column_exists f Hf) as [H2 _].
  rewrite Hc in H1. apply (ci_same _ Hinv e f _ H1 H2).
Qed.

Lemma same_balanced fl e f : balanced net fl -> same e f -> (fl e == fl f)%Q.
Proof.
  intros Hb Hs. induction Hs as [e f (i & n & Hn & Ht & Hi & Ho) | e | e f _ IH | e f g _ IH1 _ IH2].
  - specialize (Hb i n Hn Ht). unfold inflow, outflow in Hb. rewrite Hi, Ho in Hb. cbn in Hb.
    rewrite !Qplus_0_r in Hb. exact Hb.
  - reflexivity.
  - symmetry. exact IH.
  - rewrite IH1. exact IH2.
Qed.

(** Shared columns never matter for the balance: columns of the edges into one
    node are distinct, and so are those of the edges out of one node. *)
Lemma in_edges_lt i e : In e (in_edges net i) -> e < length (net_edges net).
Proof. intros H. apply in_edges_In in H. destruct H as (ed & Hed & _). apply (nth_error_Some_lt _ _ _ Hed). Qed.
Lemma out_edges_lt i e : In e (out_edges net i) -> e < length (net_edges net).
Proof. intros H. apply out_edges_In in H. destruct H as (ed & Hed & _). apply (nth_error_Some_lt _ _ _ Hed). Qed.
Lemma in_cols_distinct i e f : In e (in_edges net i) -> In f (in_edges net i) ->
  col_for_edge net e = col_for_edge net f -> e = f.
Proof.
  intros He Hf Hc. apply (in_edges_distinct i); try assumption.
  apply same_column; [apply (in_edges_lt i e He) | apply (in_edges_lt i f Hf) | exact Hc].
Qed.
Lemma out_cols_distinct i e f : In e (out_edges net i) -> In f (out_edges net i) ->
  col_for_edge net e = col_for_edge net f -> e = f.
Proof.
  intros He Hf Hc. apply (out_edges_distinct i); try assumption.
  apply same_column; [apply (out_edges_lt i e He) | apply (out_edges_lt i f Hf) | exact Hc].
Qed.

(** Column values realising given edge flows. *)
Definition col_value (fl : nat -> Q) (c : nat) : Q :=
  match find (fun e => col_for_edge net e =? c) (edge_ids net) with Some e => fl e | None => 0%Q end.
Lemma col_value_edge fl e : balanced net fl -> e < length (net_edges net) ->
  (col_value fl (col_for_edge net e) == fl e)%Q.
Proof.
  intros Hb He. unfold col_value.
  destruct (find _ (edge_ids net)) as [e'|] eqn:E.
  - apply find_some in E. destruct E as [Hin Hc]. apply Nat.eqb_eq in Hc.
    unfold edge_ids in Hin. apply in_seq in Hin.
    apply (same_balanced fl _ _ Hb). apply same_column; [lia | exact He | exact Hc].
  - exfalso. assert (Hin : In e (edge_ids net)) by (apply in_seq; lia).
    pose proof (find_none _ _ E e Hin) as Hc. cbn in Hc. rewrite Nat.eqb_refl in Hc. discriminate.
Qed.
End Cols.
