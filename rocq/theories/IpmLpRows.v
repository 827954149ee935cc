(** The rows of the interior point solver's programme. *)
From Coq Require Import Reals Qreals Sorted.
From Verif Require Import Base IpmCholesky IpmStep IpmSpec IpmDense IpmSymbolic IpmNumeric IpmStepLemmas.
From Verif Require Import Calendar Network NetworkBuild NetworkSpec NetworkBuildLemmas Lp LpSpec LpColLemmas LpRowLemmas IpmLp IpmLpSpec IpmLpCols.
From Coq Require Import Lra.
Open Scope nat_scope.

Definition ivalue (cols : list (nat * Q)) (x : nat -> R) : R := row_dot (real_row cols) x.

Lemma ivalue_nil x : ivalue [] x = 0%R.
Proof. reflexivity. Qed.
Lemma ivalue_cons c v cols x : ivalue ((c, v) :: cols) x = (Q2R v * x c + ivalue cols x)%R.
Proof. unfold ivalue, real_row. cbn [map]. rewrite row_dot_cons. reflexivity. Qed.
Lemma ivalue_add_element c v cols x : ivalue (add_element c v cols) x = (ivalue cols x + Q2R v * x c)%R.
Proof.
  induction cols as [|[c' v'] cols IH]; cbn [add_element].
  - rewrite ivalue_cons, ivalue_nil. lra.
  - destruct (c =? c') eqn:E; [apply Nat.eqb_eq in E; subst c'; rewrite !ivalue_cons, Q2R_plus; lra|].
    destruct (c <? c'); rewrite !ivalue_cons; [lra|]. rewrite IH. lra.
Qed.
Lemma ivalue_add_edges col es v x : forall cols, ivalue (add_edges col es v cols) x = (ivalue cols x + Q2R v * lsum (map (fun e => x (col e)) es))%R.
Proof.
  unfold add_edges. induction es as [|e es IH]; intros cols; cbn [fold_left map].
  - cbn. lra.
  - rewrite IH, ivalue_add_element. cbn [lsum fold_right]. unfold lsum. lra.
Qed.
Lemma ivalue_negative cols x : ivalue (clone_negative cols) x = (- ivalue cols x)%R.
Proof.
  induction cols as [|[c v] cols IH]; [cbn; unfold ivalue, row_dot; cbn; lra|]. unfold clone_negative. cbn [map fst snd]. rewrite !ivalue_cons, Q2R_opp.
  fold (clone_negative cols). rewrite IH. lra.
Qed.
Lemma ivalue_eqb a b x : cols_eqb a b = true -> ivalue a x = ivalue b x.
Proof.
  revert b. induction a as [|[c v] a IH]; intros [|[d w] b] H; cbn in H; try discriminate; [reflexivity|].
  apply andb_prop in H. destruct H as (H & H3). apply andb_prop in H. destruct H as (H1 & H2). apply Nat.eqb_eq in H1. apply Qeq_bool_eq in H2. subst d.
  rewrite !ivalue_cons, (IH b H3). rewrite (Qeq_eqR _ _ H2). reflexivity.
Qed.
Lemma q2r_1 : Q2R 1 = 1%R.
Proof. unfold Q2R. cbn. lra. Qed.
Lemma q2r_m1 : Q2R (- (1)) = (-1)%R.
Proof. unfold Q2R. cbn. lra. Qed.

Section Rows.
Variable net : network.
Hypothesis wf : wf_network net.
Notation col := (col_for_edge net).

Lemma ivalue_add_node i n x : nth_error (net_nodes net) i = Some n ->
  ivalue (add_node col n 1 []) x = r_node_flow net (fun e => x (col e)) i n.
Proof.
  intros Hn. unfold add_node, r_node_flow, r_inflow, r_outflow. destruct (wf_nodes net wf i n Hn) as (<- & <- & _).
  destruct (n_type n); rewrite !ivalue_add_edges, ?ivalue_nil, ?Q2R_opp, q2r_1; lra.
Qed.
Definition bcols (n : node) : list (nat * Q) := add_edges col (n_out n) (- (1)) (add_edges col (n_in n) 1 []).
Lemma ivalue_bcols i n x : nth_error (net_nodes net) i = Some n ->
  ivalue (bcols n) x = (r_inflow net (fun e => x (col e)) i - r_outflow net (fun e => x (col e)) i)%R.
Proof.
  intros Hn. unfold bcols, r_inflow, r_outflow. destruct (wf_nodes net wf i n Hn) as (<- & <- & _).
  rewrite !ivalue_add_edges, ivalue_nil, q2r_1, q2r_m1. lra.
Qed.

(** *** Which links have a row *)
Definition is_link (n : node) : bool := match n_type n with TLink => true | _ => false end.
Definition has_row (n : node) : bool := is_link n && negb (length (bcols n) =? 1).
Lemma balance_rows_Ok eqs ns : balance_rows col ns = Ok eqs -> eqs = map bcols (filter has_row ns).
Proof.
  unfold balance_rows. destruct (rmap _ ns) as [l| |] eqn:E; try discriminate. cbn [rbind]. intros H. injection H as <-.
  apply rmap_Ok_Forall2 in E. induction E as [|n r ns l Hn E IH]; [reflexivity|]. cbn [concat filter].
  unfold balance_row in Hn. fold (bcols n) in Hn. unfold has_row at 1, is_link. destruct (n_type n); cbn [andb]; try (injection Hn as <-; exact IH).
  destruct (length (bcols n)) as [|[|k]] eqn:L; try discriminate; injection Hn as <-; cbn [Nat.eqb negb andb]; [exact IH|]. cbn [app map]. rewrite IH. reflexivity.
Qed.
Lemma rmap_ok_all {E A B} (f : A -> res E B) l : (forall a, In a l -> exists b, f a = Ok b) -> exists bs, rmap f l = Ok bs.
Proof.
  induction l as [|a l IH]; intros H; [exists []; reflexivity|]. destruct (H a (or_introl eq_refl)) as (b & Hb). destruct IH as (bs & Hbs); [intros x Hx; apply H; right; exact Hx|].
  exists (b :: bs). cbn [rmap]. rewrite Hb. cbn [rbind]. rewrite Hbs. reflexivity.
Qed.
Lemma balance_rows_exist : exists eqs, balance_rows col (net_nodes net) = Ok eqs.
Proof.
  unfold balance_rows. destruct (rmap_ok_all (balance_row col) (net_nodes net)) as (l & ->); [|eexists; reflexivity].
  intros n Hin. apply In_nth_error in Hin. destruct Hin as (i & Hn). destruct (wf_nodes net wf i n Hn) as (_ & _ & Hd).
  unfold balance_row. fold (bcols n). destruct (n_type n); try (eexists; reflexivity). destruct Hd as (Hi & Ho).
  destruct (length (bcols n)) as [|[|k]] eqn:L; try (eexists; reflexivity). exfalso. apply length_zero_iff_nil in L.
  destruct (n_in n) as [|e es] eqn:E; [congruence|].
  assert (Hk : In (col e) (map fst (bcols n))).
  { unfold bcols. apply add_edges_keys. left. rewrite add_edges_keys, E. right. left. reflexivity. }
  rewrite L in Hk. destruct Hk.
Qed.

(** *** Merged links *)
Definition mergedb (p : nat) : bool := match nth_error (net_nodes net) p with Some n => is_link n && (length (bcols n) =? 1) | None => false end.
Definition head (e : nat) : nat := match nth_error (net_edges net) e with Some ed => e_to ed | None => 0 end.
Definition tail (e : nat) : nat := match nth_error (net_edges net) e with Some ed => e_from ed | None => 0 end.

Lemma in_head p e : In e (in_edges net p) <-> e < length (net_edges net) /\ head e = p.
Proof.
  rewrite in_edges_In. unfold head. split.
  - intros (ed & Hed & Ht). rewrite Hed. split; [apply (nth_error_Some_lt _ _ _ Hed) | exact Ht].
  - intros (Hlt & Hh). destruct (nth_error_lt_Some _ _ Hlt) as (ed & Hed). rewrite Hed in Hh. eauto.
Qed.
Lemma out_tail p e : In e (out_edges net p) <-> e < length (net_edges net) /\ tail e = p.
Proof.
  rewrite out_edges_In. unfold tail. split.
  - intros (ed & Hed & Ht). rewrite Hed. split; [apply (nth_error_Some_lt _ _ _ Hed) | exact Ht].
  - intros (Hlt & Hh). destruct (nth_error_lt_Some _ _ Hlt) as (ed & Hed). rewrite Hed in Hh. eauto.
Qed.
Lemma merged_shape p : mergedb p = true -> exists e f, in_edges net p = [e] /\ out_edges net p = [f] /\ col e = col f /\ after net e f.
Proof.
  unfold mergedb. destruct (nth_error (net_nodes net) p) as [n|] eqn:Hn; [|discriminate]. unfold is_link. destruct (n_type n) eqn:Ht; try discriminate. cbn [andb]. intros Hl. apply Nat.eqb_eq in Hl.
  destruct (skipped_row_shape net wf p n Hn Ht Hl) as (e & f & H1 & H2 & H3). destruct (wf_nodes net wf p n Hn) as (Hi & Ho & _). rewrite Hi in H1. rewrite Ho in H2.
  exists e, f. split; [exact H1|]. split; [exact H2|]. split; [exact H3|]. split; [|exact H3]. exists p, n. auto.
Qed.
Lemma after_merged e f : after net e f -> mergedb (head e) = true /\ mergedb (tail f) = true.
Proof.
  intros ((p & n & Hn & Ht & Hi & Ho) & Hc).
  assert (He : head e = p) by (apply in_head; rewrite Hi; left; reflexivity). assert (Hf : tail f = p) by (apply out_tail; rewrite Ho; left; reflexivity).
  rewrite He, Hf. assert (H : mergedb p = true); [|auto]. unfold mergedb. rewrite Hn. unfold is_link. rewrite Ht. cbn [andb].
  destruct (wf_nodes net wf p n Hn) as (Hi' & Ho' & _). unfold bcols. rewrite Hi', Ho', Hi, Ho. cbn [add_edges fold_left add_element]. rewrite <- Hc, Nat.eqb_refl. reflexivity.
Qed.
Lemma not_merged_end e : mergedb (head e) = false -> at_end net e.
Proof. intros H f Ha. destruct (after_merged e f Ha) as (H1 & _). congruence. Qed.
Lemma not_merged_start e : mergedb (tail e) = false -> at_start net e.
Proof. intros H f Ha. destruct (after_merged f e Ha) as (_ & H1). congruence. Qed.
End Rows.
