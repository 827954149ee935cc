(** The bounds and the objective of the interior point solver's programme after
    an update. *)
From Coq Require Import Reals Qreals Sorted Relations.
From Verif Require Import Base IpmCholesky IpmStep IpmSpec IpmRunSpec IpmDense IpmSymbolic IpmNumeric IpmStepLemmas.
From Verif Require Import Calendar Network NetworkBuild NetworkSpec NetworkBuildLemmas Lp LpSpec LpColLemmas LpRowLemmas IpmLp IpmLpSpec IpmLpCols IpmLpRows IpmLpIndep IpmLpPosed.
Open Scope nat_scope.

Definition num (vs : list (list Q)) (i l : nat) : Q := nth l (nth i vs []) 0%Q.

Lemma lanes2_nth f a b l : l < length a -> l < length b -> nth l (lanes2 f a b) 0%Q = f (nth l a 0%Q) (nth l b 0%Q).
Proof.
  intros Ha Hb. unfold lanes2. set (g := fun p => f (fst p) (snd p)). rewrite nth_indep with (d' := g (0%Q, 0%Q)) by (rewrite map_length, combine_length; lia).
  rewrite map_nth. unfold g. revert b l Ha Hb. induction a as [|x a IH]; intros [|y b] [|l] Ha Hb; cbn [length] in *; try lia; [reflexivity|]. cbn [combine nth]. apply IH; lia.
Qed.
Lemma lanes2_length f a b : length a = 4 -> length b = 4 -> length (lanes2 f a b) = 4.
Proof. intros Ha Hb. unfold lanes2. rewrite map_length, combine_length, Ha, Hb. reflexivity. Qed.
Lemma pad_length vs : length vs <= 4 -> length (pad vs) = 4.
Proof. intros H. unfold pad. rewrite app_length, repeat_length. lia. Qed.
Lemma pad_nth vs l : l < length vs -> nth l (pad vs) 0%Q = nth l vs 0%Q.
Proof. intros H. unfold pad. apply app_nth1. exact H. Qed.
Lemma upd_length {A} (f : A -> A) : forall n l, length (Lp.upd n f l) = length l.
Proof. induction n as [|n IH]; intros [|a l]; cbn [Lp.upd length]; auto. Qed.
Lemma upd_nth_same {A} (f : A -> A) d : forall n l, n < length l -> nth n (Lp.upd n f l) d = f (nth n l d).
Proof. induction n as [|n IH]; intros [|a l] H; cbn [length] in H; try lia; cbn [Lp.upd nth]; [reflexivity|]. apply IH. lia. Qed.
Lemma upd_nth_other {A} (f : A -> A) d : forall n l k, k <> n -> nth k (Lp.upd n f l) d = nth k l d.
Proof. induction n as [|n IH]; intros [|a l] [|k] H; cbn [Lp.upd nth]; try reflexivity; try congruence. apply IH. congruence. Qed.
Lemma upd_In {A} (f : A -> A) x : forall n l, In x (Lp.upd n f l) -> In x l \/ exists y, In y l /\ x = f y.
Proof.
  induction n as [|n IH]; intros [|a l]; cbn [Lp.upd In]; auto.
  - intros [<-|H]; eauto.
  - intros [<-|H]; auto. destruct (IH l H) as [H1|(y & H1 & H2)]; eauto.
Qed.
Lemma fmin_le_l a b : (fmin a b <= a)%Q.
Proof. unfold fmin. destruct (Qle_bool a b) eqn:E; [apply Qle_refl|]. apply Qlt_le_weak. apply Qnot_le_lt. intros H. apply Qle_bool_iff in H. congruence. Qed.
Lemma fmin_le_r a b : (fmin a b <= b)%Q.
Proof. unfold fmin. destruct (Qle_bool a b) eqn:E; [apply Qle_bool_iff, E | apply Qle_refl]. Qed.

Definition four (vs : list (list Q)) : Prop := forall v, In v vs -> length v = 4.
Lemma four_nth vs i : four vs -> i < length vs -> length (nth i vs []) = 4.
Proof. intros H Hi. apply H, nth_In, Hi. Qed.

Lemma apply_num up row ub i l : four up -> length ub <= 4 -> l < 4 -> i < length up ->
  num (ipm_apply up row ub) i l = if i =? row then fmin (num up i l) (nth l (pad ub) 0%Q) else num up i l.
Proof.
  intros Hf Hub Hl Hi. unfold num, ipm_apply. destruct (Nat.eqb_spec i row) as [->|Hne].
  - rewrite upd_nth_same by exact Hi. rewrite lanes2_nth; [reflexivity | rewrite four_nth by assumption; exact Hl | rewrite pad_length by exact Hub; exact Hl].
  - rewrite upd_nth_other by exact Hne. reflexivity.
Qed.
Lemma apply_four up row ub : four up -> length ub <= 4 -> four (ipm_apply up row ub).
Proof.
  intros Hf Hub v Hv. apply upd_In in Hv. destruct Hv as [Hv|(y & Hy & ->)]; [apply Hf, Hv|]. apply lanes2_length; [apply Hf, Hy | apply pad_length, Hub].
Qed.
Lemma apply_length up row ub : length (ipm_apply up row ub) = length up.
Proof. apply upd_length. Qed.

Lemma apply_limits_spec : forall limits ids up, length ids = length limits -> four up -> (forall ub, In ub limits -> length ub <= 4) ->
  exists up', apply_limits ids limits up = Ok up' /\ length up' = length up /\ four up' /\
  forall l, l < 4 ->
    (forall i, i < length up -> (num up' i l <= num up i l)%Q) /\
    (forall i, ~ In i ids -> nth i up' [] = nth i up []) /\
    (forall i ub, In (i, ub) (combine ids limits) -> i < length up -> (num up' i l <= nth l (pad ub) 0)%Q) /\
    (forall i, i < length up -> num up' i l = num up i l \/ exists ub, In (i, ub) (combine ids limits) /\ num up' i l = nth l (pad ub) 0%Q).
Proof.
  induction limits as [|ub limits IH]; intros [|id ids] up Hlen Hf H4; cbn [length] in Hlen; try lia; cbn [apply_limits].
  - exists up. split; [reflexivity|]. split; [reflexivity|]. split; [exact Hf|]. intros l Hl. split; [intros; apply Qle_refl|]. split; [reflexivity|]. split; [intros i ub []|]. auto.
  - assert (Hub : length ub <= 4) by (apply H4; left; reflexivity).
    destruct (IH ids (ipm_apply up id ub) ltac:(lia) (apply_four up id ub Hf Hub) (fun u Hu => H4 u (or_intror Hu))) as (up' & Hr & Hl' & Hf' & H). rewrite apply_length in *.
    exists up'. split; [exact Hr|]. split; [exact Hl'|]. split; [exact Hf'|]. intros l Hl. destruct (H l Hl) as (A & B & C & D).
    assert (E : forall i, i < length up -> (num (ipm_apply up id ub) i l <= num up i l)%Q).
    { intros i Hi. rewrite apply_num by assumption. destruct (i =? id); [apply fmin_le_l | apply Qle_refl]. }
    split; [intros i Hi; eapply Qle_trans; [apply A, Hi | apply E, Hi]|]. split.
    + intros i Hi. rewrite B by (intros Hin; apply Hi; right; exact Hin). unfold ipm_apply. apply upd_nth_other. intros ->. apply Hi. left. reflexivity.
    + cbn [combine In]. split.
      * intros i ub' [Heq|Hin] Hi; [|apply C; assumption]. injection Heq as -> ->. eapply Qle_trans; [apply A, Hi|]. rewrite apply_num by assumption. rewrite Nat.eqb_refl. apply fmin_le_r.
      * intros i Hi. destruct (D i Hi) as [Hd|(u & Hu & Hd)]; [|right; eauto]. rewrite apply_num in Hd by assumption. destruct (Nat.eqb_spec i id) as [->|]; [|auto].
        unfold fmin in Hd. destruct (Qle_bool (num up id l) (nth l (pad ub) 0%Q)); [auto | right; exists ub; auto].
Qed.

(** *** The pairs of a row and its values *)
Lemma node_same_length col sts p n : length (node_limits sts p n) = length (node_upper_rows col n).
Proof. unfold node_limits, node_upper_rows. destruct (n_type n); try reflexivity; destruct (n_max n); reflexivity. Qed.
Lemma nodes_same_length col sts : forall ns i, length (nodes_limits sts i ns) = length (flat_map (node_upper_rows col) ns).
Proof. induction ns as [|n ns IH]; intros i; cbn [nodes_limits flat_map]; [reflexivity|]. rewrite !app_length, (node_same_length col), IH. reflexivity. Qed.
Lemma combine_app_eq {A B} (a1 a2 : list A) (b1 b2 : list B) : length a1 = length b1 -> combine (a1 ++ a2) (b1 ++ b2) = combine a1 b1 ++ combine a2 b2.
Proof. revert b1. induction a1 as [|x a1 IH]; intros [|y b1] H; cbn [length] in H; try lia; [reflexivity|]. cbn [app combine]. rewrite IH by lia. reflexivity. Qed.
Lemma pairs_In col sts r ub : forall ns i, In (r, ub) (combine (flat_map (node_upper_rows col) ns) (nodes_limits sts i ns)) <->
  exists p n, nth_error ns p = Some n /\ In (r, ub) (combine (node_upper_rows col n) (node_limits sts (i + p) n)).
Proof.
  induction ns as [|n ns IH]; intros i; cbn [nodes_limits flat_map].
  - split; [intros [] | intros (p & n & H & _); destruct p; discriminate].
  - rewrite combine_app_eq by (symmetry; apply node_same_length). rewrite in_app_iff, IH. split.
    + intros [H|(p & n' & Hp & H)]; [exists 0, n; rewrite Nat.add_0_r; auto|]. exists (S p), n'. rewrite Nat.add_succ_r. auto.
    + intros (p & n' & Hp & H). destruct p as [|p]; cbn in Hp; [injection Hp as <-; rewrite Nat.add_0_r in H; auto|]. right. exists p, n'. rewrite Nat.add_succ_r in H. auto.
Qed.
Lemma limits_length sts : forall ns i ub, In ub (nodes_limits sts i ns) -> length ub = length sts.
Proof.
  induction ns as [|n ns IH]; intros i ub; cbn [nodes_limits]; [intros []|]. rewrite in_app_iff. intros [H|H]; [|apply (IH _ _ H)].
  unfold node_limits in H. destruct (n_type n); try destruct (n_max n); cbn [In] in H; repeat (destruct H as [H|H]; [subst ub; apply map_length|]); contradiction.
Qed.

Section Update.
Variable net : network.
Hypothesis wf : wf_network net.
Notation col := (col_for_edge net).
Notation ncols := (cm_ncols (edge_columns net)).

(** What the bounds say after an update. *)
Record bounds_ok (b : ibuilt) (sts : list lp_state) : Prop := {
  bo_cut : forall i l, i < length (il_ineq (ib_lp b)) -> l < length sts -> (num (il_upper (ib_lp b)) i l <= B_MAX)%Q;
  bo_below : forall l p n r ub, l < length sts -> nth_error (net_nodes net) p = Some n -> In (r, ub) (combine (node_upper_rows col n) (node_limits sts p n)) ->
    exists i r', nth_error (il_ineq (ib_lp b)) i = Some r' /\ cols_eqb r' r = true /\ (num (il_upper (ib_lp b)) i l <= nth l ub 0)%Q;
  bo_tight : forall l i r', l < length sts -> nth_error (il_ineq (ib_lp b)) i = Some r' ->
    exists p n r ub, nth_error (net_nodes net) p = Some n /\ In (r, ub) (combine (node_upper_rows col n) (node_limits sts p n)) /\ cols_eqb r' r = true /\
      (num (il_upper (ib_lp b)) i l = B_MAX \/ num (il_upper (ib_lp b)) i l = nth l ub 0%Q);
  bo_zero : forall i l, length (il_ineq (ib_lp b)) <= i -> num (il_upper (ib_lp b)) i l = 0%Q }.

Lemma combine_In {A B} (a : A) (b : B) la lb : In (a, b) (combine la lb) <-> exists j, nth_error la j = Some a /\ nth_error lb j = Some b.
Proof.
  revert lb. induction la as [|x la IH]; intros [|y lb]; cbn [combine In].
  - split; [intros [] | intros (j & H & _); destruct j; discriminate].
  - split; [intros [] | intros (j & H & _); destruct j; discriminate].
  - split; [intros [] | intros (j & _ & H); destruct j; discriminate].
  - rewrite IH. split.
    + intros [H|(j & H1 & H2)]; [injection H as -> ->; exists 0; auto | exists (S j); auto].
    + intros (j & H1 & H2). destruct j as [|j]; cbn in H1, H2; [left; congruence | right; eauto].
Qed.

Lemma reset_num n up i l : n <= length up -> i < length up -> l < 4 -> num (ipm_reset n up) i l = if i <? n then B_MAX else num up i l.
Proof.
  intros Hn Hi Hl. unfold num, ipm_reset. assert (Lf : length (map (fun _ : list Q => splat B_MAX) (firstn n up)) = n) by (rewrite map_length, firstn_length; lia).
  destruct (Nat.ltb_spec i n) as [Hlt|Hge].
  - rewrite app_nth1 by lia. set (g := fun _ : list Q => splat B_MAX). rewrite nth_indep with (d' := g []) by (unfold g; lia). rewrite map_nth. unfold g, splat. destruct l as [|[|[|[|l]]]]; try reflexivity. lia.
  - rewrite app_nth2 by lia. rewrite Lf. f_equal. rewrite <- (firstn_skipn n up) at 2. rewrite app_nth2 by (rewrite firstn_length; lia). f_equal. rewrite firstn_length. lia.
Qed.
Lemma reset_beyond n up i : n <= length up -> n <= i -> nth i (ipm_reset n up) [] = nth i up [].
Proof.
  intros Hn Hi. unfold ipm_reset. rewrite app_nth2 by (rewrite map_length, firstn_length; lia). rewrite map_length, firstn_length. rewrite <- (firstn_skipn n up) at 3. rewrite app_nth2 by (rewrite firstn_length; lia). rewrite firstn_length. reflexivity.
Qed.
Lemma reset_length n up : length (ipm_reset n up) = length up.
Proof. unfold ipm_reset. rewrite app_length, map_length, <- app_length, firstn_skipn. reflexivity. Qed.
Lemma reset_four n up : four up -> four (ipm_reset n up).
Proof.
  intros H v Hv. unfold ipm_reset in Hv. apply in_app_or in Hv. destruct Hv as [Hv|Hv].
  - apply in_map_iff in Hv. destruct Hv as (x & <- & _). reflexivity.
  - apply H. rewrite <- (firstn_skipn n up). apply in_or_app. right. exact Hv.
Qed.
Lemma objectives_length sts obj : length (ipm_objectives net sts obj) = length obj.
Proof.
  unfold ipm_objectives. transitivity (length (map (fun _ : list Q => splat 0) obj)); [|apply map_length]. generalize (map (fun _ : list Q => splat 0) obj) as o.
  generalize (combine (seq 0 (length (net_edges net))) (net_edges net)) as es. induction es as [|e es IH]; intros o; cbn [fold_left]; [reflexivity|]. rewrite IH. apply upd_length.
Qed.

Lemma update_spec b sts : built_as net b -> length sts <= 4 ->
  exists b', ipm_update net b sts = Ok b' /\ built_as net b' /\ il_ineq (ib_lp b') = il_ineq (ib_lp b) /\ il_eq (ib_lp b') = il_eq (ib_lp b) /\ bounds_ok b' sts /\
    il_obj (ib_lp b') = ipm_objectives net sts (il_obj (ib_lp b)).
Proof.
  intros Hb H4. destruct (add_upper_rows_spec _ _ _ _ (ba_ineq net b Hb)) as (_ & Hids & Hcov).
  set (L := nodes_limits sts 0 (net_nodes net)). set (nq := length (il_ineq (ib_lp b))). set (up0 := ipm_reset nq (il_upper (ib_lp b))).
  assert (Hup : length (il_upper (ib_lp b)) = nq + length (il_eq (ib_lp b))) by apply (ba_upper net b Hb).
  assert (Hlen : length (ib_node_rows b) = length L) by (unfold L; rewrite (nodes_same_length col); apply (Forall2_length' _ _ _ Hids)).
  destruct (apply_limits_spec L (ib_node_rows b) up0 Hlen) as (up & Hr & Hl & Hf & H).
  { apply reset_four. exact (ba_lanes net b Hb). }
  { intros ub Hub. rewrite (limits_length _ _ _ _ Hub). exact H4. }
  assert (Hu0 : length up0 = nq + length (il_eq (ib_lp b))) by (unfold up0; rewrite reset_length; exact Hup).
  assert (Hidlt : forall i, In i (ib_node_rows b) -> i < nq).
  { intros i Hi. destruct (In_nth_error _ _ Hi) as (j & Hj). destruct (Forall2_In_l _ _ _ _ Hids Hi) as (r & _ & r' & Hr' & _). apply (nth_error_Some_lt _ _ _ Hr'). }
  assert (Hzero : forall i l, nq <= i -> num up i l = 0%Q).
  { intros i l Hi. destruct (H 0 ltac:(lia)) as (_ & B & _). unfold num. rewrite B by (intros Hin; specialize (Hidlt i Hin); lia).
    unfold up0. rewrite reset_beyond by lia. apply (ba_zero net b Hb i Hi). }
  eexists. split; [unfold ipm_update; fold L nq up0; rewrite Hr; cbn [rbind]; reflexivity|]. split; [|split; [|split; [|split]]]; try reflexivity.
  - constructor; cbn [ib_lp il_eq il_ineq il_ncols il_upper il_obj ib_node_rows].
    + apply (ba_eq net b Hb).
    + apply (ba_ineq net b Hb).
    + apply (ba_ncols net b Hb).
    + rewrite Hl. exact Hu0.
    + exact Hf.
    + intros i Hi l. apply Hzero, Hi.
    + rewrite objectives_length. apply (ba_obj net b Hb).
  - constructor; cbn [ib_lp il_eq il_ineq il_ncols il_upper il_obj ib_node_rows]; fold nq.
    + intros i l Hi Hls. destruct (H l ltac:(lia)) as (A & _). eapply Qle_trans; [apply A; lia|]. unfold up0. rewrite reset_num by lia. destruct (Nat.ltb_spec i nq); [apply Qle_refl | lia].
    + intros l p n r ub Hls Hn Hin. assert (Hp : In (r, ub) (combine (flat_map (node_upper_rows col) (net_nodes net)) L)) by (apply (pairs_In col sts r ub (net_nodes net) 0); exists p, n; auto).
      apply combine_In in Hp. destruct Hp as (j & Hj1 & Hj2). destruct (nth_error_lt_Some (ib_node_rows b) j) as (i & Hi); [rewrite Hlen; apply (nth_error_Some_lt _ _ _ Hj2)|].
      pose proof (Forall2_nth_error _ _ _ j _ _ Hids Hi Hj1) as (r' & Hr' & He). exists i, r'. split; [exact Hr'|]. split; [exact He|].
      destruct (H l ltac:(lia)) as (_ & _ & C & _). rewrite <- (pad_nth ub l).
      * apply C; [apply combine_In; eauto|]. pose proof (Hidlt i (nth_error_In _ _ Hi)). lia.
      * rewrite (limits_length sts (net_nodes net) 0 ub) by (apply (nth_error_In _ _ Hj2)). exact Hls.
    + intros l i r' Hls Hi. pose proof (nth_error_Some_lt _ _ _ Hi) as Hlt. fold nq in Hlt. destruct (H l ltac:(lia)) as (_ & _ & _ & D).
      assert (Hown : exists p n r ub, nth_error (net_nodes net) p = Some n /\ In (r, ub) (combine (node_upper_rows col n) (node_limits sts p n)) /\ cols_eqb r' r = true).
      { destruct (Hcov i r' Hi) as [Hn|(j & Hj1 & Hj2)]; [destruct i; discriminate|]. destruct (nth_error_lt_Some L j) as (ub & Hub); [rewrite <- Hlen; apply (nth_error_Some_lt _ _ _ Hj1)|].
        assert (Hp : In (r', ub) (combine (flat_map (node_upper_rows col) (net_nodes net)) L)) by (apply combine_In; eauto).
        apply pairs_In in Hp. destruct Hp as (p & n & Hn & Hin). exists p, n, r', ub. split; [exact Hn|]. split; [exact Hin | apply cols_eqb_refl]. }
      destruct (D i ltac:(lia)) as [Hd|(ub & Hub & Hd)].
      * destruct Hown as (p & n & r & ub & H1 & H2 & H3). exists p, n, r, ub. split; [exact H1|]. split; [exact H2|]. split; [exact H3|]. left. rewrite Hd. unfold up0. rewrite reset_num by lia. destruct (Nat.ltb_spec i nq); [reflexivity | lia].
      * apply combine_In in Hub. destruct Hub as (j & Hj1 & Hj2). destruct (nth_error_lt_Some (flat_map (node_upper_rows col) (net_nodes net)) j) as (r & Hr0).
        { rewrite <- (nodes_same_length col sts (net_nodes net) 0). apply (nth_error_Some_lt _ _ _ Hj2). }
        pose proof (Forall2_nth_error _ _ _ j _ _ Hids Hj1 Hr0) as (r2 & Hr2 & He). assert (r2 = r') by congruence. subst r2.
        assert (Hp : In (r, ub) (combine (flat_map (node_upper_rows col) (net_nodes net)) L)) by (apply combine_In; eauto).
        apply pairs_In in Hp. destruct Hp as (p & n & Hn & Hin). exists p, n, r, ub. split; [exact Hn|]. split; [exact Hin|]. split; [exact He|]. right. rewrite Hd. apply pad_nth.
        rewrite (limits_length sts (net_nodes net) 0 ub) by (apply (nth_error_In _ _ Hj2)). exact Hls.
    + exact Hzero.
Qed.
End Update.
