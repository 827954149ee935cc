(** The kernels of the OpenCL solver: a work item does on its cells what a lane of
    ipm-simd does, and touches no other cell. *)
From Coq Require Import Reals Lra Sorted FunctionalExtensionality Permutation.
From Verif Require Import Base IpmCholesky IpmStep IpmSpec IpmDense IpmSymbolic IpmNumeric IpmSolve IpmRunSpec IpmStepLemmas IpmLoopLemmas IpmBufferLemmas.
From Verif Require Import Calendar Network NetworkBuild Lp IpmLp IpmOcl IpmOclSpec.
Local Open Scope list_scope.
Local Open Scope nat_scope.
Notation upd := IpmCholesky.upd.

Lemma cell_inj g i j r q : i < g -> j < g -> cell g i r = cell g j q -> i = j /\ r = q.
Proof. unfold cell. intros Hi Hj H. assert (r = q) by nia. subst. lia. Qed.

Section Item.
Variables (g i : nat).
Hypothesis Hi : i < g.
Notation own := (own g i). Notation put := (put g i). Notation for_rows := (for_rows g i).

Lemma own_put buf r v : own (put buf r v) = upd (own buf) r v.
Proof.
  apply functional_extensionality. intros q. unfold IpmOcl.own, IpmOcl.put, upd. destruct (Nat.eqb_spec (cell g i q) (cell g i r)) as [E|E]; destruct (Nat.eqb_spec q r) as [->|Hn]; try reflexivity.
  - destruct (cell_inj g i i q r Hi Hi E). contradiction.
  - contradiction.
Qed.
Lemma put_other buf r v j : j < g -> j <> i -> IpmOcl.own g j (put buf r v) = IpmOcl.own g j buf.
Proof.
  intros Hj Hn. apply functional_extensionality. intros q. unfold IpmOcl.own, IpmOcl.put, upd. destruct (Nat.eqb_spec (cell g j q) (cell g i r)) as [E|E]; [|reflexivity]. destruct (cell_inj g j i q r Hj Hi E). contradiction.
Qed.

Lemma for_rows_own n f buf : forall F, (forall b k, k < n -> own b k = own buf k -> f b k = F k) ->
  forall k, own (for_rows n f buf) k = if k <? n then F k else own buf k.
Proof.
  intros F. unfold IpmOcl.for_rows. induction n as [|n IH]; intros H k; [reflexivity|]. rewrite seq_S, fold_left_app. cbn [fold_left Nat.add]. rewrite own_put. unfold upd.
  assert (IH' := IH (fun b q Hq => H b q ltac:(lia))). destruct (Nat.eqb_spec k n) as [->|Hn].
  - destruct (Nat.ltb_spec n (S n)); [|lia]. apply H; [lia|]. rewrite IH'. destruct (Nat.ltb_spec n n); [lia | reflexivity].
  - rewrite IH'. destruct (Nat.ltb_spec k n), (Nat.ltb_spec k (S n)); lia || reflexivity.
Qed.
Lemma fold_put_other {A} (f : vec -> A -> nat * R) j : j < g -> j <> i -> forall l buf, IpmOcl.own g j (fold_left (fun b a => put b (fst (f b a)) (snd (f b a))) l buf) = IpmOcl.own g j buf.
Proof. intros Hj Hn. induction l as [|a l IH]; intros buf; cbn [fold_left]; [reflexivity|]. rewrite IH. apply put_other; assumption. Qed.
Lemma for_rows_other n f buf j : j < g -> j <> i -> IpmOcl.own g j (for_rows n f buf) = IpmOcl.own g j buf.
Proof. intros Hj Hn. apply (fold_put_other (fun b row => (row, f b row)) j Hj Hn). Qed.

Lemma k_product_own a x out k : own (k_product g i a x out) k = if k <? length a then row_dot (row_of a k) (own x) else own out k.
Proof. unfold k_product. apply (for_rows_own _ _ _ (fun row => row_dot (row_of a row) (own x))). reflexivity. Qed.
Lemma k_update_own x y a b n k : own (k_update g i x y a b n) k = if k <? n then vector_update (own x) (own y) a b k else own x k.
Proof. unfold k_update. apply (for_rows_own _ _ _ (vector_update (own x) (own y) a b)). intros b' q Hq E. unfold vector_update. rewrite E. reflexivity. Qed.
Lemma k_set_own x v n k : own (k_set g i x v n) k = if k <? n then v else own x k.
Proof. unfold k_set. apply (for_rows_own _ _ _ (fun _ => v)). reflexivity. Qed.

(** *** The factorisation and the substitutions *)
Lemma fold_own {A} (f : vec -> A -> vec) (F : vec -> A -> vec) : (forall b a, own (f b a) = F (own b) a) -> forall l b, own (fold_left f l b) = fold_left F l (own b).
Proof. intros H. induction l as [|a l IH]; intros b; cbn [fold_left]; [reflexivity|]. rewrite IH, H. reflexivity. Qed.
Lemma fold_other {A} (f : vec -> A -> vec) j : (forall b a, IpmOcl.own g j (f b a) = IpmOcl.own g j b) -> forall l b, IpmOcl.own g j (fold_left f l b) = IpmOcl.own g j b.
Proof. intros H. induction l as [|a l IH]; intros b; cbn [fold_left]; [reflexivity|]. rewrite IH, H. reflexivity. Qed.

Lemma k_decompose_own a ch ws x z y w l : own (k_decompose g i a ch ws x z y w l) = chol_decompose a ch ws (own x) (own z) (own y) (own w) (own l).
Proof.
  unfold k_decompose, chol_decompose. apply fold_own. intros b row. cbv zeta. apply fold_own. intros b' q. unfold k_chol_value, chol_value. cbv zeta. rewrite own_put. reflexivity.
Qed.
Lemma k_decompose_other a ch ws x z y w l j : j < g -> j <> i -> IpmOcl.own g j (k_decompose g i a ch ws x z y w l) = IpmOcl.own g j l.
Proof. intros Hj Hn. unfold k_decompose. apply fold_other. intros b row. cbv zeta. apply fold_other. intros b' q. unfold k_chol_value. cbv zeta. apply put_other; assumption. Qed.

Lemma k_forward_row_own l q : forall cols jk x, own (k_forward_row g i l q jk cols x) = forward_row (own l) q jk cols (own x).
Proof. induction cols as [|j cols IH]; intros jk x; cbn [k_forward_row forward_row]; [reflexivity|]. destruct (j <? q); [rewrite IH|]; rewrite own_put; reflexivity. Qed.
Lemma k_forward_row_other l q j : j < g -> j <> i -> forall cols jk x, IpmOcl.own g j (k_forward_row g i l q jk cols x) = IpmOcl.own g j x.
Proof. intros Hj Hn. induction cols as [|c cols IH]; intros jk x; cbn [k_forward_row]; [reflexivity|]. destruct (c <? q); [rewrite IH|]; apply put_other; assumption. Qed.
Lemma k_solve_own n ch l b x : own (k_solve g i n ch l b x) = cholesky_solve n ch (own l) (own b) (own x).
Proof.
  unfold k_solve, cholesky_solve. assert (E : own (k_forward g i n ch l b x) = forward n ch (own l) (own b) (own x)).
  { unfold k_forward, forward. apply fold_own. intros b' q. cbv zeta. rewrite k_forward_row_own, own_put. reflexivity. }
  rewrite <- E. unfold k_backward, backward. cbv zeta. apply fold_own. intros b' q. rewrite own_put.
  assert (Ef : forall l0 v, own (fold_left (fun x0 jk => put x0 q (own x0 q - own x0 (nth jk (concat (lt_rows ch n)) 0%nat) * own l (nth jk (lt_map ch) 0%nat))%R) l0 v)
    = fold_left (fun x0 jk => upd x0 q (x0 q - x0 (nth jk (concat (lt_rows ch n)) 0%nat) * own l (nth jk (lt_map ch) 0%nat))%R) l0 (own v)).
  { intros l0 v. apply fold_own. intros b2 q2. rewrite own_put. reflexivity. }
  rewrite Ef. reflexivity.
Qed.
Lemma k_solve_other n ch l b x j : j < g -> j <> i -> IpmOcl.own g j (k_solve g i n ch l b x) = IpmOcl.own g j x.
Proof.
  intros Hj Hn. unfold k_solve. transitivity (IpmOcl.own g j (k_forward g i n ch l b x)).
  - unfold k_backward. cbv zeta. apply fold_other. intros b' q. rewrite put_other by assumption. apply fold_other. intros b2 q2. apply put_other; assumption.
  - unfold k_forward. apply fold_other. intros b' q. cbv zeta. rewrite k_forward_row_other by assumption. apply put_other; assumption.
Qed.

(** *** The right-hand side *)
Lemma row_dot_ext row x x' : (forall k, In k (map fst row) -> x k = x' k) -> row_dot row x = row_dot row x'.
Proof. unfold row_dot. generalize 0%R. induction row as [|e row IH]; intros v H; cbn [fold_left]; [reflexivity|]. rewrite (H (fst e)) by (left; reflexivity). apply IH. intros k Hk. apply H. right. exact Hk. Qed.
Lemma k_rhs_own a at_ x z y b c mu ws tmp out : (forall row k, In k (map fst (row_of a row)) -> k < length at_) ->
  forall k, k < length a -> own (snd (k_rhs g i a at_ x z y b c mu ws tmp out)) k = normal_eqn_rhs a at_ (own x) (own z) (own y) (own b) (own c) mu ws k.
Proof.
  intros Hc k Hk. unfold k_rhs. cbv zeta. cbn [snd]. set (tmp1 := k_product g i at_ y tmp). set (tmp2 := for_rows _ _ tmp1). set (out1 := k_product g i a tmp2 out).
  rewrite (for_rows_own _ _ _ (normal_eqn_rhs a at_ (own x) (own z) (own y) (own b) (own c) mu ws)); [destruct (Nat.ltb_spec k (length a)); [reflexivity | lia]|].
  intros b' q Hq E. rewrite E. unfold out1. rewrite k_product_own. destruct (Nat.ltb_spec q (length a)); [|lia]. unfold normal_eqn_rhs. cbv zeta.
  rewrite (row_dot_ext (row_of a q) (own tmp2) (fun row => (own x row * (own c row - row_dot (row_of at_ row) (own y) + mu / own x row) / own z row)%R)); [reflexivity|].
  intros r Hr. specialize (Hc q r Hr). unfold tmp2. rewrite (for_rows_own _ _ _ (fun row => (own x row * (own c row - row_dot (row_of at_ row) (own y) + mu / own x row) / own z row)%R)).
  - destruct (Nat.ltb_spec r (length at_)); [reflexivity | lia].
  - intros b2 q2 Hq2 E2. rewrite E2. unfold tmp1. rewrite k_product_own. destruct (Nat.ltb_spec q2 (length at_)); [reflexivity | lia].
Qed.
Lemma k_rhs_other a at_ x z y b c mu ws tmp out j : j < g -> j <> i ->
  IpmOcl.own g j (fst (k_rhs g i a at_ x z y b c mu ws tmp out)) = IpmOcl.own g j tmp /\ IpmOcl.own g j (snd (k_rhs g i a at_ x z y b c mu ws tmp out)) = IpmOcl.own g j out.
Proof. intros Hj Hn. unfold k_rhs. cbv zeta. cbn [fst snd]. unfold k_product. rewrite !for_rows_other by assumption. auto. Qed.
Lemma forward_ext n ch l b b' x : (forall k, k < n -> b k = b' k) -> forward n ch l b x = forward n ch l b' x.
Proof.
  intros H. unfold forward. assert (G : forall ks x, (forall k, In k ks -> k < n) -> fold_left (fun x i => let start := nth i (ch_lindptr ch) 0 in forward_row l i start (skipn start (ch_lindices ch)) (upd x i (b i))) ks x
    = fold_left (fun x i => let start := nth i (ch_lindptr ch) 0 in forward_row l i start (skipn start (ch_lindices ch)) (upd x i (b' i))) ks x).
  { induction ks as [|k ks IH]; intros x0 Hks; cbn [fold_left]; [reflexivity|]. cbv zeta. rewrite (H k) by (apply Hks; left; reflexivity). apply IH. intros q Hq. apply Hks. right. exact Hq. }
  apply G. intros k Hk. apply in_seq in Hk. lia.
Qed.

(** *** The directions *)
Lemma largest_S n x dx z dz : largest (S n) x dx z dz = Rmax (Rmax (largest n x dx z dz) (- dx n / x n)%R) (- dz n / z n)%R.
Proof. unfold largest. rewrite seq_S, fold_left_app. reflexivity. Qed.
Lemma k_dx_own at_ x z y c dy mu dx dz n :
  let r := fold_left (k_dx_row g i at_ x z y c dy mu) (seq 0 n) (dx, dz, 0%R) in
  let Dx := direction_x at_ (own x) (own z) (own y) (own c) (own dy) mu in
  let Dz := direction_z (own x) (own z) Dx mu in
  (forall k, own (fst (fst r)) k = if k <? n then Dx k else own dx k) /\ (forall k, own (snd (fst r)) k = if k <? n then Dz k else own dz k) /\
  snd r = largest n (own x) Dx (own z) Dz.
Proof.
  cbv zeta. set (Dx := direction_x at_ (own x) (own z) (own y) (own c) (own dy) mu). set (Dz := direction_z (own x) (own z) Dx mu).
  induction n as [|n (I1 & I2 & I3)]; [auto|]. rewrite seq_S, fold_left_app. cbn [fold_left Nat.add]. destruct (fold_left (k_dx_row g i at_ x z y c dy mu) (seq 0 n) (dx, dz, 0%R)) as [[dx1 dz1] th]. cbn [fst snd] in *.
  unfold k_dx_row. cbn [fst snd]. rewrite !own_put, I3.
  assert (Ex : upd (own dx1) n ((own c n - row_dot (row_of at_ n) (own y) - row_dot (row_of at_ n) (own dy) + mu / own x n) * own x n / own z n)%R n = Dx n) by (unfold upd; rewrite Nat.eqb_refl; reflexivity).
  assert (Ez : upd (own dz1) n ((mu - own z n * upd (own dx1) n ((own c n - row_dot (row_of at_ n) (own y) - row_dot (row_of at_ n) (own dy) + mu / own x n) * own x n / own z n) n) / own x n - own z n)%R n = Dz n) by (unfold upd at 1; rewrite Nat.eqb_refl, Ex; reflexivity).
  rewrite Ez, Ex. split; [|split].
  - intros k. unfold upd. destruct (Nat.eqb_spec k n) as [->|Hn]; [destruct (Nat.ltb_spec n (S n)); [reflexivity | lia]|]. rewrite I1. destruct (Nat.ltb_spec k n), (Nat.ltb_spec k (S n)); lia || reflexivity.
  - intros k. unfold upd. destruct (Nat.eqb_spec k n) as [->|Hn]; [destruct (Nat.ltb_spec n (S n)); [reflexivity | lia]|]. rewrite I2. destruct (Nat.ltb_spec k n), (Nat.ltb_spec k (S n)); lia || reflexivity.
  - rewrite largest_S. reflexivity.
Qed.
Lemma k_dw_own y w dy mu dw n :
  let r := fold_left (k_dw_row g i y w dy mu) (seq 0 n) (dw, 0%R) in
  let Dw := direction_w (own y) (own w) (own dy) mu in
  (forall k, own (fst r) k = if k <? n then Dw k else own dw k) /\ snd r = largest n (own w) Dw (own y) (own dy).
Proof.
  cbv zeta. set (Dw := direction_w (own y) (own w) (own dy) mu).
  induction n as [|n (I1 & I3)]; [auto|]. rewrite seq_S, fold_left_app. cbn [fold_left Nat.add]. destruct (fold_left (k_dw_row g i y w dy mu) (seq 0 n) (dw, 0%R)) as [dw1 th]. cbn [fst snd] in *.
  unfold k_dw_row. cbn [fst snd]. rewrite !own_put, I3.
  assert (Ex : upd (own dw1) n ((mu - own w n * own dy n) / own y n - own w n)%R n = Dw n) by (unfold upd; rewrite Nat.eqb_refl; reflexivity). rewrite Ex. split.
  - intros k. unfold upd. destruct (Nat.eqb_spec k n) as [->|Hn]; [destruct (Nat.ltb_spec n (S n)); [reflexivity | lia]|]. rewrite I1. destruct (Nat.ltb_spec k n), (Nat.ltb_spec k (S n)); lia || reflexivity.
  - rewrite largest_S. reflexivity.
Qed.
Lemma k_dx_other at_ x z y c dy mu j : j < g -> j <> i -> forall l st, let r := fold_left (k_dx_row g i at_ x z y c dy mu) l st in
  IpmOcl.own g j (fst (fst r)) = IpmOcl.own g j (fst (fst st)) /\ IpmOcl.own g j (snd (fst r)) = IpmOcl.own g j (snd (fst st)).
Proof.
  intros Hj Hn. induction l as [|q l IH]; intros [[dx dz] th]; cbn [fold_left]; [auto|]. cbv zeta. destruct (IH (k_dx_row g i at_ x z y c dy mu (dx, dz, th) q)) as (-> & ->). unfold k_dx_row. cbn [fst snd]. rewrite !put_other by assumption. auto.
Qed.
Lemma k_dw_other y w dy mu j : j < g -> j <> i -> forall l st, IpmOcl.own g j (fst (fold_left (k_dw_row g i y w dy mu) l st)) = IpmOcl.own g j (fst st).
Proof. intros Hj Hn. induction l as [|q l IH]; intros [dw th]; cbn [fold_left]; [reflexivity|]. rewrite IH. unfold k_dw_row. cbn [fst]. apply put_other; assumption. Qed.
End Item.

(** *** A work item as a lane *)
Definition item_path (g i : nat) (m : dmem) : path := mkPath (own g i (m_x m)) (own g i (m_z m)) (own g i (m_y m)) (own g i (m_w m)).
Definition item_lane (g i : nat) (m : dmem) : lane := mkLane (item_path g i m) (own g i (m_l m)) (own g i (m_dy m)).
Definition item_data (t : tolerances) (g i : nat) (m : dmem) : lane_data :=
  mkData (own g i (m_b m)) (own g i (m_c m)) (t_primal t) (t_dual t) (t_optimality t).
(** What the work item [j] can see is the same in both memories. *)
Definition same_item (g j : nat) (m m' : dmem) : Prop :=
  item_lane g j m = item_lane g j m' /\ own g j (m_b m) = own g j (m_b m') /\ own g j (m_c m) = own g j (m_c m') /\ m_status m j = m_status m' j.

Lemma min_l n : Nat.min n n = n. Proof. lia. Qed.
Section Move.
Variables (a : list (list (nat * R))) (n wsize : nat) (t : tolerances) (g i : nat).
Hypothesis Hi : i < g.
Hypothesis Hwf : well_formed n a.
Hypothesis Hw : wsize <= length a.
Let s := ipm_new a n wsize.

Lemma gap_item m : (k_dot g i (m_z m) (m_x m) (i_ncols s) + k_dot g i (m_w m) (m_y m) (i_wsize s))%R = gap s (item_path g i m).
Proof.
  unfold gap, k_dot, dot_product. cbn [item_path p_x p_z p_y p_w s i_ncols i_wsize i_a ipm_new]. rewrite min_l. rewrite (Nat.min_l wsize) by exact Hw. reflexivity.
Qed.
Lemma k_done_status m : k_done g i s t m = lane_status s (item_data t g i m) (item_path g i m).
Proof. unfold k_done, lane_status. cbv zeta. rewrite gap_item. reflexivity. Qed.
Lemma mu_item m : (/ 10 * (k_dot g i (m_z m) (m_x m) (i_ncols s) + k_dot g i (m_w m) (m_y m) (i_wsize s)) / INR (i_ncols s + i_wsize s))%R = lane_mu s (item_path g i m).
Proof. rewrite gap_item. unfold lane_mu. cbn [s i_ncols i_wsize i_at ipm_new]. rewrite transpose_len. reflexivity. Qed.

Lemma k_move_agree m : agree a n wsize (item_path g i (k_move g i s m)) (ln_path (lane_step s (item_data t g i m) false (item_lane g i m))).
Proof.
  unfold k_move. cbv zeta. rewrite mu_item. set (mu := lane_mu s (item_path g i m)).
  destruct (k_rhs g i (i_a s) (i_at s) (m_x m) (m_z m) (m_y m) (m_b m) (m_c m) mu (i_wsize s) (m_tmp m) (m_rhs m)) as [tmp rhs] eqn:Er.
  set (l := k_decompose g i (i_a s) (i_chol s) (i_wsize s) (m_x m) (m_z m) (m_y m) (m_w m) (m_l m)). set (dy := k_solve g i (length (i_a s)) (i_chol s) l rhs (m_dy m)).
  assert (El : own g i l = lane_l s (item_lane g i m)) by (unfold l; rewrite (k_decompose_own g i Hi); reflexivity).
  assert (Ey : own g i dy = lane_dy s (item_data t g i m) (item_lane g i m)).
  { unfold dy. rewrite (k_solve_own g i Hi), El. unfold lane_dy. cbv zeta. cbn [ln_path item_lane item_data d_b d_c ln_dy]. unfold cholesky_solve. f_equal. apply (forward_ext g i Hi). intros k Hk.
    change rhs with (snd (tmp, rhs)). rewrite <- Er. rewrite (k_rhs_own g i Hi); [reflexivity | | exact Hk].
    intros row q Hq. cbn [s i_a i_at ipm_new] in *. rewrite transpose_len. destruct (row_nodup a n Hwf row) as (_ & Hf). rewrite Forall_forall in Hf. apply Hf, Hq. }
  unfold k_directions. pose proof (k_dx_own g i Hi (i_at s) (m_x m) (m_z m) (m_y m) (m_c m) dy mu (m_dx m) (m_dz m) (length (i_at s))) as (D1 & D2 & D3).
  destruct (fold_left (k_dx_row _ _ _ _ _ _ _ _ _) _ _) as [[dx dz] thx]. pose proof (k_dw_own g i Hi (m_y m) (m_w m) dy mu (m_dw m) (i_wsize s)) as (W1 & W2).
  destruct (fold_left (k_dw_row _ _ _ _ _ _) _ _) as [dw thw]. cbn [fst snd] in *. unfold lane_step. cbv zeta. cbn [ln_path item_lane item_data d_c]. fold mu. rewrite <- Ey.
  assert (Ea : length (i_at s) = n) by (unfold s; cbn [i_at ipm_new]; apply transpose_len).
  assert (Eth : Rmax thx thw = compute_theta (length (i_at s)) (i_wsize s) (p_x (item_path g i m)) (p_z (item_path g i m)) (p_y (item_path g i m)) (p_w (item_path g i m))
    (direction_x (i_at s) (p_x (item_path g i m)) (p_z (item_path g i m)) (p_y (item_path g i m)) (own g i (m_c m)) (own g i dy) mu)
    (direction_z (p_x (item_path g i m)) (p_z (item_path g i m)) (direction_x (i_at s) (p_x (item_path g i m)) (p_z (item_path g i m)) (p_y (item_path g i m)) (own g i (m_c m)) (own g i dy) mu) mu)
    (own g i dy) (direction_w (p_y (item_path g i m)) (p_w (item_path g i m)) (own g i dy) mu)) by (unfold compute_theta; rewrite D3, W2; reflexivity).
  rewrite <- Eth. set (th := step_size (Rmax thx thw)). unfold agree. cbn [item_path p_x p_z p_y p_w m_x m_z m_y m_w]. rewrite Ea in D1, D2.
  split; [|split].
  - intros k Hk. change (i_ncols s) with n. rewrite !(k_update_own g i Hi). destruct (Nat.ltb_spec k n); [|lia]. unfold vector_update. rewrite D1, D2. destruct (Nat.ltb_spec k n); [|lia]. split; reflexivity.
  - intros k Hk. change (length (i_a s)) with (length a). rewrite !(k_update_own g i Hi). destruct (Nat.ltb_spec k (length a)); [reflexivity | lia].
  - intros k Hk. change (i_wsize s) with wsize in *. rewrite !(k_update_own g i Hi). destruct (Nat.ltb_spec k wsize); [|lia]. unfold vector_update. rewrite W1. destruct (Nat.ltb_spec k wsize); [reflexivity | lia].
Qed.
Lemma k_move_inputs m : m_b (k_move g i s m) = m_b m /\ m_c (k_move g i s m) = m_c m.
Proof.
  unfold k_move. cbv zeta. destruct (k_rhs _ _ _ _ _ _ _ _ _ _ _ _ _) as [tmp rhs]. destruct (k_directions _ _ _ _ _ _ _ _ _ _ _ _ _ _) as [[[dx dz] dw] th]. auto.
Qed.
Lemma k_move_other m j : j < g -> j <> i -> same_item g j (k_move g i s m) m.
Proof.
  intros Hj Hn. unfold k_move. cbv zeta. set (mu := (_ / INR _)%R). destruct (k_rhs g i (i_a s) (i_at s) (m_x m) (m_z m) (m_y m) (m_b m) (m_c m) mu (i_wsize s) (m_tmp m) (m_rhs m)) as [tmp rhs].
  destruct (k_directions _ _ _ _ _ _ _ _ _ _ _ _ _ _) as [[[dx dz] dw] th]. unfold same_item, item_lane, item_path. cbn [m_x m_z m_y m_w m_l m_dy m_b m_c m_status].
  unfold k_update. rewrite !(for_rows_other g i Hi) by assumption. rewrite (k_decompose_other g i Hi) by assumption. rewrite (k_solve_other g i Hi) by assumption. auto.
Qed.
Lemma k_init_own m : agree a n wsize (item_path g i (k_init g i s m)) path_init.
Proof.
  unfold agree, k_init, item_path, path_init. cbn [p_x p_z p_y p_w m_x m_z m_y m_w]. change (i_ncols s) with n. change (length (i_a s)) with (length a). change (i_wsize s) with wsize.
  split; [|split]; intros k Hk; rewrite !(k_set_own g i Hi); match goal with |- context [k <? ?b] => destruct (Nat.ltb_spec k b); [auto | lia] end.
Qed.
Lemma k_init_other m j : j < g -> j <> i -> same_item g j (k_init g i s m) m.
Proof. intros Hj Hn. unfold k_init, same_item, item_lane, item_path. cbn [m_x m_z m_y m_w m_l m_dy m_b m_c m_status]. unfold k_set. rewrite !(for_rows_other g i Hi) by assumption. auto. Qed.
End Move.

(** *** The device *)
Section Device.
Variables (a : list (list (nat * R))) (n wsize : nat) (t : tolerances) (g : nat).
Hypothesis Hposed : well_posed a n wsize.
Let s := ipm_new a n wsize.
Let Hwf : well_formed n a := proj1 Hposed.
Let Hne : no_empty_row a := proj1 (proj2 Hposed).
Let Hw : wsize <= length a := proj1 (proj2 (proj2 Hposed)).
Let Hind := proj2 (proj2 (proj2 Hposed)).

Lemma agree_sym p q : agree a n wsize p q -> agree a n wsize q p.
Proof. intros (H1 & H2 & H3). split; [|split]; intros k Hk; [destruct (H1 k Hk); auto | symmetry; auto | symmetry; auto]. Qed.
Lemma agree_trans p q r : agree a n wsize p q -> agree a n wsize q r -> agree a n wsize p r.
Proof. intros (H1 & H2 & H3) (G1 & G2 & G3). split; [|split]; intros k Hk; [destruct (H1 k Hk), (G1 k Hk); split; congruence | rewrite H2 by exact Hk; apply G2, Hk | rewrite H3 by exact Hk; apply G3, Hk]. Qed.
Lemma agree_positive p q : agree a n wsize p q -> all_positive n wsize q -> all_positive n wsize p.
Proof.
  intros (H1 & H2 & H3) (P1 & P2 & P3 & P4). unfold all_positive, IpmSpec.positive in *. split; [|split; [|split]]; intros k Hk.
  - rewrite (proj1 (H1 k Hk)). apply P1, Hk.
  - rewrite (proj2 (H1 k Hk)). apply P2, Hk.
  - rewrite H2 by lia. apply P3, Hk.
  - rewrite H3 by exact Hk. apply P4, Hk.
Qed.

(** The cells of the work item [i] hold the data [d] and the path of the lane
    [ln]. *)
Definition holds (i : nat) (d : lane_data) (ln : lane) (m : dmem) : Prop :=
  item_data t g i m = d /\ agree a n wsize (item_path g i m) (ln_path ln) /\ all_positive n wsize (ln_path ln).
Lemma holds_same i d ln m m' : same_item g i m' m -> holds i d ln m -> holds i d ln m'.
Proof.
  intros (E1 & E2 & E3 & _) (H1 & H2 & H3). assert (E : item_path g i m' = item_path g i m) by (change (ln_path (item_lane g i m') = ln_path (item_lane g i m)); rewrite E1; reflexivity).
  split; [|split; [rewrite E; exact H2 | exact H3]]. rewrite <- H1. unfold item_data. rewrite E2, E3. reflexivity.
Qed.
Lemma holds_done i d ln m : i < g -> holds i d ln m -> k_done g i s t m = lane_status s d (ln_path ln).
Proof. intros Hi (H1 & H2 & _). unfold s. rewrite (k_done_status a n wsize t g i Hw), H1. apply (agree_status a n wsize Hwf Hw). exact H2. Qed.
Lemma holds_move i d ln m : i < g -> holds i d ln m -> holds i d (lane_step s d false ln) (k_move g i s m).
Proof.
  intros Hi (H1 & H2 & H3). split; [|split].
  - unfold item_data. destruct (k_move_inputs a n wsize g i m) as (E1 & E2). fold s in E1, E2. rewrite E1, E2. exact H1.
  - eapply agree_trans; [apply (k_move_agree a n wsize t g i Hi Hwf Hw)|]. rewrite H1. apply (agree_step a n wsize Hwf Hw Hne Hind); [exact H2 | apply (agree_positive _ _ H2 H3) | exact H3].
  - apply (lane_step_positive a n wsize Hw). exact H3.
Qed.
Lemma holds_status i d ln m v q : holds i d ln m -> holds i d ln (set_status q m v).
Proof. intros H. exact H. Qed.

(** One lane in one call of the kernel: the lane, whether it is finished, the
    iterations to go. *)
Fixpoint lane_kernel (d : lane_data) (k : nat) (ln : lane) : lane * bool :=
  match k with
  | O => (ln, false)
  | S k' => if lane_status s d (ln_path ln) then (ln, true) else lane_kernel d k' (lane_step s d false ln)
  end.
Lemma kernel_alone d : forall k j ln, alone s d (k + j) ln = let r := lane_kernel d k ln in if snd r then Some (fst r) else alone s d j (fst r).
Proof.
  induction k as [|k IH]; intros j ln; [reflexivity|]. cbn [Nat.add alone lane_kernel]. destruct (lane_status s d (ln_path ln)); [reflexivity|]. apply IH.
Qed.
Lemma kernel_finished d : forall k ln, snd (lane_kernel d k ln) = true -> lane_status s d (ln_path (fst (lane_kernel d k ln))) = true.
Proof. induction k as [|k IH]; intros ln H; [discriminate|]. cbn [lane_kernel] in *. destruct (lane_status s d (ln_path ln)) eqn:E; [exact E | apply IH, H]. Qed.

(** What is known of the work item [i] while a kernel runs: [r] iterations of the
    lane [ln0] are to go after those done. *)
Definition progress (i : nat) (d : lane_data) (target : lane * bool) (st : device) : Prop :=
  exists ln, holds i d ln (fst st) /\
    ((snd st i <> 0 /\ lane_kernel d (snd st i) ln = target) \/ (snd st i = 0 /\ ln = fst target /\ m_status (fst st) i = if snd target then 0 else 1)).
Lemma progress_other i d target st j : i < g -> j < g -> j <> i -> progress i d target st -> progress i d target (run_item g s t st j).
Proof.
  intros Hi Hj Hn (ln & Hh & Hp). unfold run_item. destruct (snd st j) as [|rest] eqn:Ej; [exists ln; auto|]. unfold k_iteration. cbv zeta.
  assert (Eb : (i =? j) = false) by (apply Nat.eqb_neq; congruence).
  destruct (k_done g j s t (fst st)); cbn [fst snd]; exists ln; cbn [fst snd set_status m_status]; rewrite Eb.
  - split; [apply holds_status; exact Hh | exact Hp].
  - pose proof (k_move_other a n wsize g j Hj (fst st) i Hi ltac:(congruence)) as Hs. split; [apply holds_status; apply (holds_same i d ln (fst st)); assumption|]. destruct Hs as (_ & _ & _ & Es). fold s in Es. rewrite Es. exact Hp.
Qed.
Lemma progress_own i d target st : i < g -> progress i d target st -> progress i d target (run_item g s t st i) /\ (snd st i <> 0 -> snd (run_item g s t st i) i < snd st i).
Proof.
  intros Hi (ln & Hh & Hp). unfold run_item. destruct (snd st i) as [|rest] eqn:Ej; [split; [exists ln; rewrite Ej; auto | congruence]|]. destruct Hp as [(_ & Hp)|(Hp & _)]; [|discriminate]. unfold k_iteration. cbv zeta.
  rewrite (holds_done i d ln _ Hi Hh). cbn [lane_kernel] in Hp. destruct (lane_status s d (ln_path ln)); cbn [fst snd]; rewrite Nat.eqb_refl; (split; [|lia]).
  - exists ln. cbn [fst snd]. rewrite Nat.eqb_refl. split; [exact Hh|]. right. split; [reflexivity|]. subst target. cbn [fst snd set_status m_status]. rewrite Nat.eqb_refl. auto.
  - exists (lane_step s d false ln). cbn [fst snd]. rewrite Nat.eqb_refl. split; [apply holds_status, holds_move; assumption|]. destruct rest as [|rest]; [right | left; auto].
    split; [reflexivity|]. subst target. cbn [lane_kernel fst snd set_status m_status]. rewrite Nat.eqb_refl. auto.
Qed.
Lemma run_other i st j : j <> i -> snd (run_item g s t st j) i = snd st i.
Proof. intros Hn. unfold run_item. destruct (snd st j); [reflexivity|]. cbn [snd]. destruct (Nat.eqb_spec i j); [congruence | reflexivity]. Qed.
Lemma progress_run i d target : i < g -> forall sched st, Forall (fun j => j < g) sched -> progress i d target st ->
  progress i d target (fold_left (run_item g s t) sched st) /\ snd (fold_left (run_item g s t) sched st) i <= snd st i - count_occ Nat.eq_dec sched i.
Proof.
  intros Hi. induction sched as [|j sched IH]; intros st Hs Hp; cbn [fold_left count_occ]; [split; [exact Hp | lia]|]. inversion Hs as [|? ? Hj Hs']; subst.
  destruct (Nat.eq_dec j i) as [->|Hn].
  - destruct (progress_own i d target st Hi Hp) as (Hp' & Hd). destruct (IH _ Hs' Hp') as (G1 & G2). split; [exact G1|]. assert (snd (run_item g s t st i) i <= snd st i - 1); [|lia].
    destruct (snd st i) as [|r] eqn:E; [unfold run_item; rewrite E; lia | specialize (Hd ltac:(discriminate)); lia].
  - destruct (IH _ Hs' (progress_other i d target st j Hi Hj Hn Hp)) as (G1 & G2). split; [exact G1|]. rewrite (run_other i st j Hn) in G2. exact G2.
Qed.

Lemma kernel_run i d ln sched m : i < g -> fair g sched -> holds i d ln m ->
  let r := lane_kernel d 100 ln in let m' := run_kernel g s t sched m in holds i d (fst r) m' /\ m_status m' i = if snd r then 0 else 1.
Proof.
  intros Hi (Hf & Hc) Hh r m'. unfold m', run_kernel. assert (Hp : progress i d r (m, fun _ => 100)) by (exists ln; cbn [fst snd]; split; [exact Hh | left; split; [discriminate | reflexivity]]).
  destruct (progress_run i d r Hi sched _ Hf Hp) as ((ln' & G1 & G2) & G3). specialize (Hc i Hi). cbn [snd] in G3.
  destruct G2 as [(G2 & _)|(_ & -> & G2)]; [exfalso; apply G2; lia|]. auto.
Qed.

(** The loop of the host: every scenario comes to what it comes to alone in 100
    times as many steps. *)
Lemma loop_alone scheds ds : (forall k, fair g (scheds k)) -> forall k lns m, (forall i, i < g -> holds i (ds i) (lns i) m) ->
  match ocl_loop g s t scheds k m with
  | Some m' => forall i, i < g -> exists ln, alone s (ds i) (100 * k) (lns i) = Some ln /\ holds i (ds i) ln m'
  | None => k = 0 \/ exists i, i < g /\ alone s (ds i) (100 * k) (lns i) = None
  end.
Proof.
  intros Hf. induction k as [|k IH]; intros lns m Hh; cbn [ocl_loop]; [left; reflexivity|]. cbv zeta. set (m' := run_kernel g s t (scheds k) m).
  assert (Hk : forall i, i < g -> holds i (ds i) (fst (lane_kernel (ds i) 100 (lns i))) m' /\ m_status m' i = if snd (lane_kernel (ds i) 100 (lns i)) then 0 else 1) by (intros i Hi; apply kernel_run; auto).
  assert (Ha : forall i, alone s (ds i) (100 * S k) (lns i) = let r := lane_kernel (ds i) 100 (lns i) in if snd r then Some (fst r) else alone s (ds i) (100 * k) (fst r)).
  { intros i. replace (100 * S k) with (100 + 100 * k) by lia. apply kernel_alone. }
  destruct (forallb _ (seq 0 g)) eqn:Eb.
  - rewrite forallb_forall in Eb. intros i Hi. destruct (Hk i Hi) as (H1 & H2). rewrite Ha. cbv zeta. specialize (Eb i ltac:(apply in_seq; lia)). apply Nat.eqb_eq in Eb. rewrite Eb in H2. destruct (snd (lane_kernel (ds i) 100 (lns i))); [|discriminate]. eexists. split; [reflexivity | exact H1].
  - specialize (IH (fun i => fst (lane_kernel (ds i) 100 (lns i))) m' ltac:(intros i Hi; apply Hk, Hi)).
    assert (Hsame : forall i, alone s (ds i) (100 * k) (fst (lane_kernel (ds i) 100 (lns i))) <> None -> alone s (ds i) (100 * S k) (lns i) = alone s (ds i) (100 * k) (fst (lane_kernel (ds i) 100 (lns i)))).
    { intros i Hn. rewrite Ha. cbv zeta. destruct (snd (lane_kernel (ds i) 100 (lns i))) eqn:Es; [|reflexivity]. destruct (alone s (ds i) (100 * k) _) as [o|] eqn:Eo; [|congruence]. f_equal. symmetry. eapply alone_done; [apply kernel_finished, Es | exact Eo]. }
    destruct (ocl_loop g s t scheds k m') as [m2|] eqn:El.
    + intros i Hi. destruct (IH i Hi) as (ln & E1 & E2). exists ln. split; [rewrite Hsame by congruence; exact E1 | exact E2].
    + right. apply not_true_iff_false in Eb.
      assert (Hu : exists i, i < g /\ m_status m' i <> 0).
      { clear - Eb. assert (G : forall l, forallb (fun i => m_status m' i =? 0) l <> true -> exists i, In i l /\ m_status m' i <> 0).
        { induction l as [|x l IHl]; cbn [forallb]; intros H; [contradiction|]. destruct (Nat.eqb_spec (m_status m' x) 0) as [E|E]; [|exists x; split; [left; reflexivity | exact E]]. destruct (IHl H) as (q & Hq & Hs). exists q. split; [right; exact Hq | exact Hs]. }
        destruct (G _ Eb) as (q & Hq & Hs). apply in_seq in Hq. exists q. split; [lia | exact Hs]. }
      destruct IH as [->|(i & Hi & Hn)].
      * destruct Hu as (i & Hi & Hs). exists i. split; [exact Hi|]. rewrite Ha. cbv zeta. destruct (Hk i Hi) as (_ & H2). destruct (snd (lane_kernel (ds i) 100 (lns i))); [congruence | reflexivity].
      * destruct (snd (lane_kernel (ds i) 100 (lns i))) eqn:Es; [|exists i; split; [exact Hi | rewrite Ha; cbv zeta; rewrite Es; exact Hn]].
        pose proof (kernel_finished _ _ _ Es) as Hfin. destruct k as [|k]; [|exfalso; replace (100 * S k) with (S (99 + 100 * k)) in Hn by lia; cbn [alone] in Hn; rewrite Hfin in Hn; discriminate].
        destruct Hu as (j & Hj & Hs). exists j. split; [exact Hj|]. rewrite Ha. cbv zeta. destruct (Hk j Hj) as (_ & H2). destruct (snd (lane_kernel (ds j) 100 (lns j))); [congruence | reflexivity].
Qed.
Lemma init_holds sc b c m : Permutation (seq 0 g) (sc_init sc) -> forall i, i < g ->
  holds i (mkData (own g i b) (own g i c) (t_primal t) (t_dual t) (t_optimality t)) (mkLane path_init (fun _ => 0%R) (fun _ => 0%R))
    (fold_left (fun m gid => k_init g gid s m) (sc_init sc) (write_bc m b c)).
Proof.
  intros Hp i Hi. set (l := sc_init sc) in *. assert (Hin : In i l) by (apply (Permutation_in _ Hp), in_seq; lia). assert (Hl : Forall (fun j => j < g) l) by (apply (Permutation_Forall Hp), Forall_forall; intros j Hj; apply in_seq in Hj; lia).
  assert (Hb : own g i (m_b (write_bc m b c)) = own g i b /\ own g i (m_c (write_bc m b c)) = own g i c) by (split; reflexivity). revert Hb. generalize (write_bc m b c) as m0. clear Hp. 
  assert (Hinit : all_positive n wsize path_init) by (unfold all_positive, IpmSpec.positive; cbn [path_init p_x p_z p_y p_w]; repeat split; intros q Hq; apply (IZR_lt 0 1000); reflexivity).
  assert (Hkeep : forall l0, Forall (fun j => j < g) l0 -> forall m0, own g i (m_b m0) = own g i b /\ own g i (m_c m0) = own g i c -> agree a n wsize (item_path g i m0) path_init ->
    holds i (mkData (own g i b) (own g i c) (t_primal t) (t_dual t) (t_optimality t)) (mkLane path_init (fun _ => 0%R) (fun _ => 0%R)) (fold_left (fun m gid => k_init g gid s m) l0 m0)).
  { induction l0 as [|j l0 IH]; intros Hf m0 Hb Ha; cbn [fold_left].
    - split; [unfold item_data; destruct Hb as (-> & ->); reflexivity | split; [exact Ha | exact Hinit]].
    - inversion Hf; subst. apply IH; [assumption| exact Hb |]. destruct (Nat.eq_dec i j) as [->|Hn]; [apply k_init_own; assumption|].
      pose proof (k_init_other a n wsize g j ltac:(assumption) m0 i Hi Hn) as (E & _). change (item_path g i (k_init g j s m0)) with (ln_path (item_lane g i (k_init g j (ipm_new a n wsize) m0))). rewrite E. exact Ha. }
  induction l as [|j l IH]; intros m0 Hb; [destruct Hin|]. inversion Hl; subst. cbn [fold_left]. destruct (Nat.eq_dec j i) as [->|Hn].
  - apply Hkeep; [assumption | exact Hb | apply k_init_own; assumption].
  - apply IH; [destruct Hin; [contradiction | assumption] | assumption | exact Hb].
Qed.
End Device.
