(** The steps of the interior point method. *)
From Coq Require Import Reals Lra Sorted.
From Verif Require Import Base IpmCholesky IpmStep IpmSpec IpmDense IpmSymbolic IpmNumeric IpmSolve IpmRunSpec.
Local Open Scope list_scope.
Local Open Scope nat_scope.

Lemma vsum_rsum n f : vsum n f = rsum n f.
Proof. unfold vsum. induction n as [|n IH]; [reflexivity|]. rewrite seq_S, fold_left_app, IH. reflexivity. Qed.
Lemma row_sum_dot row x : forall v, row_sum row x v = (v + row_dot row x)%R.
Proof.
  unfold row_sum, row_dot. assert (G : forall row v u, fold_left (fun val e => val + snd e * x (fst e))%R row (u + v)%R = (u + fold_left (fun val e => val + snd e * x (fst e))%R row v)%R).
  { clear. induction row as [|e row IH]; intros v u; [reflexivity|]. cbn [fold_left]. rewrite Rplus_assoc. apply IH. }
  intros v. rewrite <- G. f_equal. lra.
Qed.
Lemma row_sub_dot row x : forall v, row_sub row x v = (v - row_dot row x)%R.
Proof.
  unfold row_sub. induction row as [|e row IH]; intros v; [unfold row_dot; cbn; lra|]. cbn [fold_left]. rewrite IH. unfold row_dot. cbn [fold_left].
  pose proof (row_sum_dot row x (0 + snd e * x (fst e))%R) as H. unfold row_sum, row_dot in H. rewrite H. lra.
Qed.
Lemma row_dot_cons e row x : row_dot (e :: row) x = (snd e * x (fst e) + row_dot row x)%R.
Proof. pose proof (row_sum_dot row x (0 + snd e * x (fst e))%R) as H. unfold row_sum in H. unfold row_dot at 1. cbn [fold_left]. rewrite H. lra. Qed.
Lemma row_dot_app r1 r2 x : row_dot (r1 ++ r2) x = (row_dot r1 x + row_dot r2 x)%R.
Proof. induction r1 as [|e r1 IH]; [cbn [app]; unfold row_dot at 2; cbn [fold_left]; lra|]. cbn [app]. rewrite !row_dot_cons, IH. lra. Qed.
Definition entry_of (row : list (nat * R)) (k : nat) : R := match find (fun e => Nat.eqb (fst e) k) row with Some e => snd e | None => 0%R end.
Lemma entry_none row k : ~ In k (map fst row) -> entry_of row k = 0%R.
Proof.
  unfold entry_of. destruct (find _ row) as [e|] eqn:E; [|reflexivity]. apply find_some in E. destruct E as (Hin & He). apply Nat.eqb_eq in He. intros H. exfalso. apply H. rewrite <- He. apply in_map, Hin.
Qed.
Lemma entry_cons e row k : entry_of (e :: row) k = (if fst e =? k then snd e else entry_of row k).
Proof. unfold entry_of. cbn [find]. destruct (fst e =? k); reflexivity. Qed.
Lemma row_dot_rsum row ncols x : NoDup (map fst row) -> Forall (fun k => k < ncols) (map fst row) -> row_dot row x = rsum ncols (fun k => entry_of row k * x k)%R.
Proof.
  induction row as [|e row IH]; intros Hnd Hf; cbn [map] in *.
  - symmetry. apply rsum_0. intros k _. unfold entry_of. cbn. lra.
  - inversion Hnd; subst. inversion Hf; subst. rewrite row_dot_cons, IH by assumption. rewrite <- (rsum_one ncols (fst e) (snd e * x (fst e))%R) by assumption. rewrite <- rsum_plus. apply rsum_ext. intros k Hk.
    rewrite entry_cons. rewrite (Nat.eqb_sym (fst e) k). destruct (Nat.eqb_spec k (fst e)) as [->|]; [|lra]. rewrite (entry_none row) by assumption. lra.
Qed.

Section Lp.
Variables (a : list (list (nat * R))) (m wsize : nat).
Let n := length a.
Let A := dense a.
Hypothesis Hwf : well_formed m a.
Hypothesis Hw : wsize <= n.
Hypothesis Hne : no_empty_row a.
Hypothesis Hind : independent n m A wsize.

Lemma row_nodup i : NoDup (map fst (row_of a i)) /\ Forall (fun k => k < m) (map fst (row_of a i)).
Proof.
  unfold row_of. destruct (nth_in_or_default i a []) as [Hin|E]; [|rewrite E; split; constructor].
  destruct (Hwf _ Hin) as (H1 & H2). split; [apply sorted_NoDup, H1 | exact H2].
Qed.
Lemma row_times i x : row_dot (row_of a i) x = times m A x i.
Proof. destruct (row_nodup i) as (H1 & H2). rewrite (row_dot_rsum _ m) by assumption. reflexivity. Qed.
Lemma transpose_row k : k < m -> row_of (transpose m a) k = flat_map (fun r => flat_map (fun e => if fst e =? k then [(r, snd e)] else []) (row_of a r)) (seq 0 n).
Proof.
  intros Hk. unfold transpose, row_of at 1. set (f := fun c => _). rewrite nth_indep with (d' := f 0) by (rewrite map_length, seq_length; exact Hk). rewrite map_nth, seq_nth by exact Hk. reflexivity.
Qed.
Lemma row_times_t k y : k < m -> row_dot (row_of (transpose m a) k) y = times_t n A y k.
Proof.
  intros Hk. rewrite transpose_row by exact Hk. unfold times_t. generalize n. induction n0 as [|r IH]; [reflexivity|]. rewrite seq_S, flat_map_app, row_dot_app, IH. cbn [rsum flat_map Nat.add]. rewrite app_nil_r. f_equal.
  unfold A, dense. fold (entry_of (nth r a []) k). fold (row_of a r). destruct (row_nodup r) as (H1 & _). clear - H1. induction (row_of a r) as [|e row IH]; [unfold row_dot, entry_of; cbn; lra|].
  cbn [map] in H1. inversion H1; subst. cbn [flat_map]. rewrite row_dot_app, IH by assumption. rewrite entry_cons. destruct (Nat.eqb_spec (fst e) k) as [<-|].
  - rewrite row_dot_cons, entry_none by assumption. unfold row_dot. cbn. lra.
  - unfold row_dot at 1. cbn. lra.
Qed.
Lemma transpose_len : length (transpose m a) = m.
Proof. unfold transpose. rewrite map_length, seq_length. reflexivity. Qed.

Lemma newton_dirs b c p mu dy : all_positive m wsize p ->
  solves n (normal_matrix m A wsize (p_x p) (p_z p) (p_y p) (p_w p)) dy (normal_eqn_rhs a (transpose m a) (p_x p) (p_z p) (p_y p) b c mu wsize) ->
  newton n m wsize A b c (p_x p) (p_z p) (p_y p) (p_w p) mu (direction_x (transpose m a) (p_x p) (p_z p) (p_y p) c dy mu)
    (direction_z (p_x p) (p_z p) (direction_x (transpose m a) (p_x p) (p_z p) (p_y p) c dy mu) mu) dy (direction_w (p_y p) (p_w p) dy mu).
Proof.
  intros (Hx & Hz & Hy & Hpw) Hs. set (x := p_x p) in *. set (z := p_z p) in *. set (y := p_y p) in *. set (w := p_w p) in *. set (dx := direction_x _ _ _ _ _ _ _).
  assert (Edx : forall k, k < m -> dx k = ((x k * (c k - times_t n A y k + mu / x k) / z k) - x k / z k * times_t n A dy k)%R).
  { intros k Hk. unfold dx, direction_x. rewrite !row_times_t by exact Hk. pose proof (Hz k Hk). pose proof (Hx k Hk). field. lra. }
  unfold newton. split; [|split; [|split]].
  - intros i Hi. specialize (Hs i Hi). unfold normal_eqn_rhs in Hs. cbv zeta in Hs. rewrite row_sum_dot, !row_times in Hs. unfold primal_gap.
    assert (Et : times m A (fun row => (x row * (c row - row_dot (row_of (transpose m a) row) y + mu / x row) / z row)%R) i = rsum m (fun k => A i k * (x k * (c k - times_t n A y k + mu / x k) / z k))%R).
    { apply rsum_ext. intros k Hk. rewrite row_times_t by exact Hk. reflexivity. }
    rewrite Et in Hs. clear Et.
    assert (Em : rsum n (fun j => normal_matrix m A wsize x z y w i j * dy j)%R = (rsum m (fun k => A i k * (x k / z k * times_t n A dy k)) + (if i <? wsize then w i / y i * dy i else 0))%R).
    { unfold normal_matrix. rewrite (rsum_ext n _ (fun j => rsum m (fun k => A i k * (x k / z k) * A j k * dy j) + (if j =? i then (if i <? wsize then w i / y i * dy i else 0) else 0))%R).
      - rewrite rsum_plus, rsum_one by exact Hi. f_equal. rewrite rsum_swap. apply rsum_ext. intros k _. unfold times_t. rewrite <- rsum_scal, <- rsum_scal. apply rsum_ext. intros j _. lra.
      - intros j _. rewrite Rmult_plus_distr_r. rewrite <- rsum_scal_r. f_equal. rewrite (Nat.eqb_sym j i). destruct (Nat.eqb_spec i j) as [->|]; cbn [andb]; [|lra]. destruct (j <? wsize); lra. }
    rewrite Em in Hs. clear Em.
    unfold times at 1. rewrite (rsum_ext m (fun k => A i k * dx k)%R (fun k => A i k * (x k * (c k - times_t n A y k + mu / x k) / z k) - A i k * (x k / z k * times_t n A dy k))%R) by (intros k Hk; rewrite Edx by exact Hk; lra).
    rewrite rsum_minus. unfold direction_w. destruct (Nat.ltb_spec i wsize) as [Hiw|]; [|lra]. pose proof (Hy i Hiw).
    replace ((mu - w i * dy i) / y i - w i)%R with (mu / y i - w i / y i * dy i - w i)%R by (field; lra). lra.
  - intros k Hk. pose proof (Hz k Hk). pose proof (Hx k Hk). unfold dual_gap, direction_z. rewrite Edx by exact Hk. field. lra.
  - intros k Hk. pose proof (Hz k Hk). pose proof (Hx k Hk). unfold direction_z. field. lra.
  - intros i Hi. pose proof (Hy i Hi). pose proof (Hpw i Hi). unfold direction_w. field. lra.
Qed.

Let s := ipm_new a m wsize.
Definition lane_dx (d : lane_data) (ln : lane) : vec := direction_x (i_at s) (p_x (ln_path ln)) (p_z (ln_path ln)) (p_y (ln_path ln)) (d_c d) (lane_dy s d ln) (lane_mu s (ln_path ln)).
Definition lane_dz (d : lane_data) (ln : lane) : vec := direction_z (p_x (ln_path ln)) (p_z (ln_path ln)) (lane_dx d ln) (lane_mu s (ln_path ln)).
Definition lane_dw (d : lane_data) (ln : lane) : vec := direction_w (p_y (ln_path ln)) (p_w (ln_path ln)) (lane_dy s d ln) (lane_mu s (ln_path ln)).
Definition lane_theta (d : lane_data) (ln : lane) : R :=
  step_size (compute_theta m wsize (p_x (ln_path ln)) (p_z (ln_path ln)) (p_y (ln_path ln)) (p_w (ln_path ln)) (lane_dx d ln) (lane_dz d ln) (lane_dy s d ln) (lane_dw d ln)).

Lemma lane_solves d ln : all_positive m wsize (ln_path ln) ->
  solves n (normal_matrix m A wsize (p_x (ln_path ln)) (p_z (ln_path ln)) (p_y (ln_path ln)) (p_w (ln_path ln))) (lane_dy s d ln)
    (normal_eqn_rhs a (transpose m a) (p_x (ln_path ln)) (p_z (ln_path ln)) (p_y (ln_path ln)) (d_b d) (d_c d) (lane_mu s (ln_path ln)) wsize).
Proof. intros (Hx & Hz & Hy & Hpw). apply (direct_solve a m); assumption. Qed.
Lemma lane_newton d ln : all_positive m wsize (ln_path ln) ->
  newton n m wsize A (d_b d) (d_c d) (p_x (ln_path ln)) (p_z (ln_path ln)) (p_y (ln_path ln)) (p_w (ln_path ln)) (lane_mu s (ln_path ln)) (lane_dx d ln) (lane_dz d ln) (lane_dy s d ln) (lane_dw d ln).
Proof. intros H. apply newton_dirs; [exact H | apply lane_solves, H]. Qed.

Lemma largest_bound x dx z dz : forall k, (0 <= largest k x dx z dz)%R /\ forall i, i < k -> (- dx i / x i <= largest k x dx z dz)%R /\ (- dz i / z i <= largest k x dx z dz)%R.
Proof.
  unfold largest. induction k as [|k IH]; [cbn; split; [lra | intros; lia]|]. rewrite seq_S, fold_left_app. cbn [fold_left Nat.add]. destruct IH as (I1 & I2). set (t := fold_left _ _ _) in *.
  pose proof (Rmax_l t (- dx k / x k)). pose proof (Rmax_r t (- dx k / x k)). pose proof (Rmax_l (Rmax t (- dx k / x k)) (- dz k / z k)). pose proof (Rmax_r (Rmax t (- dx k / x k)) (- dz k / z k)).
  split; [lra|]. intros i Hi. destruct (Nat.eq_dec i k) as [->|]; [lra|]. destruct (I2 i ltac:(lia)). lra.
Qed.
Lemma step_positive v dv t T : (0 < v)%R -> (- dv / v <= T)%R -> (0 <= T)%R -> (t = 0 \/ t = step_size T)%R -> (0 < 1 * v + t * dv)%R.
Proof.
  intros Hv HT HT0 [->| ->]; [lra|]. assert (Hdv : (- dv <= T * v)%R). { apply (Rmult_le_compat_r v) in HT; [|lra]. unfold Rdiv in HT. rewrite Rmult_assoc, Rinv_l, Rmult_1_r in HT by lra. exact HT. }
  unfold step_size. destruct (Rlt_dec 0 T) as [Hp|Hp].
  - pose proof (Rmin_l (9995 / 10000 / T) 1). set (t := Rmin (9995 / 10000 / T) 1) in *. assert (Ht : (0 <= t)%R). { unfold t. apply Rmin_glb; [|lra]. apply Rlt_le, Rdiv_lt_0_compat; lra. }
    assert (HtT : (t * T <= 9995 / 10000)%R). { apply (Rmult_le_compat_r T) in H; [|lra]. unfold Rdiv in H. rewrite (Rmult_assoc (9995 * / 10000)), Rinv_l, Rmult_1_r in H by lra. unfold Rdiv. exact H. }
    assert (t * - dv <= t * (T * v))%R by (apply Rmult_le_compat_l; lra). assert (t * T * v <= 9995 / 10000 * v)%R by (apply Rmult_le_compat_r; lra). nra.
  - assert (T = 0)%R by lra. subst T. nra.
Qed.
Lemma step_size_range T : (0 < step_size T <= 1)%R.
Proof. unfold step_size. destruct (Rlt_dec 0 T); [|lra]. split; [|apply Rmin_r]. apply Rmin_glb_lt; [|lra]. apply Rdiv_lt_0_compat; lra. Qed.

Lemma lane_step_positive d st ln : all_positive m wsize (ln_path ln) -> all_positive m wsize (ln_path (lane_step s d st ln)).
Proof.
  intros (Hx & Hz & Hy & Hpw). unfold lane_step. cbv zeta. fold (lane_dx d ln). fold (lane_dz d ln). fold (lane_dw d ln).
  replace (length (i_at s)) with m by (symmetry; apply transpose_len). change (i_wsize s) with wsize.
  set (T := compute_theta _ _ _ _ _ _ _ _ _ _). set (t := if st then 0%R else step_size T). assert (Ht : (t = 0 \/ t = step_size T)%R) by (unfold t; destruct st; auto).
  destruct (largest_bound (p_x (ln_path ln)) (lane_dx d ln) (p_z (ln_path ln)) (lane_dz d ln) m) as (B0 & B).
  destruct (largest_bound (p_w (ln_path ln)) (lane_dw d ln) (p_y (ln_path ln)) (lane_dy s d ln) wsize) as (C0 & C).
  assert (H1 : (largest m (p_x (ln_path ln)) (lane_dx d ln) (p_z (ln_path ln)) (lane_dz d ln) <= T)%R) by apply Rmax_l.
  assert (H2 : (largest wsize (p_w (ln_path ln)) (lane_dw d ln) (p_y (ln_path ln)) (lane_dy s d ln) <= T)%R) by apply Rmax_r.
  unfold all_positive. cbn [ln_path p_x p_z p_y p_w]. unfold vector_update.
  split; [|split; [|split]]; intros k Hk; apply step_positive with (T := T); auto; try lra.
  - destruct (B k Hk). lra.
  - destruct (B k Hk). lra.
  - destruct (C k Hk). lra.
  - destruct (C k Hk). lra.
Qed.
Lemma lane_step_gaps d ln : all_positive m wsize (ln_path ln) -> exists t, (0 <= t < 1)%R /\
  (forall i, (i < n)%nat -> primal_gap m wsize A (d_b d) (p_x (ln_path (lane_step s d false ln))) (p_w (ln_path (lane_step s d false ln))) i = t * primal_gap m wsize A (d_b d) (p_x (ln_path ln)) (p_w (ln_path ln)) i)%R /\
  (forall k, (k < m)%nat -> dual_gap n A (d_c d) (p_y (ln_path (lane_step s d false ln))) (p_z (ln_path (lane_step s d false ln))) k = t * dual_gap n A (d_c d) (p_y (ln_path ln)) (p_z (ln_path ln)) k)%R.
Proof.
  intros Hp. destruct (lane_newton d ln Hp) as (N1 & N2 & _). exists (1 - lane_theta d ln)%R. pose proof (step_size_range (compute_theta m wsize (p_x (ln_path ln)) (p_z (ln_path ln)) (p_y (ln_path ln)) (p_w (ln_path ln)) (lane_dx d ln) (lane_dz d ln) (lane_dy s d ln) (lane_dw d ln))) as Hr. fold (lane_theta d ln) in Hr.
  unfold lane_step. cbv zeta. fold (lane_dx d ln). fold (lane_dz d ln). fold (lane_dw d ln).
  replace (length (i_at s)) with m by (symmetry; apply transpose_len). change (i_wsize s) with wsize. fold (lane_theta d ln). set (t := lane_theta d ln) in *. cbn [ln_path p_x p_z p_y p_w].
  assert (L1 : forall u v i, times m A (vector_update u v 1 t) i = (times m A u i + t * times m A v i)%R).
  { intros u v i. unfold times, vector_update. rewrite <- rsum_scal, <- rsum_plus. apply rsum_ext. intros; lra. }
  assert (L2 : forall u v k, times_t n A (vector_update u v 1 t) k = (times_t n A u k + t * times_t n A v k)%R).
  { intros u v k. unfold times_t, vector_update. rewrite <- rsum_scal, <- rsum_plus. apply rsum_ext. intros; lra. }
  split; [lra|]. split.
  - intros i Hi. specialize (N1 i Hi). unfold primal_gap in *. rewrite L1. unfold vector_update. destruct (i <? wsize); nra.
  - intros k Hk. specialize (N2 k Hk). unfold dual_gap in *. rewrite L2. unfold vector_update. nra.
Qed.
End Lp.
