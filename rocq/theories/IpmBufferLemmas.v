(** A step depends on the path only, not on what the buffers held before. *)
From Coq Require Import Reals Lra Sorted.
From Verif Require Import Base IpmCholesky IpmStep IpmSpec IpmDense IpmSymbolic IpmNumeric IpmSolve IpmRunSpec IpmStepLemmas IpmLoopLemmas.
Local Open Scope list_scope.
Local Open Scope nat_scope.

Lemma unique_solution n M v v' b : positive_definite n M -> solves n M v b -> solves n M v' b -> forall i, i < n -> v i = v' i.
Proof.
  intros Hpd Hv Hv' i Hi. destruct (Req_EM_T (v i) (v' i)) as [|Hne]; [assumption|]. exfalso. pose proof (Hpd (fun k => (v k - v' k)%R)) as H.
  assert (0 < rsum n (fun i => rsum n (fun j => (v i - v' i) * M i j * (v j - v' j))))%R by (apply H; exists i; split; [exact Hi | lra]). clear H.
  assert (E : rsum n (fun i => rsum n (fun j => (v i - v' i) * M i j * (v j - v' j)))%R = 0%R); [|lra].
  apply rsum_0. intros k Hk. rewrite (rsum_ext n _ (fun j => (v k - v' k) * (M k j * v j - M k j * v' j))%R) by (intros; ring). rewrite rsum_scal, rsum_minus, (Hv k Hk), (Hv' k Hk). ring.
Qed.
Lemma times_ext m A x x' i : (forall k, k < m -> x k = x' k) -> times m A x i = times m A x' i.
Proof. intros H. apply rsum_ext. intros k Hk. rewrite H by exact Hk. reflexivity. Qed.
Lemma times_t_ext n A y y' k : (forall i, i < n -> y i = y' i) -> times_t n A y k = times_t n A y' k.
Proof. intros H. apply rsum_ext. intros i Hi. rewrite H by exact Hi. reflexivity. Qed.
Lemma norm_ext n u v : (forall k, k < n -> u k = v k) -> norm n u = norm n v.
Proof. intros H. unfold norm. f_equal. apply rsum_ext. intros k Hk. rewrite H by exact Hk. reflexivity. Qed.

Section Lp.
Variables (a : list (list (nat * R))) (m wsize : nat).
Let n := length a.
Let A := dense a.
Hypothesis Hwf : well_formed m a.
Hypothesis Hw : wsize <= n.
Hypothesis Hne : no_empty_row a.
Hypothesis Hind : independent n m A wsize.
Let s := ipm_new a m wsize.

Definition agree (p q : path) : Prop :=
  (forall k, k < m -> p_x p k = p_x q k /\ p_z p k = p_z q k) /\ (forall i, i < n -> p_y p i = p_y q i) /\ (forall i, i < wsize -> p_w p i = p_w q i).
Lemma agree_gap p q : agree p q -> gap s p = gap s q.
Proof.
  intros (H1 & H2 & H3). unfold s. rewrite !(gap_eq a m wsize Hw). f_equal; apply rsum_ext; intros k Hk; [destruct (H1 k Hk) as (-> & ->); reflexivity | rewrite H3 by exact Hk; rewrite H2 by lia; reflexivity].
Qed.
Lemma agree_status d p q : agree p q -> lane_status s d p = lane_status s d q.
Proof.
  intros H. pose proof (agree_gap p q H) as Eg. destruct H as (H1 & H2 & H3). unfold lane_status. cbv zeta. rewrite Eg. unfold vector_norm. rewrite !vsum_rsum. cbn [s i_ncols i_wsize i_a i_at ipm_new]. fold n. rewrite !(primal_eq a m wsize Hwf). unfold n. rewrite !(dual_eq a m Hwf). fold n.
  assert (Ex : norm m (p_x p) = norm m (p_x q)) by (apply norm_ext; intros k Hk; apply H1, Hk). assert (Ey : norm n (p_y p) = norm n (p_y q)) by (apply norm_ext; exact H2).
  change (sqrt (rsum m (fun k => (p_x p k * p_x p k)%R))) with (norm m (p_x p)). change (sqrt (rsum m (fun k => (p_x q k * p_x q k)%R))) with (norm m (p_x q)).
  change (sqrt (rsum n (fun k => (p_y p k * p_y p k)%R))) with (norm n (p_y p)). change (sqrt (rsum n (fun k => (p_y q k * p_y q k)%R))) with (norm n (p_y q)). rewrite Ex, Ey.
  assert (Er : norm n (primal_gap m wsize (dense a) (d_b d) (p_x p) (p_w p)) = norm n (primal_gap m wsize (dense a) (d_b d) (p_x q) (p_w q))).
  { apply norm_ext. intros i Hi. unfold primal_gap. rewrite (times_ext m _ (p_x p) (p_x q)) by (intros k Hk; apply H1, Hk). destruct (Nat.ltb_spec i wsize) as [Hiw|]; [rewrite H3 by exact Hiw|]; reflexivity. }
  assert (Es : norm m (dual_gap n (dense a) (d_c d) (p_y p) (p_z p)) = norm m (dual_gap n (dense a) (d_c d) (p_y q) (p_z q))).
  { apply norm_ext. intros k Hk. unfold dual_gap. rewrite (times_t_ext n _ (p_y p) (p_y q)) by exact H2. destruct (H1 k Hk) as (_ & ->). reflexivity. }
  rewrite Er, Es. reflexivity.
Qed.
Lemma agree_dy d l l' : agree (ln_path l) (ln_path l') -> all_positive m wsize (ln_path l) -> all_positive m wsize (ln_path l') -> forall i, i < n -> lane_dy s d l i = lane_dy s d l' i.
Proof.
  intros H Hp Hp'. pose proof (lane_solves a m wsize Hwf Hne Hind d l Hp) as S1. pose proof (lane_solves a m wsize Hwf Hne Hind d l' Hp') as S2. fold n A s in S1, S2.
  pose proof (agree_gap _ _ H) as Eg. assert (Emu : lane_mu s (ln_path l) = lane_mu s (ln_path l')) by (unfold lane_mu; rewrite Eg; reflexivity). rewrite Emu in S1. destruct H as (H1 & H2 & H3).
  apply (unique_solution n (normal_matrix m A wsize (p_x (ln_path l')) (p_z (ln_path l')) (p_y (ln_path l')) (p_w (ln_path l'))) _ _ (normal_eqn_rhs a (transpose m a) (p_x (ln_path l')) (p_z (ln_path l')) (p_y (ln_path l')) (d_b d) (d_c d) (lane_mu s (ln_path l')) wsize)).
  - destruct Hp' as (P1 & P2 & P3 & P4). apply normal_pd; assumption.
  - intros i Hi. specialize (S1 i Hi).
    rewrite (rsum_ext n _ (fun j => (normal_matrix m A wsize (p_x (ln_path l)) (p_z (ln_path l)) (p_y (ln_path l)) (p_w (ln_path l)) i j * lane_dy s d l j)%R)).
    + rewrite S1. unfold normal_eqn_rhs. cbv zeta. rewrite !row_sum_dot, !(row_times a m Hwf). fold A. rewrite (times_ext m A (p_x (ln_path l)) (p_x (ln_path l'))) by (intros k Hk; apply H1, Hk).
      rewrite (times_ext m A (fun row => (p_x (ln_path l) row * (d_c d row - row_dot (row_of (transpose m a) row) (p_y (ln_path l)) + lane_mu s (ln_path l') / p_x (ln_path l) row) / p_z (ln_path l) row)%R)
        (fun row => (p_x (ln_path l') row * (d_c d row - row_dot (row_of (transpose m a) row) (p_y (ln_path l')) + lane_mu s (ln_path l') / p_x (ln_path l') row) / p_z (ln_path l') row)%R)).
      * rewrite (H2 i Hi). reflexivity.
      * intros k Hk. destruct (H1 k Hk) as (-> & ->). rewrite !(row_times_t a m Hwf) by exact Hk. fold n A. rewrite (times_t_ext n A (p_y (ln_path l)) (p_y (ln_path l'))) by exact H2. reflexivity.
    + intros j Hj. f_equal. unfold normal_matrix. f_equal.
      * apply rsum_ext. intros k Hk. destruct (H1 k Hk) as (-> & ->). reflexivity.
      * destruct (Nat.eqb_spec i j); cbn [andb]; [|reflexivity]. destruct (Nat.ltb_spec i wsize) as [Hiw|]; [|reflexivity]. rewrite H2, H3 by lia. reflexivity.
  - exact S2.
Qed.
Lemma largest_ext x x' dx dx' z z' dz dz' : forall k, (forall i, i < k -> x i = x' i /\ dx i = dx' i /\ z i = z' i /\ dz i = dz' i) -> largest k x dx z dz = largest k x' dx' z' dz'.
Proof.
  unfold largest. induction k as [|k IH]; intros H; [reflexivity|]. rewrite seq_S, !fold_left_app. cbn [fold_left Nat.add]. rewrite IH by (intros i Hi; apply H; lia). destruct (H k ltac:(lia)) as (-> & -> & -> & ->). reflexivity.
Qed.
Lemma agree_step d st l l' : agree (ln_path l) (ln_path l') -> all_positive m wsize (ln_path l) -> all_positive m wsize (ln_path l') -> agree (ln_path (lane_step s d st l)) (ln_path (lane_step s d st l')).
Proof.
  intros H Hp Hp'. pose proof (agree_dy d l l' H Hp Hp') as Ed. pose proof (agree_gap _ _ H) as Eg. assert (Emu : lane_mu s (ln_path l) = lane_mu s (ln_path l')) by (unfold lane_mu; rewrite Eg; reflexivity). destruct H as (H1 & H2 & H3).
  assert (Edx : forall k, k < m -> lane_dx a m wsize d l k = lane_dx a m wsize d l' k).
  { intros k Hk. unfold lane_dx, direction_x. cbn [i_at ipm_new]. rewrite !(row_times_t a m Hwf) by exact Hk. fold n A s. rewrite Emu. destruct (H1 k Hk) as (-> & ->).
    rewrite (times_t_ext n A (p_y (ln_path l)) (p_y (ln_path l'))) by exact H2. rewrite (times_t_ext n A (lane_dy s d l) (lane_dy s d l')) by exact Ed. reflexivity. }
  assert (Edz : forall k, k < m -> lane_dz a m wsize d l k = lane_dz a m wsize d l' k).
  { intros k Hk. unfold lane_dz, direction_z. rewrite Edx by exact Hk. fold s. rewrite Emu. destruct (H1 k Hk) as (-> & ->). reflexivity. }
  assert (Edw : forall i, i < wsize -> lane_dw a m wsize d l i = lane_dw a m wsize d l' i).
  { intros i Hi. unfold lane_dw, direction_w. fold s. rewrite Emu, Ed, H2, H3 by lia. reflexivity. }
  unfold s in *. unfold lane_step. cbv zeta. fold (lane_dx a m wsize d l). fold (lane_dx a m wsize d l'). fold (lane_dz a m wsize d l). fold (lane_dz a m wsize d l'). fold (lane_dw a m wsize d l). fold (lane_dw a m wsize d l').
  replace (length (i_at (ipm_new a m wsize))) with m by (symmetry; apply transpose_len). change (i_wsize (ipm_new a m wsize)) with wsize. unfold compute_theta.
  rewrite (largest_ext (p_x (ln_path l)) (p_x (ln_path l')) (lane_dx a m wsize d l) (lane_dx a m wsize d l') (p_z (ln_path l)) (p_z (ln_path l')) (lane_dz a m wsize d l) (lane_dz a m wsize d l') m).
  2: { intros k Hk. destruct (H1 k Hk) as (-> & ->). rewrite Edx, Edz by exact Hk. auto. }
  rewrite (largest_ext (p_w (ln_path l)) (p_w (ln_path l')) (lane_dw a m wsize d l) (lane_dw a m wsize d l') (p_y (ln_path l)) (p_y (ln_path l')) (lane_dy (ipm_new a m wsize) d l) (lane_dy (ipm_new a m wsize) d l') wsize).
  2: { intros i Hi. rewrite H3, H2, Edw, Ed by lia. auto. }
  set (t := if st then _ else _). unfold agree. cbn [ln_path p_x p_z p_y p_w]. unfold vector_update. split; [|split].
  - intros k Hk. destruct (H1 k Hk) as (-> & ->). rewrite Edx, Edz by exact Hk. auto.
  - intros i Hi. rewrite H2, Ed by exact Hi. reflexivity.
  - intros i Hi. rewrite H3, Edw by exact Hi. reflexivity.
Qed.
Lemma agree_alone d : forall k l l', agree (ln_path l) (ln_path l') -> all_positive m wsize (ln_path l) -> all_positive m wsize (ln_path l') ->
  match alone s d k l, alone s d k l' with Some o, Some o' => agree (ln_path o) (ln_path o') | None, None => True | _, _ => False end.
Proof.
  induction k as [|k IH]; intros l l' H Hp Hp'; [exact I|]. cbn [alone]. rewrite (agree_status d _ _ H). destruct (lane_status s d (ln_path l')); [exact H|]. apply IH.
  - apply agree_step; assumption.
  - apply (lane_step_positive a m wsize); assumption.
  - apply (lane_step_positive a m wsize); assumption.
Qed.
End Lp.
