(** The loop of the interior point method. *)
From Coq Require Import Reals Lra Sorted FunctionalExtensionality.
From Verif Require Import Base IpmCholesky IpmStep IpmSpec IpmDense IpmSymbolic IpmNumeric IpmSolve IpmStepLemmas IpmRunSpec.
Local Open Scope list_scope.
Local Open Scope nat_scope.

Lemma frozen s d ln : ln_path (lane_step s d true ln) = ln_path ln.
Proof.
  unfold lane_step. cbv zeta. cbn [ln_path]. destruct ln as [[x z y w] l dy]. cbn [ln_path p_x p_z p_y p_w]. f_equal; unfold vector_update; apply functional_extensionality; intros k; lra.
Qed.
(** One lane on its own. *)
Fixpoint alone (s : ipm) (d : lane_data) (k : nat) (ln : lane) : option lane :=
  match k with
  | O => None
  | S k' => if lane_status s d (ln_path ln) then Some ln else alone s d k' (lane_step s d false ln)
  end.
Lemma solve_loop_one s d : forall k ln, solve_loop s k [(d, ln)] = match alone s d k ln with Some l => Some [(d, l)] | None => None end.
Proof.
  induction k as [|k IH]; intros ln; [reflexivity|]. cbn [solve_loop alone]. unfold normal_eqn_step. cbn [forallb fst snd]. rewrite andb_true_r.
  destruct (lane_status s d (ln_path ln)) eqn:E; cbn [fst snd map]; [reflexivity|]. rewrite E. apply IH.
Qed.
Definition same_or_done (s : ipm) (e0 e : lane_data * lane) : Prop :=
  fst e = fst e0 /\ (snd e = snd e0 \/ (lane_status s (fst e0) (ln_path (snd e0)) = true /\ ln_path (snd e) = ln_path (snd e0))).
Lemma status_eq s e0 e : same_or_done s e0 e -> lane_status s (fst e) (ln_path (snd e)) = lane_status s (fst e0) (ln_path (snd e0)).
Proof. intros (E & [H|(_ & H)]); rewrite E, H; reflexivity. Qed.
Lemma alone_done s d k ln l : lane_status s d (ln_path ln) = true -> alone s d k ln = Some l -> l = ln.
Proof. intros H. destruct k; cbn [alone]; [discriminate|]. rewrite H. congruence. Qed.
Definition next0 (s : ipm) (e : lane_data * lane) : lane_data * lane :=
  (fst e, if lane_status s (fst e) (ln_path (snd e)) then snd e else lane_step s (fst e) false (snd e)).
Lemma next_rel s e0 e : same_or_done s e0 e -> same_or_done s (next0 s e0) (fst e, lane_step s (fst e) (lane_status s (fst e) (ln_path (snd e))) (snd e)).
Proof.
  intros H. pose proof (status_eq s e0 e H) as Es. destruct H as (E & H). split; [exact E|]. cbn [fst snd next0]. rewrite Es. destruct (lane_status s (fst e0) (ln_path (snd e0))) eqn:E0.
  - right. split; [exact E0|]. rewrite frozen. destruct H as [H|(_ & H)]; rewrite H; reflexivity.
  - left. destruct H as [H|(H & _)]; [|congruence]. rewrite E, H. reflexivity.
Qed.
Lemma next_rels s l0 l : Forall2 (same_or_done s) l0 l ->
  Forall2 (same_or_done s) (map (next0 s) l0) (map (fun e => (fst e, lane_step s (fst e) (lane_status s (fst e) (ln_path (snd e))) (snd e))) l).
Proof. induction 1; cbn [map]; constructor; [apply next_rel; assumption | assumption]. Qed.
Lemma alone_next s e0 k l : alone s (fst e0) k (snd (next0 s e0)) = Some l -> alone s (fst e0) (S k) (snd e0) = Some l.
Proof.
  unfold next0. cbn [snd alone]. destruct (lane_status s (fst e0) (ln_path (snd e0))) eqn:E; [|auto]. intros H. rewrite (alone_done _ _ _ _ _ E H). reflexivity.
Qed.
Lemma lanes_alone s : forall k l0 l out, Forall2 (same_or_done s) l0 l -> solve_loop s k l = Some out ->
  Forall2 (fun e0 e' => exists l1, alone s (fst e0) k (snd e0) = Some l1 /\ ln_path (snd e') = ln_path l1) l0 out.
Proof.
  induction k as [|k IH]; intros l0 l out Hf H; [discriminate|]. cbn [solve_loop] in H. unfold normal_eqn_step in H. destruct (forallb _ l) eqn:Ea; cbn [fst snd] in H.
  - injection H as <-. rewrite forallb_forall in Ea. induction Hf as [|e0 e l0 l He Hf IHf]; constructor.
    + pose proof (status_eq s e0 e He) as Es. rewrite (Ea e (or_introl eq_refl)) in Es. exists (snd e0). cbn [alone]. rewrite <- Es. split; [reflexivity|]. destruct He as (_ & [H|(_ & H)]); rewrite H; reflexivity.
    + apply IHf. intros x Hx. apply Ea. right. exact Hx.
  - specialize (IH _ _ _ (next_rels s l0 l Hf) H). clear - IH. revert out IH. induction l0 as [|e0 l0 IHl]; intros out H; cbn [map] in H; inversion H; subst; constructor.
    + match goal with h : exists _, _ |- _ => destruct h as (l1 & H1 & H2) end. exists l1. split; [apply alone_next; exact H1 | exact H2].
    + apply IHl. assumption.
Qed.
Lemma alone_lanes s : forall k l0 l, k <> O -> Forall2 (same_or_done s) l0 l -> Forall (fun e0 => alone s (fst e0) k (snd e0) <> None) l0 -> solve_loop s k l <> None.
Proof.
  induction k as [|k IH]; intros l0 l Hk Hf Ha; [lia|]. cbn [solve_loop]. unfold normal_eqn_step. destruct (forallb _ l) eqn:Ea; cbn [fst snd]; [discriminate|].
  assert (Hk0 : k <> 0).
  { intros ->. apply not_true_iff_false in Ea. apply Ea. apply forallb_forall. intros e He. clear - Hf Ha He. induction Hf as [|e0 e1 l0 l Hr Hf IHf]; [destruct He|]. inversion Ha; subst. destruct He as [->|He]; [|apply IHf; assumption].
    rewrite (status_eq s e0 e Hr). match goal with h : alone s (fst e0) 1 _ <> None |- _ => cbn [alone] in h; destruct (lane_status s (fst e0) (ln_path (snd e0))); [reflexivity | congruence] end. }
  apply (IH (map (next0 s) l0)); [exact Hk0 | apply next_rels, Hf|]. apply Forall_map. eapply Forall_impl; [|exact Ha]. intros e0. cbn [alone]. unfold next0. cbn [fst snd].
  destruct (lane_status s (fst e0) (ln_path (snd e0))) eqn:E; [|auto]. intros _. destruct k; [lia|]. cbn [alone]. rewrite E. discriminate.
Qed.
Lemma same_all s l : Forall2 (same_or_done s) l l.
Proof. induction l as [|e l IH]; constructor; [|exact IH]. split; [reflexivity | left; reflexivity]. Qed.

Lemma after_shift s d : forall j ln, lane_after s d (S j) ln = lane_after s d j (lane_step s d (lane_status s d (ln_path ln)) ln).
Proof. induction j as [|j IH]; intros ln; [reflexivity|]. cbn [lane_after] in *. rewrite IH. reflexivity. Qed.
Lemma alone_after s d : forall k ln l, alone s d k ln = Some l -> lane_status s d (ln_path l) = true /\ exists j, j < k /\ l = lane_after s d j ln.
Proof.
  induction k as [|k IH]; intros ln l H; [discriminate|]. cbn [alone] in H. destruct (lane_status s d (ln_path ln)) eqn:E.
  - injection H as <-. split; [exact E|]. exists 0. split; [lia | reflexivity].
  - destruct (IH _ _ H) as (H1 & j & Hj & ->). split; [exact H1|]. exists (S j). split; [lia|]. rewrite after_shift, E. reflexivity.
Qed.

Lemma cauchy_schwarz n u v : (rsum n (fun k => u k * v k) <= norm n u * norm n v)%R.
Proof.
  unfold norm. rewrite <- sqrt_mult_alt by (apply rsum_nonneg; intros; nra).
  assert (G : (rsum n (fun k => u k * v k) * rsum n (fun k => u k * v k) <= rsum n (fun k => u k * u k) * rsum n (fun k => v k * v k))%R).
  { induction n as [|n IH]; [cbn; lra|]. cbn [rsum]. set (P := rsum n (fun k => u k * v k)%R) in *. set (U := rsum n (fun k => u k * u k)%R) in *. set (V := rsum n (fun k => v k * v k)%R) in *.
    assert (Hq : (0 <= rsum n (fun k => (u k * v n - v k * u n) * (u k * v n - v k * u n)))%R) by (apply rsum_nonneg; intros; apply Rle_0_sqr).
    rewrite (rsum_ext n _ (fun k => (v n * v n) * (u k * u k) - (2 * (u n * v n)) * (u k * v k) + (u n * u n) * (v k * v k))%R) in Hq by (intros; ring).
    rewrite rsum_plus, rsum_minus, !rsum_scal in Hq. fold P U V in Hq. nra. }
  destruct (Rle_dec (rsum n (fun k => u k * v k)%R) 0) as [Hn|Hn]; [pose proof (sqrt_pos (rsum n (fun k => u k * u k) * rsum n (fun k => v k * v k))%R); lra|].
  rewrite <- (sqrt_square (rsum n (fun k => u k * v k)%R)) by lra. apply sqrt_le_1_alt. exact G.
Qed.
Lemma norm_ge n v i : i < n -> (Rabs (v i) <= norm n v)%R.
Proof.
  intros Hi. unfold norm. rewrite <- sqrt_Rsqr_abs. apply sqrt_le_1_alt. unfold Rsqr. assert (G : forall m, i < m -> (v i * v i <= rsum m (fun k => v k * v k))%R).
  { induction m as [|m IH]; intros Hm; [lia|]. cbn [rsum]. destruct (Nat.eq_dec i m) as [->|]; [|specialize (IH ltac:(lia)); nra]. assert (0 <= rsum m (fun k => v k * v k))%R by (apply rsum_nonneg; intros; nra). lra. }
  apply G, Hi.
Qed.

Section Lp.
Variables (a : list (list (nat * R))) (m wsize : nat).
Let n := length a.
Let A := dense a.
Hypothesis Hwf : well_formed m a.
Hypothesis Hw : wsize <= n.
Let s := ipm_new a m wsize.

Lemma gap_eq p : gap s p = (rsum m (fun k => p_z p k * p_x p k) + rsum wsize (fun i => p_w p i * p_y p i))%R.
Proof.
  unfold gap, dot_product. rewrite !vsum_rsum. cbn [s i_ncols i_wsize i_a ipm_new]. rewrite Nat.min_id. fold n. rewrite Nat.min_l by exact Hw. reflexivity.
Qed.
Lemma primal_eq x w b : primal_feasibility a m wsize x w b = (norm n (primal_gap m wsize A b x w) / (1 + norm m x))%R.
Proof.
  unfold primal_feasibility, norm. cbv zeta. rewrite !vsum_rsum. f_equal. f_equal. fold n. apply rsum_ext. intros i Hi. rewrite row_sub_dot, (row_times a m Hwf). unfold primal_gap. fold A. destruct (i <? wsize); ring.
Qed.
Lemma dual_eq y c z : dual_feasibility (transpose m a) n y c z = (norm m (dual_gap n A c y z) / (1 + norm n y))%R.
Proof.
  unfold dual_feasibility, norm. cbv zeta. rewrite !vsum_rsum. f_equal. f_equal. rewrite (transpose_len a m). apply rsum_ext. intros k Hk. rewrite row_sub_dot, (row_times_t a m Hwf) by exact Hk. unfold dual_gap. fold n A. ring.
Qed.
Lemma norm_pos k v : (0 <= norm k v)%R.
Proof. apply sqrt_pos. Qed.
Lemma status_true d p : lane_status s d p = true ->
  (norm n (primal_gap m wsize A (d_b d) (p_x p) (p_w p)) < d_primal d * (1 + norm m (p_x p)))%R /\
  (norm m (dual_gap n A (d_c d) (p_y p) (p_z p)) < d_dual d * (1 + norm n (p_y p)))%R /\
  (gap s p < d_optimality d * (1 + norm m (p_x p) + norm n (p_y p)))%R.
Proof.
  unfold lane_status. cbv zeta. unfold vector_norm. rewrite !vsum_rsum. cbn [s i_ncols i_wsize i_a i_at ipm_new]. fold n. rewrite primal_eq, dual_eq. fold (norm m (p_x p)) (norm n (p_y p)).
  rewrite !andb_true_iff. unfold below. pose proof (norm_pos m (p_x p)). pose proof (norm_pos n (p_y p)).
  assert (G : forall u v t, (0 < v)%R -> (if Rlt_dec (u / v) t then true else false) = true -> (u < t * v)%R).
  { intros u v t Hv. destruct (Rlt_dec (u / v) t) as [H1|]; [|discriminate]. intros _. apply (Rmult_lt_compat_r v) in H1; [|exact Hv]. unfold Rdiv in H1. rewrite Rmult_assoc, Rinv_l, Rmult_1_r in H1 by lra. exact H1. }
  intros ((H1 & H2) & H3). split; [|split]; [apply G in H1; [exact H1|lra] | apply G in H2; [exact H2|lra] | apply G in H3; [exact H3|lra]].
Qed.
(** What a state says about every feasible point. *)
Lemma certificate b c x z y w x' : positive m z -> positive wsize y -> feasible n m wsize A b x' ->
  (objective m c x' <= objective m c x + (rsum m (fun k => z k * x k) + rsum wsize (fun i => w i * y i)) + norm n y * norm n (primal_gap m wsize A b x w) + norm m (dual_gap n A c y z) * norm m (fun k => (x' k - x k)%R))%R.
Proof.
  intros Hz Hy (F1 & F2 & F3). set (r := primal_gap m wsize A b x w). set (g := dual_gap n A c y z).
  assert (Ec : forall v, objective m c v = (rsum m (fun k => g k * v k) + rsum n (fun i => y i * times m A v i) - rsum m (fun k => z k * v k))%R).
  { intros v. unfold objective. rewrite (rsum_ext m (fun k => c k * v k)%R (fun k => g k * v k + times_t n A y k * v k - z k * v k)%R) by (intros k _; unfold g, dual_gap; lra).
    rewrite rsum_minus, rsum_plus. f_equal. f_equal. unfold times, times_t.
    rewrite (rsum_ext m _ (fun k => rsum n (fun i => A i k * y i * v k))%R) by (intros k _; rewrite rsum_scal_r; reflexivity).
    rewrite <- rsum_swap. apply rsum_ext. intros i _. rewrite <- rsum_scal. apply rsum_ext. intros; lra. }
  rewrite (Ec x'), (Ec x).
  assert (E1 : (rsum n (fun i => y i * times m A x' i) - rsum n (fun i => y i * times m A x i) <= rsum wsize (fun i => w i * y i) + rsum n (fun i => y i * r i))%R).
  { rewrite <- rsum_minus, <- (rsum_if_lt n wsize (fun i => w i * y i)%R) by exact Hw. rewrite <- rsum_plus.
    assert (G : forall f h, (forall i, i < n -> (f i <= h i)%R) -> (rsum n f <= rsum n h)%R).
    { clear. intros f h. induction n as [|k IH]; intros H; [cbn; lra|]. cbn [rsum]. pose proof (H k ltac:(lia)). specialize (IH ltac:(intros; apply H; lia)). lra. }
    apply G. intros i Hi. unfold r, primal_gap. destruct (Nat.ltb_spec i wsize) as [Hiw|Hiw].
    - pose proof (F2 i Hi Hiw). pose proof (Hy i Hiw). nra.
    - rewrite (F3 i Hi Hiw). nra. }
  pose proof (cauchy_schwarz n y r) as C1. pose proof (cauchy_schwarz m g (fun k => (x' k - x k)%R)) as C2.
  cbv beta in C2. rewrite (rsum_ext m (fun k => g k * (x' k - x k))%R (fun k => g k * x' k - g k * x k)%R) in C2 by (intros; lra). rewrite rsum_minus in C2.
  assert (E2 : (0 <= rsum m (fun k => z k * x' k))%R) by (apply rsum_nonneg; intros k Hk; pose proof (Hz k Hk); pose proof (F1 k Hk); nra). lra.
Qed.
End Lp.
