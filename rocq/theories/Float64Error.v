(** Rounding errors of the storage balance, sums and interpolation. *)
From Coq Require Import Floats.SpecFloat Reals.
From Flocq Require Import Core IEEE754.BinarySingleNaN Relative Plus_error.
From Verif Require Import Base Float64 Float64Order Float64Spec Float64Real Float64Lemmas.
From Coq Require Import Lra.
Open Scope R_scope.

Opaque storage_tolerance.

Lemma b31 : bpow radix2 31 = 2147483648.
Proof. reflexivity. Qed.
Lemma b17 : bpow radix2 17 = 131072.
Proof. reflexivity. Qed.
Lemma bm17 : bpow radix2 (-17) = / 131072.
Proof. reflexivity. Qed.

Lemma below_1023 r : Rabs r <= bpow radix2 60 -> Rabs r <= bpow radix2 1023.
Proof. apply big_1023. lia. Qed.
Lemma b60 : bpow radix2 60 = 1152921504606846976.
Proof. reflexivity. Qed.

Lemma fsub_small x y : fd x -> fd y -> Rabs (val x) <= 144115188075855872 -> Rabs (val y) <= 144115188075855872 ->
  fd (fsub x y) /\ val (fsub x y) = rnd (val x - val y).
Proof.
  intros Fx Fy A B. apply fsub_val; auto. apply below_1023. rewrite b60.
  apply Rabs_le_inv in A. apply Rabs_le_inv in B. apply Rabs_le. lra.
Qed.
Lemma fadd_small x y : fd x -> fd y -> Rabs (val x) <= 144115188075855872 -> Rabs (val y) <= 144115188075855872 ->
  fd (fadd x y) /\ val (fadd x y) = rnd (val x + val y).
Proof.
  intros Fx Fy A B. apply fadd_val; auto. apply below_1023. rewrite b60.
  apply Rabs_le_inv in A. apply Rabs_le_inv in B. apply Rabs_le. lra.
Qed.

Lemma rnd_err_pos r c : 0 <= r <= c -> r - u * c - eta <= rnd r <= r + u * c + eta.
Proof.
  intros H. pose proof (rnd_error r) as E. rewrite (Rabs_pos_eq r) in E by lra.
  apply Rabs_le_inv in E. assert (u * r <= u * c). { apply Rmult_le_compat_l; [apply bpow_ge_0|lra]. } lra.
Qed.

Lemma rnd_err_abs r c : Rabs r <= c -> r - u * c - eta <= rnd r <= r + u * c + eta.
Proof.
  intros H. pose proof (rnd_error r) as E.
  apply Rabs_le_inv in E. assert (u * Rabs r <= u * c). { apply Rmult_le_compat_l; [apply bpow_ge_0|lra]. } lra.
Qed.

(** What one flow [F] within the limit [rnd (a / d)] takes in a time-step of [d] days. *)
Lemma taken A a d F p : 0 <= A <= bpow radix2 31 -> a = rnd A -> / 131072 <= d <= 131072 ->
  0 <= F <= rnd (a / d) -> p = rnd (F * d) ->
  0 <= F <= 281474976710657 /\ 0 <= F * d <= 2147483649 /\ 0 <= p <= A + 4 * (u * 1610612737).
Proof.
  intros HA -> Hd HF ->.
  pose proof eta_small as Et. pose proof u_val as Eu.
  assert (Ha : 0 <= rnd A <= 2147483648).
  { split. { now apply rnd_nonneg. } rewrite <- b31, <- (bpow_format 31) by lia. now apply rnd_le. }
  rewrite b31 in HA.
  pose proof (rnd_err_pos A 2147483648 HA) as EA.
  assert (Hg : 0 <= rnd A / d <= 281474976710656).
  { split. { apply Rmult_le_pos; [lra|]. apply Rlt_le, Rinv_0_lt_compat. lra. }
    apply Rmult_le_reg_r with d; [lra|]. unfold Rdiv. rewrite Rmult_assoc, Rinv_l, Rmult_1_r by lra.
    apply Rle_trans with (281474976710656 * / 131072); [lra|]. apply Rmult_le_compat_l; lra. }
  assert (Eg : rnd (rnd A / d) * d <= rnd A + u * rnd A + eta * d).
  { pose proof (rnd_err_pos (rnd A / d) (rnd A / d)) as E. destruct E as [_ E]; [lra|].
    apply Rmult_le_compat_r with (r := d) in E; [|lra].
    replace ((rnd A / d + u * (rnd A / d) + eta) * d) with (rnd A + u * rnd A + eta * d) in E; auto.
    field. lra. }
  pose proof (rnd_err_pos (rnd A / d) 281474976710656 Hg) as E2.
  assert (HF1 : 0 <= F <= 281474976710657) by (rewrite Eu in E2; lra).
  assert (HE : eta * d <= / 1267650600228229401496703205376 * 131072).
  { apply Rmult_le_compat; lra. }
  assert (HFd : F * d <= rnd A + u * rnd A + eta * d).
  { eapply Rle_trans; [|exact Eg]. apply Rmult_le_compat_r; lra. }
  assert (HFd0 : 0 <= F * d) by (apply Rmult_le_pos; lra).
  assert (HFd1 : 0 <= F * d <= 2147483649) by (rewrite Eu in HFd; lra).
  pose proof (rnd_err_pos (F * d) 2147483649 HFd1) as E3.
  split; auto. split; auto. split. { now apply rnd_nonneg. }
  rewrite Eu in *. lra.
Qed.

Section balance.
  Variables v m M d f : f64.
  Hypothesis (Fv : fd v) (Fm : fd m) (FM : fd M) (Fd : fd d) (Ff : fd f).
  Hypothesis H0 : 0 <= val m.
  Hypothesis H1 : val m <= val v.
  Hypothesis H2 : val v <= val M.
  Hypothesis H3 : val M <= bpow radix2 31.
  Hypothesis Hd : / 131072 <= val d <= 131072.
  Hypothesis Hf : 0 <= val f.

  Lemma fin_clamp {E} x : fd x -> - val storage_tolerance <= val x - val m -> val x - val M <= val storage_tolerance ->
    Rabs (val x) <= 144115188075855872 ->
    exists w, finalise (E:=E) x m M = Ok w.
  Proof.
    intros Fx A B C. rewrite b31 in H3. pose proof fd_tol as Ft.
    destruct (fsub_small x m Fx Fm) as (F1 & V1); auto. { rewrite Rabs_pos_eq; lra. }
    destruct (fsub_small x M Fx FM) as (F2 & V2); auto. { rewrite Rabs_pos_eq; lra. }
    destruct (fneg_val _ fd_tol) as (F3 & V3).
    unfold finalise.
    replace (flt (fsub x m) (fneg storage_tolerance)) with false.
    2:{ symmetry. apply fle_lt_false. apply fle_val; auto. rewrite V1, V3, <- V3.
        rewrite <- (rnd_fd _ F3), V3. apply rnd_le. lra. }
    replace (flt storage_tolerance (fsub x M)) with false.
    2:{ symmetry. apply fle_lt_false. apply fle_val; auto. rewrite V2.
        rewrite <- (rnd_fd _ Ft). apply rnd_le. exact B. }
    unfold fclamp. replace (fle m M) with true. { eauto. }
    symmetry. apply fle_val; auto. lra.
  Qed.

  Lemma fdd : val d <> 0.
  Proof. lra. Qed.

  Lemma emptied {E} : fle f (fneg (fst (storage_row v m M d))) = true ->
    exists w, finalise (E:=E) (add_out_flow v f d) m M = Ok w.
  Proof.
    intros L. cbn [storage_row fst] in L.
    pose proof H3 as H3'. rewrite b31 in H3'.
    destruct (fsub_small v m Fv Fm) as (F1 & V1); try (rewrite Rabs_pos_eq; lra).
    destruct (fneg_val _ F1) as (F2 & V2).
    assert (A0 : 0 <= val v - val m <= bpow radix2 31) by (rewrite b31; lra).
    assert (Aa : 0 <= rnd (val v - val m) <= 2147483648).
    { split. { now apply rnd_nonneg. } rewrite <- b31, <- (bpow_format 31) by lia. now apply rnd_le. }
    destruct (fdiv_val (fneg (fsub v m)) d F2 Fd fdd) as (F3 & V3).
    { apply below_1023. rewrite b60, V2, V1. unfold Rdiv. rewrite Rabs_mult, Rabs_Ropp, Rabs_pos_eq by lra.
      rewrite Rabs_inv, (Rabs_pos_eq (val d)) by lra.
      apply Rle_trans with (2147483648 * 131072); [|lra].
      apply Rmult_le_compat; try lra. { apply Rlt_le, Rinv_0_lt_compat. lra. }
      rewrite <- (Rinv_inv 131072). apply Rinv_le; lra. }
    destruct (fneg_val _ F3) as (F4 & V4).
    assert (Hf2 : val f <= rnd (rnd (val v - val m) / val d)).
    { apply fle_val in L; auto. rewrite V4, V3, V2, V1 in L.
      replace (- rnd (val v - val m) / val d) with (- (rnd (val v - val m) / val d)) in L by (field; lra).
      rewrite rnd_opp, Ropp_involutive in L. exact L. }
    destruct (taken (val v - val m) _ (val d) (val f) _ A0 eq_refl Hd (conj Hf Hf2) eq_refl) as (G1 & G2 & G3).
    destruct (fmul_val f d Ff Fd) as (F5 & V5).
    { apply below_1023. rewrite b60, Rabs_pos_eq; lra. }
    pose proof u_val as Eu. pose proof eta_small as Et.
    assert (P : 0 <= val (fmul f d) <= 2147483649). { rewrite V5, Eu in *. lra. }
    destruct (fsub_small v (fmul f d) Fv F5) as (F6 & V6); try (rewrite Rabs_pos_eq; lra).
    assert (W : Rabs (val v - val (fmul f d)) <= 2147483649). { apply Rabs_le. rewrite V5, Eu in *. lra. }
    pose proof (rnd_err_abs _ _ W) as EW. rewrite <- V6 in EW.
    assert (W2 : val (fsub v (fmul f d)) <= val v).
    { rewrite V6. rewrite <- (rnd_fd v Fv) at 2. apply rnd_le. lra. }
    unfold add_out_flow. apply fin_clamp; auto.
    - rewrite V5 in *. rewrite tol_val. rewrite Eu in *. lra.
    - rewrite tol_val. lra.
    - apply Rabs_le. rewrite V5 in *. rewrite Eu in *. lra.
  Qed.

  Lemma filled {E} : fle f (snd (storage_row v m M d)) = true ->
    exists w, finalise (E:=E) (add_in_flow v f d) m M = Ok w.
  Proof.
    intros L. cbn [storage_row snd] in L.
    pose proof H3 as H3'. rewrite b31 in H3'.
    destruct (fsub_small M v FM Fv) as (F1 & V1); try (rewrite Rabs_pos_eq; lra).
    assert (A0 : 0 <= val M - val v <= bpow radix2 31) by (rewrite b31; lra).
    assert (Aa : 0 <= rnd (val M - val v) <= 2147483648).
    { split. { now apply rnd_nonneg. } rewrite <- b31, <- (bpow_format 31) by lia. now apply rnd_le. }
    destruct (fdiv_val (fsub M v) d F1 Fd fdd) as (F3 & V3).
    { apply below_1023. rewrite b60, V1. unfold Rdiv. rewrite Rabs_mult, Rabs_pos_eq by lra.
      rewrite Rabs_inv, (Rabs_pos_eq (val d)) by lra.
      apply Rle_trans with (2147483648 * 131072); [|lra].
      apply Rmult_le_compat; try lra. { apply Rlt_le, Rinv_0_lt_compat. lra. }
      rewrite <- (Rinv_inv 131072). apply Rinv_le; lra. }
    assert (Hf2 : val f <= rnd (rnd (val M - val v) / val d)).
    { apply fle_val in L; auto. rewrite V3, V1 in L. exact L. }
    destruct (taken (val M - val v) _ (val d) (val f) _ A0 eq_refl Hd (conj Hf Hf2) eq_refl) as (G1 & G2 & G3).
    destruct (fmul_val f d Ff Fd) as (F5 & V5).
    { apply below_1023. rewrite b60, Rabs_pos_eq; lra. }
    pose proof u_val as Eu. pose proof eta_small as Et.
    assert (P : 0 <= val (fmul f d) <= 2147483649). { rewrite V5, Eu in *. lra. }
    destruct (fadd_small v (fmul f d) Fv F5) as (F6 & V6); try (rewrite Rabs_pos_eq; lra).
    assert (W : Rabs (val v + val (fmul f d)) <= 2147483649). { apply Rabs_le. rewrite V5, Eu in *. lra. }
    pose proof (rnd_err_abs _ _ W) as EW. rewrite <- V6 in EW.
    assert (W2 : val v <= val (fadd v (fmul f d))).
    { rewrite V6. rewrite <- (rnd_fd v Fv) at 1. apply rnd_le. lra. }
    unfold add_in_flow. apply fin_clamp; auto.
    - rewrite tol_val. lra.
    - rewrite V5 in *. rewrite tol_val. rewrite Eu in *. lra.
    - apply Rabs_le. rewrite V5 in *. rewrite Eu in *. lra.
  Qed.
End balance.
