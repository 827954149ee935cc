(** Lemmas for [Props_Float64]. *)
From Coq Require Import Floats.SpecFloat Reals.
From Flocq Require Import Core IEEE754.BinarySingleNaN Relative Plus_error.
From Verif Require Import Base Float64 Float64Order Float64Spec Float64Real.
From Coq Require Import Lra.
Open Scope R_scope.
#[local] Existing Instance Hprec.
#[local] Existing Instance Hmax.

Lemma fd_num x : fd x -> num x.
Proof. intros [_ F]. destruct x; try contradiction; reflexivity. Qed.

Lemma val_zero : val zero = 0.
Proof. reflexivity. Qed.
Lemma fd_zero : fd zero.
Proof. split; reflexivity || exact I. Qed.

Lemma fd_tol : fd storage_tolerance.
Proof. split; reflexivity || exact I. Qed.

Lemma tol_is : storage_tolerance = S754_finite false 4722366482869645 (-72).
Proof. reflexivity. Qed.


Lemma tol_val : val storage_tolerance = 4722366482869645 / 4722366482869645213696.
Proof. rewrite tol_is, val_SF2R. unfold SF2R, F2R. cbn [Fnum Fexp cond_Zopp]. simpl bpow. lra. Qed.

Lemma pow2_double k : (-1022 <= k <= 971)%Z -> fd (pow2 k).
Proof.
  intros H. split; [|exact I]. unfold double, pow2, valid_binary, SpecFloat.bounded, SpecFloat.canonical_mantissa.
  change (Z.pos (SpecFloat.digits2_pos (2 ^ 52))) with 53%Z.
  unfold SpecFloat.fexp, SpecFloat.emin, prec, emax. apply andb_true_intro. split.
  - apply (proj1 (Zeq_is_eq_bool _ _)). lia.
  - apply Zle_imp_le_bool. lia.
Qed.

Lemma pow2_val k : val (pow2 k) = bpow radix2 k.
Proof.
  rewrite val_SF2R. unfold pow2, SF2R, F2R. cbn [Fnum Fexp cond_Zopp].
  replace (IZR (Z.pos (2 ^ 52))) with (bpow radix2 52) by reflexivity.
  rewrite <- bpow_plus. f_equal. lia.
Qed.

Lemma bpow_format k : (-1074 <= k)%Z -> rnd (bpow radix2 k) = bpow radix2 k.
Proof.
  intros H. apply round_generic; auto with typeclass_instances.
  apply generic_format_FLT_bpow; auto; unfold Prec_gt_0; lia.
Qed.

Lemma rnd_opp r : rnd (- r) = - rnd r.
Proof. apply round_NE_opp. Qed.

Lemma rnd_nonneg r : 0 <= r -> 0 <= rnd r.
Proof. intros H. rewrite <- rnd_0. now apply rnd_le. Qed.
Lemma rnd_nonpos r : r <= 0 -> rnd r <= 0.
Proof. intros H. rewrite <- rnd_0. now apply rnd_le. Qed.

Lemma big_1023 r k : (k <= 1023)%Z -> Rabs r <= bpow radix2 k -> Rabs r <= bpow radix2 1023.
Proof. intros K H. eapply Rle_trans; eauto. now apply bpow_le. Qed.

Lemma u_val : u = / 9007199254740992.
Proof. reflexivity. Qed.
Lemma eta_small : 0 < eta <= / 1267650600228229401496703205376.
Proof.
  split. { apply bpow_gt_0. }
  replace (/ 1267650600228229401496703205376) with (bpow radix2 (-100)) by reflexivity.
  apply bpow_le. lia.
Qed.

(** The sign of a difference, whatever the size of the numbers. *)
Lemma sub_sign x y : double x -> double y -> fle y x = true ->
  is_nan (fsub x y) = true \/ fle zero (fsub x y) = true.
Proof.
  intros Dx Dy L. pose proof L as L0. apply fle_iff in L0. destruct L0 as (Ny & Nx & K).
  destruct (fd_B x Dx) as (b & <-). destruct (fd_B y Dy) as (c & <-). rewrite sub_equiv.
  destruct (BinarySingleNaN.is_finite b) eqn:Fb; destruct (BinarySingleNaN.is_finite c) eqn:Fc.
  - right. pose proof (Bminus_correct prec emax _ _ mode_NE b c Fb Fc) as C.
    assert (V : B2R c <= B2R b).
    { rewrite <- !val_B. apply fle_val; auto; apply fd_iff; eexists; eauto. }
    destruct (Rlt_bool _ _).
    + destruct C as (E & FF & _). apply fle_val.
      { apply fd_zero. } { apply fd_iff; eexists; eauto. }
      rewrite val_B, E, val_zero. apply rnd_nonneg. lra.
    + destruct C as (E & S). rewrite E.
      assert (Sb : Bsign b = false).
      { destruct (Bsign b) eqn:Sb; auto. exfalso. symmetry in S. apply negb_true_iff in S.
        destruct b as [[]|[]| |[] mb eb Hb]; try discriminate; destruct c as [[]|[]| |[] mc ec Hc]; try discriminate;
          cbn in *; unfold klt in K; cbn in K; lia. }
      rewrite Sb. reflexivity.
  - destruct b as [[]|[]| |[] mb eb Hb]; try discriminate; destruct c as [[]|[]| |[] mc ec Hc]; try discriminate;
      cbn in *; auto; unfold klt in K; cbn in K; try lia; auto.
  - destruct b as [[]|[]| |[] mb eb Hb]; try discriminate; destruct c as [[]|[]| |[] mc ec Hc]; try discriminate;
      cbn in *; auto; unfold klt in K; cbn in K; try lia; auto.
  - destruct b as [[]|[]| |[] mb eb Hb]; try discriminate; destruct c as [[]|[]| |[] mc ec Hc]; try discriminate;
      cbn in *; auto.
Qed.

Lemma sub_sign' x y : double x -> double y -> fle x y = true ->
  is_nan (fsub x y) = true \/ fle (fsub x y) zero = true.
Proof.
  intros Dx Dy L. pose proof L as L0. apply fle_iff in L0. destruct L0 as (Ny & Nx & K).
  destruct (fd_B x Dx) as (b & <-). destruct (fd_B y Dy) as (c & <-). rewrite sub_equiv.
  destruct (BinarySingleNaN.is_finite b) eqn:Fb; destruct (BinarySingleNaN.is_finite c) eqn:Fc.
  - right. pose proof (Bminus_correct prec emax _ _ mode_NE b c Fb Fc) as C.
    assert (V : B2R b <= B2R c).
    { rewrite <- !val_B. apply fle_val; auto; apply fd_iff; eexists; eauto. }
    destruct (Rlt_bool _ _).
    + destruct C as (E & FF & _). apply fle_val.
      { apply fd_iff; eexists; eauto. } { apply fd_zero. }
      rewrite val_B, E, val_zero. apply rnd_nonpos. lra.
    + destruct C as (E & S). rewrite E.
      assert (Sb : Bsign b = true).
      { destruct (Bsign b) eqn:Sb; auto. exfalso. symmetry in S. apply negb_false_iff in S.
        destruct b as [[]|[]| |[] mb eb Hb]; try discriminate; destruct c as [[]|[]| |[] mc ec Hc]; try discriminate;
          cbn in *; unfold klt in K; cbn in K; lia. }
      rewrite Sb. reflexivity.
  - destruct b as [[]|[]| |[] mb eb Hb]; try discriminate; destruct c as [[]|[]| |[] mc ec Hc]; try discriminate;
      cbn in *; auto; unfold klt in K; cbn in K; try lia; auto.
  - destruct b as [[]|[]| |[] mb eb Hb]; try discriminate; destruct c as [[]|[]| |[] mc ec Hc]; try discriminate;
      cbn in *; auto; unfold klt in K; cbn in K; try lia; auto.
  - destruct b as [[]|[]| |[] mb eb Hb]; try discriminate; destruct c as [[]|[]| |[] mc ec Hc]; try discriminate;
      cbn in *; auto.
Qed.

Lemma flt_nan_l x y : is_nan x = true -> flt x y = false.
Proof. destruct x; try discriminate. intros _. unfold flt, SFltb. now rewrite compare_nan_l. Qed.
Lemma flt_nan_r x y : is_nan y = true -> flt x y = false.
Proof. destruct y; try discriminate. intros _. unfold flt, SFltb. now rewrite compare_nan_r. Qed.

Lemma fclamp_within {E} x lo hi v : num x -> fclamp (E:=E) x lo hi = Ok v ->
  fle lo v = true /\ fle v hi = true /\ (fle lo x = true -> fle x hi = true -> v = x).
Proof.
  unfold fclamp. intros N. destruct (fle lo hi) eqn:L; try discriminate. intros [= <-].
  pose proof L as L0. apply fle_iff in L0. destruct L0 as (Nl & Nh & _).
  destruct (flt x lo) eqn:A.
  - rewrite (fle_lt_false _ _ L). repeat split; auto. { now apply fle_refl. }
    intros B. apply fle_lt_false in B. congruence.
  - destruct (flt hi x) eqn:B.
    + repeat split; auto. { now apply fle_refl. } intros _ C. apply fle_lt_false in C. congruence.
    + repeat split; auto; apply flt_false; auto.
Qed.

Lemma finalise_within {E} x lo hi v : num x -> finalise (E:=E) x lo hi = Ok v ->
  fle lo v = true /\ fle v hi = true /\ (fle lo x = true -> fle x hi = true -> v = x).
Proof.
  unfold finalise. intros N. destruct (flt _ (fneg storage_tolerance)); try discriminate.
  destruct (flt storage_tolerance _); try discriminate. now apply fclamp_within.
Qed.

Lemma finalise_kept {E} x lo hi : double x -> double lo -> double hi ->
  fle lo x = true -> fle x hi = true -> finalise (E:=E) x lo hi = Ok x.
Proof.
  intros Dx Dl Dh A B. unfold finalise.
  replace (flt (fsub x lo) (fneg storage_tolerance)) with false.
  2:{ symmetry. destruct (sub_sign x lo Dx Dl A) as [N|P]. { now apply flt_nan_l. }
      apply fle_lt_false. apply fle_trans with zero; auto. }
  replace (flt storage_tolerance (fsub x hi)) with false.
  2:{ symmetry. destruct (sub_sign' x hi Dx Dh B) as [N|P]. { now apply flt_nan_r. }
      apply fle_lt_false. apply fle_trans with zero; auto. }
  unfold fclamp. rewrite (fle_trans _ _ _ A B), (fle_lt_false _ _ A), (fle_lt_false _ _ B). reflexivity.
Qed.
