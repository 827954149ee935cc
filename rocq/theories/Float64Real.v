(** Doubles as real numbers: every operation is the exact one followed by one
    rounding (from Flocq), and comparisons are those of the reals. *)
From Coq Require Import Floats.SpecFloat Reals.
From Flocq Require Import Core IEEE754.BinarySingleNaN Relative Plus_error.
From Verif Require Import Base Float64 Float64Spec.
From Coq Require Import Lra.
Open Scope R_scope.

Definition Hprec : Prec_gt_0 prec := eq_refl.
Definition Hmax : Prec_lt_emax prec emax := eq_refl.
#[local] Existing Instance Hprec.
#[local] Existing Instance Hmax.

Notation bf := (binary_float prec emax).
Notation rnd := (round radix2 (FLT_exp (-1074) 53) ZnearestE).

Lemma round_nearest_even_equiv s m l :
  SpecFloat.round_nearest_even m l = choice_mode mode_NE s m l.
Proof.
  case l; [reflexivity|intro c].
  case c; [ | reflexivity..].
  now simpl; unfold Round.cond_incr; case Z.even.
Qed.

Lemma binary_round_aux_equiv sx mx ex lx :
  SpecFloat.binary_round_aux prec emax sx mx ex lx = binary_round_aux prec emax mode_NE sx mx ex lx.
Proof.
  unfold SpecFloat.binary_round_aux, binary_round_aux.
  set (mrse' := shr_fexp _ _ _ _ _). case mrse'; intros mrs' e'; simpl.
  now rewrite (round_nearest_even_equiv sx).
Qed.

Lemma binary_round_equiv s m e :
  SpecFloat.binary_round prec emax s m e = binary_round prec emax mode_NE s m e.
Proof.
  unfold SpecFloat.binary_round, binary_round, shl_align_fexp.
  set (mez := shl_align _ _ _); case mez as [mz ez].
  apply binary_round_aux_equiv.
Qed.

Lemma binary_normalize_equiv m e szero :
  SpecFloat.binary_normalize prec emax m e szero
  = B2SF (binary_normalize prec emax Hprec Hmax mode_NE m e szero).
Proof.
  case m as [ | p | p].
  - now simpl.
  - simpl; rewrite B2SF_SF2B; apply binary_round_equiv.
  - simpl; rewrite B2SF_SF2B; apply binary_round_equiv.
Qed.

Lemma mul_equiv (x y : bf) : fmul (B2SF x) (B2SF y) = B2SF (Bmult mode_NE x y).
Proof.
  unfold fmul. case x as [sx|sx| |sx mx ex Bx]; case y as [sy|sy| |sy my ey By]; [now trivial.. | ].
  simpl. rewrite B2SF_SF2B. apply binary_round_aux_equiv.
Qed.

Lemma add_equiv (x y : bf) : fadd (B2SF x) (B2SF y) = B2SF (Bplus mode_NE x y).
Proof.
  unfold fadd. case x as [sx|sx| |sx mx ex Bx]; case y as [sy|sy| |sy my ey By];
    [now (trivial || simpl; case Bool.eqb).. | ].
  apply binary_normalize_equiv.
Qed.

Lemma sub_equiv (x y : bf) : fsub (B2SF x) (B2SF y) = B2SF (Bminus mode_NE x y).
Proof.
  unfold fsub. case x as [sx|sx| |sx mx ex Bx]; case y as [sy|sy| |sy my ey By];
    [now (trivial || simpl; case Bool.eqb).. | ].
  simpl. unfold Zminus. rewrite <- cond_Zopp_negb. apply binary_normalize_equiv.
Qed.

Lemma div_equiv (x y : bf) : fdiv (B2SF x) (B2SF y) = B2SF (Bdiv mode_NE x y).
Proof.
  unfold fdiv. case x as [sx|sx| |sx mx ex Bx]; case y as [sy|sy| |sy my ey By];
    [now (trivial || simpl; case Bool.eqb).. | ].
  simpl. rewrite B2SF_SF2B. set (melz := SFdiv_core_binary _ _ _ _ _ _).
  case melz as [[mz ez] lz]. apply binary_round_aux_equiv.
Qed.

Lemma val_SF2R x : val x = SF2R radix2 x.
Proof.
  destruct x as [s|s| |s m e]; try reflexivity.
  unfold val, SF2R, F2R. cbn [Fnum Fexp]. rewrite bpow_powerRZ.
  replace (IZR radix2) with 2 by reflexivity.
  destruct s; cbn [cond_Zopp].
  - change (Z.neg m) with (- Z.pos m)%Z. rewrite (opp_IZR (Z.pos m)). ring.
  - ring.
Qed.

(** Finite doubles. *)
Definition fd (x : f64) : Prop := double x /\ finite x.

Lemma fd_B x : double x -> exists b : bf, B2SF b = x.
Proof. intros H. exists (SF2B x H). apply B2SF_SF2B. Qed.

Lemma double_B (b : bf) : double (B2SF b).
Proof. apply valid_binary_B2SF. Qed.

Lemma finite_B (b : bf) : finite (B2SF b) <-> BinarySingleNaN.is_finite b = true.
Proof. destruct b; cbn; split; auto; try discriminate; tauto. Qed.

Lemma val_B (b : bf) : val (B2SF b) = B2R b.
Proof. rewrite val_SF2R. destruct b; reflexivity. Qed.

Lemma fd_iff x : fd x <-> exists b : bf, B2SF b = x /\ BinarySingleNaN.is_finite b = true.
Proof.
  split.
  - intros [D F]. destruct (fd_B x D) as (b & <-). exists b. split; auto. now apply finite_B.
  - intros (b & <- & F). split. { apply double_B. } now apply finite_B.
Qed.

(** No overflow below half of the range. *)
Lemma no_overflow r : Rabs r <= bpow radix2 1023 ->
  Rlt_bool (Rabs (round radix2 (SpecFloat.fexp prec emax) (round_mode mode_NE) r)) (bpow radix2 emax) = true.
Proof.
  intros H. apply Rlt_bool_true. apply Rle_lt_trans with (bpow radix2 1023).
  - change (SpecFloat.fexp prec emax) with (FLT_exp (-1074) 53).
    apply abs_round_le_generic; auto with typeclass_instances.
    apply generic_format_FLT_bpow; auto with typeclass_instances; unfold Prec_gt_0; lia.
  - apply bpow_lt. reflexivity.
Qed.

Lemma fadd_val x y : fd x -> fd y -> Rabs (val x + val y) <= bpow radix2 1023 ->
  fd (fadd x y) /\ val (fadd x y) = rnd (val x + val y).
Proof.
  rewrite !fd_iff. intros (b & <- & F) (c & <- & G) H. rewrite !val_B in H.
  pose proof (Bplus_correct prec emax _ _ mode_NE b c F G) as C. rewrite no_overflow in C by auto.
  destruct C as (E & FF & _). rewrite add_equiv, !val_B, E. split; auto. eexists; eauto.
Qed.

Lemma fsub_val x y : fd x -> fd y -> Rabs (val x - val y) <= bpow radix2 1023 ->
  fd (fsub x y) /\ val (fsub x y) = rnd (val x - val y).
Proof.
  rewrite !fd_iff. intros (b & <- & F) (c & <- & G) H. rewrite !val_B in H.
  pose proof (Bminus_correct prec emax _ _ mode_NE b c F G) as C. rewrite no_overflow in C by auto.
  destruct C as (E & FF & _). rewrite sub_equiv, !val_B, E. split; auto. eexists; eauto.
Qed.

Lemma fmul_val x y : fd x -> fd y -> Rabs (val x * val y) <= bpow radix2 1023 ->
  fd (fmul x y) /\ val (fmul x y) = rnd (val x * val y).
Proof.
  rewrite !fd_iff. intros (b & <- & F) (c & <- & G) H. rewrite !val_B in H.
  pose proof (Bmult_correct prec emax _ _ mode_NE b c) as C. rewrite no_overflow in C by auto.
  destruct C as (E & FF & _). rewrite mul_equiv, !val_B, E. split; auto. rewrite F, G in FF. eexists; eauto.
Qed.

Lemma fdiv_val x y : fd x -> fd y -> val y <> 0 -> Rabs (val x / val y) <= bpow radix2 1023 ->
  fd (fdiv x y) /\ val (fdiv x y) = rnd (val x / val y).
Proof.
  rewrite !fd_iff. intros (b & <- & F) (c & <- & G) Z H. rewrite !val_B in *.
  pose proof (Bdiv_correct prec emax _ _ mode_NE b c Z) as C. rewrite no_overflow in C by auto.
  destruct C as (E & FF & _). rewrite div_equiv, !val_B, E. split; auto. rewrite F in FF. eexists; eauto.
Qed.

Lemma fle_val x y : fd x -> fd y -> (fle x y = true <-> val x <= val y).
Proof.
  rewrite !fd_iff. intros (b & <- & F) (c & <- & G). rewrite !val_B.
  change (fle (B2SF b) (B2SF c)) with (Bleb b c). rewrite Bleb_correct by auto.
  case Rle_bool_spec; intuition (discriminate || lra).
Qed.

Lemma flt_val x y : fd x -> fd y -> (flt x y = true <-> val x < val y).
Proof.
  rewrite !fd_iff. intros (b & <- & F) (c & <- & G). rewrite !val_B.
  change (flt (B2SF b) (B2SF c)) with (Bltb b c). rewrite Bltb_correct by auto.
  case Rlt_bool_spec; intuition (discriminate || lra).
Qed.

Lemma fneg_val x : fd x -> fd (fneg x) /\ val (fneg x) = - val x.
Proof.
  intros [D F]. destruct x as [s|s| |s m e]; try contradiction; split; try (split; auto; fail).
  - cbn. ring.
  - cbn. destruct s; cbn; ring.
Qed.

Lemma fabs_val x : fd x -> fd (fabs x) /\ val (fabs x) = Rabs (val x).
Proof.
  intros [D F]. destruct x as [s|s| |s m e]; try contradiction; split; try (split; auto; fail).
  - cbn. now rewrite Rabs_R0.
  - cbn [fabs SFabs val]. rewrite !Rabs_mult.
    rewrite (Rabs_pos_eq (IZR (Z.pos m))) by (apply IZR_le; lia).
    rewrite (Rabs_pos_eq (powerRZ 2 e)) by (apply powerRZ_le; lra).
    replace (Rabs (if s then -1 else 1)) with 1; auto.
    destruct s. { rewrite Rabs_left; lra. } rewrite Rabs_pos_eq; lra.
Qed.

(** Every finite double is in the format, so rounding it changes nothing. *)
Lemma fd_format x : fd x -> generic_format radix2 (FLT_exp (-1074) 53) (val x).
Proof. rewrite fd_iff. intros (b & <- & F). rewrite val_B. apply (generic_format_B2R prec emax). Qed.

Lemma rnd_fd x : fd x -> rnd (val x) = val x.
Proof. intros H. apply round_generic; auto with typeclass_instances. now apply fd_format. Qed.

Lemma rnd_le a b : a <= b -> rnd a <= rnd b.
Proof. apply round_le; auto with typeclass_instances. Qed.

Lemma rnd_0 : rnd 0 = 0.
Proof. apply round_0; auto with typeclass_instances. Qed.

(** One rounding: a relative error of 2^-53 and an absolute one of 2^-1075. *)
Definition u : R := bpow radix2 (-53).
Definition eta : R := bpow radix2 (-1075).

Lemma rnd_error r : Rabs (rnd r - r) <= u * Rabs r + eta.
Proof.
  destruct (error_N_FLT radix2 (-1074) 53 eq_refl (fun x => negb (Z.even x)) r) as (e & t & He & Ht & _ & ->).
  replace (r * (1 + e) + t - r) with (r * e + t) by ring.
  eapply Rle_trans; [apply Rabs_triang|]. rewrite Rabs_mult.
  apply Rplus_le_compat.
  - rewrite Rmult_comm. apply Rmult_le_compat_r; [apply Rabs_pos|].
    replace u with (/ 2 * bpow radix2 (-53 + 1)); auto. unfold u. simpl. lra.
  - replace eta with (/ 2 * bpow radix2 (-1074)); auto. unfold eta.
    change (-1075)%Z with (-1 + -1074)%Z. rewrite bpow_plus. reflexivity.
Qed.

(** An addition or subtraction has no absolute part: small sums are exact. *)
Lemma rnd_plus_error x y : fd x -> fd y -> Rabs (rnd (val x + val y) - (val x + val y)) <= u * Rabs (val x + val y).
Proof.
  intros F G. apply fd_format in F. apply fd_format in G.
  destruct (Rle_or_lt (Rabs (val x + val y)) (bpow radix2 (53 + -1074))) as [S|B].
  - rewrite round_generic; auto with typeclass_instances.
    + rewrite Rminus_eq_0, Rabs_R0. apply Rmult_le_pos; [apply bpow_ge_0|apply Rabs_pos].
    + apply FLT_format_plus_small; auto; reflexivity.
  - destruct (relative_error_N_FLT_ex radix2 (-1074) 53 eq_refl (fun x => negb (Z.even x)) (val x + val y)) as (e & He & E).
    { apply Rle_trans with (bpow radix2 (53 + -1074)); [apply bpow_le; lia|lra]. }
    rewrite E. replace ((val x + val y) * (1 + e) - (val x + val y)) with (e * (val x + val y)) by ring.
    rewrite Rabs_mult. apply Rmult_le_compat_r; [apply Rabs_pos|].
    replace u with (/ 2 * bpow radix2 (-53 + 1)); auto. unfold u. simpl. lra.
Qed.
