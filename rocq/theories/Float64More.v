(** Order of interpolated values, lengths of time-steps, limits and extremes. *)
From Coq Require Import Floats.SpecFloat Reals.
From Flocq Require Import Core IEEE754.BinarySingleNaN Relative Plus_error.
From Verif Require Import Base Float64 Float64Order Float64Spec Float64Real Float64Lemmas Float64Sum.
From Coq Require Import Lra.
Open Scope R_scope.
Opaque storage_tolerance float_eq_tolerance.
#[local] Existing Instance Hprec.
#[local] Existing Instance Hmax.

(** * Interpolation keeps the order below the upper bound *)
Section order.
  Variables lb ub lv uv : f64.
  Hypothesis (Flb : fd lb) (Fub : fd ub) (Flv : fd lv) (Fuv : fd uv).
  Hypothesis (Blb : Rabs (val lb) <= big) (Bub : Rabs (val ub) <= big).
  Hypothesis (Blv : Rabs (val lv) <= big) (Buv : Rabs (val uv) <= big).

  (** The three ways to get the lower value, or the formula. *)
  Lemma interpolate_cases x : fd x -> val x < val ub ->
    (val x <= val lb /\ interpolate x lb ub lv uv = lv) \/
    (val lb < val x /\ flt (fabs (fsub lb ub)) float_eq_tolerance = true /\ interpolate x lb ub lv uv = lv) \/
    (val lb < val x /\ flt (fabs (fsub lb ub)) float_eq_tolerance = false).
  Proof.
    intros Fx H. unfold interpolate. destruct (fle x lb) eqn:E.
    - left. split; auto. now apply fle_val in E.
    - right. assert (L : val lb < val x).
      { apply fle_false in E; try (now apply fd_num). now apply flt_val in E. }
      replace (fle ub x) with false.
      2:{ symmetry. destruct (fle ub x) eqn:G; auto. apply fle_val in G; auto. lra. }
      destruct (flt (fabs (fsub lb ub)) float_eq_tolerance); auto.
  Qed.

  Lemma interpolate_fd x : fd x -> val x < val ub -> fd (interpolate x lb ub lv uv).
  Proof.
    intros Fx H. destruct (interpolate_cases x Fx H) as [(_ & ->) | [(_ & _ & ->) | (L & S)]]; auto.
    destruct (steps x lb ub lv uv) as (A & B & C & P & Q & FA & FB & FC & FP & FQ & VA & VB & VC & HC & VP & VQ & FR & VR); auto.
  Qed.

  Lemma div_le a b c : 0 < c -> a <= b -> a / c <= b / c.
  Proof. intros C H. apply Rmult_le_compat_r; auto. now apply Rlt_le, Rinv_0_lt_compat. Qed.

  Lemma formula_above x : fd x -> val x < val ub -> val lb < val x ->
    flt (fabs (fsub lb ub)) float_eq_tolerance = false -> val lv <= val uv ->
    val lv <= val (interpolate x lb ub lv uv).
  Proof.
    intros Fx H L S M.
    destruct (steps x lb ub lv uv) as (A & B & C & P & Q & FA & FB & FC & FP & FQ & VA & VB & VC & HC & VP & VQ & FR & VR); auto.
    rewrite VR. rewrite <- (rnd_fd lv Flv) at 1. apply rnd_le.
    assert (0 <= val A) by (rewrite VA; apply rnd_nonneg; lra).
    assert (0 <= val B) by (rewrite VB; apply rnd_nonneg; lra).
    assert (0 <= val P) by (rewrite VP; apply rnd_nonneg; now apply Rmult_le_pos).
    assert (0 <= val Q).
    { rewrite VQ. apply rnd_nonneg. apply Rmult_le_pos; auto. apply Rlt_le, Rinv_0_lt_compat. lra. }
    lra.
  Qed.

  Lemma formula_below x : fd x -> val x < val ub -> val lb < val x ->
    flt (fabs (fsub lb ub)) float_eq_tolerance = false -> val uv <= val lv ->
    val (interpolate x lb ub lv uv) <= val lv.
  Proof.
    intros Fx H L S M.
    destruct (steps x lb ub lv uv) as (A & B & C & P & Q & FA & FB & FC & FP & FQ & VA & VB & VC & HC & VP & VQ & FR & VR); auto.
    rewrite VR. rewrite <- (rnd_fd lv Flv) at 2. apply rnd_le.
    assert (val A <= 0) by (rewrite VA; apply rnd_nonpos; lra).
    assert (0 <= val B) by (rewrite VB; apply rnd_nonneg; lra).
    assert (val P <= 0).
    { rewrite VP. apply rnd_nonpos. rewrite <- (Rmult_0_l (val B)). now apply Rmult_le_compat_r. }
    assert (val Q <= 0).
    { rewrite VQ. apply rnd_nonpos. unfold Rdiv. rewrite <- (Rmult_0_l (/ val C)). apply Rmult_le_compat_r; auto.
      apply Rlt_le, Rinv_0_lt_compat. lra. }
    lra.
  Qed.

  Lemma interpolate_mono x y : fd x -> fd y -> val x <= val y -> val y < val ub -> val lv <= val uv ->
    val (interpolate x lb ub lv uv) <= val (interpolate y lb ub lv uv).
  Proof.
    intros Fx Fy XY H M. assert (H' : val x < val ub) by lra.
    destruct (interpolate_cases x Fx H') as [(Lx & Ex) | [(Lx & Sx & Ex) | (Lx & Sx)]].
    - rewrite Ex. destruct (interpolate_cases y Fy H) as [(Ly & Ey) | [(Ly & Sy & Ey) | (Ly & Sy)]].
      + rewrite Ey; lra. + rewrite Ey; lra. + now apply formula_above.
    - rewrite Ex. destruct (interpolate_cases y Fy H) as [(Ly & Ey) | [(Ly & Sy & Ey) | (Ly & Sy)]]; try (rewrite Ey; lra).
      congruence.
    - assert (Ly : val lb < val y) by lra.
      destruct (steps x lb ub lv uv) as (A & B & C & P & Q & FA & FB & FC & FP & FQ & VA & VB & VC & HC & VP & VQ & FR & VR); auto.
      destruct (steps y lb ub lv uv) as (A' & B' & C' & P' & Q' & FA' & FB' & FC' & FP' & FQ' & VA' & VB' & VC' & HC' & VP' & VQ' & FR' & VR'); auto.
      rewrite VR, VR'. apply rnd_le. apply Rplus_le_compat_l. rewrite VQ, VQ'. apply rnd_le.
      rewrite VC' in *. rewrite VC in *. apply div_le; [lra|]. rewrite VP, VP'. apply rnd_le.
      rewrite VA', VA. apply Rmult_le_compat_l. { apply rnd_nonneg. lra. } rewrite VB, VB'. apply rnd_le. lra.
  Qed.

  Lemma interpolate_anti x y : fd x -> fd y -> val x <= val y -> val y < val ub -> val uv <= val lv ->
    val (interpolate y lb ub lv uv) <= val (interpolate x lb ub lv uv).
  Proof.
    intros Fx Fy XY H M. assert (H' : val x < val ub) by lra.
    destruct (interpolate_cases x Fx H') as [(Lx & Ex) | [(Lx & Sx & Ex) | (Lx & Sx)]].
    - rewrite Ex. destruct (interpolate_cases y Fy H) as [(Ly & Ey) | [(Ly & Sy & Ey) | (Ly & Sy)]].
      + rewrite Ey; lra. + rewrite Ey; lra. + now apply formula_below.
    - rewrite Ex. destruct (interpolate_cases y Fy H) as [(Ly & Ey) | [(Ly & Sy & Ey) | (Ly & Sy)]]; try (rewrite Ey; lra).
      congruence.
    - assert (Ly : val lb < val y) by lra.
      destruct (steps x lb ub lv uv) as (A & B & C & P & Q & FA & FB & FC & FP & FQ & VA & VB & VC & HC & VP & VQ & FR & VR); auto.
      destruct (steps y lb ub lv uv) as (A' & B' & C' & P' & Q' & FA' & FB' & FC' & FP' & FQ' & VA' & VB' & VC' & HC' & VP' & VQ' & FR' & VR'); auto.
      rewrite VR, VR'. apply rnd_le. apply Rplus_le_compat_l. rewrite VQ, VQ'. apply rnd_le.
      rewrite VC' in *. rewrite VC in *. apply div_le; [lra|]. rewrite VP, VP'. apply rnd_le.
      rewrite VA', VA. rewrite !(Rmult_comm (rnd (val uv - val lv))).
      assert (N : rnd (val uv - val lv) <= 0) by (apply rnd_nonpos; lra).
      assert (BB : val B <= val B') by (rewrite VB, VB'; apply rnd_le; lra).
      pose proof (Rmult_le_compat_neg_l (rnd (val uv - val lv)) _ _ N BB). lra.
  Qed.
End order.

(** * Days of a time-step *)
Lemma of_int_val z : (Z.abs z <= 2 ^ 53)%Z -> fd (of_int z) /\ val (of_int z) = IZR z.
Proof.
  intros H. unfold of_int. rewrite binary_normalize_equiv.
  pose proof (binary_normalize_correct prec emax Hprec Hmax mode_NE z 0 false) as C. cbv zeta in C.
  replace (F2R {| Fnum := z; Fexp := 0 |}) with (IZR z) in C by (unfold F2R; simpl; ring).
  assert (G : rnd (IZR z) = IZR z).
  { apply round_generic; auto with typeclass_instances.
    destruct (Z.eq_dec (Z.abs z) (2 ^ 53)) as [E|N].
    - assert (D : z = (2 ^ 53)%Z \/ z = (- 2 ^ 53)%Z) by lia.
      destruct D as [-> | ->].
      + replace (IZR (2 ^ 53)) with (bpow radix2 53) by reflexivity.
        apply generic_format_FLT_bpow; unfold Prec_gt_0; lia.
      + change (IZR (- 2 ^ 53)) with (- bpow radix2 53). apply generic_format_opp.
        apply generic_format_FLT_bpow; unfold Prec_gt_0; lia.
    - replace (IZR z) with (F2R (Float radix2 z 0)) by (unfold F2R; simpl; ring).
      apply generic_format_FLT. exists (Float radix2 z 0); auto; cbn [Fnum Fexp]; try lia.
      change (radix2 ^ 53)%Z with (2 ^ 53)%Z. lia. }
  rewrite no_overflow in C.
  - destruct C as (V & F & _). split. { apply fd_iff. eexists; eauto. }
    rewrite val_B, V. exact G.
  - apply (big_1023 _ 53). { lia. } rewrite <- abs_IZR. replace (bpow radix2 53) with (IZR (2 ^ 53)) by reflexivity.
    now apply IZR_le.
Qed.

Lemma val_86400 : fd (of_int 86400) /\ val (of_int 86400) = 86400.
Proof. apply of_int_val. lia. Qed.

Lemma val_scaled s m e : val (S754_finite s m e) = (if s then -1 else 1) * (IZR (Zpos m) * bpow radix2 e).
Proof. unfold val. rewrite bpow_powerRZ. change (IZR radix2) with 2. ring. Qed.

(** [trunc] of a double that is an integer, and how far it is from others. *)
Lemma trunc_int x z : val x = IZR z -> trunc x = z.
Proof.
  destruct x as [s|s| |s m e]; try (cbn; intros H; now apply eq_IZR in H).
  rewrite val_scaled. unfold trunc. intros H.
  destruct (0 <=? e)%Z eqn:E.
  - apply Z.leb_le in E.
    replace (bpow radix2 e) with (IZR (2 ^ e)) in H by (change (2 ^ e)%Z with (Zpower radix2 e); apply IZR_Zpower; lia).
    rewrite <- mult_IZR in H. destruct s.
    + apply eq_IZR. rewrite opp_IZR. lra.
    + apply eq_IZR. lra.
  - apply Z.leb_gt in E.
    assert (P : bpow radix2 e * IZR (2 ^ (- e)) = 1).
    { replace (IZR (2 ^ (- e))) with (bpow radix2 (- e)) by (symmetry; exact (IZR_Zpower radix2 (- e) ltac:(lia))).
      rewrite <- bpow_plus, Z.add_opp_diag_r. reflexivity. }
    assert (Q : (if s then -1 else 1) * IZR (Z.pos m) = IZR z * IZR (2 ^ (- e))).
    { rewrite <- H. replace ((if s then -1 else 1) * (IZR (Z.pos m) * bpow radix2 e) * IZR (2 ^ (- e)))
        with ((if s then -1 else 1) * IZR (Z.pos m) * (bpow radix2 e * IZR (2 ^ (- e)))) by ring.
      rewrite P. ring. }
    assert (N : (2 ^ (- e) <> 0)%Z) by (apply Z.pow_nonzero; lia).
    rewrite <- mult_IZR in Q. destruct s.
    + replace (-1 * IZR (Z.pos m)) with (IZR (- Z.pos m)) in Q by (rewrite opp_IZR; ring).
      apply eq_IZR in Q. replace (Z.pos m) with ((- z) * 2 ^ (- e))%Z by lia. rewrite Z.div_mul; auto. lia.
    + rewrite Rmult_1_l in Q. apply eq_IZR in Q. rewrite Q, Z.div_mul; auto.
Qed.

Lemma trunc_bound x k : (0 <= k)%Z -> Rabs (val x) <= IZR k -> (Z.abs (trunc x) <= k)%Z.
Proof.
  intros K. destruct x as [s|s| |s m e]; try (cbn; intros; lia).
  rewrite val_scaled, Rabs_mult. replace (Rabs (if s then -1 else 1)) with 1.
  2:{ destruct s; [rewrite Rabs_left|rewrite Rabs_pos_eq]; lra. }
  rewrite Rmult_1_l, Rabs_pos_eq.
  2:{ apply Rmult_le_pos. { apply IZR_le. lia. } apply bpow_ge_0. }
  unfold trunc. intros H. cut (0 <= (if (0 <=? e)%Z then (Z.pos m * 2 ^ e)%Z else (Z.pos m / 2 ^ (- e))%Z) <= k)%Z.
  { destruct s; lia. }
  destruct (0 <=? e)%Z eqn:E.
  - apply Z.leb_le in E.
    replace (bpow radix2 e) with (IZR (2 ^ e)) in H by (change (2 ^ e)%Z with (Zpower radix2 e); apply IZR_Zpower; lia).
    rewrite <- mult_IZR in H. apply le_IZR in H. split; auto. apply Z.mul_nonneg_nonneg; lia.
  - apply Z.leb_gt in E.
    assert (P : bpow radix2 e * IZR (2 ^ (- e)) = 1).
    { replace (IZR (2 ^ (- e))) with (bpow radix2 (- e)) by (symmetry; exact (IZR_Zpower radix2 (- e) ltac:(lia))).
      rewrite <- bpow_plus, Z.add_opp_diag_r. reflexivity. }
    assert (N : (0 < 2 ^ (- e))%Z) by (apply Z.pow_pos_nonneg; lia).
    assert (Q : IZR (Z.pos m) <= IZR (k * 2 ^ (- e))).
    { rewrite mult_IZR. replace (IZR (Z.pos m)) with (IZR (Z.pos m) * bpow radix2 e * IZR (2 ^ (- e))).
      - apply Rmult_le_compat_r; auto. apply IZR_le. lia.
      - rewrite Rmult_assoc, P. ring. }
    apply le_IZR in Q. split. { apply Z.div_pos; lia. } apply Z.div_le_upper_bound; lia.
Qed.

Lemma whole_days_spec s : (0 <= s < 2 ^ 53)%Z ->
  whole_days s = if (s mod 86400 =? 0)%Z then Some (s / 86400)%Z else None.
Proof.
  intros Hs. destruct (of_int_val s) as (Fs & Vs); [lia|]. destruct val_86400 as (F8 & V8).
  assert (S0 : 0 <= IZR s <= 9007199254740991).
  { split; apply IZR_le; lia. }
  destruct (fdiv_val (of_int s) (of_int 86400) Fs F8) as (Fd & Vd).
  { lra. }
  { apply (big_1023 _ 53); [lia|]. rewrite V8, Vs. change (bpow radix2 53) with 9007199254740992.
    rewrite Rabs_pos_eq; lra. }
  rewrite Vs, V8 in Vd. unfold whole_days.
  fold (fractional_days s) in Fd, Vd. set (d := fractional_days s) in *.
  assert (Bd : Rabs (val d) <= IZR (2 ^ 37)).
  { rewrite Vd. change (IZR (2 ^ 37)) with (bpow radix2 37). apply rabs_rnd; [lia|].
    change (bpow radix2 37) with 137438953472. rewrite Rabs_pos_eq; lra. }
  assert (Bt : (Z.abs (trunc d) <= 2 ^ 37)%Z) by (apply trunc_bound; auto; lia).
  destruct (of_int_val (trunc d)) as (Ft & Vt); [lia|].
  unfold fract.
  assert (T : IZR (2 ^ 37) >= Rabs (IZR (trunc d))). { rewrite <- abs_IZR. apply Rle_ge. now apply IZR_le. }
  destruct (fsub_val d (of_int (trunc d)) Fd Ft) as (Ff & Vf).
  { apply (big_1023 _ 53); [lia|]. rewrite Vt. change (bpow radix2 53) with 9007199254740992.
    change (IZR (2 ^ 37)) with 137438953472 in *.
    apply Rabs_le_inv in Bd. assert (Q : Rabs (IZR (trunc d)) <= 137438953472) by lra. apply Rabs_le_inv in Q. apply Rabs_le. lra. }
  rewrite Vt in Vf.
  destruct (s mod 86400 =? 0)%Z eqn:M.
  - apply Z.eqb_eq in M.
    assert (Es : s = (86400 * (s / 86400))%Z) by (pose proof (Z.div_mod s 86400); lia).
    assert (Vi : val d = IZR (s / 86400)).
    { rewrite Vd. rewrite Es at 1. rewrite mult_IZR. replace (86400 * IZR (s / 86400) / 86400) with (IZR (s / 86400)) by field.
      assert (B : (0 <= s / 86400 <= s)%Z). { split; [apply Z.div_pos; lia|apply Z.div_le_upper_bound; lia]. }
      destruct (of_int_val (s / 86400)) as (Fq & Vq); [lia|]. rewrite <- Vq. now apply rnd_fd. }
    rewrite (trunc_int d _ Vi) in *. rewrite Vi, Rminus_eq_0, rnd_0 in Vf.
    replace (feq (fsub d (of_int (s / 86400))) zero) with true; auto.
    symmetry. apply fle_antisym; apply fle_val; auto; try apply fd_zero; rewrite Vf, val_zero; lra.
  - apply Z.eqb_neq in M.
    destruct (feq (fsub d (of_int (trunc d))) zero) eqn:E; auto. exfalso. apply M.
    assert (Z0 : rnd (val d - IZR (trunc d)) = 0).
    { rewrite <- Vf.
      assert (A : fle (fsub d (of_int (trunc d))) zero = true /\ fle zero (fsub d (of_int (trunc d))) = true).
      { assert (E' : feq (fsub d (of_int (trunc d))) zero = true) by exact E. apply feq_iff in E'. destruct E' as (N1 & N2 & K).
        split; apply fle_iff; repeat split; auto; unfold klt; unfold keq in K; lia. }
      destruct A as [A1 A2]. pose proof fd_zero as Fz. apply (fle_val _ _ Ff Fz) in A1. apply (fle_val _ _ Fz Ff) in A2.
      rewrite val_zero in *. lra. }
    assert (Di : val d = IZR (trunc d)).
    { destruct (fneg_val _ Ft) as (Fn & Vn). rewrite Vt in Vn.
      pose proof (rnd_plus_error d (fneg (of_int (trunc d))) Fd Fn) as R. rewrite Vn in R.
      replace (val d + - IZR (trunc d)) with (val d - IZR (trunc d)) in R by ring. rewrite Z0 in R.
      rewrite Rminus_0_l, Rabs_Ropp in R. rewrite u_val in R.
      destruct (Req_dec (val d - IZR (trunc d)) 0) as [H|H]; [lra|]. apply Rabs_pos_lt in H. lra. }
    pose proof (rnd_error (IZR s / 86400)) as R. rewrite <- Vd, Di in R.
    rewrite (Rabs_pos_eq (IZR s / 86400)) in R by lra. rewrite u_val in R. pose proof eta_small as Et.
    apply Rabs_le_inv in R.
    assert (L : -1 < IZR (86400 * trunc d - s) < 1). { rewrite minus_IZR, mult_IZR. lra. }
    assert (X : (86400 * trunc d - s = 0)%Z).
    { destruct L as [L1 L2]. change (-1) with (IZR (-1)) in L1. apply lt_IZR in L1. change 1 with (IZR 1) in L2. apply lt_IZR in L2. lia. }
    replace s with (trunc d * 86400)%Z by lia. apply Z.mod_mul. lia.
Qed.

(** * Limits of a virtual storage *)
Lemma double_sub x y : double x -> double y -> double (fsub x y).
Proof.
  intros Dx Dy. destruct (fd_B x Dx) as (b & <-). destruct (fd_B y Dy) as (c & <-). rewrite sub_equiv. apply double_B.
Qed.

Lemma double_max x y : double x -> double y -> double (fmax x y).
Proof. intros Dx Dy. destruct (fmax_or x y) as [-> | ->]; auto. Qed.

Lemma pos_cases d : finite d -> flt zero d = true -> exists m e, d = S754_finite false m e.
Proof. destruct d as [s|s| |[] m e]; cbn; try tauto; try discriminate; intros; eauto. Qed.

Lemma nonneg_cases a : fle zero a = true ->
  (exists s, a = S754_zero s) \/ a = S754_infinity false \/ exists m e, a = S754_finite false m e.
Proof. destruct a as [s|[]| |[] m e]; cbn; try discriminate; eauto. Qed.

Lemma div_sign a d : double a -> fle zero a = true -> double d -> finite d -> flt zero d = true ->
  fle zero (fdiv a d) = true /\ fle (fdiv (fneg a) d) zero = true.
Proof.
  intros Da Ha Dd Fd Hd. destruct (pos_cases d Fd Hd) as (m & e & ->).
  destruct (nonneg_cases a Ha) as [(s & ->) | [-> | (n & k & ->)]].
  - destruct s; split; reflexivity.
  - split; reflexivity.
  - assert (Vd : val (S754_finite false m e) <> 0).
    { rewrite val_scaled. intros H. pose proof (bpow_gt_0 radix2 e). assert (0 < IZR (Z.pos m)) by (apply IZR_lt; lia).
      assert (0 < IZR (Z.pos m) * bpow radix2 e) by (now apply Rmult_lt_0_compat). lra. }
    assert (Pa : forall s, val (S754_finite s n k) = (if s then -1 else 1) * (IZR (Z.pos n) * bpow radix2 k)) by (intros; apply val_scaled).
    assert (Q : 0 <= (IZR (Z.pos n) * bpow radix2 k) / val (S754_finite false m e)).
    { apply Rmult_le_pos.
      - apply Rmult_le_pos; [apply IZR_le; lia|apply bpow_ge_0].
      - apply Rlt_le, Rinv_0_lt_compat. rewrite val_scaled. rewrite Rmult_1_l. apply Rmult_lt_0_compat; [apply IZR_lt; lia|apply bpow_gt_0]. }
    assert (G : forall s, double (S754_finite s n k) ->
      (if s then fle (fdiv (S754_finite s n k) (S754_finite false m e)) zero else fle zero (fdiv (S754_finite s n k) (S754_finite false m e))) = true).
    { intros s Ds. pose proof (Pa s) as Ps.
      assert (FDa : fd (S754_finite s n k)) by (split; [exact Ds|exact I]).
      assert (FDd : fd (S754_finite false m e)) by (split; [exact Dd|exact I]).
      apply fd_iff in FDa. destruct FDa as (b & Eb & Fb). apply fd_iff in FDd. destruct FDd as (c & Ec & Fc).
      rewrite <- Eb, <- Ec in *. rewrite val_B in Ps. rewrite val_B in Vd. rewrite val_B in Q. rewrite div_equiv.
      assert (Sb : Bsign b = s) by (destruct b; cbn in Eb; try discriminate; now injection Eb).
      assert (Sc : Bsign c = false) by (destruct c; cbn in Ec; try discriminate; now injection Ec).
      pose proof (Bdiv_correct prec emax _ _ mode_NE b c Vd) as C. destruct (Rlt_bool _ _).
      - destruct C as (E & FF & _). rewrite Fb in FF.
        assert (FR : fd (B2SF (Bdiv mode_NE b c))) by (apply fd_iff; eexists; eauto).
        pose proof fd_zero as Fz. destruct s; (apply fle_val; [assumption|assumption|]); rewrite val_B, E, val_zero, Ps.
        + apply rnd_nonpos. unfold Rdiv in *. lra.
        + apply rnd_nonneg. rewrite Rmult_1_l. exact Q.
      - rewrite C, Sb, Sc. destruct s; reflexivity. }
    split. { exact (G false Da). } exact (G true Da).
Qed.

(** * Extremes *)
Lemma max_fold l : forall acc, num acc ->
  let r := fold_left fmax l acc in
  num r /\ fle acc r = true /\ (forall v, In v l -> num v -> fle v r = true) /\ (r = acc \/ In r l).
Proof.
  induction l as [|x l IH]; intros acc N; cbn [fold_left].
  - split; [exact N|]. split; [now apply fle_refl|]. split; [intros v []|now left].
  - destruct (IH (fmax acc x) (fmax_num _ _ N)) as (A & B & C & D). cbv zeta in *.
    split; [|split; [|split]]; auto.
    + eapply fle_trans; [|exact B]. now apply fmax_l.
    + intros v [<- |I] Nv; auto. eapply fle_trans; [|exact B]. now apply fmax_r.
    + destruct D as [D|D]; [|right; now right]. rewrite D. destruct (fmax_or acc x) as [-> | ->]; auto. right. now left.
Qed.

Lemma min_fold l : forall acc, num acc ->
  let r := fold_left fmin l acc in
  num r /\ fle r acc = true /\ (forall v, In v l -> num v -> fle r v = true) /\ (r = acc \/ In r l).
Proof.
  induction l as [|x l IH]; intros acc N; cbn [fold_left].
  - split; [exact N|]. split; [now apply fle_refl|]. split; [intros v []|now left].
  - destruct (IH (fmin acc x) (fmin_num _ _ N)) as (A & B & C & D). cbv zeta in *.
    split; [|split; [|split]]; auto.
    + eapply fle_trans; [exact B|]. now apply fmin_l.
    + intros v [<- |I] Nv; auto. eapply fle_trans; [exact B|]. now apply fmin_r.
    + destruct D as [D|D]; [|right; now right]. rewrite D. destruct (fmin_or acc x) as [-> | ->]; auto. right. now left.
Qed.

Lemma same_refl x : num x -> same x x.
Proof. intros N. unfold same. apply feq_iff. repeat split; auto. Qed.

(** The least and greatest of a period. *)
Lemma pick_panic {E} better l : forall b, pick (E:=E) better b l = Panic <-> l <> [] /\ exists v, In v (b :: l) /\ is_nan v = true.
Proof.
  induction l as [|x l IH]; intros b; cbn [pick].
  - split; [discriminate|intros [H _]; congruence].
  - destruct (is_nan b) eqn:Nb; cbn [orb].
    { split; auto. intros _. split; [discriminate|]. exists b. split; auto. now left. }
    destruct (is_nan x) eqn:Nx; cbn [orb].
    { split; auto. intros _. split; [discriminate|]. exists x. split; auto. right. now left. }
    rewrite IH. assert (Nc : is_nan (if better b x then x else b) = false) by (destruct (better b x); auto).
    split.
    + intros (_ & v & [<- |I] & Nv); [congruence|]. split; [discriminate|]. exists v. split; auto. right. now right.
    + intros (_ & v & [<- | [<- |I]] & Nv); try congruence. split. { intros ->. destruct I. } exists v. split; auto. now right.
Qed.

Lemma pick_err {E} better l : forall b e, pick (E:=E) better b l <> Err e.
Proof. induction l as [|x l IH]; intros b e; cbn [pick]; [discriminate|]. destruct (is_nan b || is_nan x); [discriminate|]. apply IH. Qed.

Lemma pick_max {E} l : forall b r, pick (E:=E) (fun best v => fle best v) b l = Ok r -> l <> [] ->
  In r (b :: l) /\ forall v, In v (b :: l) -> fle v r = true.
Proof.
  induction l as [|x l IH]; intros b r H Ne; [congruence|]. cbn [pick] in H.
  destruct (is_nan b) eqn:Nb; try discriminate. destruct (is_nan x) eqn:Nx; try discriminate. cbn [orb] in H.
  set (c := if fle b x then x else b) in *.
  assert (Bc : fle b c = true). { unfold c. destruct (fle b x) eqn:L; auto. now apply fle_refl. }
  assert (Xc : fle x c = true). { unfold c. destruct (fle b x) eqn:L. { now apply fle_refl. } now apply flt_le, fle_false. }
  assert (Ic : c = b \/ c = x) by (unfold c; destruct (fle b x); auto).
  destruct l as [|y l].
  - cbn [pick] in H. injection H as <-. split. { destruct Ic as [-> | ->]; cbn; auto. }
    intros v [<- | [<- | []]]; auto.
  - destruct (IH c r H) as (I & G). { discriminate. }
    split. { destruct I as [<- |I]; [|right; now right]. destruct Ic as [-> | ->]; cbn; auto. }
    intros v [<- | [<- |V]].
    + apply fle_trans with c; auto. apply G. now left.
    + apply fle_trans with c; auto. apply G. now left.
    + apply G. now right.
Qed.

Lemma pick_min {E} l : forall b r, pick (E:=E) (fun best v => flt v best) b l = Ok r -> l <> [] ->
  In r (b :: l) /\ forall v, In v (b :: l) -> fle r v = true.
Proof.
  induction l as [|x l IH]; intros b r H Ne; [congruence|]. cbn [pick] in H.
  destruct (is_nan b) eqn:Nb; try discriminate. destruct (is_nan x) eqn:Nx; try discriminate. cbn [orb] in H.
  set (c := if flt x b then x else b) in *.
  assert (Bc : fle c b = true). { unfold c. destruct (flt x b) eqn:L. { now apply flt_le. } now apply fle_refl. }
  assert (Xc : fle c x = true). { unfold c. destruct (flt x b) eqn:L. { now apply fle_refl. } now apply flt_false. }
  assert (Ic : c = b \/ c = x) by (unfold c; destruct (flt x b); auto).
  destruct l as [|y l].
  - cbn [pick] in H. injection H as <-. split. { destruct Ic as [-> | ->]; cbn; auto. }
    intros v [<- | [<- | []]]; auto.
  - destruct (IH c r H) as (I & G). { discriminate. }
    split. { destruct I as [<- |I]; [|right; now right]. destruct Ic as [-> | ->]; cbn; auto. }
    intros v [<- | [<- |V]].
    + apply fle_trans with c; auto. apply G. now left.
    + apply fle_trans with c; auto. apply G. now left.
    + apply G. now right.
Qed.

(** * Tolerance of equality *)
Lemma equal_to x y : fd x -> fd y -> Rabs (val x - val y) <= bpow radix2 1023 ->
  (Rabs (val x - val y) <= val float_eq_tolerance -> apply EqualTo x y = true) /\
  (apply EqualTo x y = true -> Rabs (val x - val y) <= (1 + bpow radix2 (-52)) * val float_eq_tolerance).
Proof.
  intros Fx Fy B. destruct (fsub_val x y Fx Fy B) as (F & V). destruct (fabs_val _ F) as (F' & V').
  rewrite tol_eq. pose proof fd_tol as Ft. unfold apply. rewrite tol_eq.
  destruct (minus_factor x y Fx Fy) as (e & He & R).
  split; intros H.
  - apply fle_val; auto. rewrite V', V. rewrite <- (rnd_fd _ Ft).
    destruct (Rle_or_lt 0 (val x - val y)) as [P|P].
    + rewrite Rabs_pos_eq by (now apply rnd_nonneg). apply rnd_le. now rewrite Rabs_pos_eq in H.
    + rewrite Rabs_left1 by (apply rnd_nonpos; lra). rewrite <- rnd_opp. apply rnd_le. now rewrite Rabs_left in H.
  - apply fle_val in H; auto. rewrite V', V, R, Rabs_mult in H. rewrite tol_val in *.
    apply Rabs_le_inv in He. rewrite u_val in He. change (bpow radix2 (-52)) with (/ 4503599627370496).
    set (r := Rabs (val x - val y)) in *. rewrite (Rabs_pos_eq (1 + e)) in H by lra.
    assert (r0 : 0 <= r) by apply Rabs_pos.
    assert (r * (1 - / 9007199254740992) <= r * (1 + e)) by (apply Rmult_le_compat_l; lra). lra.
Qed.
