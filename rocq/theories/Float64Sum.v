(** Sums, interpolation, lengths of time-steps and limits in double precision. *)
From Coq Require Import Floats.SpecFloat Reals.
From Flocq Require Import Core IEEE754.BinarySingleNaN Relative Plus_error.
From Verif Require Import Base Float64 Float64Order Float64Spec Float64Real Float64Lemmas.
From Coq Require Import Lra.
Open Scope R_scope.
Opaque storage_tolerance float_eq_tolerance.
#[local] Existing Instance Hprec.
#[local] Existing Instance Hmax.

Lemma u_pos : 0 < u.
Proof. apply bpow_gt_0. Qed.

(** * Sums *)
Lemma sum_step q E S acc x : 1 <= q -> fd acc -> fd x -> Rabs E <= S -> Rabs (val acc - E) <= (q - 1) * S ->
  q * (1 + u) * (S + Rabs (val x)) <= bpow radix2 1023 ->
  fd (fadd acc x) /\ Rabs (E + val x) <= S + Rabs (val x) /\
  Rabs (val (fadd acc x) - (E + val x)) <= (q * (1 + u) - 1) * (S + Rabs (val x)).
Proof.
  intros Q Fa Fx HE HA HB. pose proof u_pos as U. pose proof (Rabs_pos E) as PE. pose proof (Rabs_pos (val x)) as PX.
  assert (T1 : Rabs (E + val x) <= S + Rabs (val x)).
  { eapply Rle_trans; [apply Rabs_triang|]. lra. }
  assert (T2 : Rabs (val acc + val x) <= q * (S + Rabs (val x))).
  { replace (val acc + val x) with ((E + val x) + (val acc - E)) by ring.
    eapply Rle_trans; [apply Rabs_triang|].
    apply Rle_trans with (S + Rabs (val x) + (q - 1) * S); [lra|].
    assert (0 <= (q - 1) * Rabs (val x)) by (apply Rmult_le_pos; lra). lra. }
  assert (T3 : q * (S + Rabs (val x)) <= q * (1 + u) * (S + Rabs (val x))).
  { apply Rmult_le_compat_r; [lra|]. rewrite <- (Rmult_1_r q) at 1. apply Rmult_le_compat_l; lra. }
  destruct (fadd_val acc x Fa Fx) as (F & V); [lra|].
  split; auto. split; auto. rewrite V.
  replace (rnd (val acc + val x) - (E + val x)) with
    ((rnd (val acc + val x) - (val acc + val x)) + (val acc - E)) by ring.
  eapply Rle_trans; [apply Rabs_triang|].
  pose proof (rnd_plus_error acc x Fa Fx) as R.
  apply Rle_trans with (u * (q * (S + Rabs (val x))) + (q - 1) * (S + Rabs (val x))).
  - apply Rplus_le_compat.
    + eapply Rle_trans; [exact R|]. apply Rmult_le_compat_l; lra.
    + eapply Rle_trans; [exact HA|]. apply Rmult_le_compat_l; lra.
  - right. ring.
Qed.

Lemma rsum_cons x l : rsum (x :: l) = x + rsum l.
Proof. reflexivity. Qed.

Lemma rabs_nonneg l : 0 <= rsum (map (fun x => Rabs (val x)) l).
Proof. induction l; cbn [map]; [cbn; lra|]. rewrite rsum_cons. pose proof (Rabs_pos (val a)). lra. Qed.

Lemma sum_close_acc l : forall q E S acc, 1 <= q -> fd acc -> Forall fd l -> Rabs E <= S ->
  Rabs (val acc - E) <= (q - 1) * S ->
  q * (1 + u) ^ length l * (S + rsum (map (fun x => Rabs (val x)) l)) <= bpow radix2 1023 ->
  let r := fold_left fadd l acc in
  fd r /\ Rabs (val r - (E + rsum (map val l))) <=
    (q * (1 + u) ^ length l - 1) * (S + rsum (map (fun x => Rabs (val x)) l)).
Proof.
  pose proof u_pos as U.
  induction l as [|x l IH]; intros q E S acc Q Fa Fl HE HA HB; cbn [fold_left map length pow].
  - cbn [rsum fold_right]. rewrite !Rplus_0_r, Rmult_1_r. auto.
  - inversion Fl as [|x' l' Fx Fl']; subst. cbn [map length pow] in HB. rewrite !rsum_cons in *.
    pose proof (rabs_nonneg l) as PS. pose proof (Rabs_pos (val x)) as PX. pose proof (Rabs_pos E) as PE.
    assert (P1 : 1 <= (1 + u) ^ length l) by (apply pow_R1_Rle; lra).
    assert (Q1 : 1 <= q * (1 + u)).
    { rewrite <- (Rmult_1_r 1). apply Rmult_le_compat; lra. }
    destruct (sum_step q E S acc x) as (F & T1 & T2); auto.
    { eapply Rle_trans; [|exact HB].
      replace (q * ((1 + u) * (1 + u) ^ length l)) with (q * (1 + u) * (1 + u) ^ length l) by ring.
      apply Rmult_le_compat; try lra.
      rewrite <- (Rmult_1_r (q * (1 + u))) at 1. apply Rmult_le_compat_l; lra. }
    specialize (IH (q * (1 + u)) (E + val x) (S + Rabs (val x)) (fadd acc x)).
    destruct IH as (F' & T'); auto.
    { eapply Rle_trans; [|exact HB]. right. ring. }
    split; auto. rewrite <- !Rplus_assoc.
    replace (q * ((1 + u) * (1 + u) ^ length l)) with (q * (1 + u) * (1 + u) ^ length l) by ring. exact T'.
Qed.

Lemma sum_close l : Forall fd l ->
  (1 + u) ^ length l * rsum (map (fun x => Rabs (val x)) l) <= bpow radix2 1023 ->
  fd (fsum l) /\ Rabs (val (fsum l) - rsum (map val l)) <=
    ((1 + u) ^ length l - 1) * rsum (map (fun x => Rabs (val x)) l).
Proof.
  intros F B. pose proof (sum_close_acc l 1 0 0 (S754_zero true)) as H. cbv zeta in H.
  rewrite !Rplus_0_l, !Rmult_1_l in H. apply H; auto; try lra.
  - split; reflexivity || exact I.
  - rewrite Rabs_R0. lra.
  - cbn [val]. rewrite Rminus_0_r, Rabs_R0. lra.
Qed.

(** * Interpolation *)
Lemma factor y r : Rabs (y - r) <= u * Rabs r -> exists e, Rabs e <= u /\ y = r * (1 + e).
Proof.
  intros H. destruct (Req_dec r 0) as [-> |N].
  - exists 0. rewrite Rabs_R0. split. { apply Rlt_le, u_pos. }
    rewrite Rabs_R0, Rmult_0_r, Rminus_0_r in H. pose proof (Rabs_pos y).
    assert (Z : Rabs y = 0) by lra. destruct (Req_dec y 0) as [-> |Y]; [ring|]. apply Rabs_no_R0 in Y. lra.
  - exists ((y - r) / r). split; [|field; auto].
    unfold Rdiv. rewrite Rabs_mult, Rabs_inv.
    apply Rmult_le_reg_r with (Rabs r). { now apply Rabs_pos_lt. }
    rewrite Rmult_assoc, Rinv_l, Rmult_1_r; auto. now apply Rabs_no_R0.
Qed.

Lemma factor' r : exists e t, Rabs e <= u /\ Rabs t <= eta /\ rnd r = r * (1 + e) + t.
Proof.
  destruct (error_N_FLT radix2 (-1074) 53 eq_refl (fun x => negb (Z.even x)) r) as (e & t & He & Ht & _ & H).
  exists e, t. split; [|split]; auto.
  - replace u with (/ 2 * bpow radix2 (-53 + 1)); auto. unfold u. simpl. lra.
  - replace eta with (/ 2 * bpow radix2 (-1074)); auto. unfold eta.
    change (-1075)%Z with (-1 + -1074)%Z. rewrite bpow_plus. reflexivity.
Qed.

Lemma minus_factor x y : fd x -> fd y -> exists e, Rabs e <= u /\ rnd (val x - val y) = (val x - val y) * (1 + e).
Proof.
  intros F G. destruct (fneg_val y G) as (F' & V'). pose proof (rnd_plus_error x (fneg y) F F') as R.
  rewrite V' in R. now apply factor.
Qed.

(** A product of numbers close to one. *)
Lemma near a b x y : 0 <= x -> 0 <= y -> Rabs (a - 1) <= x -> Rabs (b - 1) <= y -> Rabs (a * b - 1) <= x + y + x * y.
Proof.
  intros X Y A B. replace (a * b - 1) with ((a - 1) * (b - 1) + ((a - 1) + (b - 1))) by ring.
  eapply Rle_trans; [apply Rabs_triang|]. rewrite Rabs_mult.
  pose proof (Rabs_triang (a - 1) (b - 1)).
  assert (Rabs (a - 1) * Rabs (b - 1) <= x * y) by (apply Rmult_le_compat; auto; apply Rabs_pos). lra.
Qed.

Lemma near_inv a : Rabs (a - 1) <= u -> Rabs (/ a - 1) <= 2 * u.
Proof.
  intros A. pose proof u_val as U. apply Rabs_le_inv in A. rewrite U in *.
  assert (P : 0 < a) by lra.
  replace (/ a - 1) with ((1 - a) * / a) by (field; lra). rewrite Rabs_mult.
  assert (I : Rabs (/ a) <= 2).
  { rewrite Rabs_pos_eq by (apply Rlt_le, Rinv_0_lt_compat; lra).
    rewrite <- (Rinv_inv 2). apply Rinv_le; lra. }
  rewrite (Rmult_comm 2). apply Rmult_le_compat; auto; try apply Rabs_pos. apply Rabs_le. lra.
Qed.

Lemma one_plus e : Rabs e <= u -> Rabs (1 + e - 1) <= u.
Proof. intros H. replace (1 + e - 1) with e by ring. auto. Qed.

Lemma double_is r : bpow radix2 1 * r = r + r.
Proof. change (bpow radix2 1) with 2. ring. Qed.

Definition big : R := bpow radix2 400.

Lemma tol_eq : float_eq_tolerance = storage_tolerance.
Proof. reflexivity. Qed.

Lemma rabs_mul a b x y : Rabs a <= x -> Rabs b <= y -> Rabs (a * b) <= x * y.
Proof. intros A B. rewrite Rabs_mult. apply Rmult_le_compat; auto; apply Rabs_pos. Qed.

Lemma rabs_rnd r k : (-1074 <= k)%Z -> Rabs r <= bpow radix2 k -> Rabs (rnd r) <= bpow radix2 k.
Proof.
  intros K H. apply abs_round_le_generic; auto with typeclass_instances.
  apply generic_format_FLT_bpow; auto; unfold Prec_gt_0; lia.
Qed.

Section interpolation.
  Variables x lb ub lv uv : f64.
  Hypothesis (Fx : fd x) (Flb : fd lb) (Fub : fd ub) (Flv : fd lv) (Fuv : fd uv).
  Hypothesis (Blb : Rabs (val lb) <= big) (Bub : Rabs (val ub) <= big).
  Hypothesis (Blv : Rabs (val lv) <= big) (Buv : Rabs (val uv) <= big).
  Hypothesis (H1 : val lb < val x) (H2 : val x < val ub).
  Hypothesis Hsep : flt (fabs (fsub lb ub)) float_eq_tolerance = false.

  Lemma sub_big a b : fd a -> fd b -> Rabs (val a) <= big -> Rabs (val b) <= big ->
    fd (fsub a b) /\ val (fsub a b) = rnd (val a - val b) /\ Rabs (val (fsub a b)) <= bpow radix2 401.
  Proof.
    intros Fa Fb A B.
    assert (S : Rabs (val a - val b) <= bpow radix2 401).
    { replace (bpow radix2 401) with (big + big).
      2:{ symmetry. unfold big. exact (eq_trans (bpow_plus radix2 1 400) (double_is _)). }
      apply Rabs_le_inv in A. apply Rabs_le_inv in B. apply Rabs_le. lra. }
    destruct (fsub_val a b Fa Fb) as (F & V). { apply (big_1023 _ 401); auto. lia. }
    split; auto. split; auto. rewrite V. apply rabs_rnd; auto. lia.
  Qed.

  Lemma Bx : Rabs (val x) <= big.
  Proof. apply Rabs_le_inv in Blb. apply Rabs_le_inv in Bub. apply Rabs_le. lra. Qed.

  Lemma sep : val (fsub ub lb) = rnd (val ub - val lb) /\ / 1048576 <= val (fsub ub lb) /\ val storage_tolerance <= val (fsub ub lb).
  Proof.
    destruct (sub_big ub lb) as (F1 & V1 & B1); auto. destruct (sub_big lb ub) as (F2 & V2 & B2); auto.
    destruct (fabs_val _ F2) as (F3 & V3).
    assert (T : val storage_tolerance <= val (fsub ub lb)).
    { rewrite tol_eq in Hsep. pose proof fd_tol as Ft.
      apply flt_false in Hsep; try (now apply fd_num). apply fle_val in Hsep; auto.
      rewrite V3, V2 in Hsep. replace (val lb - val ub) with (- (val ub - val lb)) in Hsep by ring.
      rewrite rnd_opp, Rabs_Ropp, Rabs_pos_eq in Hsep. { now rewrite V1. } apply rnd_nonneg. lra. }
    split; auto. split; auto. rewrite tol_val in T. lra.
  Qed.

  Lemma steps : exists A B C P Q, fd A /\ fd B /\ fd C /\ fd P /\ fd Q /\
    val A = rnd (val uv - val lv) /\ val B = rnd (val x - val lb) /\ val C = rnd (val ub - val lb) /\
    / 1048576 <= val C /\
    val P = rnd (val A * val B) /\ val Q = rnd (val P / val C) /\
    fd (interpolate x lb ub lv uv) /\ val (interpolate x lb ub lv uv) = rnd (val lv + val Q).
  Proof.
    pose proof Bx as BX.
    destruct (sub_big uv lv) as (FA & VA & BA); auto.
    destruct (sub_big x lb) as (FB & VB & BB); auto.
    destruct (sub_big ub lb) as (FC & VC & BC); auto.
    destruct sep as (_ & SC & _).
    assert (BAB : Rabs (val (fsub uv lv) * val (fsub x lb)) <= bpow radix2 802).
    { change 802%Z with (401 + 401)%Z. rewrite bpow_plus. now apply rabs_mul. }
    destruct (fmul_val (fsub uv lv) (fsub x lb) FA FB) as (FP & VP). { apply (big_1023 _ 802); auto. lia. }
    assert (BP : Rabs (val (fmul (fsub uv lv) (fsub x lb))) <= bpow radix2 802).
    { rewrite VP. apply rabs_rnd; auto. lia. }
    assert (BPC : Rabs (val (fmul (fsub uv lv) (fsub x lb)) / val (fsub ub lb)) <= bpow radix2 822).
    { change 822%Z with (802 + 20)%Z. rewrite bpow_plus. unfold Rdiv. apply rabs_mul; auto.
      rewrite Rabs_inv, Rabs_pos_eq by lra. change (bpow radix2 20) with 1048576.
      rewrite <- (Rinv_inv 1048576). apply Rinv_le; lra. }
    destruct (fdiv_val (fmul (fsub uv lv) (fsub x lb)) (fsub ub lb) FP FC) as (FQ & VQ).
    { lra. } { apply (big_1023 _ 822); auto. lia. }
    assert (BQ : Rabs (val (fdiv (fmul (fsub uv lv) (fsub x lb)) (fsub ub lb))) <= bpow radix2 822).
    { rewrite VQ. apply rabs_rnd; auto. lia. }
    destruct (fadd_val lv (fdiv (fmul (fsub uv lv) (fsub x lb)) (fsub ub lb)) Flv FQ) as (FR & VR).
    { apply (big_1023 _ 823). { lia. } change 823%Z with (1 + 822)%Z. rewrite bpow_plus, double_is.
      eapply Rle_trans; [apply Rabs_triang|].
      assert (big <= bpow radix2 822) by (apply bpow_le; lia). lra. }
    exists (fsub uv lv), (fsub x lb), (fsub ub lb), (fmul (fsub uv lv) (fsub x lb)),
      (fdiv (fmul (fsub uv lv) (fsub x lb)) (fsub ub lb)).
    repeat (split; [assumption|]).
    unfold interpolate.
    replace (fle x lb) with false. 2:{ symmetry. destruct (fle x lb) eqn:E; auto. apply fle_val in E; auto. lra. }
    replace (fle ub x) with false. 2:{ symmetry. destruct (fle ub x) eqn:E; auto. apply fle_val in E; auto. lra. }
    rewrite Hsep. auto.
  Qed.

  Lemma interpolate_close :
    Rabs (val (interpolate x lb ub lv uv) -
          (val lv + (val uv - val lv) * (val x - val lb) / (val ub - val lb)))
    <= bpow radix2 (-50) * (Rabs (val lv) + Rabs (val uv)) + bpow radix2 (-1000).
  Proof.
    destruct steps as (A & B & C & P & Q & FA & FB & FC & FP & FQ & VA & VB & VC & HC & VP & VQ & FR & VR).
    pose proof u_pos as Up. pose proof u_val as Uv.
    destruct (minus_factor uv lv Fuv Flv) as (e1 & E1 & R1).
    destruct (minus_factor x lb Fx Flb) as (e2 & E2 & R2).
    destruct (minus_factor ub lb Fub Flb) as (e3 & E3 & R3).
    destruct (factor' (val A * val B)) as (e4 & t4 & E4 & T4 & R4).
    destruct (factor' (val P / val C)) as (e5 & t5 & E5 & T5 & R5).
    pose proof (rnd_plus_error lv Q Flv FQ) as R6.
    set (X := (val uv - val lv) * (val x - val lb) / (val ub - val lb)).
    set (K := (1 + e1) * (1 + e2) * (1 + e4) * (1 + e5) * / (1 + e3)).
    assert (E3' : -u <= e3 <= u) by (now apply Rabs_le_inv). assert (E5' : -u <= e5 <= u) by (now apply Rabs_le_inv).
    assert (N3 : 0 < 1 + e3) by (rewrite Uv in E3'; lra).
    set (T := t4 / val C * (1 + e5) + t5).
    assert (HQ : val Q = X * K + T).
    { rewrite VQ, R5, VP, R4, VA, R1, VB, R2. unfold X, K, T.
      rewrite VC, R3. field. split; lra. }
    assert (HT : Rabs T <= bpow radix2 (-1020)).
    { unfold T. eapply Rle_trans; [apply Rabs_triang|].
      apply Rle_trans with (eta * 1048576 * 2 + eta).
      - apply Rplus_le_compat; auto. apply rabs_mul.
        + unfold Rdiv. apply rabs_mul; auto. rewrite Rabs_inv, Rabs_pos_eq by lra.
          rewrite <- (Rinv_inv 1048576). apply Rinv_le; lra.
        + apply Rabs_le. rewrite Uv in *. lra.
      - unfold eta. change (-1020)%Z with (55 + -1075)%Z. rewrite bpow_plus. change (bpow radix2 55) with 36028797018963968.
        pose proof (bpow_gt_0 radix2 (-1075)). lra. }
    assert (HK : Rabs (K - 1) <= 6 * u + 40 * (u * u)).
    { unfold K.
      assert (U0 : 0 <= u) by lra. assert (U1 : u <= / 9007199254740992) by lra.
      assert (UU : 0 <= u * u) by (apply Rmult_le_pos; lra).
      assert (UUU : u * u * u <= u * u * / 9007199254740992) by (apply Rmult_le_compat_l; lra).
      assert (UU0 : 0 <= u * u * u) by (apply Rmult_le_pos; lra).
      pose proof (near _ _ u u U0 U0 (one_plus _ E1) (one_plus _ E2)) as N1.
      assert (N1' : Rabs ((1 + e1) * (1 + e2) - 1) <= 2 * u + u * u) by lra.
      assert (Z1 : 0 <= 2 * u + u * u) by lra.
      pose proof (near _ _ (2 * u + u * u) u Z1 U0 N1' (one_plus _ E4)) as N2.
      assert (N2' : Rabs ((1 + e1) * (1 + e2) * (1 + e4) - 1) <= 3 * u + 4 * (u * u)) by lra.
      assert (Z2 : 0 <= 3 * u + 4 * (u * u)) by lra.
      pose proof (near _ _ (3 * u + 4 * (u * u)) u Z2 U0 N2' (one_plus _ E5)) as N3'.
      assert (N4 : Rabs ((1 + e1) * (1 + e2) * (1 + e4) * (1 + e5) - 1) <= 4 * u + 8 * (u * u)) by lra.
      assert (Z3 : 0 <= 4 * u + 8 * (u * u)) by lra. assert (Z4 : 0 <= 2 * u) by lra.
      pose proof (near _ _ (4 * u + 8 * (u * u)) (2 * u) Z3 Z4 N4 (near_inv _ (one_plus _ E3))) as N5.
      lra. }
    assert (HK' : Rabs (K - 1) <= 61 / 10 * u).
    { assert (u * u <= u * / 9007199254740992) by (apply Rmult_le_compat_l; lra). lra. }
    assert (rr : 0 <= (val x - val lb) / (val ub - val lb) <= 1).
    { split. { apply Rmult_le_pos; [lra|]. apply Rlt_le, Rinv_0_lt_compat. lra. }
      apply Rmult_le_reg_r with (val ub - val lb); [lra|]. unfold Rdiv. rewrite Rmult_assoc, Rinv_l by lra. lra. }
    assert (HX : X = (val uv - val lv) * ((val x - val lb) / (val ub - val lb))) by (unfold X; field; lra).
    assert (M1 : Rabs X <= Rabs (val lv) + Rabs (val uv)).
    { rewrite HX. apply Rle_trans with ((Rabs (val lv) + Rabs (val uv)) * 1); [|lra].
      apply rabs_mul. { pose proof (Rabs_triang (val uv) (- val lv)). rewrite Rabs_Ropp in H. unfold Rminus. lra. }
      rewrite Rabs_pos_eq; lra. }
    set (S := Rabs (val lv) + Rabs (val uv)) in *.
    assert (S0 : 0 <= S) by (unfold S; pose proof (Rabs_pos (val lv)); pose proof (Rabs_pos (val uv)); lra).
    assert (M2 : Rabs (val lv) <= S) by (unfold S; pose proof (Rabs_pos (val uv)); lra).
    assert (HQX : Rabs (val Q - X) <= 61 / 10 * u * S + bpow radix2 (-1020)).
    { rewrite HQ. replace (X * K + T - X) with ((K - 1) * X + T) by ring.
      eapply Rle_trans; [apply Rabs_triang|]. apply Rplus_le_compat; auto. now apply rabs_mul. }
    assert (M3 : Rabs (val lv + X) <= S).
    { set (r := (val x - val lb) / (val ub - val lb)) in *. rewrite HX.
      replace (val lv + (val uv - val lv) * r) with (val lv * (1 - r) + val uv * r) by ring.
      eapply Rle_trans; [apply Rabs_triang|]. unfold S. apply Rplus_le_compat.
      - apply Rle_trans with (Rabs (val lv) * 1); [|lra]. apply rabs_mul; [lra|]. rewrite Rabs_pos_eq; lra.
      - apply Rle_trans with (Rabs (val uv) * 1); [|lra]. apply rabs_mul; [lra|]. rewrite Rabs_pos_eq; lra. }
    rewrite VR.
    replace (rnd (val lv + val Q) - (val lv + X)) with
      ((rnd (val lv + val Q) - (val lv + val Q)) + (val Q - X)) by ring.
    eapply Rle_trans; [apply Rabs_triang|].
    assert (M4 : Rabs (val lv + val Q) <= S + (61 / 10 * u * S + bpow radix2 (-1020))).
    { replace (val lv + val Q) with ((val lv + X) + (val Q - X)) by ring.
      eapply Rle_trans; [apply Rabs_triang|]. lra. }
    assert (M5 : u * Rabs (val lv + val Q) <= u * (S + (61 / 10 * u * S + bpow radix2 (-1020)))).
    { apply Rmult_le_compat_l; lra. }
    assert (B8 : bpow radix2 (-50) = 8 * u) by (unfold u; simpl; lra). rewrite B8.
    assert (B20 : bpow radix2 (-1000) = 1048576 * bpow radix2 (-1020)).
    { change (-1000)%Z with (20 + -1020)%Z. rewrite bpow_plus. reflexivity. }
    rewrite B20. pose proof (bpow_gt_0 radix2 (-1020)) as B0.
    assert (US : 0 <= u * S) by (apply Rmult_le_pos; lra).
    assert (UUS : u * (61 / 10 * u * S) <= / 10 * (u * S)).
    { replace (u * (61 / 10 * u * S)) with (61 / 10 * u * (u * S)) by ring. apply Rmult_le_compat_r; auto. rewrite Uv. lra. }
    assert (UB : u * bpow radix2 (-1020) <= bpow radix2 (-1020)).
    { rewrite <- (Rmult_1_l (bpow radix2 (-1020))) at 2. apply Rmult_le_compat_r; [lra|]. rewrite Uv. lra. }
    lra.
  Qed.
End interpolation.
