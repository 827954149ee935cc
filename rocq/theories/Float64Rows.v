(** How close the limits of the storages, the initial volumes and the sums and
    products of whole numbers are to the exact ones. *)
From Coq Require Import Floats.SpecFloat Reals.
From Flocq Require Import Core.
From Verif Require Import Base Float64 Float64Order Float64Spec Float64Real Float64Lemmas Float64Error Float64Sum Float64More.
From Coq Require Import Lra.
Open Scope list_scope.
Open Scope R_scope.
Opaque storage_tolerance float_eq_tolerance.

Lemma u_small : 0 < u <= bpow radix2 (-53).
Proof. split; [apply u_pos|]. unfold u. lra. Qed.

Lemma bpow_two k l : bpow radix2 k * bpow radix2 l = bpow radix2 (k + l).
Proof. now rewrite bpow_plus. Qed.

(** A quotient of a number with one relative error. *)
Lemma quotient_close n d r e : fd n -> fd d -> val n = r * (1 + e) -> Rabs e <= u ->
  Rabs r <= bpow radix2 500 -> bpow radix2 (-400) <= val d ->
  fd (fdiv n d) /\ Rabs (val (fdiv n d) - r / val d) <= bpow radix2 (-51) * Rabs (r / val d) + bpow radix2 (-1000).
Proof.
  intros Fn Fd Vn He Hr Hd. pose proof u_val as U.
  assert (D : 0 < val d) by (pose proof (bpow_gt_0 radix2 (-400)); lra).
  assert (HQ : Rabs (r / val d) <= bpow radix2 900).
  { unfold Rdiv. rewrite Rabs_mult. replace (bpow radix2 900) with (bpow radix2 500 * bpow radix2 400) by (rewrite bpow_two; f_equal; lia).
    apply Rmult_le_compat; auto; try apply Rabs_pos.
    rewrite Rabs_pos_eq by (left; now apply Rinv_0_lt_compat).
    replace (bpow radix2 400) with (/ bpow radix2 (-400)) by (rewrite <- bpow_opp; f_equal; lia).
    apply Rinv_le; auto. apply bpow_gt_0. }
  assert (E1 : val n / val d = r / val d * (1 + e)) by (rewrite Vn; field; lra).
  assert (HB : Rabs (val n / val d) <= bpow radix2 1023).
  { rewrite E1, Rabs_mult. replace (bpow radix2 1023) with (bpow radix2 900 * bpow radix2 123) by (rewrite bpow_two; f_equal; lia).
    apply Rmult_le_compat; auto; try apply Rabs_pos.
    apply Rle_trans with 2.
    - apply Rabs_le. apply Rabs_le_inv in He. rewrite U in He. lra.
    - apply (bpow_le radix2 1 123). lia. }
  destruct (fdiv_val n d Fn Fd ltac:(lra) HB) as (F & V). split; auto.
  rewrite V, E1. set (q := r / val d) in *.
  destruct (factor' (q * (1 + e))) as (f & t & Hf & Ht & ->).
  replace (q * (1 + e) * (1 + f) + t - q) with (q * ((1 + e) * (1 + f) - 1) + t) by ring.
  eapply Rle_trans; [apply Rabs_triang|]. rewrite Rabs_mult.
  apply Rplus_le_compat.
  - rewrite (Rmult_comm (bpow radix2 (-51))). apply Rmult_le_compat_l; [apply Rabs_pos|].
    eapply Rle_trans.
    { apply (near (1 + e) (1 + f) u u); try (left; apply u_pos); now apply one_plus. }
    replace (bpow radix2 (-51)) with (4 * u). { rewrite U. lra. }
    unfold u. change 4 with (bpow radix2 2). rewrite bpow_two. reflexivity.
  - eapply Rle_trans; [exact Ht|]. unfold eta. apply bpow_le. lia.
Qed.

(** Bounded numbers. *)
Definition small (x : f64) : Prop := fd x /\ Rabs (val x) <= big.

Lemma small_sub x y : small x -> small y ->
  Rabs (val x - val y) <= bpow radix2 401 /\ fd (fsub x y) /\
  exists e, Rabs e <= u /\ val (fsub x y) = (val x - val y) * (1 + e).
Proof.
  intros [Fx Bx] [Fy By].
  assert (B : Rabs (val x - val y) <= bpow radix2 401).
  { unfold Rminus. eapply Rle_trans; [apply Rabs_triang|]. rewrite Rabs_Ropp.
    replace (bpow radix2 401) with (bpow radix2 1 * big) by (unfold big; rewrite bpow_two; reflexivity).
    rewrite double_is. lra. }
  split; auto. destruct (fsub_val x y Fx Fy) as (F & V).
  { eapply Rle_trans; [exact B|]. apply bpow_le. lia. }
  split; auto. rewrite V. now apply minus_factor.
Qed.

Lemma fmax_val x y : fd x -> fd y -> fd (fmax x y) /\ val (fmax x y) = Rmax (val x) (val y).
Proof.
  intros Fx Fy. unfold fmax. pose proof (fd_num x Fx) as Nx. pose proof (fd_num y Fy) as Ny. unfold num in *. rewrite Nx, Ny.
  destruct (flt x y) eqn:L.
  - apply (flt_val x y Fx Fy) in L. split; auto. rewrite Rmax_right; lra.
  - assert (~ val x < val y) by (rewrite <- (flt_val x y Fx Fy), L; discriminate). split; auto. rewrite Rmax_left; lra.
Qed.

Lemma fmin_val x y : fd x -> fd y -> fd (fmin x y) /\ val (fmin x y) = Rmin (val x) (val y).
Proof.
  intros Fx Fy. unfold fmin. pose proof (fd_num x Fx) as Nx. pose proof (fd_num y Fy) as Ny. unfold num in *. rewrite Nx, Ny.
  destruct (flt y x) eqn:L.
  - apply (flt_val y x Fy Fx) in L. split; auto. rewrite Rmin_right; lra.
  - assert (~ val y < val x) by (rewrite <- (flt_val y x Fy Fx), L; discriminate). split; auto. rewrite Rmin_left; lra.
Qed.

(** The limits on the flows of storages and virtual storages. *)
Definition close (x : f64) (r : R) : Prop :=
  fd x /\ Rabs (val x - r) <= bpow radix2 (-51) * Rabs r + bpow radix2 (-1000).

Lemma le_500 r : Rabs r <= bpow radix2 401 -> Rabs r <= bpow radix2 500.
Proof. intros H. eapply Rle_trans; [exact H|]. apply bpow_le. lia. Qed.

Lemma storage_row_close v m M d : small v -> small m -> small M -> fd d -> bpow radix2 (-400) <= val d ->
  let '(lower, upper) := storage_row v m M d in
  close lower (- (val v - val m) / val d) /\ close upper ((val M - val v) / val d).
Proof.
  intros Sv Sm SM Fd Hd. unfold storage_row.
  destruct (small_sub v m Sv Sm) as (B1 & F1 & e1 & E1 & V1). destruct (small_sub M v SM Sv) as (B2 & F2 & e2 & E2 & V2).
  destruct (fneg_val _ F1) as (F1' & V1').
  split.
  - apply (quotient_close _ d (- (val v - val m)) e1); auto.
    + rewrite V1', V1. ring.
    + rewrite Rabs_Ropp. now apply le_500.
  - apply (quotient_close _ d (val M - val v) e2); auto. now apply le_500.
Qed.

Lemma rmax_factor r e : Rabs e <= u -> Rmax (r * (1 + e)) 0 = Rmax r 0 * (1 + e).
Proof.
  intros H. pose proof u_val as U. apply Rabs_le_inv in H. rewrite U in H.
  destruct (Rle_or_lt 0 r) as [P|N].
  - rewrite (Rmax_left r 0) by lra. apply Rmax_left. apply Rmult_le_pos; lra.
  - rewrite (Rmax_right r 0) by lra. rewrite Rmax_right; [ring|].
    rewrite <- (Rmult_0_l (1 + e)). apply Rmult_le_compat_r; lra.
Qed.

Lemma rmax_abs r b : Rabs r <= b -> Rabs (Rmax r 0) <= b.
Proof. intros H. unfold Rmax. destruct (Rle_dec r 0); auto. rewrite Rabs_R0. pose proof (Rabs_pos r). lra. Qed.

Lemma virtual_row_close v m M d : small v -> small m -> small M -> fd d -> bpow radix2 (-400) <= val d ->
  let '(lower, upper) := virtual_storage_row v m M d in
  close lower (- Rmax (val v - val m) 0 / val d) /\ close upper (Rmax (val M - val v) 0 / val d).
Proof.
  intros Sv Sm SM Fd Hd. unfold virtual_storage_row.
  destruct (small_sub v m Sv Sm) as (B1 & F1 & e1 & E1 & V1). destruct (small_sub M v SM Sv) as (B2 & F2 & e2 & E2 & V2).
  destruct (fmax_val _ zero F1 fd_zero) as (G1 & W1). destruct (fmax_val _ zero F2 fd_zero) as (G2 & W2).
  rewrite val_zero, V1, rmax_factor in W1 by auto. rewrite val_zero, V2, rmax_factor in W2 by auto.
  destruct (fneg_val _ G1) as (G1' & W1').
  split.
  - apply (quotient_close _ d (- Rmax (val v - val m) 0) e1); auto.
    + rewrite W1', W1. ring.
    + rewrite Rabs_Ropp. now apply le_500, rmax_abs.
  - apply (quotient_close _ d (Rmax (val M - val v) 0) e2); auto. now apply le_500, rmax_abs.
Qed.

(** The initial volumes: cutting off does not make an error larger. *)
Lemma cut_close x y M : Rabs (Rmin (Rmax x 0) M - Rmin (Rmax y 0) M) <= Rabs (x - y).
Proof.
  unfold Rmin, Rmax. destruct (Rle_dec x 0), (Rle_dec y 0);
    repeat match goal with |- context [Rle_dec ?a ?b] => destruct (Rle_dec a b) end;
    unfold Rabs; repeat match goal with |- context [Rcase_abs ?a] => destruct (Rcase_abs a) end; lra.
Qed.

Lemma distributed_absolute_close a p M : small a -> small p -> fd M ->
  fd (distributed_absolute a p M) /\
  Rabs (val (distributed_absolute a p M) - Rmin (Rmax (val a - val p) 0) (val M)) <= u * Rabs (val a - val p).
Proof.
  intros Sa Sp FM. unfold distributed_absolute. destruct (small_sub a p Sa Sp) as (_ & F & e & E & V).
  destruct (fmax_val _ zero F fd_zero) as (G & W). destruct (fmin_val _ M G FM) as (K & X). split; auto.
  rewrite X, W, val_zero, V. eapply Rle_trans; [apply cut_close|].
  replace ((val a - val p) * (1 + e) - (val a - val p)) with (e * (val a - val p)) by ring.
  rewrite Rabs_mult. apply Rmult_le_compat_r; auto. apply Rabs_pos.
Qed.

Lemma distributed_proportional_close t q p M : small t -> fd q -> Rabs (val q) <= 1 -> small p -> fd M ->
  fd (distributed_proportional t q p M) /\
  Rabs (val (distributed_proportional t q p M) - Rmin (Rmax (val t * val q - val p) 0) (val M))
  <= bpow radix2 (-51) * (Rabs (val t * val q) + Rabs (val p)) + bpow radix2 (-1000).
Proof.
  intros [Ft Bt] Fq Bq Sp FM. unfold distributed_proportional.
  assert (HB : Rabs (val t * val q) <= big).
  { replace big with (big * 1) by ring. now apply rabs_mul. }
  destruct (fmul_val t q Ft Fq) as (F & V).
  { eapply Rle_trans; [exact HB|]. apply bpow_le. lia. }
  assert (S : small (fmul t q)).
  { split; auto. rewrite V. apply rabs_rnd; auto. lia. }
  destruct (distributed_absolute_close _ p M S Sp FM) as (G & C). split; auto.
  set (x := val t * val q) in *. set (y := val (fmul t q)) in *.
  pose proof (cut_close (y - val p) (x - val p) (val M)) as K.
  assert (E : Rabs (y - x) <= u * Rabs x + eta) by (rewrite V; apply rnd_error).
  replace (y - val p - (x - val p)) with (y - x) in K by ring.
  assert (Y : Rabs (y - val p) <= Rabs x + Rabs (val p) + (u * Rabs x + eta)).
  { replace (y - val p) with (x + - val p + (y - x)) by ring. eapply Rle_trans; [apply Rabs_triang|].
    apply Rplus_le_compat; auto. eapply Rle_trans; [apply Rabs_triang|]. rewrite Rabs_Ropp. lra. }
  set (c := Rmin (Rmax (x - val p) 0) (val M)) in *. set (b := Rmin (Rmax (y - val p) 0) (val M)) in *.
  replace (val (distributed_absolute (fmul t q) p M) - c) with ((val (distributed_absolute (fmul t q) p M) - b) + (b - c)) by ring.
  eapply Rle_trans; [apply Rabs_triang|].
  assert (U : 0 < u) by apply u_pos. assert (U1 : u <= 1) by (rewrite u_val; lra).
  assert (N : 0 <= eta) by apply bpow_ge_0.
  assert (E4 : bpow radix2 (-51) = 4 * u) by (unfold u; change 4 with (bpow radix2 2); rewrite bpow_two; reflexivity).
  assert (E5 : 2 * eta <= bpow radix2 (-1000)).
  { unfold eta. change 2 with (bpow radix2 1). rewrite bpow_two. apply bpow_le. lia. }
  rewrite E4. pose proof (Rabs_pos x) as PX. pose proof (Rabs_pos (val p)) as PP.
  assert (C' : u * Rabs (y - val p) <= u * (Rabs x + Rabs (val p) + (u * Rabs x + eta))) by (apply Rmult_le_compat_l; lra).
  assert (UX : u * (u * Rabs x) <= u * Rabs x).
  { rewrite <- (Rmult_1_l (u * Rabs x)) at 2. apply Rmult_le_compat_r; auto. apply Rmult_le_pos; lra. }
  assert (UE : u * eta <= eta). { rewrite <- (Rmult_1_l eta) at 2. apply Rmult_le_compat_r; auto. }
  assert (UP : 0 <= u * Rabs (val p)) by (apply Rmult_le_pos; lra).
  assert (UX0 : 0 <= u * Rabs x) by (apply Rmult_le_pos; lra).
  lra.
Qed.

(** Whole numbers. *)

Lemma rnd_int z : (Z.abs z <= 2 ^ 53)%Z -> rnd (IZR z) = IZR z.
Proof. intros H. destruct (of_int_val z H) as (F & V). rewrite <- V. now apply rnd_fd. Qed.

Lemma whole_fd x z : whole x z -> fd x.
Proof. intros (D & F & _). now split. Qed.

Lemma int_range z : (Z.abs z <= 2 ^ 53)%Z -> Rabs (IZR z) <= bpow radix2 1023.
Proof.
  intros H. rewrite <- abs_IZR. apply Rle_trans with (IZR (2 ^ 53)); [now apply IZR_le|].
  change (IZR (2 ^ 53)) with (bpow radix2 53). apply bpow_le. lia.
Qed.

Lemma whole_add x y a b : whole x a -> whole y b -> (Z.abs (a + b) <= 2 ^ 53)%Z -> whole (fadd x y) (a + b).
Proof.
  intros X Y H. destruct (fadd_val x y (whole_fd _ _ X) (whole_fd _ _ Y)) as ((D & F) & V).
  - destruct X as (_ & _ & ->), Y as (_ & _ & ->). rewrite <- plus_IZR. now apply int_range.
  - split; [|split]; auto. rewrite V. destruct X as (_ & _ & ->), Y as (_ & _ & ->). rewrite <- plus_IZR. now apply rnd_int.
Qed.
Lemma whole_sub x y a b : whole x a -> whole y b -> (Z.abs (a - b) <= 2 ^ 53)%Z -> whole (fsub x y) (a - b).
Proof.
  intros X Y H. destruct (fsub_val x y (whole_fd _ _ X) (whole_fd _ _ Y)) as ((D & F) & V).
  - destruct X as (_ & _ & ->), Y as (_ & _ & ->). rewrite <- minus_IZR. now apply int_range.
  - split; [|split]; auto. rewrite V. destruct X as (_ & _ & ->), Y as (_ & _ & ->). rewrite <- minus_IZR. now apply rnd_int.
Qed.
Lemma whole_mul x y a b : whole x a -> whole y b -> (Z.abs (a * b) <= 2 ^ 53)%Z -> whole (fmul x y) (a * b).
Proof.
  intros X Y H. destruct (fmul_val x y (whole_fd _ _ X) (whole_fd _ _ Y)) as ((D & F) & V).
  - destruct X as (_ & _ & ->), Y as (_ & _ & ->). rewrite <- mult_IZR. now apply int_range.
  - split; [|split]; auto. rewrite V. destruct X as (_ & _ & ->), Y as (_ & _ & ->). rewrite <- mult_IZR. now apply rnd_int.
Qed.


Lemma zsum_abs l : (Z.abs (zsum l) <= zsum (map Z.abs l) /\ 0 <= zsum (map Z.abs l))%Z.
Proof. induction l as [|z l IH]; [cbn; lia|]. unfold zsum in *. cbn [fold_right map]. lia. Qed.

Lemma whole_sum xs zs : Forall2 whole xs zs -> forall acc a, whole acc a ->
  (Z.abs a + zsum (map Z.abs zs) <= 2 ^ 53)%Z -> whole (fold_left fadd xs acc) (a + zsum zs).
Proof.
  induction 1 as [|x z xs zs W _ IH]; intros acc a A H; cbn [fold_left zsum fold_right].
  - now rewrite Z.add_0_r.
  - fold (zsum zs). cbn [map zsum fold_right] in H. fold (zsum (map Z.abs zs)) in H. rewrite Z.add_assoc.
    pose proof (zsum_abs zs). apply IH; [|lia]. apply whole_add; auto. lia.
Qed.

Lemma zproduct_pos l : (1 <= zproduct (map (fun z => Z.max 1 (Z.abs z)) l))%Z.
Proof. induction l as [|z l IH]; cbn [zproduct fold_right map]; [lia|]. fold (zproduct (map (fun z => Z.max 1 (Z.abs z)) l)). nia. Qed.

Lemma whole_product xs zs : Forall2 whole xs zs -> forall acc a, whole acc a ->
  (Z.max 1 (Z.abs a) * zproduct (map (fun z => Z.max 1 (Z.abs z)) zs) <= 2 ^ 53)%Z -> whole (fold_left fmul xs acc) (a * zproduct zs).
Proof.
  induction 1 as [|x z xs zs W _ IH]; intros acc a A H; cbn [fold_left zproduct fold_right].
  - now rewrite Z.mul_1_r.
  - fold (zproduct zs). cbn [map zproduct fold_right] in H. fold (zproduct (map (fun z => Z.max 1 (Z.abs z)) zs)) in H.
    rewrite Z.mul_assoc. pose proof (zproduct_pos zs) as P. set (p := zproduct (map (fun z => Z.max 1 (Z.abs z)) zs)) in *.
    assert (B : (Z.max 1 (Z.abs (a * z)) <= Z.max 1 (Z.abs a) * Z.max 1 (Z.abs z))%Z) by (rewrite Z.abs_mul; nia).
    apply IH.
    + apply whole_mul; auto. set (k := (Z.max 1 (Z.abs a) * Z.max 1 (Z.abs z))%Z) in *.
      assert (k * p <= 2 ^ 53)%Z by (unfold k; lia). nia.
    + set (k := (Z.max 1 (Z.abs a) * Z.max 1 (Z.abs z))%Z) in *. assert (k * p <= 2 ^ 53)%Z by (unfold k; lia). nia.
Qed.

Lemma whole_zero s : whole (S754_zero s) 0.
Proof. split; [reflexivity|split]; [exact I|reflexivity]. Qed.
Lemma whole_int z : (Z.abs z <= 2 ^ 53)%Z -> whole (of_int z) z.
Proof. intros H. destruct (of_int_val z H) as ((D & F) & V). now split. Qed.

(** NaN. *)
Lemma add_nan_l x : fadd S754_nan x = S754_nan. Proof. now destruct x. Qed.
Lemma add_nan_r x : fadd x S754_nan = S754_nan. Proof. now destruct x. Qed.
Lemma mul_nan_l x : fmul S754_nan x = S754_nan. Proof. now destruct x. Qed.
Lemma mul_nan_r x : fmul x S754_nan = S754_nan. Proof. now destruct x. Qed.
Lemma fold_nan (op : f64 -> f64 -> f64) : (forall x, op S754_nan x = S754_nan) -> (forall x, op x S754_nan = S754_nan) ->
  forall l acc, acc = S754_nan \/ In S754_nan l -> fold_left op l acc = S754_nan.
Proof.
  intros L R. induction l as [|x l IH]; intros acc H; cbn [fold_left].
  - destruct H as [-> |[]]; auto.
  - apply IH. destruct H as [-> |[-> |H]]; auto.
Qed.

(** * Means *)
Lemma mean_close l : l <> [] -> (Z.of_nat (length l) <= 2 ^ 53)%Z -> Forall fd l ->
  (1 + u) ^ length l * rsum (map (fun x => Rabs (val x)) l) <= bpow radix2 1023 ->
  fd (calc_iter Mean l) /\
  Rabs (val (calc_iter Mean l) - rsum (map val l) / INR (length l)) <=
    ((1 + u) ^ S (length l) - 1) * rsum (map (fun x => Rabs (val x)) l) / INR (length l) + eta.
Proof.
  intros N L F B. destruct (sum_close l F B) as (FS & CS).
  set (A := rsum (map (fun x => Rabs (val x)) l)) in *. set (g := (1 + u) ^ length l) in *.
  set (E := rsum (map val l)) in *. set (s := fsum l) in *.
  assert (EA : Rabs E <= A).
  { unfold E, A. clear. induction l as [|x l IH]; cbn [map].
    - cbn. rewrite Rabs_R0. lra.
    - rewrite !rsum_cons. eapply Rle_trans; [apply Rabs_triang|]. lra. }
  assert (G : 1 <= g) by (unfold g; apply pow_R1_Rle; pose proof u_pos; lra).
  assert (A0 : 0 <= A) by apply rabs_nonneg.
  assert (n1 : 1 <= INR (length l)).
  { destruct l as [|x l0]; [congruence|]. cbn [length]. rewrite S_INR. pose proof (pos_INR (length l0)). lra. }
  destruct (of_int_val (Z.of_nat (length l))) as (Fn & Vn); [lia|]. rewrite <- INR_IZR_INZ in Vn.
  assert (SB : Rabs (val s) <= g * A).
  { replace (val s) with (val s - E + E) by ring. eapply Rle_trans; [apply Rabs_triang|]. lra. }
  set (n := INR (length l)) in *.
  assert (I0 : 0 < / n <= 1) by (split; [apply Rinv_0_lt_compat; lra|rewrite <- Rinv_1; apply Rinv_le; lra]).
  assert (QB : Rabs (val s / n) <= bpow radix2 1023).
  { unfold Rdiv. rewrite Rabs_mult, (Rabs_pos_eq (/ n)) by lra. pose proof (Rabs_pos (val s)).
    apply Rle_trans with (Rabs (val s) * 1); [apply Rmult_le_compat_l; lra|lra]. }
  assert (C : calc_iter Mean l = fdiv s (of_int (Z.of_nat (length l)))) by (destruct l; [congruence|reflexivity]).
  destruct (fdiv_val s (of_int (Z.of_nat (length l))) FS Fn) as (Fq & Vq); [rewrite Vn; lra|rewrite Vn; exact QB|].
  rewrite C. split; [exact Fq|]. rewrite Vq, Vn.
  destruct (factor' (val s / n)) as (e & t & He & Ht & ->).
  replace (val s / n * (1 + e) + t - E / n) with (((val s - E) + val s * e) * / n + t) by (field; lra).
  eapply Rle_trans; [apply Rabs_triang|]. apply Rplus_le_compat; [|exact Ht].
  rewrite Rabs_mult, (Rabs_pos_eq (/ n)) by lra. unfold Rdiv at 1.
  apply Rmult_le_compat_r; [lra|].
  eapply Rle_trans; [apply Rabs_triang|]. rewrite Rabs_mult. cbn [pow]. fold g.
  replace (((1 + u) * g - 1) * A) with ((g - 1) * A + g * A * u) by ring.
  apply Rplus_le_compat; [exact CS|]. apply Rmult_le_compat; auto using Rabs_pos.
Qed.
