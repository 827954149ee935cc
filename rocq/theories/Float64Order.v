(** The order of doubles: comparisons as a lexicographic order of three integers. *)
From Coq Require Import Floats.SpecFloat.
From Verif Require Import Base Float64.
Open Scope Z_scope.

Definition k0 (x : f64) : Z :=
  match x with
  | S754_zero _ | S754_nan => 0
  | S754_infinity s => if s then -2 else 2
  | S754_finite s _ _ => if s then -1 else 1
  end.
Definition k1 (x : f64) : Z :=
  match x with S754_finite s _ e => if s then - e else e | _ => 0 end.
Definition k2 (x : f64) : Z :=
  match x with S754_finite s m _ => if s then - Z.pos m else Z.pos m | _ => 0 end.

Definition num (x : f64) : Prop := is_nan x = false.
Definition klt (x y : f64) : Prop :=
  k0 x < k0 y \/ (k0 x = k0 y /\ (k1 x < k1 y \/ (k1 x = k1 y /\ k2 x < k2 y))).
Definition keq (x y : f64) : Prop := k0 x = k0 y /\ k1 x = k1 y /\ k2 x = k2 y.

Lemma compare_key x y c : num x -> num y -> SFcompare x y = Some c ->
  match c with Lt => klt x y | Eq => keq x y | Gt => klt y x end.
Proof.
  unfold num, klt, keq.
  destruct x as [[]|[]| |[] m e]; destruct y as [[]|[]| |[] m' e']; cbn; intros N1 N2 H;
    try discriminate; try (injection H as <-; cbn; lia).
  - destruct (Z.compare_spec e e').
    + destruct (Pos.compare_cont Eq m m') eqn:P; injection H as <-; cbn;
        change (Pos.compare m m' = Eq) in P || change (Pos.compare m m' = Lt) in P || change (Pos.compare m m' = Gt) in P;
        [apply Pos.compare_eq_iff in P|assert (m < m')%positive by exact P|apply Pos.compare_gt_iff in P]; subst; lia.
    + injection H as <-; cbn; lia.
    + injection H as <-; cbn; lia.
  - destruct (Z.compare_spec e e').
    + destruct (Pos.compare_cont Eq m m') eqn:P; injection H as <-; cbn;
        change (Pos.compare m m' = Eq) in P || change (Pos.compare m m' = Lt) in P || change (Pos.compare m m' = Gt) in P;
        [apply Pos.compare_eq_iff in P|assert (m < m')%positive by exact P|apply Pos.compare_gt_iff in P]; subst; lia.
    + injection H as <-; cbn; lia.
    + injection H as <-; cbn; lia.
Qed.

Lemma compare_some x y : num x -> num y -> exists c, SFcompare x y = Some c.
Proof.
  unfold num.
  destruct x as [[]|[]| |[] m e]; destruct y as [[]|[]| |[] m' e']; cbn; intros N1 N2;
    try discriminate; try (eexists; reflexivity);
    destruct (e ?= e'); eexists; reflexivity.
Qed.

Lemma compare_nan_l y : SFcompare S754_nan y = None.
Proof. destruct y as [[]|[]| |[] m e]; reflexivity. Qed.
Lemma compare_nan_r x : SFcompare x S754_nan = None.
Proof. destruct x as [[]|[]| |[] m e]; reflexivity. Qed.

Lemma compare_num x y c : SFcompare x y = Some c -> num x /\ num y.
Proof.
  intros H; split; unfold num.
  - destruct x; auto. now rewrite compare_nan_l in H.
  - destruct y; auto. now rewrite compare_nan_r in H.
Qed.

Lemma klt_irr x y : klt x y -> klt y x -> False.
Proof. unfold klt; lia. Qed.

Lemma flt_iff x y : flt x y = true <-> num x /\ num y /\ klt x y.
Proof.
  unfold flt, SFltb. split.
  - destruct (SFcompare x y) as [c|] eqn:E; try discriminate.
    destruct c; try discriminate. intros _.
    destruct (compare_num _ _ _ E) as [N1 N2]. pose proof (compare_key _ _ _ N1 N2 E). auto.
  - intros (N1 & N2 & K). destruct (compare_some x y N1 N2) as (c & E). rewrite E.
    pose proof (compare_key _ _ _ N1 N2 E). destruct c; auto; unfold klt, keq in *; lia.
Qed.

Lemma fle_iff x y : fle x y = true <-> num x /\ num y /\ ~ klt y x.
Proof.
  unfold fle, SFleb. split.
  - destruct (SFcompare x y) as [c|] eqn:E; try discriminate.
    destruct (compare_num _ _ _ E) as [N1 N2]. pose proof (compare_key _ _ _ N1 N2 E).
    destruct c; try discriminate; intros _; repeat split; auto; unfold klt, keq in *; lia.
  - intros (N1 & N2 & K). destruct (compare_some x y N1 N2) as (c & E). rewrite E.
    pose proof (compare_key _ _ _ N1 N2 E). destruct c; auto; tauto.
Qed.

Lemma feq_iff x y : feq x y = true <-> num x /\ num y /\ keq x y.
Proof.
  unfold feq, SFeqb. split.
  - destruct (SFcompare x y) as [c|] eqn:E; try discriminate.
    destruct c; try discriminate. intros _.
    destruct (compare_num _ _ _ E) as [N1 N2]. pose proof (compare_key _ _ _ N1 N2 E). auto.
  - intros (N1 & N2 & K). destruct (compare_some x y N1 N2) as (c & E). rewrite E.
    pose proof (compare_key _ _ _ N1 N2 E). destruct c; auto; unfold klt, keq in *; lia.
Qed.

Lemma flt_false x y : flt x y = false -> num x -> num y -> fle y x = true.
Proof.
  intros H N1 N2. apply fle_iff. repeat split; auto. intros K.
  assert (flt x y = true) by (apply flt_iff; auto). congruence.
Qed.

Lemma fle_false x y : fle x y = false -> num x -> num y -> flt y x = true.
Proof.
  intros H N1 N2. apply flt_iff. repeat split; auto.
  destruct (flt y x) eqn:E. { apply flt_iff in E. tauto. }
  exfalso. apply flt_false in E; auto. congruence.
Qed.

Lemma fle_refl x : num x -> fle x x = true.
Proof. intros N. apply fle_iff. repeat split; auto. unfold klt. lia. Qed.

Lemma fle_trans x y z : fle x y = true -> fle y z = true -> fle x z = true.
Proof. rewrite !fle_iff. unfold klt. intuition lia. Qed.

Lemma flt_le x y : flt x y = true -> fle x y = true.
Proof. rewrite flt_iff, fle_iff. unfold klt. intuition lia. Qed.

Lemma fle_lt_false x y : fle x y = true -> flt y x = false.
Proof. intros H. destruct (flt y x) eqn:E; auto. apply flt_iff in E. apply fle_iff in H. tauto. Qed.

Lemma fle_antisym x y : fle x y = true -> fle y x = true -> feq x y = true.
Proof. rewrite !fle_iff, feq_iff. unfold klt, keq. intuition lia. Qed.

Lemma fmax_num x y : num x -> num (fmax x y).
Proof. unfold fmax, num. intros N. rewrite N. destruct (is_nan y) eqn:E; auto. destruct (flt x y); auto. Qed.
Lemma fmin_num x y : num x -> num (fmin x y).
Proof. unfold fmin, num. intros N. rewrite N. destruct (is_nan y) eqn:E; auto. destruct (flt y x); auto. Qed.

Lemma fmax_num_r x y : num y -> num (fmax x y).
Proof. unfold fmax, num. intros N. rewrite N. destruct (is_nan x) eqn:E; auto. destruct (flt x y); auto. Qed.
Lemma fmin_num_r x y : num y -> num (fmin x y).
Proof. unfold fmin, num. intros N. rewrite N. destruct (is_nan x) eqn:E; auto. destruct (flt y x); auto. Qed.

Lemma fmax_l x y : num x -> fle x (fmax x y) = true.
Proof.
  unfold fmax. intros N. unfold num in N. rewrite N. destruct (is_nan y) eqn:E. { now apply fle_refl. }
  destruct (flt x y) eqn:L. { now apply flt_le. } now apply fle_refl.
Qed.
Lemma fmax_r x y : num y -> fle y (fmax x y) = true.
Proof.
  unfold fmax. intros N. unfold num in N. rewrite N. destruct (is_nan x) eqn:E. { now apply fle_refl. }
  destruct (flt x y) eqn:L. { now apply fle_refl. } now apply flt_false.
Qed.
Lemma fmin_l x y : num x -> fle (fmin x y) x = true.
Proof.
  unfold fmin. intros N. unfold num in N. rewrite N. destruct (is_nan y) eqn:E. { now apply fle_refl. }
  destruct (flt y x) eqn:L. { now apply flt_le. } now apply fle_refl.
Qed.
Lemma fmin_r x y : num y -> fle (fmin x y) y = true.
Proof.
  unfold fmin. intros N. unfold num in N. rewrite N. destruct (is_nan x) eqn:E. { now apply fle_refl. }
  destruct (flt y x) eqn:L. { now apply fle_refl. } now apply flt_false.
Qed.
Lemma fmax_or x y : fmax x y = x \/ fmax x y = y.
Proof. unfold fmax. destruct (is_nan x), (is_nan y), (flt x y); auto. Qed.
Lemma fmin_or x y : fmin x y = x \/ fmin x y = y.
Proof. unfold fmin. destruct (is_nan x), (is_nan y), (flt y x); auto. Qed.
