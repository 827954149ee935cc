(** Sums and triangular systems over the real numbers. *)
From Coq Require Import Reals Lra Sorted.
From Verif Require Import Base IpmCholesky IpmSpec.
Local Open Scope list_scope.
Local Open Scope R_scope.

Lemma rsum_ext n f g : (forall k, (k < n)%nat -> f k = g k) -> rsum n f = rsum n g.
Proof. induction n as [|n IH]; intros H; cbn [rsum]; [reflexivity|]. rewrite IH, (H n); [reflexivity | lia | intros; apply H; lia]. Qed.
Lemma rsum_0 n f : (forall k, (k < n)%nat -> f k = 0) -> rsum n f = 0.
Proof. induction n as [|n IH]; intros H; cbn [rsum]; [reflexivity|]. rewrite IH, (H n); [lra | lia | intros; apply H; lia]. Qed.
Lemma rsum_plus n f g : rsum n (fun k => f k + g k) = rsum n f + rsum n g.
Proof. induction n as [|n IH]; cbn [rsum]; [lra | rewrite IH; lra]. Qed.
Lemma rsum_minus n f g : rsum n (fun k => f k - g k) = rsum n f - rsum n g.
Proof. induction n as [|n IH]; cbn [rsum]; [lra | rewrite IH; lra]. Qed.
Lemma rsum_scal n c f : rsum n (fun k => c * f k) = c * rsum n f.
Proof. induction n as [|n IH]; cbn [rsum]; [lra | rewrite IH; lra]. Qed.
Lemma rsum_scal_r n c f : rsum n (fun k => f k * c) = rsum n f * c.
Proof. induction n as [|n IH]; cbn [rsum]; [lra | rewrite IH; lra]. Qed.
Lemma rsum_swap n m f : rsum n (fun i => rsum m (fun j => f i j)) = rsum m (fun j => rsum n (fun i => f i j)).
Proof. induction n as [|n IH]; cbn [rsum]; [symmetry; apply rsum_0; reflexivity|]. rewrite IH, <- rsum_plus. reflexivity. Qed.
Lemma rsum_one n i v : (i < n)%nat -> rsum n (fun k => if (k =? i)%nat then v else 0) = v.
Proof.
  induction n as [|n IH]; intros H; [lia|]. cbn [rsum]. destruct (Nat.eqb_spec n i) as [->|Hn].
  - rewrite rsum_0; [lra|]. intros k Hk. destruct (Nat.eqb_spec k i); [lia | reflexivity].
  - rewrite IH by lia. lra.
Qed.
Lemma rsum_nonneg n f : (forall k, (k < n)%nat -> 0 <= f k) -> 0 <= rsum n f.
Proof. induction n as [|n IH]; intros H; cbn [rsum]; [lra|]. pose proof (H n ltac:(lia)). assert (0 <= rsum n f) by (apply IH; intros; apply H; lia). lra. Qed.
Lemma rsum_nonneg_0 n f : (forall k, (k < n)%nat -> 0 <= f k) -> rsum n f = 0 -> forall k, (k < n)%nat -> f k = 0.
Proof.
  induction n as [|n IH]; intros H E k Hk; [lia|]. cbn [rsum] in E. pose proof (H n ltac:(lia)). assert (0 <= rsum n f) by (apply rsum_nonneg; intros; apply H; lia).
  destruct (Nat.eq_dec k n) as [->|Hn]; [lra|]. apply IH; [intros; apply H; lia | lra | lia].
Qed.
(** Terms that are 0 beyond [m] do not count. *)
Lemma rsum_below n m f : (m <= n)%nat -> (forall k, (m <= k < n)%nat -> f k = 0) -> rsum n f = rsum m f.
Proof.
  induction n as [|n IH]; intros Hm H; [replace m with O by lia; reflexivity|]. destruct (Nat.eq_dec m (S n)) as [->|Hn]; [reflexivity|].
  cbn [rsum]. rewrite IH, (H n); [lra | lia | lia | intros; apply H; lia].
Qed.
Lemma rsum_if_lt n m f : (m <= n)%nat -> rsum n (fun k => if (k <? m)%nat then f k else 0) = rsum m f.
Proof.
  intros H. rewrite (rsum_below n m); [|exact H|].
  - apply rsum_ext. intros k Hk. destruct (Nat.ltb_spec k m); [reflexivity | lia].
  - intros k Hk. destruct (Nat.ltb_spec k m); [lia | reflexivity].
Qed.

(** A lower triangular factor of a positive definite matrix. *)
Definition positive_definite (n : nat) (M : nat -> nat -> R) : Prop :=
  forall v : nat -> R, (exists i, (i < n)%nat /\ v i <> 0) -> 0 < rsum n (fun i => rsum n (fun j => v i * M i j * v j)).

Lemma upper_solvable : forall n (L : nat -> nat -> R) (rhs : nat -> R), (forall k, (k < n)%nat -> L k k <> 0) -> (forall i k, (i < k)%nat -> L i k = 0) ->
  exists v : nat -> R, forall k, (k < n)%nat -> rsum n (fun i => L i k * v i) = rhs k.
Proof.
  induction n as [|n IH]; intros L rhs Hd Hu; [exists (fun _ => 0); intros; lia|].
  set (x := rhs n / L n n). destruct (IH L (fun k => rhs k - L n k * x)) as (v & Hv); [intros; apply Hd; lia | exact Hu|].
  exists (fun i => if (i =? n)%nat then x else v i). intros k Hk. cbn [rsum]. rewrite Nat.eqb_refl.
  rewrite (rsum_ext n _ (fun i => L i k * v i)); [|intros i Hi; destruct (Nat.eqb_spec i n); [lia | reflexivity]].
  destruct (Nat.eq_dec k n) as [->|Hn].
  - rewrite rsum_0; [unfold x; field; apply Hd; lia|]. intros i Hi. rewrite Hu by exact Hi. lra.
  - rewrite Hv by lia. lra.
Qed.

Section Factor.
Variables (n : nat) (M L : nat -> nat -> R).
Hypothesis Hsym : forall i j, M i j = M j i.
Hypothesis Hpd : positive_definite n M.
Hypothesis Hu : forall i k, (i < k)%nat -> L i k = 0.
Hypothesis Hoff : forall r c, (c < r)%nat -> (r < n)%nat -> L c c <> 0 -> L r c * L c c = M r c - rsum c (fun k => L r k * L c k).
Hypothesis Hdiag : forall r, (r < n)%nat -> L r r = sqrt (Rabs (M r r - rsum r (fun k => L r k * L r k))).

Lemma pivot r : (r < n)%nat -> (forall k, (k < r)%nat -> 0 < L k k) -> (forall i j, (i < r)%nat -> (j < r)%nat -> M i j = rsum r (fun k => L i k * L j k)) ->
  0 < M r r - rsum r (fun k => L r k * L r k).
Proof.
  intros Hr Hpos Hfac. set (p := M r r - rsum r (fun k => L r k * L r k)).
  assert (Hrow : forall j, (j < r)%nat -> M r j = rsum r (fun k => L r k * L j k)).
  { intros j Hj. pose proof (Hoff r j Hj Hr ltac:(pose proof (Hpos j Hj); lra)) as E.
    rewrite (rsum_below r (S j)); [cbn [rsum]; lra | lia |]. intros k Hk. rewrite (Hu j k) by lia. lra. }
  destruct (upper_solvable r L (fun k => - L r k)) as (v & Hv); [intros k Hk; pose proof (Hpos k Hk); lra | exact Hu|].
  set (v' := fun i => if (i <? r)%nat then v i else if (i =? r)%nat then 1 else 0).
  assert (Hz : forall k, (k < r)%nat -> rsum (S r) (fun i => v' i * L i k) = 0).
  { intros k Hk. cbn [rsum]. rewrite (rsum_ext r _ (fun i => L i k * v i)).
    - rewrite Hv by exact Hk. unfold v'. rewrite Nat.ltb_irrefl, Nat.eqb_refl. lra.
    - intros i Hi. unfold v'. destruct (Nat.ltb_spec i r); [lra | lia]. }
  assert (HM : forall i j, (i < S r)%nat -> (j < S r)%nat -> M i j = rsum r (fun k => L i k * L j k) + if ((i =? r) && (j =? r))%nat%bool then p else 0).
  { intros i j Hi Hj. destruct (Nat.eqb_spec i r) as [->|Hir], (Nat.eqb_spec j r) as [->|Hjr]; cbn [andb].
    - unfold p. lra.
    - rewrite Hrow by lia. lra.
    - rewrite Hsym, Hrow by lia. rewrite Rplus_0_r. apply rsum_ext. intros; lra.
    - rewrite Hfac by lia. lra. }
  assert (Hq : rsum n (fun i => rsum n (fun j => v' i * M i j * v' j)) = p).
  { rewrite (rsum_below n (S r)); [|lia|].
    2:{ intros i Hi. apply rsum_0. intros j _. replace (v' i) with 0; [lra|]. unfold v'. destruct (Nat.ltb_spec i r); [lia|]. destruct (Nat.eqb_spec i r); [lia | reflexivity]. }
    rewrite (rsum_ext (S r) _ (fun i => rsum r (fun k => v' i * L i k * rsum (S r) (fun j => v' j * L j k)) + if (i =? r)%nat then p else 0)).
    - rewrite rsum_plus, (rsum_one (S r) r p) by lia. rewrite rsum_0; [lra|]. intros i Hi. apply rsum_0. intros k Hk. rewrite Hz by exact Hk. lra.
    - intros i Hi. rewrite (rsum_below n (S r)); [|lia|].
      2:{ intros j Hj. replace (v' j) with 0; [lra|]. unfold v'. destruct (Nat.ltb_spec j r); [lia|]. destruct (Nat.eqb_spec j r); [lia | reflexivity]. }
      rewrite (rsum_ext (S r) _ (fun j => rsum r (fun k => v' i * L i k * (v' j * L j k)) + if (j =? r)%nat then (if (i =? r)%nat then p else 0) else 0)).
      + rewrite rsum_plus, rsum_one by lia. f_equal. rewrite rsum_swap. apply rsum_ext. intros k _. apply rsum_scal.
      + intros j Hj. rewrite (HM i j Hi Hj). destruct (Nat.eqb_spec i r) as [Ei|Ei], (Nat.eqb_spec j r) as [Ej|Ej]; cbn [andb].
        * rewrite Rmult_plus_distr_l, Rmult_plus_distr_r. f_equal.
          -- rewrite Rmult_assoc, <- rsum_scal_r, <- rsum_scal. apply rsum_ext. intros; lra.
          -- unfold v'. subst i j. rewrite Nat.ltb_irrefl, Nat.eqb_refl. lra.
        * rewrite !Rplus_0_r. rewrite Rmult_assoc, <- rsum_scal_r, <- rsum_scal. apply rsum_ext. intros; lra.
        * rewrite !Rplus_0_r. rewrite Rmult_assoc, <- rsum_scal_r, <- rsum_scal. apply rsum_ext. intros; lra.
        * rewrite !Rplus_0_r. rewrite Rmult_assoc, <- rsum_scal_r, <- rsum_scal. apply rsum_ext. intros; lra. }
  rewrite <- Hq. apply Hpd. exists r. split; [exact Hr|]. unfold v'. rewrite Nat.ltb_irrefl, Nat.eqb_refl. lra.
Qed.
Lemma factor_upto : forall r, (r <= n)%nat -> (forall k, (k < r)%nat -> 0 < L k k) /\ forall i j, (i < r)%nat -> (j < r)%nat -> M i j = rsum r (fun k => L i k * L j k).
Proof.
  induction r as [|r IH]; intros Hr; [split; intros; lia|]. destruct (IH ltac:(lia)) as (Hp & Hf). pose proof (pivot r ltac:(lia) Hp Hf) as Hpiv.
  assert (Hd : L r r * L r r = M r r - rsum r (fun k => L r k * L r k)).
  { rewrite (Hdiag r) at 1 2 by lia. rewrite sqrt_sqrt by apply Rabs_pos. apply Rabs_pos_eq. lra. }
  assert (Hdp : 0 < L r r).
  { rewrite Hdiag by lia. apply sqrt_lt_R0. rewrite Rabs_pos_eq; lra. }
  split; [intros k Hk; destruct (Nat.eq_dec k r) as [->|]; [exact Hdp | apply Hp; lia]|].
  assert (Hrow : forall j, (j < r)%nat -> M r j = rsum (S r) (fun k => L r k * L j k)).
  { intros j Hj. pose proof (Hoff r j Hj ltac:(lia) ltac:(pose proof (Hp j Hj); lra)) as E.
    rewrite (rsum_below (S r) (S j)); [cbn [rsum]; lra | lia |]. intros k Hk. rewrite (Hu j k) by lia. lra. }
  intros i j Hi Hj. destruct (Nat.eq_dec i r) as [->|Hir], (Nat.eq_dec j r) as [->|Hjr].
  - cbn [rsum]. lra.
  - apply Hrow. lia.
  - rewrite Hsym, Hrow by lia. apply rsum_ext. intros; lra.
  - rewrite Hf by lia. cbn [rsum]. rewrite (Hu i r) by lia. lra.
Qed.
End Factor.

(** The normal matrix is positive definite. *)
Lemma normal_pd n m A wsize x z y w : positive m x -> positive m z -> positive wsize y -> positive wsize w -> independent n m A wsize ->
  positive_definite n (normal_matrix m A wsize x z y w).
Proof.
  intros Hx Hz Hy Hw Hind v (i0 & Hi0 & Hv0).
  set (s := fun k => rsum n (fun i => v i * A i k)).
  set (d := fun i => if (i <? wsize)%nat then w i / y i * (v i * v i) else 0).
  assert (E : rsum n (fun i => rsum n (fun j => v i * normal_matrix m A wsize x z y w i j * v j)) = rsum m (fun k => x k / z k * (s k * s k)) + rsum n d).
  { rewrite (rsum_ext n _ (fun i => rsum m (fun k => x k / z k * s k * (v i * A i k)) + d i)).
    - rewrite rsum_plus. f_equal. rewrite rsum_swap. apply rsum_ext. intros k _. rewrite rsum_scal. unfold s. lra.
    - intros i Hi. unfold normal_matrix.
      rewrite (rsum_ext n _ (fun j => rsum m (fun k => x k / z k * (v i * A i k) * (v j * A j k)) + if (j =? i)%nat then d i else 0)).
      + rewrite rsum_plus, rsum_one by exact Hi. f_equal. rewrite rsum_swap. apply rsum_ext. intros k _. rewrite rsum_scal. unfold s. lra.
      + intros j _. rewrite Rmult_plus_distr_l, Rmult_plus_distr_r. f_equal.
        * rewrite Rmult_assoc, <- rsum_scal_r, <- rsum_scal. apply rsum_ext. intros; lra.
        * unfold d. rewrite (Nat.eqb_sym j i). destruct (Nat.eqb_spec i j) as [->|]; cbn [andb]; [|lra]. destruct (j <? wsize)%nat; lra. }
  rewrite E.
  assert (P1 : forall k, (k < m)%nat -> 0 <= x k / z k * (s k * s k)).
  { intros k Hk. apply Rmult_le_pos; [apply Rlt_le, Rdiv_lt_0_compat; [apply Hx, Hk | apply Hz, Hk] | apply Rle_0_sqr]. }
  assert (P2 : forall i, (i < n)%nat -> 0 <= d i).
  { intros i _. unfold d. destruct (Nat.ltb_spec i wsize) as [Hi|]; [|lra]. apply Rmult_le_pos; [apply Rlt_le, Rdiv_lt_0_compat; [apply Hw, Hi | apply Hy, Hi] | apply Rle_0_sqr]. }
  pose proof (rsum_nonneg _ _ P1). pose proof (rsum_nonneg _ _ P2).
  destruct (Rtotal_order 0 (rsum m (fun k => x k / z k * (s k * s k)) + rsum n d)) as [|[E0|]]; [assumption | exfalso | lra].
  assert (Q1 : forall k, (k < m)%nat -> s k = 0).
  { intros k Hk. pose proof (rsum_nonneg_0 _ _ P1 ltac:(lra) k Hk) as Q. cbn in Q. pose proof (Rdiv_lt_0_compat _ _ (Hx k Hk) (Hz k Hk)).
    apply Rmult_integral in Q. destruct Q as [Q|Q]; [lra|]. apply Rmult_integral in Q. destruct Q; assumption. }
  assert (Q2 : forall i, (i < wsize)%nat -> (i < n)%nat -> v i = 0).
  { intros i Hi Hin. pose proof (rsum_nonneg_0 _ _ P2 ltac:(lra) i Hin) as Q. unfold d in Q. destruct (Nat.ltb_spec i wsize); [|lia].
    pose proof (Rdiv_lt_0_compat _ _ (Hw i Hi) (Hy i Hi)). apply Rmult_integral in Q. destruct Q as [Q|Q]; [lra|]. apply Rmult_integral in Q. destruct Q; assumption. }
  apply Hv0. assert (H3 := Hind (fun i => if (i <? n)%nat then v i else 0)). cbn beta in H3.
  specialize (H3 ltac:(intros i Hi; destruct (Nat.ltb_spec i n); [apply Q2; lia | reflexivity])).
  specialize (H3 ltac:(intros k Hk; rewrite <- (Q1 k Hk); apply rsum_ext; intros i Hi; destruct (Nat.ltb_spec i n); [reflexivity | lia])).
  specialize (H3 i0 Hi0). cbn beta in H3. destruct (Nat.ltb_spec i0 n); [exact H3 | lia].
Qed.

(** Forward and backward substitution together solve the system. *)
Lemma solve_factored n M L u v b : (forall i j, (i < n)%nat -> (j < n)%nat -> M i j = rsum n (fun k => L i k * L j k)) ->
  (forall i, (i < n)%nat -> rsum n (fun k => L i k * u k) = b i) -> (forall k, (k < n)%nat -> rsum n (fun j => L j k * v j) = u k) -> solves n M v b.
Proof.
  intros HM Hf Hb i Hi. rewrite <- (Hf i Hi). rewrite (rsum_ext n _ (fun j => rsum n (fun k => L i k * (L j k * v j)))).
  - rewrite rsum_swap. apply rsum_ext. intros k Hk. rewrite rsum_scal, Hb by exact Hk. reflexivity.
  - intros j Hj. rewrite HM by assumption. rewrite <- rsum_scal_r. apply rsum_ext. intros; lra.
Qed.
