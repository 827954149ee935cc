(** Matrices and linear equations, for the statements about the interior point
    method.  A matrix is a function of row and column. *)
From Coq Require Import Reals Sorted.
From Verif Require Import Base IpmCholesky.
Local Open Scope list_scope.
Local Open Scope R_scope.

Fixpoint rsum (n : nat) (f : nat -> R) : R := match n with O => 0 | S m => rsum m f + f m end.

(** The matrix a sparse matrix stands for: row [i] has the value [v] in column
    [k] if it lists [(k, v)], and 0 in columns that are not listed. *)
Definition dense (a : list (list (nat * R))) (i k : nat) : R :=
  match find (fun e => Nat.eqb (fst e) k) (nth i a []) with Some e => snd e | None => 0 end.

(** A sparse matrix as nalgebra accepts it: the columns of a row rise and are
    less than the number of columns.  (No row is empty: this is needed.) *)
Definition well_formed (ncols : nat) (a : list (list (nat * R))) : Prop :=
  forall row, In row a -> StronglySorted lt (map fst row) /\ Forall (fun k => (k < ncols)%nat) (map fst row).
Definition no_empty_row (a : list (list (nat * R))) : Prop := forall row, In row a -> row <> [].

(** [A diag(x / z) A^T], with [w / y] added on the first [wsize] places of the
    diagonal. *)
Definition normal_matrix (ncols : nat) (A : nat -> nat -> R) (wsize : nat) (x z y w : nat -> R) (i j : nat) : R :=
  rsum ncols (fun k => A i k * (x k / z k) * A j k) + (if (Nat.eqb i j && Nat.ltb i wsize)%bool then w i / y i else 0).

(** The rows from [wsize] on are linearly independent. *)
Definition independent (nrows ncols : nat) (A : nat -> nat -> R) (wsize : nat) : Prop :=
  forall v : nat -> R, (forall i, (i < wsize)%nat -> v i = 0) ->
    (forall k, (k < ncols)%nat -> rsum nrows (fun i => v i * A i k) = 0) -> forall i, (i < nrows)%nat -> v i = 0.

Definition positive (n : nat) (x : nat -> R) : Prop := forall k, (k < n)%nat -> 0 < x k.

(** [v] solves [M v = b]. *)
Definition solves (n : nat) (M : nat -> nat -> R) (v b : nat -> R) : Prop :=
  forall i, (i < n)%nat -> rsum n (fun j => M i j * v j) = b i.

(** The linear programme: maximise [c . x] such that [A x <= b] for the first
    [wsize] rows, [A x = b] for the others, and [x >= 0]. *)
Definition times (ncols : nat) (A : nat -> nat -> R) (x : nat -> R) (i : nat) : R := rsum ncols (fun k => A i k * x k).
Definition times_t (nrows : nat) (A : nat -> nat -> R) (y : nat -> R) (k : nat) : R := rsum nrows (fun i => A i k * y i).
Definition feasible (nrows ncols wsize : nat) (A : nat -> nat -> R) (b x : nat -> R) : Prop :=
  (forall k, (k < ncols)%nat -> 0 <= x k) /\
  (forall i, (i < nrows)%nat -> (i < wsize)%nat -> times ncols A x i <= b i) /\
  (forall i, (i < nrows)%nat -> (wsize <= i)%nat -> times ncols A x i = b i).
Definition objective (ncols : nat) (c x : nat -> R) : R := rsum ncols (fun k => c k * x k).
Definition norm (n : nat) (v : nat -> R) : R := sqrt (rsum n (fun k => v k * v k)).

(** The primal variables are [x] and the slacks [w] of the first rows, the dual
    variables [y] and the slacks [z].  What is missing in [A x + w = b] and in
    [A^T y - z = c]: *)
Definition primal_gap (ncols wsize : nat) (A : nat -> nat -> R) (b x w : nat -> R) (i : nat) : R :=
  b i - times ncols A x i - (if Nat.ltb i wsize then w i else 0).
Definition dual_gap (nrows : nat) (A : nat -> nat -> R) (c y z : nat -> R) (k : nat) : R :=
  c k - times_t nrows A y k + z k.

(** The changes that solve the linearised equations of the central path: the gaps
    are closed, and the products [x z] and [w y] become [mu] to first order. *)
Definition newton (nrows ncols wsize : nat) (A : nat -> nat -> R) (b c x z y w : nat -> R) (mu : R) (dx dz dy dw : nat -> R) : Prop :=
  (forall i, (i < nrows)%nat -> times ncols A dx i + (if Nat.ltb i wsize then dw i else 0) = primal_gap ncols wsize A b x w i) /\
  (forall k, (k < ncols)%nat -> times_t nrows A dy k - dz k = dual_gap nrows A c y z k) /\
  (forall k, (k < ncols)%nat -> z k * dx k + x k * dz k = mu - x k * z k) /\
  (forall i, (i < wsize)%nat -> y i * dw i + w i * dy i = mu - w i * y i).
