(** Runs of the interior point method, for the statements about it. *)
From Coq Require Import Reals.
From Verif Require Import Base IpmCholesky IpmStep IpmSpec.
Local Open Scope list_scope.
Local Open Scope R_scope.

(** A constraint matrix the method is meant for: sorted rows without an empty
    one, the first [wsize] of them inequalities, the others (the equalities)
    linearly independent. *)
Definition well_posed (a : list (list (nat * R))) (ncols wsize : nat) : Prop :=
  well_formed ncols a /\ no_empty_row a /\ (wsize <= length a)%nat /\ independent (length a) ncols (dense a) wsize.

(** Every number that must not become negative is positive. *)
Definition all_positive (ncols wsize : nat) (p : path) : Prop :=
  positive ncols (p_x p) /\ positive ncols (p_z p) /\ positive wsize (p_y p) /\ positive wsize (p_w p).

(** A lane after [j] steps. *)
Fixpoint lane_after (s : ipm) (d : lane_data) (j : nat) (ln : lane) : lane :=
  match j with
  | O => ln
  | S j' => let l := lane_after s d j' ln in lane_step s d (lane_status s d (ln_path l)) l
  end.

(** The gaps of a path for the linear programme of a lane. *)
Definition primal_gap_of (a : list (list (nat * R))) (ncols wsize : nat) (d : lane_data) (p : path) : nat -> R :=
  primal_gap ncols wsize (dense a) (d_b d) (p_x p) (p_w p).
Definition dual_gap_of (a : list (list (nat * R))) (d : lane_data) (p : path) : nat -> R :=
  dual_gap (length a) (dense a) (d_c d) (p_y p) (p_z p).

(** [q] is [p] moved by the factor [theta] along the directions. *)
Definition moved (nrows ncols wsize : nat) (p q : path) (theta : R) (dx dz dy dw : nat -> R) : Prop :=
  (forall k, (k < ncols)%nat -> p_x q k = p_x p k + theta * dx k /\ p_z q k = p_z p k + theta * dz k) /\
  (forall i, (i < nrows)%nat -> p_y q i = p_y p i + theta * dy i) /\
  (forall i, (i < wsize)%nat -> p_w q i = p_w p i + theta * dw i).

(** What a caller may rely on for a returned [x]: it is positive; it satisfies
    the constraints up to the primal tolerance; and no feasible point is better
    by more than the tolerances allow, relative to some multipliers [y] of the
    rows. *)
Definition near_optimal (a : list (list (nat * R))) (ncols wsize : nat) (d : lane_data) (x : nat -> R) : Prop :=
  let nrows := length a in
  let A := dense a in
  positive ncols x /\
  (forall i, (i < nrows)%nat -> (i < wsize)%nat -> times ncols A x i < d_b d i + d_primal d * (1 + norm ncols x)) /\
  (forall i, (i < nrows)%nat -> (wsize <= i)%nat -> Rabs (times ncols A x i - d_b d i) < d_primal d * (1 + norm ncols x)) /\
  exists y, positive wsize y /\
    (forall k, (k < ncols)%nat -> d_c d k < times_t nrows A y k + d_dual d * (1 + norm nrows y)) /\
    forall x', feasible nrows ncols wsize A (d_b d) x' ->
      objective ncols (d_c d) x' <= objective ncols (d_c d) x
        + d_optimality d * (1 + norm ncols x + norm nrows y)
        + d_primal d * (1 + norm ncols x) * norm nrows y
        + d_dual d * (1 + norm nrows y) * norm ncols (fun k => x' k - x k).
