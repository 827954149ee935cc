(** The interior point method itself.  Sources: ipm-simd/src/common.rs,
    ipm-simd/src/path_following_direct.rs and ipm-simd/src/lib.rs.  As in
    IpmCholesky.v numbers are real numbers and vectors are functions; the length
    of a vector is given where it is read. *)
From Coq Require Import Reals.
From Verif Require Import Base IpmCholesky.
Local Open Scope list_scope.
Local Open Scope R_scope.

(** The [sum()] of an iterator over [0..n]. *)
Definition vsum (n : nat) (f : nat -> R) : R := fold_left (fun acc k => acc + f k) (seq 0 n) 0.

(** common.rs 44-46 [dot_product], with the lengths of both vectors; 49-53
    [vector_update]; 61-63 [vector_norm]. *)
Definition dot_product (n m : nat) (x y : vec) : R := vsum (Nat.min n m) (fun k => x k * y k).
Definition vector_update (x y : vec) (xscale yscale : R) : vec := fun k => xscale * x k + yscale * y k.
Definition vector_norm (n : nat) (x : vec) : R := sqrt (vsum n (fun k => x k * x k)).

(** common.rs 70-108 [normal_eqn_rhs]; the sum over a row starts with [val]. *)
Definition row_sum (row : list (nat * R)) (x : vec) (val : R) : R := fold_left (fun val e => val + snd e * x (fst e)) row val.
Definition row_sub (row : list (nat * R)) (x : vec) (val : R) : R := fold_left (fun val e => val - snd e * x (fst e)) row val.
Definition normal_eqn_rhs (a at_ : csr) (x z y b c : vec) (mu : R) (wsize : nat) : vec :=
  let tmp := fun row => row_dot (row_of at_ row) y in
  let tmp' := fun row => x row * (c row - tmp row + mu / x row) / z row in
  fun row =>
    let out := row_dot (row_of a row) tmp' in
    let val := row_sum (row_of a row) x (if (row <? wsize)%nat then mu / y row else 0) in
    - (b row - val - out).

(** common.rs 114-144 [primal_feasibility] and 149-175 [dual_feasibility]. *)
Definition primal_feasibility (a : csr) (ncols wsize : nat) (x w b : vec) : R :=
  let normx := vsum ncols (fun k => x k * x k) in
  let normr := vsum (length a) (fun row =>
    let val := if (row <? wsize)%nat then b row - w row else b row in
    let val := row_sub (row_of a row) x val in val * val) in
  sqrt normr / (1 + sqrt normx).
Definition dual_feasibility (at_ : csr) (nrows : nat) (y c z : vec) : R :=
  let normy := vsum nrows (fun k => y k * y k) in
  let norms := vsum (length at_) (fun row =>
    let val := row_sub (row_of at_ row) y (z row + c row) in val * val) in
  sqrt norms / (1 + sqrt normy).

(** common.rs 186-228 [compute_dx_dz_dw]: the directions and the largest step. *)
Definition direction_x (at_ : csr) (x z y c dy : vec) (mu : R) : vec := fun row =>
  (c row - row_dot (row_of at_ row) y - row_dot (row_of at_ row) dy + mu / x row) * x row / z row.
Definition direction_z (x z dx : vec) (mu : R) : vec := fun row => (mu - z row * dx row) / x row - z row.
Definition direction_w (y w dy : vec) (mu : R) : vec := fun row => (mu - w row * dy row) / y row - w row.
Definition largest (n : nat) (x dx z dz : vec) : R :=
  fold_left (fun theta row => Rmax (Rmax theta (- dx row / x row)) (- dz row / z row)) (seq 0 n) 0.
Definition compute_theta (ncols wsize : nat) (x z y w dx dz dy dw : vec) : R :=
  Rmax (largest ncols x dx z dz) (largest wsize w dw y dy).

(** lib.rs 16-21 [PathData] and, with it, the part of the buffers 34-49 that one
    lane keeps between steps and is passed to a function that updates it in place
    ([l_data] and the direction [y]; the other buffers are written before they
    are read). *)
Record path := mkPath { p_x : vec; p_z : vec; p_y : vec; p_w : vec }.
Record lane := mkLane { ln_path : path; ln_l : vec; ln_dy : vec }.
(** The numbers of one lane of [b], [c] and [Tolerances] (lib.rs 105-110). *)
Record lane_data := mkData { d_b : vec; d_c : vec; d_primal : R; d_dual : R; d_optimality : R }.
(** lib.rs 51-102 [PathFollowingDirectSimdData::from_data]. *)
Record ipm := mkIpm { i_a : csr; i_ncols : nat; i_wsize : nat; i_at : csr; i_chol : chol_indices }.
Definition ipm_new (a : csr) (ncols wsize : nat) : ipm := mkIpm a ncols wsize (transpose ncols a) (chol_from_matrix a).

Definition below (x y : R) : bool := if Rlt_dec x y then true else false.
(** path_following_direct.rs 192-219: [gamma] before and after its scaling, and
    the status of a lane.  NaN does not exist in the model. *)
Definition gap (s : ipm) (p : path) : R :=
  dot_product (i_ncols s) (i_ncols s) (p_z p) (p_x p) + dot_product (i_wsize s) (length (i_a s)) (p_w p) (p_y p).
Definition lane_mu (s : ipm) (p : path) : R := / 10 * gap s p / INR (length (i_at s) + i_wsize s).
Definition lane_status (s : ipm) (d : lane_data) (p : path) : bool :=
  let gamma := gap s p / (1 + vector_norm (i_ncols s) (p_x p) + vector_norm (length (i_a s)) (p_y p)) in
  (below (primal_feasibility (i_a s) (i_ncols s) (i_wsize s) (p_x p) (p_w p) (d_b d)) (d_primal d)
   && below (dual_feasibility (i_at s) (length (i_a s)) (p_y p) (d_c d) (p_z p)) (d_dual d)
   && below gamma (d_optimality d))%bool.

(** path_following_direct.rs 226-259: the rest of a step.  The division
    [0.9995 / 0] is infinite, so the step is then 1. *)
Definition step_size (theta : R) : R := if Rlt_dec 0 theta then Rmin (9995 / 10000 / theta) 1 else 1.
Definition lane_l (s : ipm) (ln : lane) : vec :=
  let p := ln_path ln in chol_decompose (i_a s) (i_chol s) (i_wsize s) (p_x p) (p_z p) (p_y p) (p_w p) (ln_l ln).
Definition lane_dy (s : ipm) (d : lane_data) (ln : lane) : vec :=
  let p := ln_path ln in
  let rhs := normal_eqn_rhs (i_a s) (i_at s) (p_x p) (p_z p) (p_y p) (d_b d) (d_c d) (lane_mu s p) (i_wsize s) in
  cholesky_solve (length (i_a s)) (i_chol s) (lane_l s ln) rhs (ln_dy ln).
Definition lane_step (s : ipm) (d : lane_data) (status : bool) (ln : lane) : lane :=
  let p := ln_path ln in
  let mu := lane_mu s p in
  let dy := lane_dy s d ln in
  let dx := direction_x (i_at s) (p_x p) (p_z p) (p_y p) (d_c d) dy mu in
  let dz := direction_z (p_x p) (p_z p) dx mu in
  let dw := direction_w (p_y p) (p_w p) dy mu in
  let theta := step_size (compute_theta (length (i_at s)) (i_wsize s) (p_x p) (p_z p) (p_y p) (p_w p) dx dz dy dw) in
  let theta := if status then 0 else theta in
  mkLane (mkPath (vector_update (p_x p) dx 1 theta) (vector_update (p_z p) dz 1 theta)
                 (vector_update (p_y p) dy 1 theta) (vector_update (p_w p) dw 1 theta)) (lane_l s ln) dy.
(** path_following_direct.rs 168-260 [normal_eqn_step] on all lanes. *)
Definition normal_eqn_step (s : ipm) (lanes : list (lane_data * lane)) : list (lane_data * lane) * bool :=
  if forallb (fun e => lane_status s (fst e) (ln_path (snd e))) lanes then (lanes, true)
  else (map (fun e => (fst e, lane_step s (fst e) (lane_status s (fst e) (ln_path (snd e))) (snd e))) lanes, false).

(** path_following_direct.rs 262-267 [normal_eqn_init]. *)
Definition path_init : path := mkPath (fun _ => 1000) (fun _ => 1000) (fun _ => 1000) (fun _ => 1000).

(** lib.rs 144-203 [PathFollowingDirectSimdSolver::solve] with the buffers left
    by earlier calls; [max_iterations] bounds the loop. *)
Fixpoint solve_loop (s : ipm) (max_iterations : nat) (lanes : list (lane_data * lane)) : option (list (lane_data * lane)) :=
  match max_iterations with
  | O => None
  | S k => let r := normal_eqn_step s lanes in if snd r then Some (fst r) else solve_loop s k (fst r)
  end.
Definition ipm_solve (s : ipm) (max_iterations : nat) (data : list (lane_data * lane)) : res unit (list lane) :=
  match solve_loop s max_iterations (map (fun e => (fst e, mkLane path_init (ln_l (snd e)) (ln_dy (snd e)))) data) with
  | Some lanes => Ok (map snd lanes)
  | None => Panic
  end.
(** The value returned by [solve]: the first [ncols] numbers of each lane of
    [x]. *)
Definition solution (s : ipm) (ln : lane) : list R := map (p_x (ln_path ln)) (seq 0 (i_ncols s)).
