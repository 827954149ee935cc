(** The direct solve of the interior point method.  Sources:
    ipm-common/src/lib.rs, ipm-simd/src/common.rs and
    ipm-simd/src/path_following_direct.rs.  [f64] is modelled by the real
    numbers, because square roots are taken, so there is no rounding, no overflow
    and no NaN.  A [f64x4] is four numbers treated alike; this file models one of
    them.  A vector is a function from its indices; reading outside a vector and
    the overflow of [u32] indices are not modelled.  A sparse matrix in CSR form
    is the list of its rows, each the list of its columns and values; its flat
    arrays are the concatenations of these. *)
From Coq Require Import Reals.
From Verif Require Import Base.
Local Open Scope list_scope.
Local Open Scope nat_scope.

Notation csr := (list (list (nat * R))) (only parsing).

(** nalgebra's [row_offsets], [col_indices] of a row and [values]. *)
Definition row_offset {A} (rows : list (list A)) (i : nat) : nat := length (concat (firstn i rows)).
Definition row_of {A} (rows : list (list A)) (i : nat) : list A := nth i rows [].
Definition row_cols (a : csr) (i : nat) : list nat := map fst (row_of a i).
Definition csr_values (a : csr) : list R := map snd (concat a).

(** lib.rs 53-68 and 79-93: the loop over two sorted lists with positions [p] and
    [q], giving the positions and the value of equal elements. *)
Fixpoint common (p : nat) (l : list nat) : nat -> list nat -> list (nat * nat * nat) :=
  fix go (q : nat) (m : list nat) : list (nat * nat * nat) :=
    match l, m with
    | x :: l', y :: m' =>
        match Nat.compare x y with
        | Eq => (p, q, x) :: common (S p) l' (S q) m'
        | Lt => common (S p) l' q m
        | Gt => go (S q) m'
        end
    | _, _ => []
    end.

(** lib.rs 6-21 [SparseNormalCholeskyIndices]; the arrays with an [indptr] are
    lists of the parts these delimit. *)
Record l_entry := mkLEntry { le_anorm : list (nat * nat * nat); le_ldecomp : list (nat * nat * nat) }.
Record chol_indices := mkChol {
  ch_entries : list l_entry;      (* anorm_indptr, _i, _j, anorm_indices; ldecomp_indptr, _i, _j *)
  ch_lindptr : list nat;
  ch_ldiag : list nat;            (* ldiag_indptr *)
  ch_lindices : list nat }.
Definition slice {A} (start stop : nat) (l : list A) : list A := firstn (stop - start) (skipn start l).

(** lib.rs 36-103: one pass of the inner loop. *)
Definition chol_entry (a : csr) (i : nat) (st : chol_indices) (j : nat) : chol_indices :=
  let anorm := common (row_offset a i) (row_cols a i) (row_offset a j) (row_cols a j) in
  let i_start := nth i (ch_lindptr st) 0 in
  let j_start := nth j (ch_lindptr st) 0 in
  let ii_max := length (ch_lindices st) in
  let jj_max := if i =? j then ii_max else nth (j + 1) (ch_lindptr st) 0 in
  let ldecomp := common i_start (slice i_start ii_max (ch_lindices st)) j_start (slice j_start jj_max (ch_lindices st)) in
  let non_zero := match anorm, ldecomp with [], [] => false | _, _ => true end in
  let st' := if non_zero then mkChol (ch_entries st ++ [mkLEntry anorm ldecomp]) (ch_lindptr st) (ch_ldiag st) (ch_lindices st ++ [j]) else st in
  if i =? j then mkChol (ch_entries st') (ch_lindptr st') (ch_ldiag st' ++ [length (ch_lindices st') - 1]) (ch_lindices st') else st'.
(** lib.rs 35-105: one row. *)
Definition chol_row (a : csr) (st : chol_indices) (i : nat) : chol_indices :=
  let st' := fold_left (chol_entry a i) (seq 0 (S i)) st in
  mkChol (ch_entries st') (ch_lindptr st' ++ [length (ch_lindices st')]) (ch_ldiag st') (ch_lindices st').
(** lib.rs 24-105. *)
Definition chol_from_matrix (a : csr) : chol_indices :=
  fold_left (chol_row a) (seq 0 (length a)) (mkChol [] [0] [] []).

(** lib.rs 107-118: the transpose of the lower triangular matrix (nalgebra's
    [transpose]: the rows of a column in rising order) and [ltmap], a stable
    sort of the positions by their columns. *)
Definition lower_rows (ch : chol_indices) (n : nat) : list (list nat) :=
  map (fun i => slice (nth i (ch_lindptr ch) 0) (nth (i + 1) (ch_lindptr ch) 0) (ch_lindices ch)) (seq 0 n).
Definition lt_rows (ch : chol_indices) (n : nat) : list (list nat) :=
  map (fun c => filter (fun r => existsb (Nat.eqb c) (nth r (lower_rows ch n) [])) (seq 0 n)) (seq 0 n).
Fixpoint insert_by (key : nat -> nat) (x : nat) (l : list nat) : list nat :=
  match l with
  | [] => [x]
  | y :: l' => if key x <=? key y then x :: l else y :: insert_by key x l'
  end.
Definition sort_by_key (key : nat -> nat) (l : list nat) : list nat := fold_right (insert_by key) [] l.
Definition lt_map (ch : chol_indices) : list nat :=
  sort_by_key (fun p => nth p (ch_lindices ch) 0) (seq 0 (length (ch_lindices ch))).

Local Open Scope R_scope.

Definition vec := nat -> R.
Definition upd (x : vec) (i : nat) (v : R) : vec := fun k => if (k =? i)%nat then v else x k.

(** common.rs 26-41 [matrix_vector_product]: one row. *)
Definition row_dot (row : list (nat * R)) (x : vec) : R := fold_left (fun val e => val + snd e * x (fst e)) row 0.
(** nalgebra's [transpose] of a matrix with [ncols] columns. *)
Definition transpose (ncols : nat) (a : csr) : csr :=
  map (fun c => flat_map (fun r => flat_map (fun e => if (fst e =? c)%nat then [(r, snd e)] else []) (row_of a r)) (seq 0 (length a))) (seq 0 ncols).

(** path_following_direct.rs 72-125 [normal_matrix_cholesky_decomposition]: the
    entry [row_ind] (which always equals the counter [l_entry]) of a row. *)
Definition chol_value (a : csr) (ch : chol_indices) (wsize : nat) (x z y w : vec) (row : nat) (l_data : vec) (row_ind : nat) : vec :=
  let col := nth row_ind (ch_lindices ch) 0%nat in
  let e := nth row_ind (ch_entries ch) (mkLEntry [] []) in
  let val := if ((row =? col) && (row <? wsize))%nat%bool then w row / y row else 0 in
  let val := fold_left (fun val t => val + nth (fst (fst t)) (csr_values a) 0 * nth (snd (fst t)) (csr_values a) 0 * x (snd t) / z (snd t)) (le_anorm e) val in
  let val := fold_left (fun val t => val - l_data (fst (fst t)) * l_data (snd (fst t))) (le_ldecomp e) val in
  upd l_data row_ind (if (row =? col)%nat then sqrt (Rabs val) else val / l_data (nth col (ch_ldiag ch) 0%nat)).
Definition chol_decompose (a : csr) (ch : chol_indices) (wsize : nat) (x z y w : vec) (l_data : vec) : vec :=
  fold_left (fun l row =>
    let start := nth row (ch_lindptr ch) 0%nat in
    fold_left (chol_value a ch wsize x z y w row) (seq start (nth (row + 1) (ch_lindptr ch) 0%nat - start)) l)
    (seq 0 (length a)) l_data.

(** path_following_direct.rs 131-164 [cholesky_solve]: forward substitution; the
    [while] loop from the position [jk], on the rest of the row. *)
Fixpoint forward_row (l_data : vec) (i jk : nat) (cols : list nat) (x : vec) : vec :=
  match cols with
  | [] => x
  | j :: cols' =>
      if (j <? i)%nat then forward_row l_data i (S jk) cols' (upd x i (x i - x j * l_data jk))
      else upd x i (x i / l_data jk)
  end.
Definition forward (n : nat) (ch : chol_indices) (l_data b x : vec) : vec :=
  fold_left (fun x i => let start := nth i (ch_lindptr ch) 0%nat in
    forward_row l_data i start (skipn start (ch_lindices ch)) (upd x i (b i))) (seq 0 n) x.
(** Backward substitution. *)
Definition backward (n : nat) (ch : chol_indices) (l_data x : vec) : vec :=
  let ltindptr := row_offset (lt_rows ch n) in
  let ltindices := concat (lt_rows ch n) in
  fold_left (fun x i =>
    let x := fold_left (fun x jk => upd x i (x i - x (nth jk ltindices 0%nat) * l_data (nth jk (lt_map ch) 0%nat)))
      (seq (ltindptr i + 1) (ltindptr (i + 1)%nat - (ltindptr i + 1))) x in
    upd x i (x i / l_data (nth (i + 1) (ch_lindptr ch) 0%nat - 1)%nat)) (rev (seq 0 n)) x.
Definition cholesky_solve (n : nat) (ch : chol_indices) (l_data b x : vec) : vec :=
  backward n ch l_data (forward n ch l_data b x).
