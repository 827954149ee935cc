(** The interior point solver that runs on an OpenCL device.  Sources:
    ipm-ocl/src/common.cl, ipm-ocl/src/path_following_direct.cl,
    ipm-ocl/src/lib.rs and pywr-core/src/solvers/ipm_ocl/mod.rs.

    The numbers of all scenarios of a chunk are in flat buffers: the number [r] of
    the work item [gid] is at [r * gsize + gid], where [gsize] is the number of
    work items.  As in IpmStep.v the device computes with real numbers, so the
    [f32] and the [f64] solver differ in [setup] only; the [0.1f32] given for
    [delta] is 1/10.  Reading outside a buffer and the overflow of [u32] are not
    modelled. *)
From Coq Require Import Reals Qreals.
From Verif Require Import Base IpmCholesky IpmStep Calendar Network NetworkBuild Lp IpmLp.
Local Open Scope list_scope.
Local Open Scope R_scope.

(** *** The kernels *)

(** ipm-ocl/src/lib.rs 307-325 [PathFollowingDirectClBuffers]: the buffers that
    hold numbers of scenarios. *)
Record dmem := mkMem {
  m_l : vec; m_x : vec; m_z : vec; m_y : vec; m_w : vec; m_b : vec; m_c : vec;
  m_dx : vec; m_dz : vec; m_dy : vec; m_dw : vec; m_tmp : vec; m_rhs : vec; m_status : nat -> nat }.

Section Item.
Variables (gsize gid : nat).
(** [get_global_id(0)] and [get_global_size(0)]: every access of a kernel is to
    such a cell. *)
Definition cell (r : nat) : nat := (r * gsize + gid)%nat.
Definition own (buf : vec) : vec := fun r => buf (cell r).
Definition put (buf : vec) (r : nat) (v : R) : vec := IpmCholesky.upd buf (cell r) v.
(** A loop over rows that writes one number of each. *)
Definition for_rows (n : nat) (f : vec -> nat -> R) (buf : vec) : vec :=
  fold_left (fun buf row => put buf row (f buf row)) (seq 0 n) buf.

(** common.cl 11-41 [matrix_vector_product]. *)
Definition k_product (a : csr) (x out : vec) : vec := for_rows (length a) (fun _ row => row_dot (row_of a row) (own x)) out.
(** common.cl 43-56 [dot_product]; 84-95 [vector_update]; 97-108 [vector_set];
    147-161 [vector_norm].  The other vector functions (58-82, 111-145) are not
    used. *)
Definition k_dot (x y : vec) (n : nat) : R := vsum n (fun row => own x row * own y row).
Definition k_update (x y : vec) (xscale yscale : R) (n : nat) : vec := for_rows n (fun x row => xscale * own x row + yscale * own y row) x.
Definition k_set (x : vec) (scalar : R) (n : nat) : vec := for_rows n (fun _ _ => scalar) x.
Definition k_norm (x : vec) (n : nat) : R := sqrt (vsum n (fun row => own x row * own x row)).

(** common.cl 164-222 [normal_eqn_rhs]: the work buffer and the result. *)
Definition k_rhs (a at_ : csr) (x z y b c : vec) (mu : R) (wsize : nat) (tmp out : vec) : vec * vec :=
  let tmp := k_product at_ y tmp in
  let tmp := for_rows (length at_) (fun tmp row => own x row * (own c row - own tmp row + mu / own x row) / own z row) tmp in
  let out := k_product a tmp out in
  let out := for_rows (length a) (fun out row =>
    let val := row_sum (row_of a row) (own x) (if (row <? wsize)%nat then mu / own y row else 0) in
    - (own b row - val - own out row)) out in
  (tmp, out).

(** common.cl 224-272 [primal_feasibility], 274-315 [dual_feasibility]: the
    expressions are those of ipm-simd, on the cells of the work item. *)
Definition k_primal (a : csr) (atsize : nat) (x w : vec) (wsize : nat) (b : vec) : R :=
  primal_feasibility a atsize wsize (own x) (own w) (own b).
Definition k_dual (at_ : csr) (asize : nat) (y c z : vec) : R := dual_feasibility at_ asize (own y) (own c) (own z).

(** common.cl 317-376 [compute_dx_dz_dw]: the two loops, then the result. *)
Definition k_dx_row (at_ : csr) (x z y c dy : vec) (mu : R) (st : vec * vec * R) (row : nat) : vec * vec * R :=
  let '(dx, dz, theta) := st in
  let val := row_dot (row_of at_ row) (own y) in
  let val2 := row_dot (row_of at_ row) (own dy) in
  let dx := put dx row ((own c row - val - val2 + mu / own x row) * own x row / own z row) in
  let dz := put dz row ((mu - own z row * own dx row) / own x row - own z row) in
  (dx, dz, Rmax (Rmax theta (- own dx row / own x row)) (- own dz row / own z row)).
Definition k_dw_row (y w dy : vec) (mu : R) (st : vec * R) (row : nat) : vec * R :=
  let '(dw, theta) := st in
  let dw := put dw row ((mu - own w row * own dy row) / own y row - own w row) in
  (dw, Rmax (Rmax theta (- own dw row / own w row)) (- own dy row / own y row)).
Definition k_directions (at_ : csr) (x z y w : vec) (wsize : nat) (c dy : vec) (mu : R) (dx dz dw : vec) : vec * vec * vec * R :=
  let '(dx, dz, theta_xz) := fold_left (k_dx_row at_ x z y c dy mu) (seq 0 (length at_)) (dx, dz, 0) in
  let '(dw, theta_wy) := fold_left (k_dw_row y w dy mu) (seq 0 wsize) (dw, 0) in
  (dx, dz, dw, Rmax theta_xz theta_wy).

(** path_following_direct.cl 4-76 [normal_matrix_cholesky_decomposition]; the
    counter [Lentry] always equals [row_ind]. *)
Definition k_chol_value (a : csr) (ch : chol_indices) (wsize : nat) (x z y w : vec) (row : nat) (l_data : vec) (row_ind : nat) : vec :=
  let col := nth row_ind (ch_lindices ch) 0%nat in
  let e := nth row_ind (ch_entries ch) (mkLEntry [] []) in
  let val := if ((row =? col) && (row <? wsize))%nat%bool then own w row / own y row else 0 in
  let val := fold_left (fun val t => val + nth (fst (fst t)) (csr_values a) 0 * nth (snd (fst t)) (csr_values a) 0 * own x (snd t) / own z (snd t)) (le_anorm e) val in
  let val := fold_left (fun val t => val - own l_data (fst (fst t)) * own l_data (snd (fst t))) (le_ldecomp e) val in
  put l_data row_ind (if (row =? col)%nat then sqrt (Rabs val) else val / own l_data (nth col (ch_ldiag ch) 0%nat)).
Definition k_decompose (a : csr) (ch : chol_indices) (wsize : nat) (x z y w l_data : vec) : vec :=
  fold_left (fun l row =>
    let start := nth row (ch_lindptr ch) 0%nat in
    fold_left (k_chol_value a ch wsize x z y w row) (seq start (nth (row + 1) (ch_lindptr ch) 0%nat - start)) l)
    (seq 0 (length a)) l_data.

(** path_following_direct.cl 78-131 [cholesky_solve]. *)
Fixpoint k_forward_row (l_data : vec) (i jk : nat) (cols : list nat) (x : vec) : vec :=
  match cols with
  | [] => x
  | j :: cols' =>
      if (j <? i)%nat then k_forward_row l_data i (S jk) cols' (put x i (own x i - own x j * own l_data jk))
      else put x i (own x i / own l_data jk)
  end.
Definition k_forward (n : nat) (ch : chol_indices) (l_data b x : vec) : vec :=
  fold_left (fun x i => let start := nth i (ch_lindptr ch) 0%nat in
    k_forward_row l_data i start (skipn start (ch_lindices ch)) (put x i (own b i))) (seq 0 n) x.
Definition k_backward (n : nat) (ch : chol_indices) (l_data x : vec) : vec :=
  let ltindptr := row_offset (lt_rows ch n) in
  let ltindices := concat (lt_rows ch n) in
  fold_left (fun x i =>
    let x := fold_left (fun x jk => put x i (own x i - own x (nth jk ltindices 0%nat) * own l_data (nth jk (lt_map ch) 0%nat)))
      (seq (ltindptr i + 1) (ltindptr (i + 1)%nat - (ltindptr i + 1))) x in
    put x i (own x i / own l_data (nth (i + 1) (ch_lindptr ch) 0%nat - 1)%nat)) (rev (seq 0 n)) x.
Definition k_solve (n : nat) (ch : chol_indices) (l_data b x : vec) : vec := k_backward n ch l_data (k_forward n ch l_data b x).

(** path_following_direct.cl 176-194: the test at the start of an iteration. *)
Definition k_done (s : ipm) (t : tolerances) (m : dmem) : bool :=
  let normr := k_primal (i_a s) (i_ncols s) (m_x m) (m_w m) (i_wsize s) (m_b m) in
  let norms := k_dual (i_at s) (length (i_a s)) (m_y m) (m_c m) (m_z m) in
  let gamma := k_dot (m_z m) (m_x m) (i_ncols s) + k_dot (m_w m) (m_y m) (i_wsize s) in
  let gamma := gamma / (1 + k_norm (m_x m) (i_ncols s) + k_norm (m_y m) (length (i_a s))) in
  (below normr (t_primal t) && below norms (t_dual t) && below gamma (t_optimality t))%bool.
(** path_following_direct.cl 180-181 and 196-255: the rest of an iteration. *)
Definition k_move (s : ipm) (m : dmem) : dmem :=
  let gamma := k_dot (m_z m) (m_x m) (i_ncols s) + k_dot (m_w m) (m_y m) (i_wsize s) in
  let mu := / 10 * gamma / INR (i_ncols s + i_wsize s) in
  let '(tmp, rhs) := k_rhs (i_a s) (i_at s) (m_x m) (m_z m) (m_y m) (m_b m) (m_c m) mu (i_wsize s) (m_tmp m) (m_rhs m) in
  let l := k_decompose (i_a s) (i_chol s) (i_wsize s) (m_x m) (m_z m) (m_y m) (m_w m) (m_l m) in
  let dy := k_solve (length (i_a s)) (i_chol s) l rhs (m_dy m) in
  let '(dx, dz, dw, theta) := k_directions (i_at s) (m_x m) (m_z m) (m_y m) (m_w m) (i_wsize s) (m_c m) dy mu (m_dx m) (m_dz m) (m_dw m) in
  let theta := step_size theta in
  mkMem l (k_update (m_x m) dx 1 theta (i_ncols s)) (k_update (m_z m) dz 1 theta (i_ncols s))
        (k_update (m_y m) dy 1 theta (length (i_a s))) (k_update (m_w m) dw 1 theta (i_wsize s))
        (m_b m) (m_c m) dx dz dy dw tmp rhs (m_status m).
Definition set_status (m : dmem) (v : nat) : dmem :=
  mkMem (m_l m) (m_x m) (m_z m) (m_y m) (m_w m) (m_b m) (m_c m) (m_dx m) (m_dz m) (m_dy m) (m_dw m) (m_tmp m) (m_rhs m)
        (fun i => if (i =? gid)%nat then v else m_status m i).
(** path_following_direct.cl 133-259 [normal_eqn_step]: one iteration of the loop
    of the work item, which has [S rest] iterations to go, and what is left after
    it ([return] leaves none). *)
Definition k_iteration (s : ipm) (t : tolerances) (m : dmem) (rest : nat) : dmem * nat :=
  if k_done s t m then (set_status m 0, 0%nat) else (set_status (k_move s m) 1, rest).
(** path_following_direct.cl 261-274 [normal_eqn_init]. *)
Definition k_init (s : ipm) (m : dmem) : dmem :=
  mkMem (m_l m) (k_set (m_x m) 1000 (i_ncols s)) (k_set (m_z m) 1000 (i_ncols s))
        (k_set (m_y m) 1000 (length (i_a s))) (k_set (m_w m) 1000 (i_wsize s))
        (m_b m) (m_c m) (m_dx m) (m_dz m) (m_dy m) (m_dw m) (m_tmp m) (m_rhs m) (m_status m).
End Item.

(** *** The device *)

(** The device runs the work items of a kernel at the same time.  [sched] says
    whose iteration is next; the iterations of different work items may be mixed in
    any way.  The numbers are the iterations to go. *)
Definition device := (dmem * (nat -> nat))%type.
Definition run_item (gsize : nat) (s : ipm) (t : tolerances) (st : device) (gid : nat) : device :=
  match snd st gid with
  | O => st
  | S rest => let r := k_iteration gsize gid s t (fst st) rest in
              (fst r, fun i => if (i =? gid)%nat then snd r else snd st i)
  end.
(** path_following_direct.cl 173: 100 iterations. *)
Definition run_kernel (gsize : nat) (s : ipm) (t : tolerances) (sched : list nat) (m : dmem) : dmem :=
  fst (fold_left (run_item gsize s t) sched (m, fun _ => 100%nat)).

(** ipm-ocl/src/lib.rs 521-563 [solve]; the calls of the kernel are numbered
    backwards.  [scheds] are the schedules of the device. *)
Fixpoint ocl_loop (gsize : nat) (s : ipm) (t : tolerances) (scheds : nat -> list nat) (max_iterations : nat) (m : dmem) : option dmem :=
  match max_iterations with
  | O => None
  | S k => let m' := run_kernel gsize s t (scheds k) m in
           if forallb (fun i => m_status m' i =? 0)%nat (seq 0 gsize) then Some m' else ocl_loop gsize s t scheds k m'
  end.
Definition write_bc (m : dmem) (b c : vec) : dmem :=
  mkMem (m_l m) (m_x m) (m_z m) (m_y m) (m_w m) b c (m_dx m) (m_dz m) (m_dy m) (m_dw m) (m_tmp m) (m_rhs m) (m_status m).
(** The work items of the first kernel have one step each, so their order is all
    there is. *)
Record schedules := mkSched { sc_init : list nat; sc_steps : nat -> list nat }.
Definition ocl_solve (gsize : nat) (s : ipm) (t : tolerances) (sc : schedules) (max_iterations : nat) (m : dmem) (b c : vec) : res unit dmem :=
  let m := fold_left (fun m gid => k_init gsize gid s m) (sc_init sc) (write_bc m b c) in
  match ocl_loop gsize s t (sc_steps sc) max_iterations m with
  | Some m' => Ok m'
  | None => Panic
  end.

(** *** The linear programmes of a chunk: pywr-core/src/solvers/ipm_ocl/mod.rs *)
Local Open Scope nat_scope.

(** 53-60 [Lp]; [BuiltSolver] (259-263). *)
Record olp := mkOlp {
  ol_ineq : list (list (nat * Q)); ol_eq : list (list (nat * Q)); ol_num : nat; ol_ncols : nat;
  ol_upper : list Q; ol_obj : list Q }.
Record obuilt := mkOb { ob_lp : olp; ob_node_rows : list nat }.
(** 412-433 [create] with 169-212 [build].  The columns (439-479), the rows
    (482-581) and the search for equal rows (144-167) are the same code as in
    ipm_simd (IpmLp.v). *)
Definition ocl_create (net : network) (num_lps : nat) : res setup_error obuilt :=
  match net_edges net with
  | [] => Err NoEdges
  | _ => match balance_rows (col_for_edge net) (net_nodes net) with
         | Ok eqs =>
             let '(ineqs, ids) := add_upper_rows [] (flat_map (node_upper_rows (col_for_edge net)) (net_nodes net)) in
             let ncols := cm_ncols (edge_columns net) in
             Ok (mkOb (mkOlp ineqs eqs num_lps ncols (repeat 0%Q ((length eqs + length ineqs) * num_lps)) (repeat 0%Q (ncols * num_lps))) ids)
         | _ => Panic
         end
  end.
(** The loops [for (i, v) in vs.iter().enumerate()] of 74-76 and 93-95 over the
    numbers from [first] on.  An index out of range would panic; the columns and
    rows exist (C65). *)
Fixpoint change_from (f : Q -> Q -> Q) (first : nat) (vs : list Q) (l : list Q) : list Q :=
  match vs with
  | [] => l
  | v :: r => change_from f (S first) r (Lp.upd first (fun q => f q v) l)
  end.
(** 68-77 [add_obj_coefficient], 86-96 [apply_row_bounds]: the panic is for a
    slice of the wrong length. *)
Definition add_obj_coefficient (num_lps col : nat) (cs : list Q) (obj : list Q) : res unit (list Q) :=
  if length cs =? num_lps then Ok (change_from Qplus (col * num_lps) cs obj) else Panic.
Definition ocl_apply (num_lps row : nat) (ub : list Q) (up : list Q) : res unit (list Q) :=
  if length ub =? num_lps then Ok (change_from fmin (row * num_lps) ub up) else Panic.
(** 80-84 [reset_row_bounds]. *)
Definition ocl_reset (n : nat) (up : list Q) : list Q := map (fun _ => B_MAX) (firstn n up) ++ skipn n up.
(** 300-335 [update_edge_objectives] with 64-66. *)
Definition ocl_objectives (net : network) (num_lps : nat) (sts : list lp_state) (obj : list Q) : res unit (list Q) :=
  fold_left (fun o ie => rbind o (add_obj_coefficient num_lps (col_for_edge net (fst ie)) (map (fun s => (- edge_cost net (st_env s) (snd ie))%Q) sts)))
            (combine (seq 0 (length (net_edges net))) (net_edges net)) (Ok (map (fun _ => 0%Q) obj)).
(** 338-388 [update_node_constraint_bounds]: the values of the nodes and their
    order are those of IpmLp.v. *)
Fixpoint ocl_apply_limits (num_lps : nat) (ids : list nat) (limits : list (list Q)) (up : list Q) : res unit (list Q) :=
  match limits with
  | [] => Ok up
  | ub :: r => match ids with
               | id :: ids' => rbind (ocl_apply num_lps id ub up) (ocl_apply_limits num_lps ids' r)
               | [] => Panic                  (* [row_ids.next().unwrap()] *)
               end
  end.
(** 278-297 [update]. *)
Definition ocl_update (net : network) (b : obuilt) (sts : list lp_state) : res unit obuilt :=
  let l := ob_lp b in
  rbind (ocl_objectives net (ol_num l) sts (ol_obj l)) (fun obj =>
  rbind (ocl_apply_limits (ol_num l) (ob_node_rows b) (nodes_limits sts 0 (net_nodes net)) (ocl_reset (length (ol_ineq l) * ol_num l) (ol_upper l)))
    (fun up => Ok (mkOb (mkOlp (ol_ineq l) (ol_eq l) (ol_num l) (ol_ncols l) up obj) (ob_node_rows b)))).

(** *** The solver *)

(** 630-648 and 756-774: the matrix given to [from_data]. *)
Definition ocl_ipm (l : olp) : ipm := ipm_new (map real_row (ol_ineq l ++ ol_eq l)) (ol_ncols l) (length (ol_ineq l)).
Definition real_buffer (l : list Q) : vec := fun i => Q2R (nth i l 0%Q).

(** 584-590 [ClIpmF32Solver], 707-713 [ClIpmF64Solver]: the chunks, each with its
    programme and its buffers on the device. *)
Definition ochunk := (obuilt * dmem)%type.
(** The slice method [chunks(size)]. *)
Fixpoint chunks_fuel {A} (fuel size : nat) (l : list A) : list (list A) :=
  match fuel, l with
  | S f, _ :: _ => firstn size l :: chunks_fuel f size (skipn size l)
  | _, _ => []
  end.
Definition chunks {A} (size : nat) (l : list A) : list (list A) := chunks_fuel (length l) size l.
(** 623-624 and 746-747: the [f32] solver calls [unwrap], the [f64] solver takes 1
    instead of 0.  [num_chunks] is not 0. *)
Inductive precision := F32 | F64.
Definition chunk_size (p : precision) (num_scenarios num_chunks : nat) : res setup_error nat :=
  match num_scenarios / num_chunks with
  | O => match p with F32 => Panic | F64 => Ok 1 end
  | n => Ok n
  end.
(** 603-659 and 726-786 [setup].  [fresh] is what the buffers of the device hold
    at first. *)
Record osolver := mkOs { os_chunks : list ochunk; os_size : nat }.
Definition ocl_setup (p : precision) (net : network) (num_scenarios num_chunks : nat) (fresh : dmem) : res setup_error osolver :=
  rbind (chunk_size p num_scenarios num_chunks) (fun size =>
  rbind (rmap (fun c => rbind (ocl_create net (length c)) (fun b => Ok (b, fresh))) (chunks size (seq 0 num_scenarios))) (fun cs =>
  Ok (mkOs cs size))).

(** 674-701 and 802-827: one chunk; the flow of every edge in every state.  The
    flow is read from the flat copy of [x]. *)
Definition ocl_solve_chunk (net : network) (t : tolerances) (max_iterations : nat) (sc : schedules) (c : ochunk) (sts : list lp_state)
    : res unit (ochunk * list (nat -> R)) :=
  rbind (ocl_update net (fst c) sts) (fun b =>
  let l := ob_lp b in
  rbind (ocl_solve (ol_num l) (ocl_ipm l) t sc max_iterations (snd c) (real_buffer (ol_upper l)) (real_buffer (ol_obj l))) (fun m =>
  Ok ((b, m), map (fun i => fun e => m_x m (col_for_edge net e * length sts + i)) (seq 0 (length sts))))).
(** 661-704 and 788-830 [solve]: the chunks share nothing (the order in which
    they run does not matter); [scs] are the schedules of each. *)
Definition ocl_solver_solve (net : network) (t : tolerances) (max_iterations : nat) (scs : nat -> schedules) (o : osolver) (sts : list lp_state)
    : res unit (osolver * list (nat -> R)) :=
  let chs := chunks (os_size o) sts in
  rbind (rmap (fun p => ocl_solve_chunk net t max_iterations (scs (fst p)) (fst (snd p)) (snd (snd p)))
              (combine (seq 0 (length chs)) (combine (os_chunks o) chs))) (fun rs =>
  Ok (mkOs (map fst rs) (os_size o), concat (map snd rs))).
(** Calls of [solve] one after the other; the flows of the last one. *)
Fixpoint ocl_solver_run (net : network) (t : tolerances) (max_iterations : nat) (scs : nat -> nat -> schedules) (o : osolver)
    (hist : list (list lp_state)) (last : list lp_state) : res unit (list (nat -> R)) :=
  match hist with
  | [] => rbind (ocl_solver_solve net t max_iterations (scs 0) o last) (fun r => Ok (snd r))
  | sts :: rest => rbind (ocl_solver_solve net t max_iterations (scs 0) o sts) (fun r => ocl_solver_run net t max_iterations (fun n => scs (S n)) (fst r) rest last)
  end.
