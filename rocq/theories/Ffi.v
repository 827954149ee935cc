(** The calls a solver makes into its C library: solvers/highs/mod.rs,
    solvers/clp/mod.rs and solvers/cbc/mod.rs, every [unsafe] block that is
    reached when a network is set up, stepped and dropped.

    [Backends.v] says what the calls come to; here they are listed one by one,
    with the pointers and numbers they are given.  A pointer is the list it
    points to: its length is the memory behind it.  [FfiSpec.v] says what each
    call may be given.

    Simplifications: index types are [nat], so the casts to [c_int] and
    [HighsInt] are taken to be exact; names, log levels, options and the file
    written after a failure carry no arrays and are left out or carry nothing;
    the library's statuses are given, one pair for each time-step (the second is
    read by HiGHS only); a status other than "error" is taken for granted in the
    calls that return one; the methods marked [allow(dead_code)] are left out. *)
From Verif Require Import Base Calendar Network NetworkBuild Lp Backends.
Open Scope nat_scope.

Inductive call :=
(** [Highs_create], [Clp_newModel], [Cbc_newModel]; [Clp_deleteModel],
    [Cbc_deleteModel]. *)
| Create | Delete
(** HiGHS. *)
| H_addCols (n : nat) (cost lower upper : list Q)
| H_changeColIntegrality (col : nat) (t : col_type)
| H_addRows (n : nat) (lower upper : list Q) (nnz : nat) (starts index : list nat) (value : list Q)
| H_changeColsCostByRange (from to : Z) (cost : list Q)
| H_changeRowsBoundsByMask (mask : list nat) (lower upper : list Q)
| H_changeCoeff (row col : nat) (v : Q)
| H_run | H_clearSolver | H_writeModel
| H_getSolution (col_value col_dual row_value row_dual : nat)     (* the lengths of the four buffers *)
(** CLP. *)
| C_resize (rows cols : nat)
| C_chgColumnLower (l : list Q) | C_chgColumnUpper (l : list Q) | C_chgObjCoefficients (l : list Q)
| C_addRows (n : nat) (lower upper : list Q) (starts columns : list nat) (elements : list Q)
| C_initialDualSolve
| C_chgRowLower (l : list Q) | C_chgRowUpper (l : list Q)
| C_modifyCoefficient (row col : nat) (v : Q)
| C_dual
| C_primalColumnSolution (read : nat)                             (* the numbers read from the pointer *)
(** CBC. *)
| B_addCol (lower upper obj : Q) (integer : bool)
| B_addRow (nz : nat) (cols : list nat) (coefs : list Q)
| B_setRowUpper (row : nat) (v : Q) | B_setRowLower (row : nat) (v : Q)
| B_setObjCoeff (col : nat) (v : Q)
| B_solve
| B_getColSolution (read : nat).

(** *** What a call does to the problem the library holds *)
Definition set_cost (v : Q) (c : pcol) : pcol := mkPc (pc_lower c) (pc_upper c) v (pc_int c).
Definition set_int (t : col_type) (c : pcol) : pcol := mkPc (pc_lower c) (pc_upper c) (pc_obj c) (is_int t).
Definition set_lower (v : Q) (r : prow) : prow := mkPr v (pr_upper r) (pr_cols r).
Definition set_upper (v : Q) (r : prow) : prow := mkPr (pr_lower r) v (pr_cols r).
Definition each_col (p : problem) (f : nat -> pcol -> pcol) : problem :=
  mkPb (map (fun ic => f (fst ic) (snd ic)) (combine (seq 0 (length (pb_cols p))) (pb_cols p))) (pb_rows p).

(** The documentation of the libraries (HiGHS: highs_c_api.h; CLP:
    Clp_C_Interface.h; CBC: Cbc_C_Interface.h), for problems that are within
    the rules of [FfiSpec.v]. *)
Definition effect (c : call) (p : problem) : problem :=
  match c with
  | H_addCols n cost lower upper =>
      mkPb (pb_cols p ++ map (fun i => mkPc (at_ lower i) (at_ upper i) (at_ cost i) false) (seq 0 n)) (pb_rows p)
  | H_changeColIntegrality i t => mkPb (upd i (set_int t) (pb_cols p)) (pb_rows p)
  | H_addRows n lower upper nnz starts index value =>
      mkPb (pb_cols p)
           (pb_rows p ++ map (fun i => mkPr (at_ lower i) (at_ upper i)
                               (row_entries (nth i starts 0) (if S i =? n then nnz else nth (S i) starts 0) index value)) (seq 0 n))
  | H_changeColsCostByRange from to cost =>
      each_col p (fun i c => if ((from <=? Z.of_nat i) && (Z.of_nat i <=? to))%Z
                             then set_cost (at_ cost (i - Z.to_nat from)) c else c)
  | H_changeRowsBoundsByMask mask lower upper =>
      change_rows p (fun i r => if nth i mask 0 =? 0 then r else mkPr (at_ lower i) (at_ upper i) (pr_cols r))
  | H_changeCoeff r c v | C_modifyCoefficient r c v => change_coefficient p r c v
  | C_resize _ n => mkPb (pb_cols p ++ repeat (mkPc 0 0 0 false) (n - length (pb_cols p))) (pb_rows p)
  | C_chgColumnLower l => each_col p (fun i c => mkPc (at_ l i) (pc_upper c) (pc_obj c) (pc_int c))
  | C_chgColumnUpper l => each_col p (fun i c => mkPc (pc_lower c) (at_ l i) (pc_obj c) (pc_int c))
  | C_chgObjCoefficients l => each_col p (fun i c => set_cost (at_ l i) c)
  | C_addRows n lower upper starts columns elements =>
      mkPb (pb_cols p)
           (pb_rows p ++ map (fun i => mkPr (at_ lower i) (at_ upper i)
                               (row_entries (nth i starts 0) (nth (S i) starts 0) columns elements)) (seq 0 n))
  | C_chgRowLower l => change_rows p (fun i r => set_lower (at_ l i) r)
  | C_chgRowUpper l => change_rows p (fun i r => set_upper (at_ l i) r)
  | B_addCol lower upper obj integer => mkPb (pb_cols p ++ [mkPc lower upper obj integer]) (pb_rows p)
  | B_addRow nz cols coefs => mkPb (pb_cols p) (pb_rows p ++ [mkPr 0 0 (combine (firstn nz cols) (firstn nz coefs))])
  | B_setRowUpper i v => mkPb (pb_cols p) (upd i (set_upper v) (pb_rows p))
  | B_setRowLower i v => mkPb (pb_cols p) (upd i (set_lower v) (pb_rows p))
  | B_setObjCoeff i v => mkPb (upd i (set_cost v) (pb_cols p)) (pb_rows p)
  | Create | Delete | H_run | H_clearSolver | H_writeModel | H_getSolution _ _ _ _
  | C_initialDualSolve | C_dual | C_primalColumnSolution _ | B_solve | B_getColSolution _ => p
  end.

(** The library's object: none before [Create] and after [Delete]. *)
Notation library := (option problem).
Definition call_on (m : library) (c : call) : library :=
  match c with
  | Create => Some (mkPb [] [])
  | Delete => None
  | _ => option_map (effect c) m
  end.
Definition calls_on (cs : list call) (m : library) : library := fold_left call_on cs m.

(** *** HiGHS *)

(** highs/mod.rs:331-366 [setup], 167-227 [add_cols], [add_rows]: the number
    of columns is that of the upper bounds, of rows likewise (builder.rs:330-342). *)
Definition highs_setup_calls (a : arrays) : list call :=
  Create ::
  H_addCols (length (ar_col_upper a)) (ar_obj a) (ar_col_lower a) (ar_col_upper a) ::
  map (fun it => H_changeColIntegrality (fst it) (snd it)) (combine (seq 0 (length (ar_col_type a))) (ar_col_type a)) ++
  [H_addRows (length (ar_upper a)) (ar_lower a) (ar_upper a) (length (ar_elements a)) (ar_starts a) (ar_columns a) (ar_elements a)].

(** highs/mod.rs:367-398, up to [run]; 229-251. *)
Definition highs_send_calls (a : arrays) : list call :=
  H_changeColsCostByRange 0 (Z.of_nat (length (ar_col_upper a)) - 1) (ar_obj a) ::
  H_changeRowsBoundsByMask (ar_mask a) (ar_lower a) (ar_upper a) ::
  map (fun u => H_changeCoeff (fst (fst u)) (snd (fst u)) (clamp (snd u))) (ar_updates a).

(** highs/mod.rs:402-420, 253-260 [run] and 276-294 [primal_column_solution];
    the flag says whether the time-step goes on. *)
Definition highs_run_calls (a : arrays) (r1 r2 : status) : list call * bool :=
  let get := H_getSolution (length (ar_col_upper a)) (length (ar_col_upper a)) (length (ar_upper a)) (length (ar_upper a)) in
  match r1, r2 with
  | SOptimal, _ => ([H_run; get], true)
  | SUnknown, SOptimal => ([H_run; H_clearSolver; H_run; get], true)
  | SUnknown, _ => ([H_run; H_clearSolver; H_run; H_writeModel], false)
  | SOther, _ => ([H_run; H_writeModel], false)
  end.

(** *** CLP *)

(** clp/mod.rs:328-350 [from_builder], 175-238. *)
Definition clp_setup_calls (a : arrays) : list call :=
  [Create; C_resize 0 (length (ar_col_upper a)); C_chgColumnLower (ar_col_lower a); C_chgColumnUpper (ar_col_upper a);
   C_chgObjCoefficients (ar_obj a);
   C_addRows (length (ar_lower a)) (ar_lower a) (ar_upper a) (ar_starts a) (ar_columns a) (ar_elements a);
   C_initialDualSolve].

(** clp/mod.rs:389-411. *)
Definition clp_send_calls (a : arrays) : list call :=
  C_chgObjCoefficients (ar_obj a) :: C_chgRowLower (ar_lower a) :: C_chgRowUpper (ar_upper a) ::
  map (fun u => C_modifyCoefficient (fst (fst u)) (snd (fst u)) (snd u)) (ar_updates a).

(** clp/mod.rs:260-286 [dual_solve], [primal_column_solution], 352-358. *)
Definition clp_run_calls (a : arrays) (r1 : status) : list call * bool :=
  match r1 with
  | SOptimal => ([C_dual; C_primalColumnSolution (length (ar_col_upper a))], true)
  | _ => ([C_dual], false)
  end.

(** *** CBC *)

(** cbc/mod.rs:87-120 [add_cols]: indexing a slice beyond its end panics. *)
Definition cbc_col_call (a : arrays) (i : nat) : res unit call :=
  match nth_error (ar_col_lower a) i, nth_error (ar_col_upper a) i, nth_error (ar_col_type a) i, nth_error (ar_obj a) i with
  | Some l, Some u, Some t, Some o => Ok (B_addCol l u o (is_int t))
  | _, _, _, _ => Panic
  end.

(** cbc/mod.rs:122-156 [add_rows]: so does a range that is not in the slice. *)
Definition checked_slice {A} (st en : nat) (l : list A) : res unit (list A) :=
  if (st <=? en) && (en <=? length l) then Ok (slice st en l) else Panic.
Definition cbc_row_calls (a : arrays) (i : nat) : res unit (list call) :=
  match nth_error (ar_starts a) i, nth_error (ar_starts a) (S i) with
  | Some st, Some en =>
      rbind (checked_slice st en (ar_columns a)) (fun cols =>
      rbind (checked_slice st en (ar_elements a)) (fun coefs =>
      match nth_error (ar_upper a) i, nth_error (ar_lower a) i with
      | Some u, Some l => Ok [B_addRow (en - st) cols coefs; B_setRowUpper i u; B_setRowLower i l]
      | _, _ => Panic
      end))
  | _, _ => Panic
  end.
Definition cbc_setup_calls (a : arrays) : res unit (list call) :=
  rbind (rmap (cbc_col_call a) (seq 0 (length (ar_col_lower a)))) (fun cols =>
  rbind (rmap (cbc_row_calls a) (seq 0 (length (ar_lower a)))) (fun rows =>
  Ok (Create :: cols ++ concat rows))).

(** cbc/mod.rs:266-281, 63-85. *)
Definition numbered {A} (l : list A) : list (nat * A) := combine (seq 0 (length l)) l.
Definition cbc_send_calls (a : arrays) : list call :=
  map (fun iv => B_setObjCoeff (fst iv) (snd iv)) (numbered (ar_obj a)) ++
  map (fun iv => B_setRowLower (fst iv) (snd iv)) (numbered (ar_lower a)) ++
  map (fun iv => B_setRowUpper (fst iv) (snd iv)) (numbered (ar_upper a)).

(** cbc/mod.rs:283-292, 158-174: changed coefficients end the time-step, and a
    non-zero code panics. *)
Definition cbc_run_calls (a : arrays) (r1 : status) : list call * bool :=
  match ar_updates a with
  | [] => match r1 with
          | SOptimal => ([B_solve; B_getColSolution (length (ar_col_upper a))], true)
          | _ => ([B_solve], false)
          end
  | _ => ([], false)
  end.

(** *** A solver's life *)
Definition setup_calls (k : backend) (a : arrays) : res unit (list call) :=
  match k with
  | Highs => Ok (highs_setup_calls a)
  | Clp => Ok (clp_setup_calls a)
  | Cbc => cbc_setup_calls a
  | Microlp => Ok []
  end.
Definition send_calls (k : backend) (a : arrays) : list call :=
  match k with Highs => highs_send_calls a | Clp => clp_send_calls a | Cbc => cbc_send_calls a | Microlp => [] end.
Definition run_calls (k : backend) (a : arrays) (r1 r2 : status) : list call * bool :=
  match k with
  | Highs => highs_run_calls a r1 r2
  | Clp => clp_run_calls a r1
  | Cbc => cbc_run_calls a r1
  | Microlp => ([], true)
  end.

(** One time-step: its input, and the statuses the library gives. *)
Record step := mkStep { sp_state : lp_state; sp_first : status; sp_second : status }.

(** The calls of [Solver::solve] in one step after another.  A step that fails
    ends the run. *)
Fixpoint steps_calls (k : backend) (net : network) (ids : built) (ss : list step) (a : arrays) : list call :=
  match ss with
  | [] => []
  | s :: r =>
      match update_arrays net ids (sp_state s) a with
      | Ok a' =>
          let (cs, go) := run_calls k a' (sp_first s) (sp_second s) in
          send_calls k a' ++ cs ++ (if go then steps_calls k net ids r a' else [])
      | Err _ | Panic => []
      end
  end.

(** Dropping the solver: clp/mod.rs:158-164 and cbc/mod.rs:46-52; highs/mod.rs
    has no [Drop], and nothing else calls [Highs_destroy]. *)
Definition drop_calls (k : backend) : list call :=
  match k with Clp | Cbc => [Delete] | Highs | Microlp => [] end.

(** All calls made for one scenario, from set-up to the end of the run. *)
Definition life (k : backend) (fm : Q) (order : list (list nat)) (net : network) (ss : list step) : sres (list call) :=
  match create fm order net with
  | Panic => Panic
  | Err e => Err (ESetup e)
  | Ok b =>
      let a := build_arrays (bt_lp b) in
      match setup_calls k a with
      | Ok cs => Ok (cs ++ steps_calls k net b ss a ++ drop_calls k)
      | Err _ | Panic => Panic
      end
  end.

(** The places of the solution that [solve] reads, one for each edge
    (highs/mod.rs:428-432, clp/mod.rs:425-429, cbc/mod.rs:300-306). *)
Definition places_read (net : network) : list nat := map (col_for_edge net) (seq 0 (length (net_edges net))).
