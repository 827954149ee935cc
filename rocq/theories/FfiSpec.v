(** What each call into a solver library may be given: the memory it reads and
    writes behind its pointers must be there, and its indices must name rows
    and columns that the library's object has. *)
From Coq Require Import Sorted.
From Verif Require Import Base Calendar Network NetworkBuild Lp Backends Ffi.
Open Scope nat_scope.

(** [l] holds at least [n] numbers. *)
Definition holds {A} (n : nat) (l : list A) : Prop := n <= length l.

(** Rows given by [starts]: row [i] is the part of [index] from [starts[i]] to
    [stop i]; the parts follow each other from the beginning, lie within [nnz]
    places, and name existing columns, each once. *)
Definition rows_within (n nnz cols : nat) (starts : list nat) (stop : nat -> nat) (index : list nat) : Prop :=
  (0 < n -> nth 0 starts 0 = 0) /\
  forall i, i < n ->
    nth i starts 0 <= stop i <= nnz /\ (S i < n -> stop i = nth (S i) starts 0) /\
    NoDup (slice (nth i starts 0) (stop i) index) /\
    forall j, nth i starts 0 <= j < stop i -> nth j index 0 < cols.

Definition allowed (p : problem) (c : call) : Prop :=
  let rows := length (pb_rows p) in
  let cols := length (pb_cols p) in
  match c with
  | H_addCols n cost lower upper => holds n cost /\ holds n lower /\ holds n upper
  | H_changeColIntegrality i _ => i < cols
  | H_addRows n lower upper nnz starts index value =>
      holds n lower /\ holds n upper /\ holds n starts /\ holds nnz index /\ holds nnz value /\
      rows_within n nnz cols starts (fun i => if S i =? n then nnz else nth (S i) starts 0) index
  | H_changeColsCostByRange from to cost =>
      (* an empty range touches nothing *)
      (to < from)%Z \/ (0 <= from)%Z /\ (to < Z.of_nat cols)%Z /\ (to - from + 1 <= Z.of_nat (length cost))%Z
  | H_changeRowsBoundsByMask mask lower upper => holds rows mask /\ holds rows lower /\ holds rows upper
  | H_changeCoeff r c _ | C_modifyCoefficient r c _ => r < rows /\ c < cols
  | H_getSolution cv cd rv rd => cols <= cv /\ cols <= cd /\ rows <= rv /\ rows <= rd
  | C_resize r n => rows <= r /\ cols <= n
  | C_chgColumnLower l | C_chgColumnUpper l | C_chgObjCoefficients l => holds cols l
  | C_addRows n lower upper starts columns elements =>
      holds n lower /\ holds n upper /\ holds (S n) starts /\
      holds (nth n starts 0) columns /\ holds (nth n starts 0) elements /\
      rows_within n (nth n starts 0) cols starts (fun i => nth (S i) starts 0) columns
  | C_chgRowLower l | C_chgRowUpper l => holds rows l
  | C_primalColumnSolution n | B_getColSolution n => n <= cols
  | B_addRow nz columns coefs => holds nz columns /\ holds nz coefs /\ NoDup (firstn nz columns) /\ forall c, In c (firstn nz columns) -> c < cols
  | B_setRowUpper i _ | B_setRowLower i _ => i < rows
  | B_setObjCoeff i _ => i < cols
  | B_addCol _ _ _ _ | H_run | H_clearSolver | H_writeModel | C_initialDualSolve | C_dual | B_solve => True
  | Create | Delete => True
  end.

(** A call needs an object; [Create] must not lose one. *)
Definition may (m : library) (c : call) : Prop :=
  match c, m with
  | Create, None => True
  | Create, Some _ => False
  | _, None => False
  | _, Some p => allowed p c
  end.

(** Every call in the list may be made when its turn comes. *)
Fixpoint safe (cs : list call) (m : library) : Prop :=
  match cs with
  | [] => True
  | c :: r => may m c /\ safe r (call_on m c)
  end.

(** The number of places the solution read by a call has. *)
Definition solution_places (c : call) : option nat :=
  match c with
  | H_getSolution cv _ _ _ => Some cv
  | C_primalColumnSolution n | B_getColSolution n => Some n
  | _ => None
  end.

(** The calls that solve the problem of a time-step. *)
Definition solves (c : call) : bool := match c with H_run | C_dual | B_solve => true | _ => false end.

(** What the library reports of one solve after another: HiGHS is run a second
    time if the first run ends with an unknown status. *)
Definition reports (k : backend) (ss : list step) : list status :=
  flat_map (fun s => match k, sp_first s with Highs, SUnknown => [sp_first s; sp_second s] | _, _ => [sp_first s] end) ss.

(** A solution is only read when the call before it was a solve that reported an
    optimal solution; every solve has the next report. *)
Fixpoint reads_optimal (rs : list status) (last : option status) (cs : list call) : Prop :=
  match cs with
  | [] => True
  | c :: rest =>
      if solves c then match rs with r :: rs' => reads_optimal rs' (Some r) rest | [] => False end
      else match solution_places c with
           | Some _ => last = Some SOptimal /\ reads_optimal rs None rest
           | None => reads_optimal rs None rest
           end
  end.
