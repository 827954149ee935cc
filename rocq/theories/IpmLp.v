(** The linear programme the interior point solver builds for a network and
    updates every time-step, and the solver that uses it:
    pywr-core/src/solvers/ipm_simd/mod.rs.

    Numbers are rationals up to the call of the interior point method, which
    works on real numbers (IpmStep.v).  An [f64x4] is a list of four numbers. *)
From Coq Require Import Reals Qreals.
From Verif Require Import Base IpmCholesky IpmStep Calendar Network NetworkBuild Lp.
Open Scope nat_scope.

(** 21 [B_MAX]. *)
Definition B_MAX : Q := 999999.
(** 69-83 and 93-107: a value per state, padded to the four lanes with the last
    one.  The panics for no value and for more than four are not modelled: the
    states come in chunks of one to four (665). *)
Definition pad (vs : list Q) : list Q := vs ++ repeat (last vs 0%Q) (4 - length vs).
Definition splat (q : Q) : list Q := repeat q 4.
Definition lanes2 (f : Q -> Q -> Q) (a b : list Q) : list Q := map (fun p => f (fst p) (snd p)) (combine a b).

(** 55-61 [Lp].  The compressed matrices (23-53) are kept row by row. *)
Record ilp := mkIlp {
  il_ineq : list (list (nat * Q)); il_eq : list (list (nat * Q)); il_ncols : nat;
  il_upper : list (list Q); il_obj : list (list Q) }.
(** 110-129 [get_full_matrix]. *)
Definition full_matrix (l : ilp) : list (list (nat * Q)) := il_ineq l ++ il_eq l.

(** 154-176 [LpBuilder::add_row] for a row with an upper bound: a row equal to
    an earlier one is not added again. *)
Definition add_upper_row (rows : list (list (nat * Q))) (r : list (nat * Q)) : list (list (nat * Q)) * nat :=
  match position (fun r' => cols_eqb r' r) rows with
  | Some i => (rows, i)
  | None => (rows ++ [r], length rows)
  end.
Fixpoint add_upper_rows (rows : list (list (nat * Q))) (rs : list (list (nat * Q))) : list (list (nat * Q)) * list nat :=
  match rs with
  | [] => (rows, [])
  | r :: rest => let '(rows1, i) := add_upper_row rows r in
                 let '(rows2, is) := add_upper_rows rows1 rest in (rows2, i :: is)
  end.
(** 256-261 [clone_negative]. *)
Definition clone_negative (r : list (nat * Q)) : list (nat * Q) := map (fun e => (fst e, - snd e)%Q) r.

(** 497-526 [create_mass_balance_constraints], one node: a row, or none if both
    edges have the same column.  [add_edges] and [add_node] (528-559) are those
    of Lp.v: the code is the same. *)
Definition balance_row (col : nat -> nat) (n : node) : res unit (list (list (nat * Q))) :=
  match n_type n with
  | TLink => let cols := add_edges col (n_out n) (- (1)) (add_edges col (n_in n) 1 []) in
             match length cols with
             | 0 => Panic
             | 1 => Ok []
             | _ => Ok [cols]
             end
  | _ => Ok []
  end.
Definition balance_rows (col : nat -> nat) (ns : list node) : res unit (list (list (nat * Q))) :=
  rbind (rmap (balance_row col) ns) (fun l => Ok (concat l)).

(** 565-596 [create_node_constraints], one node. *)
Definition node_upper_rows (col : nat -> nat) (n : node) : list (list (nat * Q)) :=
  match n_type n with
  | TStorage => let row := add_node col n 1 [] in [row; clone_negative row]
  | _ => match n_max n with Some _ => [add_node col n 1 []] | None => [] end
  end.

(** 274-278 [BuiltSolver]; 427-447 [create] with 179-226 [build].  The columns
    (454-494) are those of Lp.v: the code is the same. *)
Record ibuilt := mkIb { ib_lp : ilp; ib_node_rows : list nat }.
Inductive setup_error := NoEdges.
Definition ipm_create (net : network) : res setup_error ibuilt :=
  match net_edges net with
  | [] => Err NoEdges
  | _ => match balance_rows (col_for_edge net) (net_nodes net) with
         | Ok eqs =>
             let '(ineqs, ids) := add_upper_rows [] (flat_map (node_upper_rows (col_for_edge net)) (net_nodes net)) in
             let ncols := cm_ncols (edge_columns net) in
             Ok (mkIb (mkIlp ineqs eqs ncols (repeat (splat 0) (length eqs + length ineqs)) (repeat (splat 0) ncols)) ids)
         | _ => Panic
         end
  end.

(** 315-350 [update_edge_objectives] with 65-67 [zero_obj_coefficients]: the cost
    of every edge, in every state, with the sign changed.  A column index out of
    range would panic; every edge has a column (C10). *)
Definition ipm_objectives (net : network) (sts : list lp_state) (obj : list (list Q)) : list (list Q) :=
  fold_left (fun o ie => upd (col_for_edge net (fst ie))
                             (fun v => lanes2 Qplus v (pad (map (fun s => (- edge_cost net (st_env s) (snd ie))%Q) sts))) o)
            (combine (seq 0 (length (net_edges net))) (net_edges net)) (map (fun _ => splat 0) obj).

(** 87-91 [reset_row_bounds], 93-108 [apply_row_bounds]. *)
Definition ipm_reset (nineq : nat) (up : list (list Q)) : list (list Q) :=
  map (fun _ => splat B_MAX) (firstn nineq up) ++ skipn nineq up.
Definition ipm_apply (up : list (list Q)) (row : nat) (ub : list Q) : list (list Q) :=
  upd row (fun v => lanes2 fmin v (pad ub)) up.

(** 353-403 [update_node_constraint_bounds]: the values of one node (number [i]),
    in the order in which they are applied, and all of them applied to the
    rows. *)
Definition node_limits (sts : list lp_state) (i : nat) (n : node) : list (list Q) :=
  match n_type n with
  | TStorage =>
      [map (fun s => match get_bounds s i n with BVolume _ missing => missing / st_days s | BFlow _ _ => 0 end)%Q sts;
       map (fun s => match get_bounds s i n with BVolume available _ => available / st_days s | BFlow _ _ => 0 end)%Q sts]
  | _ => match n_max n with
         | Some _ => [map (fun s => match get_bounds s i n with BFlow _ mx => fmin mx B_MAX | BVolume _ _ => 0 end)%Q sts]
         | None => []
         end
  end.
Fixpoint nodes_limits (sts : list lp_state) (i : nat) (ns : list node) : list (list Q) :=
  match ns with
  | [] => []
  | n :: r => node_limits sts i n ++ nodes_limits sts (S i) r
  end.
Fixpoint apply_limits (ids : list nat) (limits : list (list Q)) (up : list (list Q)) : res unit (list (list Q)) :=
  match limits with
  | [] => Ok up
  | ub :: r => match ids with
               | id :: ids' => apply_limits ids' r (ipm_apply up id ub)
               | [] => Panic                  (* [row_ids.next().unwrap()] *)
               end
  end.
(** 293-312 [update]. *)
Definition ipm_update (net : network) (b : ibuilt) (sts : list lp_state) : res unit ibuilt :=
  let l := ib_lp b in
  rbind (apply_limits (ib_node_rows b) (nodes_limits sts 0 (net_nodes net)) (ipm_reset (length (il_ineq l)) (il_upper l)))
    (fun up => Ok (mkIb (mkIlp (il_ineq l) (il_eq l) (il_ncols l) up (ipm_objectives net sts (il_obj l))) (ib_node_rows b))).

(** *** The solver *)

(** ipm-simd/src/lib.rs [Tolerances], the same in all lanes here. *)
Record tolerances := mkTol { t_primal : R; t_dual : R; t_optimality : R }.

(** 633-640: the matrix given to the interior point method. *)
Definition real_row (r : list (nat * Q)) : list (nat * R) := map (fun e => (fst e, Q2R (snd e))) r.
Definition real_matrix (l : ilp) : list (list (nat * R)) := map real_row (full_matrix l).
Definition ipm_of (l : ilp) : ipm := ipm_new (real_matrix l) (il_ncols l) (length (il_ineq l)).
(** 675-680: the right-hand sides and the objective of one lane. *)
Definition lane_number (vs : list (list Q)) (lane : nat) (i : nat) : R := Q2R (nth lane (nth i vs []) 0%Q).
Definition chunk_data (t : tolerances) (l : ilp) (lane : nat) : lane_data :=
  mkData (lane_number (il_upper l) lane) (lane_number (il_obj l) lane) (t_primal t) (t_dual t) (t_optimality t).

(** 599-604 [SimdIpmF64Solver]: for every chunk of four states a built programme
    and the buffers of its lanes. *)
Definition chunk := (ibuilt * list lane)%type.
(** The slice method [chunks(4)]. *)
Fixpoint chunks4_fuel {A} (fuel : nat) (l : list A) : list (list A) :=
  match fuel, l with
  | S f, _ :: _ => firstn 4 l :: chunks4_fuel f (skipn 4 l)
  | _, _ => []
  end.
Definition chunks4 {A} (l : list A) : list (list A) := chunks4_fuel (length l) l.
(** 617-652 [setup]; the buffers start with zeros. *)
Definition ipm_setup (net : network) (num_scenarios : nat) : res setup_error (list chunk) :=
  rmap (fun _ => rbind (ipm_create net) (fun b => Ok (b, repeat (mkLane path_init (fun _ => 0%R) (fun _ => 0%R)) 4)))
       (chunks4 (seq 0 num_scenarios)).

(** 668-704: one chunk; the flow of every edge in every state.  Writing the
    flows into the states is [write_flows] of NetState.v.  An infinite or NaN
    flow does not exist in the model. *)
Definition solve_chunk (net : network) (t : tolerances) (max_iterations : nat) (c : chunk) (sts : list lp_state)
    : res unit (chunk * list (nat -> R)) :=
  rbind (ipm_update net (fst c) sts) (fun b =>
  rbind (ipm_solve (ipm_of (ib_lp b)) max_iterations (combine (map (chunk_data t (ib_lp b)) (seq 0 4)) (snd c))) (fun out =>
  Ok ((b, out), map (fun p => fun e => p_x (ln_path (snd p)) (col_for_edge net e)) (combine sts out)))).
(** 654-707 [solve]: the chunks, which share nothing, one after the other. *)
Definition ipm_solver_solve (net : network) (t : tolerances) (max_iterations : nat) (cs : list chunk) (sts : list lp_state)
    : res unit (list chunk * list (nat -> R)) :=
  rbind (rmap (fun p => solve_chunk net t max_iterations (fst p) (snd p)) (combine cs (chunks4 sts))) (fun rs =>
  Ok (map fst rs, concat (map snd rs))).
(** Calls of [solve] one after the other, with the states of each; the flows of
    the last one. *)
Fixpoint ipm_solver_run (net : network) (t : tolerances) (max_iterations : nat) (cs : list chunk) (hist : list (list lp_state)) (last : list lp_state)
    : res unit (list (nat -> R)) :=
  match hist with
  | [] => rbind (ipm_solver_solve net t max_iterations cs last) (fun r => Ok (snd r))
  | sts :: rest => rbind (ipm_solver_solve net t max_iterations cs sts) (fun r => ipm_solver_run net t max_iterations (fst r) rest last)
  end.
