(** The linear programme in the hands of a solver library: solvers/builder.rs
    (the sparse arrays), solvers/highs/mod.rs, solvers/clp/mod.rs,
    solvers/cbc/mod.rs, solvers/microlp/mod.rs and the feature check of
    network.rs.

    [Lp.v] gives the programme of a network row by row.  Here it is flattened
    into the arrays of builder.rs, and the calls with which each solver hands
    the arrays to its library, once at set-up and again in every time-step, are
    modelled as changes of the problem the library holds.

    What the library calls do to that problem is taken from their
    documentation; reading a C array beyond its end does not occur and gives 0
    here.  Simplifications: index types are [nat]; the libraries' own treatment
    of huge or tiny numbers, their options and their log are left out; the
    multi-scenario interior point solvers are modelled in [Ipm.v]. *)
From Coq Require Import Qabs.
From Verif Require Import Base Calendar Network NetworkBuild Lp.
Open Scope nat_scope.

(** *** The sparse arrays *)

(** builder.rs:30-47 [Lp]; [f64_neg_max] is [- ar_fmax] in all four solvers. *)
Record arrays := mkArr {
  ar_fmax : Q;
  ar_col_lower : list Q; ar_col_upper : list Q; ar_obj : list Q; ar_col_type : list col_type;
  ar_lower : list Q; ar_upper : list Q; ar_mask : list nat;
  ar_starts : list nat; ar_columns : list nat; ar_elements : list Q;
  ar_updates : list (nat * nat * Q) }.

(** builder.rs:200-226 [LpBuilder::build], the body of the loop over the rows
    (the upper bound has been filled in by [finish_row]). *)
Definition push_row (a : arrays) (r : lrow) : arrays :=
  mkArr (ar_fmax a) (ar_col_lower a) (ar_col_upper a) (ar_obj a) (ar_col_type a)
        (ar_lower a ++ [l_lower r]) (ar_upper a ++ [l_upper r]) (ar_mask a ++ [if l_mask r then 1 else 0])
        (ar_starts a ++ [last (ar_starts a) 0 + length (l_cols r)])
        (ar_columns a ++ map fst (l_cols r)) (ar_elements a ++ map snd (l_cols r))
        (ar_updates a).

(** builder.rs:200-243 [LpBuilder::build]. *)
Definition build_arrays (l : lp) : arrays :=
  fold_left push_row (lp_rows l)
    (mkArr (lp_fmax l) (map col_lower (lp_cols l)) (map col_upper (lp_cols l)) (lp_obj l) (map col_type_of (lp_cols l))
           [] [] [] [0] [] [] []).

(** [v[start..end]]. *)
Definition slice {A} (st en : nat) (l : list A) : list A := firstn (en - st) (skipn st l).

Definition set_obj (a : arrays) (obj : list Q) : arrays :=
  mkArr (ar_fmax a) (ar_col_lower a) (ar_col_upper a) obj (ar_col_type a) (ar_lower a) (ar_upper a) (ar_mask a)
        (ar_starts a) (ar_columns a) (ar_elements a) (ar_updates a).
Definition set_bounds (a : arrays) (lo up : list Q) : arrays :=
  mkArr (ar_fmax a) (ar_col_lower a) (ar_col_upper a) (ar_obj a) (ar_col_type a) lo up (ar_mask a)
        (ar_starts a) (ar_columns a) (ar_elements a) (ar_updates a).
Definition set_updates (a : arrays) (u : list (nat * nat * Q)) : arrays :=
  mkArr (ar_fmax a) (ar_col_lower a) (ar_col_upper a) (ar_obj a) (ar_col_type a) (ar_lower a) (ar_upper a) (ar_mask a)
        (ar_starts a) (ar_columns a) (ar_elements a) u.
Definition set_elements (a : arrays) (es : list Q) : arrays :=
  mkArr (ar_fmax a) (ar_col_lower a) (ar_col_upper a) (ar_obj a) (ar_col_type a) (ar_lower a) (ar_upper a) (ar_mask a)
        (ar_starts a) (ar_columns a) es (ar_updates a).

(** builder.rs:64-76 [reset_row_bounds]. *)
Definition reset_bounds (a : arrays) : arrays :=
  set_bounds a
    (map (fun ml => if fst ml =? 1 then (- ar_fmax a)%Q else snd ml) (combine (ar_mask a) (ar_lower a)))
    (map (fun mu => if fst mu =? 1 then ar_fmax a else snd mu) (combine (ar_mask a) (ar_upper a))).

(** builder.rs:85-88 [apply_row_bounds], and a push on
    [coefficients_to_update]. *)
Definition do_op (a : arrays) (o : op) : arrays :=
  match o with
  | OBound r lb ub => set_bounds a (upd r (fun l => fmax l lb) (ar_lower a)) (upd r (fun u => fmin u ub) (ar_upper a))
  | OCoef r c v => set_updates a (ar_updates a ++ [(r, c, v)])
  end.

(** builder.rs:416-439 [BuiltSolver::update]; [ids] holds the row numbers. *)
Definition update_arrays (net : network) (ids : built) (s : lp_state) (a : arrays) : ures arrays :=
  rbind (update_ops net ids s) (fun ops =>
  Ok (fold_left do_op ops
        (set_updates (reset_bounds (set_obj a (update_edge_objectives net (st_env s) (ar_obj a)))) []))).

(** builder.rs:397-414 [apply_updated_coefficients], one coefficient. *)
Definition set_element (a : arrays) (u : nat * nat * Q) : ures arrays :=
  let '(r, c, v) := u in
  match nth_error (ar_starts a) r, nth_error (ar_starts a) (S r) with
  | Some st, Some en =>
      match position (Nat.eqb c) (slice st en (ar_columns a)) with
      | Some p => Ok (set_elements a (upd (st + p) (fun _ => v) (ar_elements a)))
      | None => Panic
      end
  | _, _ => Panic
  end.
Fixpoint set_element_all (us : list (nat * nat * Q)) (a : arrays) : ures arrays :=
  match us with
  | [] => Ok a
  | u :: r => rbind (set_element a u) (fun a' => set_element_all r a')
  end.
Definition apply_updates (a : arrays) : ures arrays :=
  rbind (set_element_all (ar_updates a) a) (fun a' => Ok (set_updates a' [])).

(** *** The problem a library holds *)
Record pcol := mkPc { pc_lower : Q; pc_upper : Q; pc_obj : Q; pc_int : bool }.
Record prow := mkPr { pr_lower : Q; pr_upper : Q; pr_cols : list (nat * Q) }.
Record problem := mkPb { pb_cols : list pcol; pb_rows : list prow }.

Definition at_ (l : list Q) (i : nat) : Q := nth i l 0%Q.
Definition row_entries (st en : nat) (columns : list nat) (elements : list Q) : list (nat * Q) :=
  combine (slice st en columns) (slice st en elements).

(** Change the coefficient of a column, adding it if the row has none. *)
Fixpoint put_coef (c : nat) (v : Q) (cols : list (nat * Q)) : list (nat * Q) :=
  match cols with
  | [] => [(c, v)]
  | (c', v') :: r => if c' =? c then (c', v) :: r else (c', v') :: put_coef c v r
  end.
Definition change_coefficient (p : problem) (r c : nat) (v : Q) : problem :=
  mkPb (pb_cols p) (upd r (fun w => mkPr (pr_lower w) (pr_upper w) (put_coef c v (pr_cols w))) (pb_rows p)).
Definition change_costs (p : problem) (obj : list Q) : problem :=
  mkPb (map (fun ic => mkPc (pc_lower (snd ic)) (pc_upper (snd ic)) (at_ obj (fst ic)) (pc_int (snd ic)))
            (combine (seq 0 (length (pb_cols p))) (pb_cols p))) (pb_rows p).
Definition change_rows (p : problem) (f : nat -> prow -> prow) : problem :=
  mkPb (pb_cols p) (map (fun ir => f (fst ir) (snd ir)) (combine (seq 0 (length (pb_rows p))) (pb_rows p))).

Definition is_int (t : col_type) : bool := match t with ColInteger => true | ColContinuous => false end.

(** *** HiGHS *)

(** highs/mod.rs:167-203 [add_cols]: [Highs_addCols], then
    [Highs_changeColIntegrality] column by column. *)
Definition highs_add_cols (a : arrays) (p : problem) : problem :=
  let p1 := mkPb (pb_cols p ++ map (fun i => mkPc (at_ (ar_col_lower a) i) (at_ (ar_col_upper a) i) (at_ (ar_obj a) i) false)
                                   (seq 0 (length (ar_col_upper a)))) (pb_rows p) in
  fold_left (fun q it => mkPb (upd (fst it) (fun c => mkPc (pc_lower c) (pc_upper c) (pc_obj c) (is_int (snd it))) (pb_cols q)) (pb_rows q))
            (combine (seq 0 (length (ar_col_type a))) (ar_col_type a)) p1.

(** highs/mod.rs:205-227 [add_rows]: [Highs_addRows] reads one start per row;
    the last row ends with the number of non-zeros. *)
Definition highs_add_rows (a : arrays) (p : problem) : problem :=
  let n := length (ar_upper a) in
  mkPb (pb_cols p)
       (pb_rows p ++ map (fun i => mkPr (at_ (ar_lower a) i) (at_ (ar_upper a) i)
                           (row_entries (nth i (ar_starts a) 0)
                              (if S i =? n then length (ar_elements a) else nth (S i) (ar_starts a) 0)
                              (ar_columns a) (ar_elements a))) (seq 0 n)).

(** highs/mod.rs:238-246 [change_row_bounds]: rows with a mask only. *)
Definition highs_change_bounds (a : arrays) (p : problem) : problem :=
  change_rows p (fun i r => if nth i (ar_mask a) 0 =? 0 then r
                            else mkPr (at_ (ar_lower a) i) (at_ (ar_upper a) i) (pr_cols r)).

(** [f64::clamp(-1e10, 1e10)]. *)
Definition HIGHS_COEF : Q := inject_Z 10000000000.
Definition clamp (v : Q) : Q :=
  if negb (Qle_bool (- HIGHS_COEF) v) then (- HIGHS_COEF)%Q
  else if negb (Qle_bool v HIGHS_COEF) then HIGHS_COEF else v.

(** highs/mod.rs:331-366 [setup]. *)
Definition highs_setup (a : arrays) : problem := highs_add_rows a (highs_add_cols a (mkPb [] [])).

(** highs/mod.rs:367-398 [solve], up to [run]. *)
Definition highs_send (a : arrays) (p : problem) : problem :=
  fold_left (fun q u => change_coefficient q (fst (fst u)) (snd (fst u)) (clamp (snd u))) (ar_updates a)
            (highs_change_bounds a (change_costs p (ar_obj a))).

(** *** CLP *)

(** clp/mod.rs:217-238 [add_rows]: [Clp_addRows] with [row_starts]. *)
Definition clp_add_rows (a : arrays) (p : problem) : problem :=
  mkPb (pb_cols p)
       (pb_rows p ++ map (fun i => mkPr (at_ (ar_lower a) i) (at_ (ar_upper a) i)
                           (row_entries (nth i (ar_starts a) 0) (nth (S i) (ar_starts a) 0) (ar_columns a) (ar_elements a)))
                         (seq 0 (length (ar_lower a)))).

(** clp/mod.rs:328-350 [from_builder]: [Clp_resize] gives continuous columns
    whose bounds and costs are then overwritten; nothing is said about
    integer columns. *)
Definition clp_setup (a : arrays) : problem :=
  let n := length (ar_col_upper a) in
  let p1 := mkPb (map (fun i => mkPc (at_ (ar_col_lower a) i) (at_ (ar_col_upper a) i) 0 false) (seq 0 n)) [] in
  clp_add_rows a (change_costs p1 (ar_obj a)).

(** clp/mod.rs:389-411 [solve], up to [dual_solve]. *)
Definition clp_send (a : arrays) (p : problem) : problem :=
  fold_left (fun q u => change_coefficient q (fst (fst u)) (snd (fst u)) (snd u)) (ar_updates a)
    (change_rows (change_costs p (ar_obj a)) (fun i r => mkPr (at_ (ar_lower a) i) (at_ (ar_upper a) i) (pr_cols r))).

(** *** CBC *)

(** cbc/mod.rs:87-120 [add_cols], 122-156 [add_rows] (the row is added as an
    equation with right-hand side 0; both bounds are then overwritten). *)
Definition cbc_add_row (a : arrays) (p : problem) (i : nat) : problem :=
  let r := mkPr 0 0 (row_entries (nth i (ar_starts a) 0) (nth (S i) (ar_starts a) 0) (ar_columns a) (ar_elements a)) in
  let r' := mkPr (pr_lower r) (at_ (ar_upper a) i) (pr_cols r) in
  mkPb (pb_cols p) (pb_rows p ++ [mkPr (at_ (ar_lower a) i) (pr_upper r') (pr_cols r')]).
Definition cbc_setup (a : arrays) : problem :=
  let p1 := mkPb (map (fun i => mkPc (at_ (ar_col_lower a) i) (at_ (ar_col_upper a) i) (at_ (ar_obj a) i)
                                      (is_int (nth i (ar_col_type a) ColContinuous)))
                      (seq 0 (length (ar_col_lower a)))) [] in
  fold_left (cbc_add_row a) (seq 0 (length (ar_lower a))) p1.

Inductive solver_error := ESetup (e : setup_error) | EUpdate (e : update_error) | EMissingFeatures | ENotSolved.
Definition sres := res solver_error.

(** cbc/mod.rs:266-289 [solve], up to [self.solve()]. *)
Definition cbc_send (a : arrays) (p : problem) : sres problem :=
  let p1 := change_rows (change_costs p (ar_obj a)) (fun i r => mkPr (at_ (ar_lower a) i) (at_ (ar_upper a) i) (pr_cols r)) in
  match ar_updates a with
  | [] => Ok p1
  | _ => Err EMissingFeatures
  end.

(** *** microlp *)
Inductive cmp := CEq | CGe | CLe.
Record constr := mkCs { cs_cols : list (nat * Q); cs_cmp : cmp; cs_rhs : Q }.
Record mproblem := mkMp { mp_vars : list pcol; mp_cons : list constr }.

(** [v as i32]. *)
Definition as_i32 (q : Q) : Z :=
  Z.max (-2147483648) (Z.min 2147483647 (Z.quot (Qnum q) (Zpos (Qden q)))).

(** microlp/mod.rs:29-50: one variable. *)
Definition micro_var (a : arrays) (i : nat) : pcol :=
  let lb := at_ (ar_col_lower a) i in
  let ub := at_ (ar_col_upper a) i in
  let obj := at_ (ar_obj a) i in
  match nth i (ar_col_type a) ColContinuous with
  | ColContinuous => mkPc lb ub obj false
  | ColInteger =>
      let u := as_i32 ub in let l := as_i32 lb in
      if (Z.eqb l 0 && Z.eqb u 1)%bool then mkPc 0 1 obj true
      else mkPc (inject_Z l) (inject_Z u) obj true
  end.

(** microlp/mod.rs:52-77: the constraints of one row; [f64::is_finite] of a
    bound is being below the number that stands for infinity. *)
Definition micro_row (a : arrays) (i : nat) : sres (list constr) :=
  let lo := at_ (ar_lower a) i in
  let up := at_ (ar_upper a) i in
  let e := row_entries (nth i (ar_starts a) 0) (nth (S i) (ar_starts a) 0) (ar_columns a) (ar_elements a) in
  if Qeq_bool lo up then Ok [mkCs e CEq lo]
  else if Qle_bool up lo then Panic
  else Ok (mkCs e CGe lo :: (if negb (Qle_bool (ar_fmax a) up) then [mkCs e CLe up] else [])).

(** microlp/mod.rs:26-80 [make_problem]. *)
Definition make_problem (a : arrays) : sres mproblem :=
  rbind (rmap (micro_row a) (seq 0 (length (ar_upper a)))) (fun rows =>
  Ok (mkMp (map (micro_var a) (seq 0 (length (ar_col_lower a)))) (concat rows))).

(** *** The four solvers *)
Inductive backend := Highs | Clp | Cbc | Microlp.
Inductive held := HStd (p : problem) | HMicro (p : mproblem).

(** The solver structs: the row numbers, the arrays, and what the library
    holds (microlp is given a new problem in every time-step). *)
Record solver := mkSolver { sv_ids : built; sv_arr : arrays; sv_held : held }.

Inductive feature := FAggNode | FAggFactors | FAggDynFactors | FVirtualStorage | FExclusivity.
Definition feature_eqb (a b : feature) : bool :=
  match a, b with
  | FAggNode, FAggNode | FAggFactors, FAggFactors | FAggDynFactors, FAggDynFactors
  | FVirtualStorage, FVirtualStorage | FExclusivity, FExclusivity => true
  | _, _ => false
  end.

(** highs/mod.rs:320-329, clp/mod.rs:368-375, cbc/mod.rs:245-252,
    microlp/mod.rs:90-99 [features]. *)
Definition features (k : backend) : list feature :=
  match k with
  | Highs => [FVirtualStorage; FExclusivity; FAggNode; FAggFactors; FAggDynFactors; FVirtualStorage]
  | Clp => [FAggNode; FAggFactors; FAggDynFactors; FVirtualStorage]
  | Cbc => [FAggNode; FVirtualStorage; FAggFactors; FExclusivity]
  | Microlp => [FVirtualStorage; FExclusivity; FAggNode; FAggFactors; FAggDynFactors; FVirtualStorage]
  end.

(** metric.rs:332-337 [is_constant], aggregated_node.rs:34-43
    [Factors::is_constant], 382-397 [has_factors], [has_const_factors]. *)
Definition metric_is_constant (m : metric) : bool := is_some (metric_const m).
Definition factors_constant (f : factors) : bool :=
  match f with
  | FProportion fs => forallb metric_is_constant fs
  | FRatio fs => forallb metric_is_constant fs
  | FCoefficients fs rhs =>
      forallb metric_is_constant fs && match rhs with Some m => metric_is_constant m | None => true end
  end.
Definition has_factors (a : agg_node) : bool := match a_rel a with Some (RFactored _) => true | _ => false end.
Definition has_const_factors (a : agg_node) : bool :=
  match a_rel a with Some (RFactored f) => factors_constant f | _ => false end.

(** network.rs:953-986 [required_features]. *)
Definition required_features (net : network) : list feature :=
  (if match net_aggs net with [] => true | _ => false end then [] else [FAggNode]) ++
  (if existsb has_factors (net_aggs net) then [FAggFactors] else []) ++
  (if existsb (fun a => has_factors a && negb (has_const_factors a)) (net_aggs net) then [FAggDynFactors] else []) ++
  (if existsb has_exclusivity (net_aggs net) then [FExclusivity] else []) ++
  (if match net_vss net with [] => true | _ => false end then [] else [FVirtualStorage]).

(** network.rs:651-658 [check_solver_features]. *)
Definition check_features (k : backend) (net : network) : bool :=
  forallb (fun f => existsb (feature_eqb f) (features k)) (required_features net).

(** highs/mod.rs:331-366, clp/mod.rs:377-387, cbc/mod.rs:254-264,
    microlp/mod.rs:101-111 [setup].  [fm] is [f64::MAX], or infinity for
    microlp; [order] is that of the [HashSet] in builder.rs:728-745. *)
Definition setup (k : backend) (fm : Q) (order : list (list nat)) (net : network) : sres solver :=
  match create fm order net with
  | Panic => Panic
  | Err e => Err (ESetup e)
  | Ok b =>
      let a := build_arrays (bt_lp b) in
      Ok (mkSolver b a (match k with
                        | Highs => HStd (highs_setup a)
                        | Clp => HStd (clp_setup a)
                        | Cbc => HStd (cbc_setup a)
                        | Microlp => HMicro (mkMp [] [])
                        end))
  end.

(** network.rs:670-695 [setup_solver], for one scenario. *)
Definition setup_solver (k : backend) (ignore : bool) (fm : Q) (order : list (list nat)) (net : network) : sres solver :=
  if negb ignore && negb (check_features k net) then Err EMissingFeatures else setup k fm order net.

Definition lift_update {A} (x : ures A) : sres A :=
  match x with Ok a => Ok a | Err e => Err (EUpdate e) | Panic => Panic end.

(** [Solver::solve] of the four solvers up to the call that solves: the problem
    the library holds when it is asked to solve. *)
Definition send (k : backend) (net : network) (s : lp_state) (sv : solver) : sres solver :=
  rbind (lift_update (update_arrays net (sv_ids sv) s (sv_arr sv))) (fun a =>
  match k, sv_held sv with
  | Highs, HStd p => Ok (mkSolver (sv_ids sv) a (HStd (highs_send a p)))
  | Clp, HStd p => Ok (mkSolver (sv_ids sv) a (HStd (clp_send a p)))
  | Cbc, HStd p => rbind (cbc_send a p) (fun q => Ok (mkSolver (sv_ids sv) a (HStd q)))
  | Microlp, HMicro _ =>
      rbind (lift_update (apply_updates a)) (fun a' =>
      rbind (make_problem a') (fun q => Ok (mkSolver (sv_ids sv) a' (HMicro q))))
  | _, _ => Panic         (* not formed by [setup] *)
  end).

(** What the library answers: a status, the return code of the call, and the
    values of the columns. *)
Inductive status := SOptimal | SUnknown | SOther.
Record answer := mkAns { an_status : status; an_code : Z; an_values : nat -> Q }.

(** The status checks: highs/mod.rs:128-154, 253-260 and 402-417 (a second run
    after an unknown status), clp/mod.rs:260-267, cbc/mod.rs:158-165 (only the
    return code), microlp/mod.rs:128-137.  [lib n h] is the answer of the
    [n]-th run on the problem [h]. *)
Definition answered (k : backend) (lib : nat -> held -> answer) (h : held) : sres (nat -> Q) :=
  match k with
  | Highs => match an_status (lib 0 h) with
             | SOptimal => Ok (an_values (lib 0 h))
             | SUnknown => match an_status (lib 1 h) with
                           | SOptimal => Ok (an_values (lib 1 h))
                           | _ => Err ENotSolved
                           end
             | SOther => Err ENotSolved
             end
  | Clp | Microlp => match an_status (lib 0 h) with SOptimal => Ok (an_values (lib 0 h)) | _ => Err ENotSolved end
  | Cbc => if Z.eqb (an_code (lib 0 h)) 0 then Ok (an_values (lib 0 h)) else Panic
  end.

(** cbc/mod.rs:303-304. *)
Definition round_small (q : Q) : Q :=
  if negb (Qle_bool (1 # 10000000000) (Qabs q)) then 0%Q else q.

(** The flows written back: highs/mod.rs:428-432, clp/mod.rs:425-429,
    cbc/mod.rs:300-306, microlp/mod.rs:149-153. *)
Definition written (k : backend) (net : network) (x : nat -> Q) (e : nat) : Q :=
  let q := x (col_for_edge net e) in
  match k with Cbc => round_small q | _ => q end.

(** [Solver::solve] as a whole. *)
Definition solve (k : backend) (lib : nat -> held -> answer) (net : network) (s : lp_state) (sv : solver)
    : sres (solver * (nat -> Q)) :=
  rbind (send k net s sv) (fun sv' =>
  rbind (answered k lib (sv_held sv')) (fun x => Ok (sv', written k net x))).

(** A history of time-steps up to a last one. *)
Fixpoint sends (k : backend) (net : network) (ss : list lp_state) (sv : solver) : sres solver :=
  match ss with
  | [] => Ok sv
  | s :: r => rbind (send k net s sv) (fun sv' => sends k net r sv')
  end.
