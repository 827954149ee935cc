(** The linear programme built for a network and updated every time-step:
    solvers/builder.rs and solvers/col_edge_map.rs.

    The constraint matrix is kept row by row (a list of column/coefficient
    pairs per row); the flattening into row starts, columns and elements
    (builder.rs:200-243) and the look-up of a coefficient in that form
    (builder.rs:397-414) are not modelled here. *)
From Verif Require Import Base Calendar Network NetworkBuild.
Open Scope nat_scope.

(** *** Columns *)

(** col_edge_map.rs:25-28 [ColumnEdgeMapBuilder].  [col_to_edges] is used for
    its length only, so only the number of columns is kept. *)
Record colmap := mkCm { cm_ncols : nat; cm_edges : list (nat * nat) }.
Definition cm_empty : colmap := mkCm 0 [].
Definition cm_get (m : colmap) (e : nat) : option nat := assoc Nat.eqb e (cm_edges m).

(** col_edge_map.rs:71-82 [add_simple_edge]. *)
Definition add_simple_edge (m : colmap) (e : nat) : colmap :=
  match cm_get m e with
  | Some _ => m
  | None => mkCm (S (cm_ncols m)) ((e, cm_ncols m) :: cm_edges m)
  end.

(** col_edge_map.rs:87-117 [add_equal_edges]. *)
Definition add_equal_edges (m : colmap) (e1 e2 : nat) : colmap :=
  match cm_get m e1, cm_get m e2 with
  | Some _, Some _ => m
  | None, Some c => mkCm (cm_ncols m) ((e1, c) :: cm_edges m)
  | Some c, None => mkCm (cm_ncols m) ((e2, c) :: cm_edges m)
  | None, None => mkCm (S (cm_ncols m)) ((e2, cm_ncols m) :: (e1, cm_ncols m) :: cm_edges m)
  end.

(** The loop of builder.rs:685-717 [create_columns] for edge number [i]. *)
Definition add_edge_column (nodes : list node) (m : colmap) (i : nat) (e : edge) : colmap :=
  match nth_error nodes (e_from e) with
  | Some n =>
      match n_type n, n_in n, n_out n with
      | TLink, [e_in], [_] => add_equal_edges m i e_in
      | _, _, _ => add_simple_edge m i
      end
  | None => m      (* NodeIndexNotFound: excluded by the network builder *)
  end.
Fixpoint add_edge_columns (nodes : list node) (m : colmap) (i : nat) (es : list edge) : colmap :=
  match es with
  | [] => m
  | e :: r => add_edge_columns nodes (add_edge_column nodes m i e) (S i) r
  end.
Definition edge_columns (net : network) : colmap :=
  add_edge_columns (net_nodes net) cm_empty 0 (net_edges net).

(** col_edge_map.rs:12-19 and 63-68 [col_for_edge].  A missing edge panics in
    the code; C10 proves that every edge has a column. *)
Definition col_for_edge (net : network) (e : nat) : nat :=
  match cm_get (edge_columns net) e with Some c => c | None => 0 end.

Inductive col_type := ColContinuous | ColInteger.
Record column := mkCol { col_lower : Q; col_upper : Q; col_type_of : col_type }.

(** aggregated_node.rs:376-380 [has_exclusivity]. *)
Definition has_exclusivity (a : agg_node) : bool :=
  match a_rel a with Some (RExclusive _ _) => true | _ => false end.

Fixpoint nats_eqb (a b : list nat) : bool :=
  match a, b with
  | [], [] => true
  | x :: a', y :: b' => (x =? y) && nats_eqb a' b'
  | _, _ => false
  end.

(** builder.rs:728-745: one binary column for every distinct set of nodes in
    an exclusive aggregated node.  The code iterates over a [HashSet], in an
    unspecified order: [order] is that order.  [valid_order] says it lists
    every such set once. *)
Definition exclusive_set (net : network) (s : list nat) : Prop :=
  exists a, In a (net_aggs net) /\ has_exclusivity a = true /\ In s (a_nodes a).
Definition valid_order (net : network) (order : list (list nat)) : Prop :=
  NoDup order /\ forall s, In s order <-> exclusive_set net s.

(** [node_bin_col_map]: the binary columns of node [i], in the order pushed. *)
Definition node_bin_cols (base : nat) (order : list (list nat)) (i : nat) : list nat :=
  flat_map (fun ks => repeat (base + fst ks) (count_occ Nat.eq_dec (snd ks) i))
           (combine (seq 0 (length order)) order).
(** [node_set_bin_col_map]. *)
Definition set_bin_col (base : nat) (order : list (list nat)) (s : list nat) : option nat :=
  match position (nats_eqb s) order with Some k => Some (base + k) | None => None end.

(** *** Rows *)

(** builder.rs:246-261 [RowBuilder]; the [BTreeMap] is a list of
    column/coefficient pairs with increasing columns. *)
Record row := mkRow { r_lower : Q; r_upper : option Q; r_cols : list (nat * Q) }.

(** builder.rs:279-287 [add_element]; the finiteness check is in
    [finite_factor] below. *)
Fixpoint add_element (c : nat) (v : Q) (cols : list (nat * Q)) : list (nat * Q) :=
  match cols with
  | [] => [(c, v)]
  | (c', v') :: r =>
      if c =? c' then (c', v' + v)%Q :: r
      else if c <? c' then (c, v) :: cols
      else (c', v') :: add_element c v r
  end.

(** [RowBuilder: PartialEq]. *)
Definition oq_eqb (a b : option Q) : bool :=
  match a, b with
  | Some x, Some y => Qeq_bool x y
  | None, None => true
  | _, _ => false
  end.
Fixpoint cols_eqb (a b : list (nat * Q)) : bool :=
  match a, b with
  | [], [] => true
  | (c, v) :: a', (d, w) :: b' => (c =? d) && Qeq_bool v w && cols_eqb a' b'
  | _, _ => false
  end.
Definition row_eqb (a b : row) : bool :=
  Qeq_bool (r_lower a) (r_lower b) && oq_eqb (r_upper a) (r_upper b) && cols_eqb (r_cols a) (r_cols b).

(** builder.rs:129-138 [LpBuilder], the rows. *)
Record rows_builder := mkRb { rb_rows : list row; rb_fixed : list row }.

(** builder.rs:177-179 [add_fixed_row], 182-192 [add_variable_row]. *)
Definition add_fixed_row (b : rows_builder) (r : row) : rows_builder :=
  mkRb (rb_rows b) (rb_fixed b ++ [r]).
Definition add_variable_row (b : rows_builder) (r : row) : rows_builder * nat :=
  match position (fun r' => row_eqb r' r) (rb_rows b) with
  | Some i => (b, i)
  | None => (mkRb (rb_rows b ++ [r]) (rb_fixed b), length (rb_rows b))
  end.

Section Build.
Variable net : network.
Variable col : nat -> nat.        (* [col_for_edge] *)
Variable fm : Q.                  (* [f64_max] of the solver *)

Definition add_edges (es : list nat) (v : Q) (cols : list (nat * Q)) : list (nat * Q) :=
  fold_left (fun c e => add_element (col e) v c) es cols.

(** builder.rs:792-823 [add_node]. *)
Definition add_node (n : node) (factor : Q) (cols : list (nat * Q)) : list (nat * Q) :=
  match n_type n with
  | TLink => add_edges (n_out n) factor cols
  | TInput => add_edges (n_out n) factor cols
  | TOutput => add_edges (n_in n) factor cols
  | TStorage => add_edges (n_out n) (- factor)%Q (add_edges (n_in n) factor cols)
  end.

(** builder.rs:751-790 [create_mass_balance_constraints], one node. *)
Definition mass_balance_row (b : rows_builder) (n : node) : res unit rows_builder :=
  match n_type n with
  | TLink =>
      match n_in n, n_out n with
      | [], _ => Panic
      | _, [] => Panic
      | _, _ =>
          let cols := add_edges (n_out n) (- (1)) (add_edges (n_in n) 1 []) in
          if length cols =? 1 then Ok b
          else Ok (add_fixed_row b (mkRow 0 (Some 0%Q) cols))
      end
  | _ => Ok b
  end.
Fixpoint mass_balance_rows (b : rows_builder) (ns : list node) : res unit rows_builder :=
  match ns with
  | [] => Ok b
  | n :: r => rbind (mass_balance_row b n) (fun b' => mass_balance_rows b' r)
  end.

(** builder.rs:291-308 [NodeRowId], [NodeRowType]. *)
Inductive node_row_type := RContinuous | RBinaryUpper (bin_col : nat) | RBinaryLower (bin_col : nat).
Record node_row := mkNr { nr_row : nat; nr_node : nat; nr_type : node_row_type }.

(** builder.rs:838-934 [create_node_constraints]: the rows of one node for one
    of its binary columns, and the rows of one node. *)
Definition node_binary_rows (i : nat) (n : node) (b : rows_builder) (c : nat)
    : rows_builder * list node_row :=
  let ub := add_node n (- (1)) [] in
  let lb := add_node n 1 [] in
  match get_const_bounds n with
  | Some (mn, mx) =>
      let b1 := add_fixed_row b (mkRow 0 (Some fm) (add_element c (fmin mx (inject_Z 1000000)) ub)) in
      let b2 := if Qeq_bool mn 0 then b1
                else add_fixed_row b1 (mkRow 0 (Some fm) (add_element c (- fmax mn (1 # 1000000))%Q lb)) in
      (b2, [])
  | None =>
      let '(b1, i1) := add_variable_row b (mkRow 0 None (add_element c 1 ub)) in
      let '(b2, i2) := add_variable_row b1 (mkRow 0 None (add_element c (- (1))%Q lb)) in
      (b2, [mkNr i1 i (RBinaryUpper c); mkNr i2 i (RBinaryLower c)])
  end.
Fixpoint node_binary_rows_all (i : nat) (n : node) (b : rows_builder) (cs : list nat)
    : rows_builder * list node_row :=
  match cs with
  | [] => (b, [])
  | c :: r =>
      let '(b1, ids) := node_binary_rows i n b c in
      let '(b2, ids') := node_binary_rows_all i n b1 r in
      (b2, ids ++ ids')
  end.
Definition node_rows (bins : list nat) (i : nat) (n : node) (b : rows_builder)
    : rows_builder * list node_row :=
  match bins with
  | _ :: _ => node_binary_rows_all i n b bins
  | [] =>
      let cols := add_node n 1 [] in
      match get_const_bounds n with
      | Some (mn, mx) => (add_fixed_row b (mkRow mn (Some mx) cols), [])
      | None => let '(b1, r) := add_variable_row b (mkRow 0 None cols) in
                (b1, [mkNr r i RContinuous])
      end
  end.
Fixpoint node_constraints (bins : nat -> list nat) (i : nat) (ns : list node) (b : rows_builder)
    : rows_builder * list node_row :=
  match ns with
  | [] => (b, [])
  | n :: r =>
      let '(b1, ids) := node_rows (bins i) i n b in
      let '(b2, ids') := node_constraints bins (S i) r b1 in
      (b2, ids ++ ids')
  end.

(** [network.nodes().get(i).expect(..)] for a list of nodes. *)
Definition get_nodes (is : list nat) : res unit (list node) :=
  rmap (fun i => match nth_error (net_nodes net) i with Some n => Ok n | None => Panic end) is.
Definition add_nodes (ns : list node) (factor : Q) (cols : list (nat * Q)) : list (nat * Q) :=
  fold_left (fun c n => add_node n factor c) ns cols.

(** builder.rs:1005-1024 [create_aggregated_node_constraints]. *)
Fixpoint agg_constraints (aggs : list agg_node) (b : rows_builder)
    : res unit (rows_builder * list nat) :=
  match aggs with
  | [] => Ok (b, [])
  | a :: r =>
      rbind (get_nodes (concat (a_nodes a))) (fun ns =>
      let '(b1, i) := add_variable_row b (mkRow 0 None (add_nodes ns 1 [])) in
      rbind (agg_constraints r b1) (fun '(b2, is) => Ok (b2, i :: is)))
  end.

(** builder.rs:1028-1049 [create_virtual_storage_constraints]. *)
Fixpoint vs_row_cols (terms : list (nat * Q)) (cols : list (nat * Q)) : res unit (list (nat * Q)) :=
  match terms with
  | [] => Ok cols
  | (i, f) :: r => match nth_error (net_nodes net) i with
                   | Some n => vs_row_cols r (add_node n (- f)%Q cols)
                   | None => Panic
                   end
  end.
Fixpoint vs_constraints (vss : list vs_node) (b : rows_builder)
    : res unit (rows_builder * list nat) :=
  match vss with
  | [] => Ok (b, [])
  | v :: r =>
      rbind (vs_row_cols (vs_terms v) []) (fun cols =>
      let '(b1, i) := add_variable_row b (mkRow 0 None cols) in
      rbind (vs_constraints r b1) (fun '(b2, is) => Ok (b2, i :: is)))
  end.

(** builder.rs:1052-1070 [create_mutual_exclusivity_constraints]. *)
Fixpoint exclusivity_cols (base : nat) (order : list (list nat)) (sets : list (list nat))
    (cols : list (nat * Q)) : res unit (list (nat * Q)) :=
  match sets with
  | [] => Ok cols
  | s :: r => match set_bin_col base order s with
              | Some c => exclusivity_cols base order r (add_element c 1 cols)
              | None => Panic
              end
  end.
Fixpoint exclusivity_constraints (base : nat) (order : list (list nat)) (aggs : list agg_node)
    (b : rows_builder) : res unit rows_builder :=
  match aggs with
  | [] => Ok b
  | a :: r =>
      match a_rel a with
      | Some (RExclusive mn mx) =>
          rbind (exclusivity_cols base order (a_nodes a) []) (fun cols =>
          exclusivity_constraints base order r
            (add_fixed_row b (mkRow (inject_Z (Z.of_nat mn)) (Some (inject_Z (Z.of_nat mx))) cols)))
      | _ => exclusivity_constraints base order r b
      end
  end.

(** *** Factors of aggregated nodes *)

(** A factor computed by a division: a number, or the infinity / NaN that a
    division by zero gives. *)
Inductive fnum := Fin (q : Q) | NonFinite.
Definition fdiv (a b : Q) : fnum := if Qeq_bool b 0 then NonFinite else Fin (a / b)%Q.

Inductive factor_error := IncorrectNumberOfFactors | NegativeFactor | TotalTooLarge | MoreThanTwoFactors.

(** aggregated_node.rs:310-316 [NodeConstFactorPair], 260-266 [NodeFactorPair]. *)
Record const_pair := mkCp { cp_n0 : list nat; cp_f0 : option fnum; cp_n1 : list nat; cp_f1 : option fnum; cp_rhs : Q }.
Record factor_pair := mkFp { fp_n0 : list nat; fp_f0 : fnum; fp_n1 : list nat; fp_f1 : fnum; fp_rhs : Q }.

Definition is_some {A} (o : option A) : bool := match o with Some _ => true | None => false end.
Definition oneg (o : option Q) : bool := match o with Some v => negb (Qle_bool 0 v) | None => false end.
Definition oget (o : option Q) : Q := match o with Some v => v | None => 0%Q end.

(** aggregated_node.rs:794-867 [get_const_norm_proportional_factor_pairs].
    An empty node list panics ([nodes.len() - 1], as in a debug build). *)
Definition const_proportion_pairs (fs : list metric) (nodes : list (list nat)) : res factor_error (list const_pair) :=
  match nodes with
  | [] => Panic
  | n0 :: rest =>
      if negb (length fs =? length rest) then Err IncorrectNumberOfFactors
      else
        let vs := map metric_const fs in
        if existsb oneg vs then Err NegativeFactor
        else if negb (forallb is_some vs) then
          Ok (map (fun n1v => mkCp n0 (Some (Fin 1)) (fst n1v) None 0) (combine rest vs))
        else
          let total := qsum (map oget vs) in
          if Qle_bool 1 total then Err TotalTooLarge
          else
            let f0 := (1 - total)%Q in
            Ok (map (fun n1v => mkCp n0 (Some (Fin 1)) (fst n1v)
                                     (match snd n1v with Some v => Some (fdiv (- f0) v) | None => None end) 0)
                    (combine rest vs))
  end.

(** aggregated_node.rs:942-989 [get_const_norm_ratio_factor_pairs]. *)
Definition const_ratio_pairs (fs : list metric) (nodes : list (list nat)) : res factor_error (list const_pair) :=
  if negb (length fs =? length nodes) then Err IncorrectNumberOfFactors
  else match nodes, fs with
  | n0 :: nrest, m0 :: mrest =>
      let f0 := metric_const m0 in
      if oneg f0 then Err NegativeFactor
      else rmap (fun n1m =>
             let v1 := metric_const (snd n1m) in
             if oneg v1 then Err NegativeFactor
             else Ok (mkCp n0 (Some (Fin 1)) (fst n1m)
                           (match v1, f0 with Some v, Some f => Some (fdiv (- f) v) | _, _ => None end) 0))
           (combine nrest mrest)
  | _, _ => Panic
  end.

(** aggregated_node.rs:1054-1086 [get_const_coefficient_factor_pairs]. *)
Definition const_coefficient_pairs (fs : list metric) (rhs : option metric) (nodes : list (list nat))
    : res factor_error (list const_pair) :=
  if negb (length fs =? length nodes) then Err IncorrectNumberOfFactors
  else match nodes, fs with
  | [n0; n1], [m0; m1] =>
      let fin o := match o with Some q => Some (Fin q) | None => None end in
      let r := match rhs with Some m => oget (metric_const m) | None => 0%Q end in
      Ok [mkCp n0 (fin (metric_const m0)) n1 (fin (metric_const m1)) r]
  | _, _ => Err MoreThanTwoFactors
  end.

(** aggregated_node.rs:443-465 [get_const_norm_factor_pairs]. *)
Definition const_factor_pairs (a : agg_node) : option (res factor_error (list const_pair)) :=
  match a_rel a with
  | Some (RFactored (FProportion fs)) => Some (const_proportion_pairs fs (a_nodes a))
  | Some (RFactored (FRatio fs)) => Some (const_ratio_pairs fs (a_nodes a))
  | Some (RFactored (FCoefficients fs rhs)) => Some (const_coefficient_pairs fs rhs (a_nodes a))
  | _ => None
  end.

(** aggregated_node.rs:728-772 [get_norm_proportional_factor_pairs]. *)
Definition proportion_pairs (e : env) (fs : list metric) (nodes : list (list nat)) : res factor_error (list factor_pair) :=
  match nodes with
  | [] => Panic
  | n0 :: rest =>
      if negb (length fs =? length rest) then Err IncorrectNumberOfFactors
      else
        let vs := map (metric_value e) fs in
        if existsb (fun v => negb (Qle_bool 0 v)) vs then Err NegativeFactor
        else
          let total := qsum vs in
          if Qle_bool 1 total then Err TotalTooLarge
          else
            let f0 := (1 - total)%Q in
            Ok (map (fun n1v => mkFp n0 (Fin 1) (fst n1v) (fdiv (- f0) (snd n1v)) 0) (combine rest vs))
  end.

(** aggregated_node.rs:888-924 [get_norm_ratio_factor_pairs]. *)
Definition ratio_pairs (e : env) (fs : list metric) (nodes : list (list nat)) : res factor_error (list factor_pair) :=
  if negb (length fs =? length nodes) then Err IncorrectNumberOfFactors
  else match nodes, fs with
  | n0 :: nrest, m0 :: mrest =>
      let f0 := metric_value e m0 in
      if negb (Qle_bool 0 f0) then Err NegativeFactor
      else Ok (map (fun n1m => mkFp n0 (Fin 1) (fst n1m) (fdiv (- f0) (metric_value e (snd n1m))) 0)
                   (combine nrest mrest))
  | _, _ => Panic
  end.

(** aggregated_node.rs:1008-1039 [get_coefficient_factor_pairs]. *)
Definition coefficient_pairs (e : env) (fs : list metric) (rhs : option metric) (nodes : list (list nat))
    : res factor_error (list factor_pair) :=
  if negb (length fs =? length nodes) then Err IncorrectNumberOfFactors
  else match nodes, fs with
  | [n0; n1], [m0; m1] =>
      let r := match rhs with Some m => metric_value e m | None => 0%Q end in
      Ok [mkFp n0 (Fin (metric_value e m0)) n1 (Fin (metric_value e m1)) r]
  | _, _ => Err MoreThanTwoFactors
  end.

(** aggregated_node.rs:475-498 [get_norm_factor_pairs]. *)
Definition norm_factor_pairs (e : env) (a : agg_node) : option (res factor_error (list factor_pair)) :=
  match a_rel a with
  | Some (RFactored (FProportion fs)) => Some (proportion_pairs e fs (a_nodes a))
  | Some (RFactored (FRatio fs)) => Some (ratio_pairs e fs (a_nodes a))
  | Some (RFactored (FCoefficients fs rhs)) => Some (coefficient_pairs e fs rhs (a_nodes a))
  | _ => None
  end.

(** [add_node] with a factor that may be infinite: [add_element] panics on it
    (builder.rs:283-285).  Simplification: the panic is raised even when the
    group has no edge at all. *)
Definition finite_factor (f : fnum) : res unit Q :=
  match f with Fin q => Ok q | NonFinite => Panic end.
Definition unwrap_or_one (o : option fnum) : fnum := match o with Some f => f | None => Fin 1 end.

(** builder.rs:939-998 [create_aggregated_node_factor_constraints]: one pair,
    the pairs of one aggregated node, all aggregated nodes.  [Some(Err(_))] is
    skipped like [None]: [if let Some(Ok(node_pairs))]. *)
Definition factor_row (b : rows_builder) (p : const_pair) : res unit (rows_builder * option nat) :=
  rbind (finite_factor (unwrap_or_one (cp_f0 p))) (fun f0 =>
  rbind (get_nodes (cp_n0 p)) (fun ns0 =>
  rbind (finite_factor (unwrap_or_one (cp_f1 p))) (fun f1 =>
  rbind (get_nodes (cp_n1 p)) (fun ns1 =>
  let r := mkRow (cp_rhs p) (Some (cp_rhs p)) (add_nodes ns1 f1 (add_nodes ns0 f0 [])) in
  if is_some (cp_f0 p) && is_some (cp_f1 p) then Ok (add_fixed_row b r, None)
  else let '(b1, i) := add_variable_row b r in Ok (b1, Some i))))).
Fixpoint factor_rows (b : rows_builder) (ps : list const_pair) : res unit (rows_builder * list (option nat)) :=
  match ps with
  | [] => Ok (b, [])
  | p :: r => rbind (factor_row b p) (fun '(b1, i) =>
              rbind (factor_rows b1 r) (fun '(b2, is) => Ok (b2, i :: is)))
  end.
Fixpoint factor_constraints (i : nat) (aggs : list agg_node) (b : rows_builder)
    : res unit (rows_builder * list (nat * list (option nat))) :=
  match aggs with
  | [] => Ok (b, [])
  | a :: r =>
      match const_factor_pairs a with
      | Some (Ok ps) =>
          rbind (factor_rows b ps) (fun '(b1, is) =>
          rbind (factor_constraints (S i) r b1) (fun '(b2, ids) => Ok (b2, (i, is) :: ids)))
      | Some Panic => Panic
      | _ => factor_constraints (S i) r b
      end
  end.
End Build.

(** *** The built programme *)

(** builder.rs:30-47 [Lp], by rows; [coefficients_to_update] is an argument of
    the functions below. *)
Record lrow := mkLr { l_lower : Q; l_upper : Q; l_mask : bool; l_cols : list (nat * Q) }.
Record lp := mkLp { lp_fmax : Q; lp_cols : list column; lp_obj : list Q; lp_rows : list lrow }.

(** builder.rs:316-323 [BuiltSolver]. *)
Record built := mkBuilt {
  bt_lp : lp;
  bt_nodes : list node_row;
  bt_aggs : list nat;
  bt_factors : list (nat * list (option nat));
  bt_vss : list nat }.

(** builder.rs:200-226 [LpBuilder::build]: variable rows first, with a mask. *)
Definition finish_row (fm : Q) (mask : bool) (r : row) : lrow :=
  mkLr (r_lower r) (match r_upper r with Some u => u | None => fm end) mask (r_cols r).

Inductive setup_error := NoEdgesDefined.

Definition lift_panic {A} (x : res unit A) : res setup_error A :=
  match x with Ok a => Ok a | _ => Panic end.

(** builder.rs:649-678 [create] and the column part of [create_columns]
    (685-690, 719-722, 739). *)
Definition create (fm : Q) (order : list (list nat)) (net : network) : res setup_error built :=
  if length (net_edges net) <? 1 then Err NoEdgesDefined
  else
    let base := cm_ncols (edge_columns net) in
    let cols := repeat (mkCol 0 fm ColContinuous) base ++ repeat (mkCol 0 1 ColInteger) (length order) in
    let col := col_for_edge net in
    lift_panic
    (rbind (mass_balance_rows col (mkRb [] []) (net_nodes net)) (fun b1 =>
     let '(b2, nids) := node_constraints col fm (node_bin_cols base order) 0 (net_nodes net) b1 in
     rbind (agg_constraints net col (net_aggs net) b2) (fun '(b3, aids) =>
     rbind (factor_constraints net col 0 (net_aggs net) b3) (fun '(b4, fids) =>
     rbind (vs_constraints net col (net_vss net) b4) (fun '(b5, vids) =>
     rbind (exclusivity_constraints base order (net_aggs net) b5) (fun b6 =>
     Ok (mkBuilt (mkLp fm cols (repeat 0%Q (length cols))
                       (map (finish_row fm true) (rb_rows b6) ++ map (finish_row fm false) (rb_fixed b6)))
                 nids aids fids vids))))))).

(** *** Updating for a time-step *)

Fixpoint upd {A} (n : nat) (f : A -> A) (l : list A) : list A :=
  match l, n with
  | [], _ => []
  | x :: r, O => f x :: r
  | x :: r, S n' => x :: upd n' f r
  end.

(** builder.rs:54-61 [zero_obj_coefficients], [add_obj_coefficient];
    edge.rs:46-62 [Edge::cost]; 442-469 [update_edge_objectives]. *)
Definition edge_cost (net : network) (e : env) (ed : edge) : Q :=
  (match nth_error (net_nodes net) (e_from ed) with Some n => outgoing_cost net e n | None => 0 end +
   match nth_error (net_nodes net) (e_to ed) with Some n => incoming_cost net e n | None => 0 end)%Q.
Definition update_edge_objectives (net : network) (e : env) (obj : list Q) : list Q :=
  fold_left (fun o ie => upd (col_for_edge net (fst ie)) (fun q => q + edge_cost net e (snd ie))%Q o)
            (combine (seq 0 (length (net_edges net))) (net_edges net))
            (map (fun _ => 0%Q) obj).

(** builder.rs:64-76 [reset_row_bounds]. *)
Definition reset_row (fm : Q) (r : lrow) : lrow :=
  if l_mask r then mkLr (- fm)%Q fm true (l_cols r) else r.
(** builder.rs:85-88 [apply_row_bounds]. *)
Definition apply_row_bounds (rows : list lrow) (i : nat) (lb ub : Q) : list lrow :=
  upd i (fun r => mkLr (fmax (l_lower r) lb) (fmin (l_upper r) ub) (l_mask r) (l_cols r)) rows.

(** The calls an update makes: [OBound] is [apply_row_bounds], [OCoef] a push
    on [coefficients_to_update].  What is applied never depends on the rows,
    so the functions below list the calls and [update] performs them. *)
Inductive op := OBound (r : nat) (lb ub : Q) | OCoef (r c : nat) (v : Q).

(** builder.rs:472-516 [update_node_constraint_bounds], one row. *)
Definition node_row_ops (net : network) (s : lp_state) (nr : node_row) : list op :=
  match nth_error (net_nodes net) (nr_node nr) with
  | None => []          (* Err(NodeIndexNotFound); the index came from the network *)
  | Some n =>
      let '(lb, ub) := match get_bounds s (nr_node nr) n with
                       | BFlow mn mx => (mn, mx)
                       | BVolume av mi => (- av / st_days s, mi / st_days s)%Q
                       end in
      match nr_type nr with
      | RContinuous => [OBound (nr_row nr) lb ub]
      | RBinaryUpper c => [OCoef (nr_row nr) c ub]
      | RBinaryLower c => [OCoef (nr_row nr) c (- lb)%Q]
      end
  end.

(** builder.rs:90-121 [update_row_coefficients].  For a storage the outgoing
    edges get [factor], not [-factor]. *)
Definition coef_ops (col : nat -> nat) (row : nat) (n : node) (factor : Q) : list op :=
  match n_type n with
  | TLink => map (fun e => OCoef row (col e) factor) (n_out n)
  | TInput => map (fun e => OCoef row (col e) factor) (n_out n)
  | TOutput => map (fun e => OCoef row (col e) factor) (n_in n)
  | TStorage => map (fun e => OCoef row (col e) factor) (n_in n) ++
                map (fun e => OCoef row (col e) factor) (n_out n)
  end.

Inductive update_error := NonFiniteCoefficient.
Definition ures := res update_error.

(** builder.rs:518-574 [update_aggregated_node_factor_constraints].  The code
    carries on with an infinite coefficient; the model stops with
    [NonFiniteCoefficient]. *)
Definition factor_pair_ops (net : network) (p : factor_pair) (ri : option nat) : ures (list op) :=
  match ri with
  | None => Ok []
  | Some r =>
      match get_nodes net (fp_n0 p), get_nodes net (fp_n1 p) with
      | Ok ns0, Ok ns1 =>
          match fp_f0 p, fp_f1 p with
          | Fin f0, Fin f1 =>
              Ok (flat_map (fun n => coef_ops (col_for_edge net) r n f0) ns0 ++
                  flat_map (fun n => coef_ops (col_for_edge net) r n f1) ns1 ++
                  [OBound r (fp_rhs p) (fp_rhs p)])
          | _, _ => Err NonFiniteCoefficient
          end
      | _, _ => Panic
      end
  end.
Definition factor_agg_ops (net : network) (s : lp_state) (fi : nat * list (option nat)) : ures (list op) :=
  match nth_error (net_aggs net) (fst fi) with
  | None => Ok []       (* Err(AggregatedNodeIndexNotFound) *)
  | Some a =>
      match norm_factor_pairs (st_env s) a with
      | Some (Ok ps) =>
          if length (snd fi) =? length ps
          then rbind (rmap (fun pr => factor_pair_ops net (fst pr) (snd pr)) (combine ps (snd fi)))
                     (fun l => Ok (concat l))
          else Panic
      | _ => Panic
      end
  end.

(** builder.rs:577-595 [update_aggregated_node_constraint_bounds]. *)
Definition agg_ops (s : lp_state) (ra : nat * agg_node) : op :=
  OBound (fst ra) (get_min (st_env s) (a_min (snd ra))) (get_max (st_env s) (a_max (snd ra))).

(** builder.rs:597-622 [update_virtual_storage_node_constraint_bounds]. *)
Definition vs_ops (fm : Q) (s : lp_state) (rv : nat * (nat * vs_node)) : op :=
  let '(r, (i, v)) := rv in
  if vs_is_active (v_period v) (st_date s) then
    let '(avail, missing) := vs_available_missing s i v in
    OBound r (- avail / st_days s)%Q (missing / st_days s)%Q
  else OBound r (- fm)%Q fm.

Definition update_ops (net : network) (b : built) (s : lp_state) : ures (list op) :=
  rbind (rmap (factor_agg_ops net s) (bt_factors b)) (fun fops =>
  Ok (flat_map (node_row_ops net s) (bt_nodes b) ++
      concat fops ++
      map (agg_ops s) (combine (bt_aggs b) (net_aggs net)) ++
      map (vs_ops (lp_fmax (bt_lp b)) s)
          (combine (bt_vss b) (combine (seq 0 (length (net_vss net))) (net_vss net))))).

Definition apply_bound (rows : list lrow) (o : op) : list lrow :=
  match o with OBound r lb ub => apply_row_bounds rows r lb ub | OCoef _ _ _ => rows end.

(** builder.rs:397-414 [apply_updated_coefficients] (other solvers change the
    same coefficient through their own interface): replace, not add. *)
Fixpoint set_coef (c : nat) (v : Q) (cols : list (nat * Q)) : option (list (nat * Q)) :=
  match cols with
  | [] => None
  | (c', v') :: r => if c' =? c then Some ((c', v) :: r)
                     else match set_coef c v r with Some r' => Some ((c', v') :: r') | None => None end
  end.
Definition apply_coef (rows : list lrow) (o : op) : ures (list lrow) :=
  match o with
  | OBound _ _ _ => Ok rows
  | OCoef i c v =>
      match nth_error rows i with
      | None => Panic
      | Some r => match set_coef c v (l_cols r) with
                  | None => Panic
                  | Some cols => Ok (upd i (fun r => mkLr (l_lower r) (l_upper r) (l_mask r) cols) rows)
                  end
      end
  end.
Fixpoint apply_coefs (ops : list op) (rows : list lrow) : ures (list lrow) :=
  match ops with
  | [] => Ok rows
  | o :: r => rbind (apply_coef rows o) (fun rows' => apply_coefs r rows')
  end.

(** builder.rs:416-439 [update], followed by the update of the coefficients in
    the solver. *)
Definition update (net : network) (b : built) (s : lp_state) : ures built :=
  let l := bt_lp b in
  rbind (update_ops net b s) (fun ops =>
  let obj := update_edge_objectives net (st_env s) (lp_obj l) in
  let rows := fold_left apply_bound ops (map (reset_row (lp_fmax l)) (lp_rows l)) in
  rbind (apply_coefs ops rows) (fun rows' =>
  Ok (mkBuilt (mkLp (lp_fmax l) (lp_cols l) obj rows') (bt_nodes b) (bt_aggs b) (bt_factors b) (bt_vss b)))).

Fixpoint updates (net : network) (b : built) (ss : list lp_state) : ures built :=
  match ss with
  | [] => Ok b
  | s :: r => rbind (update net b s) (fun b' => updates net b' r)
  end.

(** *** Solutions *)
Definition row_value (cols : list (nat * Q)) (x : nat -> Q) : Q :=
  qsum (map (fun cv => snd cv * x (fst cv))%Q cols).
Definition is_integer (q : Q) : Prop := exists z, (q == inject_Z z)%Q.

(** What any of the solvers accepts as a solution. *)
Definition feasible (l : lp) (x : nat -> Q) : Prop :=
  (forall i c, nth_error (lp_cols l) i = Some c ->
     (col_lower c <= x i <= col_upper c)%Q /\ (col_type_of c = ColInteger -> is_integer (x i))) /\
  (forall r, In r (lp_rows l) -> (l_lower r <= row_value (l_cols r) x <= l_upper r)%Q).

(** The value of the objective the solvers minimise. *)
Definition objective (l : lp) (x : nat -> Q) : Q :=
  qsum (map (fun io => snd io * x (fst io))%Q (combine (seq 0 (length (lp_obj l))) (lp_obj l))).

(** The flow of an edge written back after a solve (clp/mod.rs:425-429 and the
    same loop in the other solvers): the value of its column. *)
Definition edge_flow (net : network) (x : nat -> Q) (e : nat) : Q := x (col_for_edge net e).
