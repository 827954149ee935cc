(** Specification vocabulary for the linear programme: edge flows, what goes
    in and out of a node, mass balance.  Written in terms of the network's
    edge list only. *)
From Verif Require Import Base Calendar Network NetworkBuild NetworkSpec Lp.
Open Scope nat_scope.

Definition inflow (net : network) (f : nat -> Q) (i : nat) : Q := qsum (map f (in_edges net i)).
Definition outflow (net : network) (f : nat -> Q) (i : nat) : Q := qsum (map f (out_edges net i)).

(** Every link passes on what it receives. *)
Definition balanced (net : network) (f : nat -> Q) : Prop :=
  forall i n, nth_error (net_nodes net) i = Some n -> n_type n = TLink ->
    (inflow net f i == outflow net f i)%Q.

(** The flow of a node: what leaves an input, arrives at an output, passes
    through a link; for a storage, what is added to it. *)
Definition node_flow (net : network) (f : nat -> Q) (i : nat) : Q :=
  match nth_error (net_nodes net) i with
  | None => 0
  | Some n => match n_type n with
              | TInput => outflow net f i
              | TOutput => inflow net f i
              | TLink => outflow net f i
              | TStorage => inflow net f i - outflow net f i
              end
  end%Q.

(** Total flow of a group of nodes. *)
Definition group_flow (net : network) (f : nat -> Q) (is : list nat) : Q := qsum (map (node_flow net f) is).

(** [q] respects a lower limit (0 if none is given) and an upper limit (the
    largest number if none is given) as they stand in the current state. *)
Definition within_limits (e : env) (lower upper : option metric) (q : Q) : Prop :=
  (match lower with Some m => metric_value e m <= q | None => 0 <= q end /\
   match upper with Some m => q <= metric_value e m | None => q <= F64_MAX end)%Q.

(** A storage's volume at the end of the time-step. *)
Definition end_volume (net : network) (s : lp_state) (f : nat -> Q) (i : nat) : Q :=
  (st_volume s i + st_days s * (inflow net f i - outflow net f i))%Q.

Definition node_ok (net : network) (s : lp_state) (f : nat -> Q) (i : nat) (n : node) : Prop :=
  match n_type n with
  | TStorage => within_limits (st_env s) (n_minv n) (n_maxv n) (end_volume net s f i)
  | _ => within_limits (st_env s) (n_min n) (n_max n) (node_flow net f i)
  end.

(** What a virtual storage is charged in the time-step, per day, and its volume
    afterwards. *)
Definition vs_use (net : network) (f : nat -> Q) (v : vs_node) : Q :=
  qsum (map (fun t => snd t * node_flow net f (fst t))%Q (vs_terms v)).
Definition vs_end_volume (net : network) (s : lp_state) (f : nat -> Q) (i : nat) (v : vs_node) : Q :=
  (st_vs_volume s i - st_days s * vs_use net f v)%Q.

(** An active virtual storage does not leave its limits (if it is outside
    already, it does not move further out). *)
Definition vs_lower (s : lp_state) (v : vs_node) : Q :=
  match v_minv v with Some m => metric_value (st_env s) m | None => 0 end.
Definition vs_upper (s : lp_state) (v : vs_node) : Q :=
  match v_maxv v with Some m => metric_value (st_env s) m | None => F64_MAX end.
Definition vs_ok (net : network) (s : lp_state) (f : nat -> Q) (i : nat) (v : vs_node) : Prop :=
  vs_is_active (v_period v) (st_date s) = true ->
  (Qmin (st_vs_volume s i) (vs_lower s v) <= vs_end_volume net s f i v
   <= Qmax (st_vs_volume s i) (vs_upper s v))%Q.

(** The allocations the model allows, stated for edge flows. *)
Record flows_ok (net : network) (s : lp_state) (fm : Q) (f : nat -> Q) : Prop := {
  fo_edges : forall e, e < length (net_edges net) -> (0 <= f e <= fm)%Q;
  fo_balanced : balanced net f;
  fo_nodes : forall i n, nth_error (net_nodes net) i = Some n -> node_ok net s f i n;
  fo_aggs : forall a, In a (net_aggs net) ->
      within_limits (st_env s) (a_min a) (a_max a) (group_flow net f (concat (a_nodes a)));
  fo_vss : forall i v, nth_error (net_vss net) i = Some v -> vs_ok net s f i v }.

(** No total the programme forms exceeds the number the solver takes for
    infinity. *)
Record totals_finite (net : network) (fm : Q) (f : nat -> Q) : Prop := {
  tf_nodes : forall i, i < length (net_nodes net) -> (- fm <= node_flow net f i <= fm)%Q;
  tf_aggs : forall a, In a (net_aggs net) -> (- fm <= group_flow net f (concat (a_nodes a)) <= fm)%Q;
  tf_vss : forall v, In v (net_vss net) -> (- fm <= vs_use net f v <= fm)%Q }.

(** A network whose aggregated nodes carry limits only. *)
Definition no_relationships (net : network) : Prop :=
  forall a, In a (net_aggs net) -> a_rel a = None.

(** Node [i] is a member of some mutually exclusive set. *)
Definition in_exclusive_set (net : network) (i : nat) : Prop :=
  exists a ns, In a (net_aggs net) /\ (exists mn mx, a_rel a = Some (RExclusive mn mx)) /\ In ns (a_nodes a) /\ In i ns.

(** The cost of a node's flow: its own cost combined with that of the virtual
    storages using it. *)
Definition node_cost_of (net : network) (s : lp_state) (n : node) : Q := get_cost net (st_env s) (n_cost n).
Definition total_cost (net : network) (s : lp_state) (f : nat -> Q) : Q :=
  qsum (map (fun i => match nth_error (net_nodes net) i with
                      | Some n => node_cost_of net s n * node_flow net f i
                      | None => 0
                      end)%Q (seq 0 (length (net_nodes net)))).

(** *** Relationships of aggregated nodes *)

(** The first group gets what the given shares leave, every further group its
    share, of the total flow of all groups. *)
Definition proportions_hold (net : network) (f : nat -> Q) (groups : list (list nat)) (shares : list Q) : Prop :=
  match groups with
  | [] => False
  | g0 :: rest =>
      let total := qsum (map (group_flow net f) groups) in
      (group_flow net f g0 == (1 - qsum shares) * total)%Q /\
      Forall2 (fun g v => group_flow net f g == v * total)%Q rest shares
  end.

(** The flows of the groups are to each other as the ratios (relative to the
    first group). *)
Definition ratios_hold (net : network) (f : nat -> Q) (groups : list (list nat)) (ratios : list Q) : Prop :=
  match groups, ratios with
  | g0 :: gs, r0 :: rs =>
      Forall2 (fun g r => group_flow net f g * r0 == group_flow net f g0 * r)%Q gs rs
  | _, _ => False
  end.

Definition coefficients_hold (net : network) (f : nat -> Q) (groups : list (list nat)) (cs : list Q) (rhs : Q) : Prop :=
  match groups, cs with
  | [g0; g1], [c0; c1] => (c0 * group_flow net f g0 + c1 * group_flow net f g1 == rhs)%Q
  | _, _ => False
  end.

(** The edges that make up the flow of a node, and the columns of the programme
    behind the nodes of a group. *)
Definition flow_edges (net : network) (i : nat) : list nat :=
  match nth_error (net_nodes net) i with
  | None => []
  | Some n => match n_type n with
              | TInput | TLink => out_edges net i
              | TOutput => in_edges net i
              | TStorage => in_edges net i ++ out_edges net i
              end
  end.
Definition group_columns (net : network) (g : list nat) : list nat :=
  flat_map (fun i => map (col_for_edge net) (flow_edges net i)) g.

(** The groups of aggregated node [k] have no storage among them, are not
    empty, and no decision variable is used twice: neither by two of its nodes
    nor by another aggregated node with factors. *)
Record factors_separate (net : network) (k : nat) (a : agg_node) : Prop := {
  fs_no_storage : forall i n, In i (concat (a_nodes a)) -> nth_error (net_nodes net) i = Some n -> n_type n <> TStorage;
  fs_nonempty : forall g, In g (a_nodes a) -> g <> [];
  fs_distinct : NoDup (group_columns net (concat (a_nodes a)));
  fs_others : forall k' a' fs, k' <> k -> nth_error (net_aggs net) k' = Some a' -> a_rel a' = Some (RFactored fs) ->
    forall c, In c (group_columns net (concat (a_nodes a))) -> ~ In c (group_columns net (concat (a_nodes a'))) }.

(** A node carries flow; how many sets of a group have a node that does, and
    how many consist of nodes that all do. *)
Definition carries (net : network) (f : nat -> Q) (i : nat) : bool := negb (Qle_bool (node_flow net f i) 0).
Definition sets_active (net : network) (f : nat -> Q) (sets : list (list nat)) : nat :=
  length (filter (existsb (carries net f)) sets).
Definition sets_fully_active (net : network) (f : nat -> Q) (sets : list (list nat)) : nat :=
  length (filter (forallb (carries net f)) sets).

(** Every node named in [sets] has constant flow limits. *)
Definition constant_limits (net : network) (sets : list (list nat)) (lims : Q -> Q -> Prop) : Prop :=
  forall ns i, In ns sets -> In i ns -> exists n mn mx,
    nth_error (net_nodes net) i = Some n /\ n_type n <> TStorage /\
    (n_min n = Some (MConst mn) \/ (n_min n = None /\ mn = 0%Q)) /\
    (n_max n = Some (MConst mx) \/ (n_max n = None /\ mx = F64_MAX)) /\ lims mn mx.

(** *** Solved time-steps *)

(** [x] is some feasible solution of the programme built for [net] by a solver
    whose infinity is [fm] and which was updated for every state of [ss], in
    turn, and then for [s].  [order] is the order in which the code happens to
    enumerate the (hashed) mutually exclusive sets. *)
Definition solved (net : network) (fm : Q) (order : list (list nat)) (ss : list lp_state) (s : lp_state) (x : nat -> Q) : Prop :=
  valid_order net order /\
  exists b0 b, create fm order net = Ok b0 /\ updates net b0 (ss ++ [s]) = Ok b /\ feasible (bt_lp b) x.

(** What a node's unit of flow costs: its own cost, alone or combined with the
    costs of the virtual storages that use it. *)
Definition is_node_cost (net : network) (s : lp_state) (n : node) (q : Q) : Prop :=
  let own := match c_local (n_cost n) with Some m => metric_value (st_env s) m | None => 0%Q end in
  let shared := map (fun v => match v_cost v with Some m => metric_value (st_env s) m | None => 0%Q end)
                  (map (fun k => nth k (net_vss net) (mkVs [] [] (IVAbsolute 0) None None ResetNever ResetInitial None AlwaysActive None))
                     (c_vs (n_cost n))) in
  match c_agg (n_cost n) with
  | None => (q == own)%Q
  | Some CSum => (q == own + qsum shared)%Q
  | Some CMax => In q (own :: shared) /\ (forall c, In c (own :: shared) -> c <= q)%Q
  | Some CMin => In q (own :: shared) /\ (forall c, In c (own :: shared) -> q <= c)%Q
  end.
