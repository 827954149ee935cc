(** Allocations in real numbers, for the statements about the interior point
    solver. *)
From Coq Require Import Reals Qreals Relations.
From Verif Require Import Base Calendar Network NetworkBuild NetworkSpec Lp IpmLp IpmSpec.
Local Open Scope list_scope.
Local Open Scope R_scope.

Definition lsum (l : list R) : R := fold_right Rplus 0 l.
Definition r_inflow (net : network) (f : nat -> R) (i : nat) : R := lsum (map f (in_edges net i)).
Definition r_outflow (net : network) (f : nat -> R) (i : nat) : R := lsum (map f (out_edges net i)).
(** What leaves an input, arrives at an output, passes a link, is added to a
    storage. *)
Definition r_node_flow (net : network) (f : nat -> R) (i : nat) (n : node) : R :=
  match n_type n with
  | TInput => r_outflow net f i
  | TOutput => r_inflow net f i
  | TLink => r_outflow net f i
  | TStorage => r_inflow net f i - r_outflow net f i
  end.

(** The flows [f] keep, up to [slack], to the balance of every link, to the
    maximum of every node that has one and to the volumes of every storage; all
    these flows are at most 999999 (a number of the solver).  Minimum flows are
    not in the list: the solver ignores them. *)
Definition at_most (slack : R) (limit : Q) (v : R) : Prop := v <= Q2R limit + slack /\ v <= 999999 + slack.
Record keeps (net : network) (s : lp_state) (slack : R) (f : nat -> R) : Prop := {
  k_links : forall i n, nth_error (net_nodes net) i = Some n -> n_type n = TLink ->
    Rabs (r_inflow net f i - r_outflow net f i) <= slack;
  k_max : forall i n m, nth_error (net_nodes net) i = Some n -> n_type n <> TStorage -> n_max n = Some m ->
    at_most slack (metric_value (st_env s) m) (r_node_flow net f i n);
  k_filling : forall i n, nth_error (net_nodes net) i = Some n -> n_type n = TStorage ->
    at_most slack ((get_max (st_env s) (n_maxv n) - st_volume s i) / st_days s) (r_node_flow net f i n);
  k_draining : forall i n, nth_error (net_nodes net) i = Some n -> n_type n = TStorage ->
    at_most slack ((st_volume s i - get_min (st_env s) (n_minv n)) / st_days s) (- r_node_flow net f i n) }.
(** An allocation: flows that are not negative and keep to everything exactly. *)
Definition allocation (net : network) (s : lp_state) (f : nat -> R) : Prop :=
  (forall e, (e < length (net_edges net))%nat -> 0 <= f e) /\ keeps net s 0 f.

(** The cost of all flows. *)
Definition r_cost (net : network) (s : lp_state) (f : nat -> R) : R :=
  lsum (map (fun ie => Q2R (edge_cost net (st_env s) (snd ie)) * f (fst ie)) (combine (seq 0 (length (net_edges net))) (net_edges net))).
(** The length of the vector of the flows of all edges. *)
Definition size (net : network) (f : nat -> R) : R := norm (length (net_edges net)) f.

(** The cost of one unit of flow in all edges that share the column [k]. *)
Definition column_cost (net : network) (s : lp_state) (k : nat) : R :=
  r_cost net s (fun e => if Nat.eqb (col_for_edge net e) k then 1 else 0).

(** What the solver promises for the flows [f] of a state.  [l] is its
    programme: [y] are prices of its rows, which make up for the cost of every
    column up to the tolerance. *)
Definition near_best (net : network) (l : ilp) (s : lp_state) (t : tolerances) (f : nat -> R) : Prop :=
  (forall e, (e < length (net_edges net))%nat -> 0 < f e) /\
  keeps net s (t_primal t * (1 + size net f)) f /\
  exists y, positive (length (il_ineq l)) y /\
    let price := norm (length (real_matrix l)) y in
    (forall k, (k < il_ncols l)%nat -> - column_cost net s k < times_t (length (real_matrix l)) (dense (real_matrix l)) y k + t_dual t * (1 + price)) /\
    forall f', allocation net s f' ->
      r_cost net s f <= r_cost net s f'
        + t_optimality t * (1 + size net f + price)
        + t_primal t * (1 + size net f) * price
        + t_dual t * (1 + price) * size net (fun e => f' e - f e).

(** Every link is joined, by a chain of edges in any direction, to a node that
    is not a link; every storage has an edge. *)
Definition joined (net : network) (i j : nat) : Prop := exists ed, In ed (net_edges net) /\ e_from ed = i /\ e_to ed = j.
Definition anchored (net : network) : Prop :=
  forall i n, nth_error (net_nodes net) i = Some n -> n_type n = TLink ->
    exists j m, clos_refl_sym_trans nat (joined net) i j /\ nth_error (net_nodes net) j = Some m /\ n_type m <> TLink.
Definition storages_used (net : network) : Prop :=
  forall i n, nth_error (net_nodes net) i = Some n -> n_type n = TStorage -> n_in n <> [] \/ n_out n <> [].
