(** What a user sees of a model file's nodes: the metrics of a node and of an
    edge, and the flows of the named parts a node consists of, in a time-step
    the solver found a solution for. *)
From Verif Require Import Base Calendar Network NetworkBuild NetworkSpec Lp LpSpec SchemaNodes SchemaMetrics.
Local Open Scope nat_scope.

(** [x] is a feasible solution, in state [s], for the network [net] built from
    the model file [sc], which declares [a]. *)
Record simulated (key : umetric -> nat) (step : option Z) (sc : schema) (a : added) (net : network)
    (s : lp_state) (x : nat -> Q) : Prop := {
  sm_load : load_schema key step sc = Ok a;
  sm_build : build_network (declaration a) = Ok net;
  sm_solved : exists fm order ss, solved net fm order ss s x }.

(** Attribute [t] of node [n] is [q]. *)
Definition node_metric (a : added) (net : network) (x : nat -> Q) (n : snode) (t : attribute) (q : Q) : Prop :=
  exists m v, create_metric n (Some t) = Ok m /\ flow_value (declaration a) net (edge_flow net x) m = Some v /\ (v == q)%Q.

(** The flow of edge [e] of the file is [q]. *)
Definition edge_metric_is (sc : schema) (a : added) (net : network) (x : nat -> Q) (e : sedge) (q : Q) : Prop :=
  exists m v, edge_metric sc e = Ok m /\ flow_value (declaration a) net (edge_flow net x) m = Some v /\ (v == q)%Q.

(** The flow through the part called [u] is [q]. *)
Definition part_flow (a : added) (net : network) (x : nat -> Q) (u : uname) (q : Q) : Prop :=
  exists i, declared (declaration a) i u /\ (node_flow net (edge_flow net x) i == q)%Q.

(** The current value of a metric of the file. *)
Definition value (key : umetric -> nat) (s : lp_state) (m : umetric) : Q := metric_value (st_env s) (to_metric key m).
Definition value_or (key : umetric -> nat) (s : lp_state) (m : option umetric) (d : Q) : Q :=
  match m with Some m => value key s m | None => d end.

(** [q] lies between two optional limits; without a lower limit it is at least
    0, without an upper limit at most the largest number. *)
Definition limited (key : umetric -> nat) (s : lp_state) (mn mx : option umetric) (q : Q) : Prop :=
  (value_or key s mn 0 <= q /\ q <= value_or key s mx F64_MAX)%Q.

(** The part called [u] is not a member of a mutually exclusive set of nodes. *)
Definition not_exclusive (a : added) (net : network) (u : uname) : Prop :=
  forall i, declared (declaration a) i u -> ~ in_exclusive_set net i.

(** The metric is the number [q], known when the network is set up: a literal,
    or something of the file that evaluates to a constant. *)
Definition constant (m : umetric) (q : Q) : Prop := m = UConst q \/ m = UOther (MConst q).

(** Losses: a gross factor is a share of what arrives, a net factor a share of
    what is passed on. *)
Definition factor_metric (lf : loss_factor) : umetric := match lf with LGross m | LNet m => m end.
Definition valid_factor (lf : loss_factor) (q : Q) : Prop :=
  match lf with LGross _ => 0 <= q /\ q < 1 | LNet _ => 0 <= q end%Q.
Definition loses (lf : loss_factor) (q arriving passed_on lost : Q) : Prop :=
  match lf with LGross _ => lost == q * arriving | LNet _ => lost == q * passed_on end%Q.

(** The aggregated node called [u] shares no decision variable with another one
    that has factors (see [factors_separate]). *)
Definition separate (a : added) (net : network) (u : uname) : Prop :=
  forall k ab g, nth_error (ad_aggs a) k = Some ab -> ab_name ab = u -> nth_error (net_aggs net) k = Some g ->
    factors_separate net k g.

(** What the part called [u] is charged per unit of flow, apart from costs of
    virtual storages that use it. *)
Definition own_cost (a : added) (net : network) (s : lp_state) (u : uname) (q : Q) : Prop :=
  exists i n m, declared (declaration a) i u /\ nth_error (net_nodes net) i = Some n /\
    c_local (n_cost n) = Some m /\ (metric_value (st_env s) m == q)%Q.
