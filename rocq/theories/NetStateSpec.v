(** Specification vocabulary for the simulated state. *)
From Verif Require Import Base Calendar Timestep Network NetworkBuild NetworkSpec Lp LpSpec NetState.
Open Scope nat_scope.

(** The state belongs to the network: one entry per node (with a volume exactly
    for storages), edge and virtual storage. *)
Record state_of (net : network) (st : net_state) : Prop := {
  so_nodes : Forall2 (fun n s => n_type n = TStorage <-> exists x, s = NsStorage x) (net_nodes net) (ns_nodes st);
  so_edges : length (ns_edges st) = length (net_edges net);
  so_vss : Forall2 (fun v s => option_map h_size (vss_history s) = v_window v) (net_vss net) (ns_vss st) }.

(** Two numbers reported by the state are equal as numbers. *)
Definition reports (r : sres Q) (q : Q) : Prop := exists q', r = Ok q' /\ (q' == q)%Q.

(** The part of a state that flows are added to: volumes and histories. *)
Definition volumes_of (st : net_state) : list (option (Q * Q)) :=
  map (fun s => match s with NsStorage x => Some (s_volume x, s_max x) | NsFlow _ => None end) (ns_nodes st).

Definition total_stored (st : net_state) : Q :=
  qsum (map (fun s => match s with NsStorage x => s_volume x | NsFlow _ => 0%Q end) (ns_nodes st)).

(** Sum over all nodes of one type. *)
Definition over_type (net : network) (ty : node_type) (g : nat -> Q) : Q :=
  qsum (map (fun i => match nth_error (net_nodes net) i with
                      | Some n => match n_type n, ty with
                                  | TInput, TInput | TOutput, TOutput | TLink, TLink | TStorage, TStorage => g i
                                  | _, _ => 0%Q
                                  end
                      | None => 0%Q
                      end) (seq 0 (length (net_nodes net)))).

(** Volume limits of a storage or virtual storage in the current time-step. *)
Definition lower_volume (e : env) (m : option metric) : Q :=
  match m with Some m => metric_value e m | None => 0%Q end.
Definition upper_volume (e : env) (m : option metric) : Q :=
  match m with Some m => metric_value e m | None => F64_MAX end.

(** Virtual storages refer to inputs, outputs and links only. *)
Definition vs_on_flow_nodes (net : network) : Prop :=
  forall v i n, In v (net_vss net) -> In i (v_nodes v) -> nth_error (net_nodes net) i = Some n -> n_type n <> TStorage.

(** Every virtual storage's volume is within its limits. *)
Definition vss_within (net : network) (e : env) (st : net_state) : Prop :=
  forall k v, nth_error (net_vss net) k = Some v ->
    exists q, get_vs_volume st k = Ok q /\ (lower_volume e (v_minv v) <= q <= upper_volume e (v_maxv v))%Q.

(** No storage is a member of a mutually exclusive set. *)
Definition storages_not_exclusive (net : network) : Prop :=
  forall i n, nth_error (net_nodes net) i = Some n -> n_type n = TStorage -> ~ in_exclusive_set net i.

(** One simulated time-step: its time, the metric values, the state after the
    before phase, the solution the solver returned and the state it left. *)
Record sim_step := mkStep {
  sim_t : timestep; sim_env : env; sim_start : net_state; sim_x : nat -> Q; sim_end : net_state }.
Definition sim_flows (net : network) (p : sim_step) : nat -> Q := edge_flow net (sim_x p).
(** What the solver sees of the state in this time-step. *)
Definition sim_lp (p : sim_step) : lp_state := lp_state_of (sim_start p) (sim_env p) (sim_t p).
Definition end_state (net : network) (steps : list sim_step) : net_state :=
  last (map sim_end steps) (initial_state net).

(** The simulations of one scenario: each time-step runs the before phase on
    the state the previous one left, solves the programme updated for the state
    so found, and writes the solution back. *)
Inductive run (net : network) (fm : Q) (order : list (list nat)) : list sim_step -> Prop :=
| run_start : run net fm order []
| run_step : forall steps p,
    run net fm order steps ->
    before_phase net (sim_env p) (sim_t p) (end_state net steps) = Ok (sim_start p) ->
    solved net fm order (map sim_lp steps) (sim_lp p) (sim_x p) ->
    after_solve net (sim_env p) (sim_t p) (sim_flows net p) (sim_start p) = Ok (sim_end p) ->
    run net fm order (steps ++ [p]).

(** Time-steps are numbered from zero and have a positive length. *)
Definition numbered (steps : list sim_step) : Prop :=
  forall k p, nth_error steps k = Some p -> ts_index (sim_t p) = Z.of_nat k /\ (0 < ts_days (sim_t p))%Q.

(** What a storage gains in one simulated time-step. *)
Definition net_gain (net : network) (i : nat) (p : sim_step) : Q :=
  (ts_days (sim_t p) * (inflow net (sim_flows net p) i - outflow net (sim_flows net p) i))%Q.
(** The volume a storage is declared to start with. *)
Definition starting_volume (e : env) (maxv : option metric) (iv : init_volume) : Q :=
  match iv with
  | IVAbsolute q => q
  | IVProportional q => upper_volume e maxv * q
  | IVDistAbsolute a prior => Qmin (Qmax (a - metric_value e prior) 0) (upper_volume e maxv)
  | IVDistProportional total p prior =>
      Qmin (Qmax (metric_value e total * p - metric_value e prior) 0) (upper_volume e maxv)
  end%Q.

(** *** Resets of a virtual storage *)

(** [R] tells at which time-steps a virtual storage is reset, given the dates of
    the time-steps: at the first one, at every one outside its active period,
    and when its rule asks for it - never, on a day of the year, or when the
    given number of calendar months has gone by since the last reset. *)
Definition reset_rule (v : vs_node) (steps : list sim_step) (R : nat -> Prop) : Prop :=
  forall k p, nth_error steps k = Some p ->
    let d := ts_day (sim_t p) in
    (R k <->
     k = 0 \/ vs_is_active (v_period v) d = false \/
     match v_reset v with
     | ResetNever => False
     | ResetDayOfYear day month => d_day d = day /\ d_month d = month
     | ResetMonths n =>
         exists j pj, j < k /\ nth_error steps j = Some pj /\ R j /\ (forall i, j < i < k -> ~ R i) /\
           let dj := ts_day (sim_t pj) in
           (n <= 12 * d_year d + d_month d - (12 * d_year dj + d_month dj))%Z
     end).

(** The volume a reset sets. *)
Definition reset_target (e : env) (v : vs_node) : Q :=
  match v_reset_volume v with
  | ResetInitial => starting_volume e (v_maxv v) (v_init v)
  | ResetMax => upper_volume e (v_maxv v)
  end.

(** *** Rolling windows *)
(** What virtual storage [v] is charged in the time-steps [from..to-1]. *)
Definition charges (net : network) (v : vs_node) (steps : list sim_step) : Q :=
  qsum (map (fun p => vs_use net (sim_flows net p) v) steps).
