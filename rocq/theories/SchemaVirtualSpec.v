(** What a user reads in a model file's virtual nodes: which flows and volumes
    their references stand for, and when a licence is in season and is reset. *)
From Verif Require Import Base Calendar Timestep Network NetworkBuild NetworkSpec Lp LpSpec NetState NetStateSpec SchemaNodes SchemaMetrics SchemaSpec SchemaVirtual.
Local Open Scope string_scope.
Local Open Scope list_scope.
Local Open Scope nat_scope.

(** The attribute of a node that reports the flow a component selects. *)
Definition component_attribute (c : component) : attribute :=
  match c with
  | CoInflow => AtInflow | CoOutflow => AtOutflow | CoVolume => AtVolume | CoMaxVolume => AtMaxVolume
  | CoPropVolume => AtPropVolume | CoLoss => AtLoss | CoCompensation => AtCompensation
  | CoRainfall => AtRainfall | CoEvaporation => AtEvaporation | CoAbstraction => AtAbstraction
  end.

(** The flow that a reference to node [n] stands for is [q]: what the node
    reports under the component's attribute; without a component, its default
    attribute (for a reservoir the compensation release).  The leakage and the
    rainfall of a reservoir, which it does not report, are the flows of its
    parts of those names. *)
Definition node_ref_flow (a : added) (net : network) (x : nat -> Q) (n : snode) (c : option component) (q : Q) : Prop :=
  let reported t := exists m v, create_metric n t = Ok m /\ flow_value (declaration a) net (edge_flow net x) m = Some v /\ (v == q)%Q in
  match n, c with
  | SReservoir name _, None => reported (Some AtCompensation)
  | SReservoir name _, Some CoLoss => part_flow a net x (sub name "leakage") q
  | SReservoir name _, Some CoRainfall => part_flow a net x (sub name "rainfall") q
  | _, Some c => reported (Some (component_attribute c))
  | _, None => reported None
  end.
Definition ref_flow (sc : schema) (a : added) (net : network) (x : nat -> Q) (r : node_ref) (q : Q) : Prop :=
  exists n, In n (sc_nodes sc) /\ snode_name n = rf_name r /\ node_ref_flow a net x n (rf_component r) q.

(** How many of the flows are positive. *)
Definition flowing (qs : list Q) : nat := length (filter (fun q => negb (Qle_bool q 0)) qs).

(** The aggregated node called [u] is made of parts with constant limits, such
    that [lims] holds of each lower and upper limit. *)
Definition parts_limited (a : added) (net : network) (u : uname) (lims : Q -> Q -> Prop) : Prop :=
  forall k ab g, nth_error (ad_aggs a) k = Some ab -> ab_name ab = u -> nth_error (net_aggs net) k = Some g ->
    constant_limits net (a_nodes g) lims.

(** The factor that applies to each reference: 1 if no factors are given. *)
Definition ref_factors (refs : list node_ref) (fs : option (list Q)) : list Q :=
  match fs with Some l => l | None => map (fun _ => 1%Q) refs end.
(** Factors times flows, added up. *)
Definition dot (fs qs : list Q) : Q := qsum (map (fun t => fst t * snd t)%Q (combine fs qs)).
(** The reference stands for one node of the network. *)
Definition one_part (sc : schema) (r : node_ref) : Prop := exists u, ref_nodes sc r = Ok [u].

(** Days of the year in order; a season from one to another, both included,
    possibly over the end of the year. *)
Definition not_after (m1 d1 m2 d2 : Z) : Prop := (m1 < m2 \/ m1 = m2 /\ d1 <= d2)%Z.
Definition in_season (r : option sreset) (d : date) : Prop :=
  match r with
  | Some (RsSeasonal sd sm ed em) =>
      let started := not_after sm sd (d_month d) (d_day d) in
      let not_over := not_after (d_month d) (d_day d) em ed in
      (not_after sm sd em ed -> started /\ not_over) /\ (~ not_after sm sd em ed -> started \/ not_over)
  | _ => True
  end.

(** [R] tells at which time-steps the reset declared in the file falls: at the
    first one, at every one out of season, on the declared day of the year (the
    first day of the season), or when the declared number of months has gone by
    since the last reset. *)
Definition file_reset (r : option sreset) (steps : list sim_step) (R : nat -> Prop) : Prop :=
  forall k p, nth_error steps k = Some p ->
    let d := ts_day (sim_t p) in
    (R k <->
     k = 0 \/ ~ in_season r d \/
     match r with
     | None | Some RsNever => False
     | Some (RsAnnual day month) => d_day d = day /\ d_month d = month
     | Some (RsSeasonal sd sm _ _) => d_day d = sd /\ d_month d = sm
     | Some (RsMonthly n) =>
         exists j pj, j < k /\ nth_error steps j = Some pj /\ R j /\ (forall i, j < i < k -> ~ R i) /\
           let dj := ts_day (sim_t pj) in
           (n <= 12 * d_year d + d_month d - (12 * d_year dj + d_month dj))%Z
     end).
(** The volume it sets: the initial volume, unless the file asks for the
    maximum. *)
Definition file_value (key : umetric -> nat) (e : env) (m : option umetric) (d : Q) : Q :=
  match m with Some m => metric_value e (to_metric key m) | None => d end.
Definition file_target (key : umetric -> nat) (e : env) (mx : option umetric) (i : sinit) (rv : option vs_reset_volume) : Q :=
  match rv with
  | Some ResetMax => file_value key e mx F64_MAX
  | _ => match i with SIAbsolute v => v | SIProportional p => file_value key e mx F64_MAX * p end
  end%Q.

(** Volumes. *)
Definition volume_is (a : added) (st : net_state) (m : umetric) (q : Q) : Prop :=
  exists r, volume_value a st m = Some r /\ reports r q.
Definition ref_volume (sc : schema) (a : added) (st : net_state) (r : node_ref) (q : Q) : Prop :=
  exists n m, In n (sc_nodes sc) /\ snode_name n = rf_name r /\ create_metric n (Some AtVolume) = Ok m /\ volume_is a st m q.

(** What a virtual node reports. *)
Definition vnode_flow_is (a : added) (net : network) (x : nat -> Q) (v : vnode) (t : option attribute) (q : Q) : Prop :=
  exists m q', vnode_metric v t = Ok m /\ vflow_value a net (edge_flow net x) m = Some q' /\ (q' == q)%Q.
Definition vnode_volume_is (a : added) (st : net_state) (v : vnode) (t : option attribute) (q : Q) : Prop :=
  exists m r, vnode_metric v t = Ok m /\ vvolume_value a st m = Some r /\ reports r q.
(** A node of the file from which water only enters, or at which it only leaves
    the network. *)
Definition source (n : snode) (c : option component) : Prop :=
  match n with
  | SInput _ _ _ _ | SCatchment _ _ _ => True
  | SDelay _ _ _ | SRiver _ _ (Some _) => c <> Some CoInflow /\ c <> Some CoLoss
  | SReservoir _ _ => c = Some CoRainfall
  | _ => False
  end.
Definition sink (n : snode) (c : option component) : Prop :=
  match n with
  | SOutput _ _ _ _ => True
  | SDelay _ _ _ | SRiver _ _ (Some _) => c = Some CoInflow \/ c = Some CoLoss
  | SReservoir _ _ => c = Some CoLoss
  | SLossLink _ (Some _) _ _ _ | SRiver _ (Some _) None | SWtw _ (Some _) _ _ _ _ _ => c = Some CoInflow \/ c = Some CoLoss
  | _ => False
  end.
(** The capacity of the store a reference stands for: the maximum volume it
    reports; of a piecewise storage, which does not report it, the total of its
    stores' maximum volumes. *)
Definition ref_capacity (sc : schema) (a : added) (st : net_state) (r : node_ref) (q : Q) : Prop :=
  exists n, In n (sc_nodes sc) /\ snode_name n = rf_name r /\
    match n with
    | SPiecewiseStorage name _ _ _ steps _ =>
        exists cs, Forall2 (fun k c => volume_is a st (UNodeMaxVolume (store_name name k)) c) (seq 0 (S (length steps))) cs /\ (qsum cs == q)%Q
    | _ => exists m, create_metric n (Some AtMaxVolume) = Ok m /\ volume_is a st m q
    end.

(** The number of time-steps a rolling window covers: as many as fit into the
    declared days, for time-steps of whole days. *)
Definition window_steps (step : option Z) (w : swindow) (n : nat) : Prop :=
  match w with
  | SwTimesteps k => n = k
  | SwDays days => exists s, 0 < s /\ step = Some (Z.of_nat s * NS_DAY)%Z /\ n * s <= days < S n * s
  end.
