(** Model of the simulated network's state: pywr-core/src/state/{mod,flow,
    storage}.rs, the "before" phase of storages and virtual storages
    (node.rs, virtual_storage.rs) and the write-back of a solution
    (solvers/*/mod.rs).  Numbers are exact rationals. *)
From Verif Require Import Base Calendar Timestep Network Lp.
Open Scope Q_scope.

(** lib.rs:31 [STORAGE_MASS_BALANCE_TOLERANCE]. *)
Definition TOLERANCE : Q := 1 # 1000000.

(** timestep.rs:203-205 [Timestep::days], 62-64 [fractional_days]. *)
Definition ts_days (t : timestep) : Q := inject_Z (ts_duration t) / inject_Z NS_PER_DAY.
Definition ts_day (t : timestep) : date := dt_date (ts_date t).

(** state/flow.rs:3-8, 11-16, 19-22, 25-27, 30-32. *)
Record flow_state := mkFlow { fl_in : Q; fl_out : Q }.
Definition flow_new : flow_state := mkFlow 0 0.
Definition flow_reset (f : flow_state) : flow_state := mkFlow 0 0.
Definition flow_add_in (q : Q) (f : flow_state) : flow_state := mkFlow (fl_in f + q) (fl_out f).
Definition flow_add_out (q : Q) (f : flow_state) : flow_state := mkFlow (fl_in f) (fl_out f + q).

(** state/storage.rs:15-21, 24-30, 53-56, 59-62, 65-68, 71-74. *)
Record storage_state := mkStorage { s_volume : Q; s_max : Q; s_flows : flow_state }.
Definition storage_new (v m : Q) : storage_state := mkStorage v m flow_new.
Definition storage_reset (s : storage_state) : storage_state :=
  mkStorage (s_volume s) (s_max s) (flow_reset (s_flows s)).
Definition storage_add_in (q days : Q) (s : storage_state) : storage_state :=
  mkStorage (s_volume s + q * days) (s_max s) (flow_add_in q (s_flows s)).
Definition storage_add_out (q days : Q) (s : storage_state) : storage_state :=
  mkStorage (s_volume s - q * days) (s_max s) (flow_add_out q (s_flows s)).
Definition storage_set_volume (v m : Q) (s : storage_state) : storage_state :=
  mkStorage v m (s_flows s).

(** state/storage.rs:40-47 [proportional_volume]. *)
Definition proportional_volume (s : storage_state) : Q :=
  if Qeq_bool (s_max s) 0 then 1 else s_volume s / s_max s.

Inductive state_error :=
| NodeIndexNotFound (i : nat)
| EdgeIndexNotFound (i : nat)
| VirtualStorageIndexNotFound (i : nat)
| NodeHasNoVolume (i : nat).
Definition sres (A : Type) := res state_error A.

(** state/storage.rs:79-82 [finalise] with 87-101 [clamp]; [f64::clamp] panics
    when its bounds are the wrong way round. *)
Definition storage_finalise (mn mx : Q) (s : storage_state) : sres storage_state :=
  if negb (Qle_bool (- TOLERANCE) (s_volume s - mn)) then Panic
  else if negb (Qle_bool (s_volume s - mx) TOLERANCE) then Panic
  else if negb (Qle_bool mn mx) then Panic
  else let v := if negb (Qle_bool mn (s_volume s)) then mn
                else if negb (Qle_bool (s_volume s) mx) then mx
                else s_volume s in
       Ok (mkStorage v mx (s_flows s)).

(** state/mod.rs:30-33 [NodeState] and its methods 35-84. *)
Inductive node_state := NsFlow (f : flow_state) | NsStorage (s : storage_state).
Definition ns_reset (n : node_state) : node_state :=
  match n with NsFlow f => NsFlow (flow_reset f) | NsStorage s => NsStorage (storage_reset s) end.
Definition ns_add_in (q days : Q) (n : node_state) : node_state :=
  match n with NsFlow f => NsFlow (flow_add_in q f) | NsStorage s => NsStorage (storage_add_in q days s) end.
Definition ns_add_out (q days : Q) (n : node_state) : node_state :=
  match n with NsFlow f => NsFlow (flow_add_out q f) | NsStorage s => NsStorage (storage_add_out q days s) end.
Definition ns_in (n : node_state) : Q :=
  match n with NsFlow f => fl_in f | NsStorage s => fl_in (s_flows s) end.
Definition ns_out (n : node_state) : Q :=
  match n with NsFlow f => fl_out f | NsStorage s => fl_out (s_flows s) end.
Definition ns_finalise (mn mx : Q) (n : node_state) : sres node_state :=
  match n with
  | NsFlow f => Ok n
  | NsStorage s => rbind (storage_finalise mn mx s) (fun s' => Ok (NsStorage s'))
  end.

(** state/mod.rs:86-124 [VirtualStorageHistory]: the queue, oldest flow first,
    and its size. *)
Record vs_history := mkHist { h_flows : list Q; h_size : nat }.
Definition history_new (size : nat) (q : Q) : vs_history := mkHist (repeat q size) size.
Definition history_reset (q : Q) (h : vs_history) : vs_history := mkHist (repeat q (h_size h)) (h_size h).
Definition history_add (q : Q) (h : vs_history) : vs_history := mkHist (h_flows h ++ [q]) (h_size h).
Definition history_pop (h : vs_history) : Q * vs_history :=
  if (h_size h <=? length (h_flows h))%nat
  then match h_flows h with
       | q :: r => (q, mkHist r (h_size h))
       | [] => (0, h)              (* unreachable: the size is not zero *)
       end
  else (0, h).

(** state/mod.rs:126-175 [VirtualStorageState]; of the [Timestep] of the last
    reset only the date is used. *)
Record vs_state := mkVss {
  vss_last : option date;
  vss_storage : storage_state;
  vss_history : option vs_history }.
Definition vss_new (v m : Q) (size : option nat) : vs_state :=
  mkVss None (storage_new v m)
    (match size with Some n => Some (history_new n (v / inject_Z (Z.of_nat n))) | None => None end).
Definition vss_reset (s : vs_state) : vs_state :=
  mkVss (vss_last s) (storage_reset (vss_storage s)) (vss_history s).
Definition vss_reset_volume (v : Q) (d : date) (m : Q) (s : vs_state) : vs_state :=
  mkVss (Some d) (storage_set_volume v m (vss_storage s)) (vss_history s).
Definition vss_reset_history (q : Q) (s : vs_state) : vs_state :=
  mkVss (vss_last s) (vss_storage s) (option_map (history_reset q) (vss_history s)).
Definition vss_recover (days : Q) (s : vs_state) : vs_state :=
  match vss_history s with
  | None => s
  | Some h => let '(q, h') := history_pop h in
              mkVss (vss_last s) (storage_add_in q days (vss_storage s)) (Some h')
  end.
Definition vss_add_out (q days : Q) (s : vs_state) : vs_state :=
  mkVss (vss_last s) (storage_add_out q days (vss_storage s)) (option_map (history_add q) (vss_history s)).
Definition vss_finalise (mn mx : Q) (s : vs_state) : sres vs_state :=
  rbind (storage_finalise mn mx (vss_storage s)) (fun st => Ok (mkVss (vss_last s) st (vss_history s))).

(** state/mod.rs:464-469 [NetworkState]; an [EdgeState] (177-189) is its flow. *)
Record net_state := mkNs {
  ns_nodes : list node_state;
  ns_edges : list Q;
  ns_vss : list vs_state }.

(** network.rs:588-629 [setup_network] (the network part of one scenario's
    state) with node.rs:540-547 and virtual_storage.rs:398-400. *)
Definition node_default_state (n : node) : node_state :=
  match n_type n with TStorage => NsStorage (storage_new 0 0) | _ => NsFlow flow_new end.
Definition initial_state (net : network) : net_state :=
  mkNs (map node_default_state (net_nodes net)) (map (fun _ => 0) (net_edges net))
       (map (fun v => vss_new 0 0 (v_window v)) (net_vss net)).

(** A loop over the components of a network that updates, one after the other,
    the state found at each component's index.  [k] is the index of the first
    component of [items]. *)
Fixpoint each {A B} (missing : nat -> state_error) (f : B -> A -> sres A) (k : nat) (items : list B) (l : list A)
  : sres (list A) :=
  match items with
  | [] => Ok l
  | b :: bs =>
      match nth_error l k with
      | None => Err (missing k)
      | Some a => rbind (f b a) (fun a' => each missing f (S k) bs (upd k (fun _ => a') l))
      end
  end.

(** node.rs:1071-1100 [get_absolute_initial_volume]. *)
Definition absolute_initial_volume (e : env) (max_volume : Q) (iv : init_volume) : Q :=
  match iv with
  | IVAbsolute q => q
  | IVProportional q => max_volume * q
  | IVDistAbsolute a prior => fmin (fmax (a - metric_value e prior) 0) max_volume
  | IVDistProportional total p prior =>
      fmin (fmax (metric_value e total * p - metric_value e prior) 0) max_volume
  end.

(** node.rs:576-584 [Node::before], 1158-1167 [StorageNode::before]; 656-674 in
    state/mod.rs [set_volume]. *)
Definition node_before (e : env) (t : timestep) (n : node) (s : node_state) : sres node_state :=
  match n_type n with
  | TStorage =>
      if is_first t
      then let m := get_max e (n_maxv n) in
           let v := absolute_initial_volume e m (n_init n) in
           match s with
           | NsFlow _ => Err (NodeHasNoVolume 0)
           | NsStorage st => Ok (NsStorage (storage_set_volume v m st))
           end
      else Ok s
  | _ => Ok s
  end.

(** virtual_storage.rs:500-502 [months_since_last_reset]. *)
Definition months_since (cur last : date) : Z :=
  ((d_year cur - d_year last) * 12 + d_month cur - d_month last)%Z.

(** virtual_storage.rs:410-435: the decision to reset. *)
Definition vs_do_reset (t : timestep) (v : vs_node) (s : vs_state) : bool :=
  if is_first t then true
  else if negb (vs_is_active (v_period v) (ts_day t)) then true
  else match v_reset v with
       | ResetNever => false
       | ResetDayOfYear d m => ((d_day (ts_day t) =? d) && (d_month (ts_day t) =? m))%Z
       | ResetMonths n => match vss_last s with
                          | Some last => (n <=? months_since (ts_day t) last)%Z
                          | None => true
                          end
       end.

(** virtual_storage.rs:409-461 [VirtualStorageNode::before]. *)
Definition vs_before (e : env) (t : timestep) (v : vs_node) (s : vs_state) : vs_state :=
  let s1 :=
    if vs_do_reset t v s
    then let m := get_max e (v_maxv v) in
         let iv := absolute_initial_volume e m (v_init v) in
         let rv := match v_reset_volume v with ResetMax => m | ResetInitial => iv end in
         let s0 := vss_reset_volume rv (ts_day t) m s in
         match v_window v with
         | Some n => vss_reset_history ((m - iv) / inject_Z (Z.of_nat n)) s0
         | None => s0
         end
    else s in
  match v_window v with Some _ => vss_recover (ts_days t) s1 | None => s1 end.

(** network.rs:1004-1030: the part of [compute_components] that touches nodes
    and virtual storages.  [e] holds the metric values of this time-step;
    volume limits and initial volumes are [SimpleMetricF64]s, computed before
    this and fixed until the next time-step. *)
Definition before_phase (net : network) (e : env) (t : timestep) (st : net_state) : sres net_state :=
  rbind (each NodeIndexNotFound (node_before e t) 0 (net_nodes net) (ns_nodes st)) (fun nodes =>
  rbind (each VirtualStorageIndexNotFound (fun v s => Ok (vs_before e t v s)) 0 (net_vss net) (ns_vss st)) (fun vss =>
  Ok (mkNs nodes (ns_edges st) vss))).

(** state/mod.rs:489-501 [NetworkState::reset]. *)
Definition state_reset (st : net_state) : net_state :=
  mkNs (map ns_reset (ns_nodes st)) (map (fun _ => 0) (ns_edges st)) (map vss_reset (ns_vss st)).

(** state/mod.rs:503-523 [add_flow]; [k] is the edge's index. *)
Definition add_flow (days : Q) (k : nat) (ed : edge) (q : Q) (st : net_state) : sres net_state :=
  match nth_error (ns_nodes st) (e_from ed) with
  | None => Err (NodeIndexNotFound (e_from ed))
  | Some _ =>
      let nodes1 := upd (e_from ed) (ns_add_out q days) (ns_nodes st) in
      match nth_error nodes1 (e_to ed) with
      | None => Err (NodeIndexNotFound (e_to ed))
      | Some _ =>
          let nodes2 := upd (e_to ed) (ns_add_in q days) nodes1 in
          match nth_error (ns_edges st) k with
          | None => Err (EdgeIndexNotFound k)
          | Some _ => Ok (mkNs nodes2 (upd k (fun f => f + q) (ns_edges st)) (ns_vss st))
          end
      end
  end.

(** The loop over the network's edges: highs/mod.rs:428-432, clp/mod.rs:425-429,
    cbc/mod.rs:300-306 and microlp/mod.rs:149-153.  [f] is the solution's value
    in the column of each edge.  Simplification: CBC first replaces values
    closer to zero than 1e-10 by zero. *)
Fixpoint add_flows (days : Q) (f : nat -> Q) (k : nat) (eds : list edge) (st : net_state) : sres net_state :=
  match eds with
  | [] => Ok st
  | ed :: r => rbind (add_flow days k ed (f k) st) (add_flows days f (S k) r)
  end.

(** state/mod.rs:536-557: the flow a virtual storage is charged with. *)
Definition vs_flow (net : network) (st : net_state) (v : vs_node) : sres Q :=
  rbind (rmap (fun t =>
    match nth_error (ns_nodes st) (fst t) with
    | None => Err (NodeIndexNotFound (fst t))
    | Some s =>
        match nth_error (net_nodes net) (fst t) with
        | None => Err (NodeIndexNotFound (fst t))
        | Some n => match n_type n with
                    | TInput => Ok (snd t * ns_out s)
                    | TOutput => Ok (snd t * ns_in s)
                    | TLink => Ok (snd t * ns_in s)
                    | TStorage => Panic
                    end
        end
    end) (vs_terms v)) (fun qs => Ok (qsum qs)).

(** state/mod.rs:529-562 [update_derived_states]: [zip] of the states with the
    virtual storages. *)
Fixpoint update_vss (net : network) (t : timestep) (st : net_state) (states : list vs_state) (vs : list vs_node)
  : sres (list vs_state) :=
  match states, vs with
  | s :: states', v :: vs' =>
      rbind (if vs_is_active (v_period v) (ts_day t)
             then rbind (vs_flow net st v) (fun q => Ok (vss_add_out q (ts_days t) s))
             else Ok s) (fun s' =>
      rbind (update_vss net t st states' vs') (fun r => Ok (s' :: r)))
  | _, _ => Ok states
  end.

(** state/mod.rs:1146-1168 [State::complete]. *)
Definition complete (net : network) (e : env) (t : timestep) (st : net_state) : sres net_state :=
  rbind (each NodeIndexNotFound
           (fun n s => match n_type n with
                       | TStorage => ns_finalise (get_min e (n_minv n)) (get_max e (n_maxv n)) s
                       | _ => Ok s
                       end) 0 (net_nodes net) (ns_nodes st)) (fun nodes =>
  let st1 := mkNs nodes (ns_edges st) (ns_vss st) in
  rbind (update_vss net t st1 (ns_vss st1) (net_vss net)) (fun vss =>
  rbind (each VirtualStorageIndexNotFound
           (fun v s => vss_finalise (get_min e (v_minv v)) (get_max e (v_maxv v)) s) 0 (net_vss net) vss) (fun vss' =>
  Ok (mkNs nodes (ns_edges st) vss')))).

(** The write-back after a solve: highs/mod.rs:423-433 and the same lines of the
    other single-scenario solvers. *)
Definition write_flows (net : network) (t : timestep) (f : nat -> Q) (st : net_state) : sres net_state :=
  add_flows (ts_days t) f 0 (net_edges net) (state_reset st).
Definition after_solve (net : network) (e : env) (t : timestep) (f : nat -> Q) (st : net_state) : sres net_state :=
  rbind (write_flows net t f st) (complete net e t).

(** state/mod.rs:600-655, 719-731: the values the state reports. *)
Definition get_in_flow (st : net_state) (i : nat) : sres Q :=
  match nth_error (ns_nodes st) i with Some s => Ok (ns_in s) | None => Err (NodeIndexNotFound i) end.
Definition get_out_flow (st : net_state) (i : nat) : sres Q :=
  match nth_error (ns_nodes st) i with Some s => Ok (ns_out s) | None => Err (NodeIndexNotFound i) end.
Definition get_node_volume (st : net_state) (i : nat) : sres Q :=
  match nth_error (ns_nodes st) i with
  | Some (NsStorage s) => Ok (s_volume s)
  | Some (NsFlow _) => Err (NodeHasNoVolume i)
  | None => Err (NodeIndexNotFound i)
  end.
Definition get_node_max_volume (st : net_state) (i : nat) : sres Q :=
  match nth_error (ns_nodes st) i with
  | Some (NsStorage s) => Ok (s_max s)
  | Some (NsFlow _) => Err (NodeHasNoVolume i)
  | None => Err (NodeIndexNotFound i)
  end.
Definition get_node_proportional_volume (st : net_state) (i : nat) : sres Q :=
  match nth_error (ns_nodes st) i with
  | Some (NsStorage s) => Ok (proportional_volume s)
  | Some (NsFlow _) => Err (NodeHasNoVolume i)
  | None => Err (NodeIndexNotFound i)
  end.
Definition get_edge_flow (st : net_state) (k : nat) : sres Q :=
  match nth_error (ns_edges st) k with Some q => Ok q | None => Err (EdgeIndexNotFound k) end.
Definition get_vs_volume (st : net_state) (k : nat) : sres Q :=
  match nth_error (ns_vss st) k with
  | Some s => Ok (s_volume (vss_storage s))
  | None => Err (VirtualStorageIndexNotFound k)
  end.
Definition get_vs_proportional_volume (st : net_state) (k : nat) : sres Q :=
  match nth_error (ns_vss st) k with
  | Some s => Ok (proportional_volume (vss_storage s))
  | None => Err (VirtualStorageIndexNotFound k)
  end.

(** metric.rs:265-278 [AggregatedStorageNodeVolume] and 279-306
    [AggregatedStorageNodeProportionalVolume]: all volumes are read before the
    first error, if any, is reported. *)
Definition agg_storage_volume (st : net_state) (stores : list nat) : sres Q :=
  rbind (rmap (get_node_volume st) stores) (fun vs => Ok (qsum vs)).
Definition agg_storage_proportional (st : net_state) (stores : list nat) : sres Q :=
  rbind (rmap (get_node_volume st) stores) (fun vs =>
  rbind (rmap (get_node_max_volume st) stores) (fun ms =>
  Ok (if Qeq_bool (qsum ms) 0 then 1 else qsum vs / qsum ms))).

(** metric.rs:200-214 and 215-229: flow of an aggregated node. *)
Definition agg_node_in_flow (st : net_state) (a : agg_node) : sres Q :=
  rbind (rmap (get_in_flow st) (concat (a_nodes a))) (fun qs => Ok (qsum qs)).
Definition agg_node_out_flow (st : net_state) (a : agg_node) : sres Q :=
  rbind (rmap (get_out_flow st) (concat (a_nodes a))) (fun qs => Ok (qsum qs)).

(** What the solver reads of the state when it updates its programme. *)
Definition volume_or_zero (r : sres Q) : Q := match r with Ok q => q | _ => 0 end.
Definition lp_state_of (st : net_state) (e : env) (t : timestep) : lp_state :=
  mkSt e (fun i => volume_or_zero (get_node_volume st i)) (fun k => volume_or_zero (get_vs_volume st k))
       (ts_day t) (ts_days t).
