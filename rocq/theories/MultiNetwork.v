(** Models of several networks, pywr-core/src/models/multi.rs.

    What a network is, how it is built and what it does with a scenario are
    parameters; the values it receives from other networks are not: they are kept
    and handed over as in the original.  Recorders and timings are left out (they
    only read a network's states after it has been stepped). *)
From Coq Require Import QArith.
From Verif Require Import Base Scenario Calendar Timestep Run.
Local Open Scope nat_scope.

(** multi.rs 45-48: [OtherNetworkIndex]; the numbers are positive. *)
Inductive other_network : Type :=
| Before (i : nat)
| After (i : nat).

(** multi.rs 54-60: [from_indices]. *)
Definition from_indices (from to : nat) : option other_network :=
  match from ?= to with
  | Eq => None
  | Lt => Some (Before (to - from))
  | Gt => Some (After (from - to))
  end.

Section Multi.
Context {E : Type}.
(** [NetworkBuilder], [Network], its [ResolutionMaps], an unresolved metric, a
    resolved metric, and the part of a scenario's data other than the values
    received from other networks. *)
Context {Builder Net Maps Unresolved Metric X : Type}.
(** network.rs 2087-2230: [NetworkBuilder::build], given the transfers' numbers. *)
Variable build_network : Builder -> list (string * nat) -> res E (Net * Maps).
(** metric.rs: [UnresolvedMetricF64::resolve] and [MetricF64::get_value]. *)
Variable resolve : Maps -> Unresolved -> res E Metric.

(** state/mod.rs: one scenario's [State], whose [inter_network_values] are set by
    transfers only, together with its internal states and its solver. *)
Record local : Type := Local { lo_values : list Q; lo_rest : X }.
Variable get_value : Metric -> Net -> local -> res E Q.

(** What a network does with one scenario in a time-step (network.rs 758-813). *)
Variable operations : Net -> list (timestep -> scenario_index -> list Q -> X -> res E X).
(** network.rs 592-636: the initial data of a scenario. *)
Variable initial : Net -> scenario_index -> res E X.

(** multi.rs 952-974, 163-187 and 1099-1113: the errors. *)
Inductive multi_error : Type :=
| NetworkBuilderError (name : string) (e : E)
| NetworkNotFoundForTransfer (name network : string)
| ResolveMetricForTransfer (name : string) (e : E)
| DuplicateNetworkName (name : string)
| DuplicateTransferName (transfer network : string)
| TransferToSelf (name network : string)
| NetworkSetupError (name : string) (e : E)
| NetworkStepError (name : string) (e : E)
| RetrievingTransferValue (to other : string) (e : E)
| SettingTransferValue (to other : string).

Definition tag {A} (f : E -> multi_error) (r : res E A) : res multi_error A :=
  match r with Ok a => Ok a | Err e => Err (f e) | Panic => Panic end.

(** multi.rs 80-87 and 89-98: [MultiNetworkTransfer] and its builder. *)
Record transfer : Type := Transfer { tr_from : other_network; tr_metric : Metric; tr_initial : option Q }.
Record transfer_builder : Type := TransferBuilder {
  tb_name : string; tb_from : string; tb_metric : Unresolved; tb_initial : option Q }.

(** multi.rs 117-121 and 123-127: [MultiNetworkEntry] and its builder. *)
Record entry : Type := Entry { en_name : string; en_network : Net; en_transfers : list transfer }.
Record entry_builder : Type := EntryBuilder {
  eb_name : string; eb_network : Builder; eb_transfers : list transfer_builder }.

(** A [HashMap] keyed by names, as a list of pairs without repeated keys. *)
Fixpoint lookup {A} (name : string) (m : list (string * A)) : option A :=
  match m with
  | [] => None
  | (n, a) :: rest => if String.eqb n name then Some a else lookup name rest
  end.

(** multi.rs 1014-1028: the numbers of a network's transfers. *)
Fixpoint transfers_map (network : string) (i : nat) (ts : list transfer_builder) (m : list (string * nat))
  : res multi_error (list (string * nat)) :=
  match ts with
  | [] => Ok m
  | t :: rest =>
      match lookup (tb_name t) m with
      | Some _ => Err (DuplicateTransferName (tb_name t) network)
      | None => transfers_map network (S i) rest (m ++ [(tb_name t, i)])
      end
  end.

(** multi.rs 1012-1050: the first loop of [build]. *)
Fixpoint build_networks (i : nat) (bs : list entry_builder) (map : list (string * nat))
  : res multi_error (list (string * Net * list transfer_builder) * list Maps * list (string * nat)) :=
  match bs with
  | [] => Ok ([], [], map)
  | b :: rest =>
      rbind (transfers_map (eb_name b) 0 (eb_transfers b) []) (fun tm =>
      rbind (tag (NetworkBuilderError (eb_name b)) (build_network (eb_network b) tm)) (fun nm =>
      match lookup (eb_name b) map with
      | Some _ => Err (DuplicateNetworkName (eb_name b))
      | None =>
          rbind (build_networks (S i) rest (map ++ [(eb_name b, i)])) (fun r =>
          let '(nets, maps, m) := r in
          Ok ((eb_name b, fst nm, eb_transfers b) :: nets, snd nm :: maps, m))
      end))
  end.

(** multi.rs 1056-1087: one transfer of network number [me]. *)
Definition build_transfer (map : list (string * nat)) (maps : list Maps) (me : nat) (my_name : string)
  (t : transfer_builder) : res multi_error transfer :=
  match lookup (tb_from t) map with
  | None => Err (NetworkNotFoundForTransfer (tb_name t) (tb_from t))
  | Some idx =>
      rbind (index_or_panic maps idx) (fun r_map =>
      rbind (tag (ResolveMetricForTransfer (tb_name t)) (resolve r_map (tb_metric t))) (fun metric =>
      match from_indices idx me with
      | None => Err (TransferToSelf (tb_name t) my_name)
      | Some from => Ok (Transfer from metric (tb_initial t))
      end))
  end.

(** multi.rs 1052-1096: the second loop. *)
Fixpoint build_entries (map : list (string * nat)) (maps : list Maps) (me : nat)
  (nets : list (string * Net * list transfer_builder)) : res multi_error (list entry) :=
  match nets with
  | [] => Ok []
  | (name, net, ts) :: rest =>
      rbind (rmap (build_transfer map maps me name) ts) (fun trs =>
      rbind (build_entries map maps (S me) rest) (fun es => Ok (Entry name net trs :: es)))
  end.

(** multi.rs 1007-1102: [MultiNetworkModelBuilder::build]. *)
Definition build_multi (bs : list entry_builder) : res multi_error (list entry) :=
  rbind (build_networks 0 bs []) (fun r =>
  let '(nets, maps, m) := r in build_entries m maps 0 nets).

(** multi.rs 383-431: [setup]: every scenario starts with zeros for its transfers
    (state/mod.rs 1263). *)
Definition setup_multi (es : list entry) (scs : list scenario_index) : res multi_error (list (list local)) :=
  rmap (fun e => tag (NetworkSetupError (en_name e))
    (rmap (fun s => rbind (initial (en_network e) s) (fun x => Ok (Local (repeat 0%Q (length (en_transfers e))) x))) scs)) es.

(** state/mod.rs 1127-1139: [set_inter_network_transfer_value]. *)
Definition set_value (idx : nat) (v : Q) (l : local) : option local :=
  if idx <? length (lo_values l)
  then Some (Local (firstn idx (lo_values l) ++ v :: skipn (S idx) (lo_values l)) (lo_rest l))
  else None.

(** multi.rs 1133-1150: where a transfer's value comes from, and the value.  The
    slices are indexed, so out of range panics, and so does a negative index. *)
Definition transfer_source (tr : transfer) (before_models after_models : list entry)
  (before after : list (list local)) : res multi_error (entry * list local) :=
  match tr_from tr with
  | Before i =>
      if length before <? i then Panic
      else rbind (index_or_panic before_models (length before - i)) (fun m =>
           rbind (index_or_panic before (length before - i)) (fun s => Ok (m, s)))
  | After i =>
      if i <? 1 then Panic
      else rbind (index_or_panic after_models (i - 1)) (fun m =>
           rbind (index_or_panic after (i - 1)) (fun s => Ok (m, s)))
  end.

Definition transfer_value (t : timestep) (s : scenario_index) (to : string) (tr : transfer)
  (before_models after_models : list entry) (before after : list (list local)) : res multi_error (string * Q) :=
  rbind (transfer_source tr before_models after_models before after) (fun src =>
  match (if is_first t then tr_initial tr else None) with
  | Some v => Ok (en_name (fst src), v)
  | None =>
      rbind (index_or_panic (snd src) (simulation_id s)) (fun st =>
      rbind (tag (RetrievingTransferValue to (en_name (fst src))) (get_value (tr_metric tr) (en_network (fst src)) st)) (fun v =>
      Ok (en_name (fst src), v)))
  end).

(** multi.rs 1119-1168: the transfers of one scenario.  [states] are the data of
    all scenarios of the receiving network. *)
Fixpoint transfers_for_scenario (t : timestep) (s : scenario_index) (to : string) (idx : nat) (trs : list transfer)
  (before_models after_models : list entry) (before after : list (list local)) (states : list local)
  : res multi_error (list local) :=
  match trs with
  | [] => Ok states
  | tr :: rest =>
      rbind (transfer_value t s to tr before_models after_models before after) (fun nv =>
      rbind (index_or_panic states (simulation_id s)) (fun l =>
      match set_value idx (snd nv) l with
      | None => Err (SettingTransferValue to (fst nv))
      | Some l' =>
          transfers_for_scenario t s to (S idx) rest before_models after_models before after
            (firstn (simulation_id s) states ++ l' :: skipn (S (simulation_id s)) states)
      end))
  end.

(** multi.rs 486-519: [compute_inter_network_transfers] of network [k]. *)
Fixpoint transfers_for_scenarios (t : timestep) (scs : list scenario_index) (to : string) (trs : list transfer)
  (before_models after_models : list entry) (before after : list (list local)) (states : list local)
  : res multi_error (list local) :=
  match scs with
  | [] => Ok states
  | s :: rest =>
      rbind (transfers_for_scenario t s to 0 trs before_models after_models before after states)
        (transfers_for_scenarios t rest to trs before_models after_models before after)
  end.

Definition compute_transfers (k : nat) (t : timestep) (es : list entry) (scs : list scenario_index)
  (states : list (list local)) : res multi_error (list (list local)) :=
  match skipn k es, skipn k states with
  | this :: after_models, mine :: after =>
      rbind (transfers_for_scenarios t scs (en_name this) (en_transfers this)
               (firstn k es) after_models (firstn k states) after mine) (fun mine' =>
      Ok (firstn k states ++ mine' :: after))
  | _, _ => Panic
  end.

(** The operations of a network on a scenario's whole data. *)
Definition on_local (op : timestep -> scenario_index -> list Q -> X -> res E X)
  (t : timestep) (s : scenario_index) (l : local) : res E local :=
  rbind (op t s (lo_values l) (lo_rest l)) (fun x => Ok (Local (lo_values l) x)).

(** multi.rs 539-591: the loop over the networks in [step], without a thread pool
    (C36 says a thread pool makes no difference). *)
Fixpoint step_networks (todo : list nat) (t : timestep) (es : list entry) (scs : list scenario_index)
  (states : list (list local)) : res multi_error (list (list local)) :=
  match todo with
  | [] => Ok states
  | k :: rest =>
      rbind (compute_transfers k t es scs states) (fun states =>
      rbind (index_or_panic es k) (fun e =>
      rbind (index_or_panic states k) (fun mine =>
      rbind (tag (NetworkStepError (en_name e)) (step (map on_local (operations (en_network e))) t scs mine)) (fun mine' =>
      step_networks rest t es scs (firstn k states ++ mine' :: skipn (S k) states)))))
  end.

(** multi.rs 522-597: [step]; the run takes the time-steps in turn. *)
Definition step_multi (t : timestep) (es : list entry) (scs : list scenario_index) (states : list (list local))
  : res multi_error (list (list local)) := step_networks (seq 0 (length es)) t es scs states.

Fixpoint run_multi (ts : list timestep) (es : list entry) (scs : list scenario_index) (states : list (list local))
  : res multi_error (list (list local)) :=
  match ts with
  | [] => Ok states
  | t :: rest => rbind (step_multi t es scs states) (run_multi rest es scs)
  end.
End Multi.
