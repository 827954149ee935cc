(** The outputs of a model file, from the file to the results of a run:
    pywr-schema/src/outputs/{mod,csv,hdf,memory}.rs, the builders of
    pywr-core/src/recorders/{csv,hdf,memory}.rs, and what pywr-core/src/network.rs
    and pywr-core/src/models/simple.rs do with all recorders of a network.  What
    each recorder stores is in Memory.v and Outputs.v. *)
From Coq Require Import QArith String.
From Verif Require Import Base Calendar Timestep Network AggFuncs Aggregator Memory Outputs MetricSets.
Open Scope string_scope.
Open Scope list_scope.
Open Scope nat_scope.

(** *** The file *)

(** [std::path::PathBuf]: whether it starts at the root, and its components.
    Simplification: the paths of Unix, without prefixes. *)
Record path : Type := mkPath { pa_absolute : bool; pa_parts : list string }.
Definition is_relative (p : path) : bool := negb (pa_absolute p).
Definition path_join (a b : path) : path :=
  if pa_absolute b then b else mkPath (pa_absolute a) (pa_parts a ++ pa_parts b).

(** outputs/csv.rs 17-21 [CsvFormat], 29-32 [CsvMetricSet]. *)
Inductive csv_format := CfWide | CfLong.
Inductive csv_sets := CsSingle (name : string) | CsMultiple (names : list string).

(** outputs/memory.rs 14-18 [MemoryAggregation], 32-35 [MemoryAggregationOrder]. *)
Record mem_agg := mkMemAgg { ma_time : option sagg_func; ma_scenario : option sagg_func; ma_metric : option sagg_func }.
Inductive agg_order := MetricTimeScenario | TimeMetricScenario.

(** outputs/mod.rs 22-26 [Output]; csv.rs 47-53, hdf.rs 12-17, memory.rs 49-54. *)
Inductive soutput :=
| SoCsv (name : string) (filename : path) (format : csv_format) (sets : csv_sets) (decimal_places : option nat)
| SoHdf5 (name : string) (filename : path) (set : string)
| SoMemory (name set : string) (agg : option mem_agg) (order : option agg_order).

(** *** From the file to the builders *)

Inductive ob_error : Type :=
| ObWideNeedsSingle                 (* [SchemaError::MissingMetricSet] *)
| ObFeatureNotEnabled               (* [SchemaError::FeatureNotEnabled] *)
| ObSetNotFound (name : string)     (* [RecorderBuilderError::MetricSetNotFound] *)
| ObDuplicateSet (name : string).   (* [NetworkBuildError::DuplicateMetricSetName] *)
Definition obres := res ob_error.

(** recorders/csv.rs 188-202, 355-376; hdf.rs 380-395; memory.rs 393-409: the builders. *)
Inductive rbuilder :=
| BWide (name : string) (file : path) (set : string)
| BLong (name : string) (file : path) (sets : list string) (places : option positive)
| BHdf5 (name : string) (file : path) (set : string)
| BMemory (name set : string) (agg : aggregation) (order : agg_order).

(** outputs/csv.rs 62-65, hdf.rs 26-29. *)
Definition output_file (output_path : option path) (filename : path) : path :=
  match output_path, is_relative filename with
  | Some odir, true => path_join odir filename
  | _, _ => filename
  end.

(** outputs/memory.rs 22-28 [MemoryAggregation::load].  The three functions are
    passed by position, time first; [Aggregation::new] of recorders/memory.rs 38
    takes the one over scenarios first.  Simplification: no Python functions. *)
Definition aggregation_new (scenario time metric : option agg_f64) : aggregation := Aggregation scenario time metric.
Definition load_mem_agg (m : mem_agg) : aggregation :=
  aggregation_new (option_map load_func (ma_time m)) (option_map load_func (ma_scenario m)) (option_map load_func (ma_metric m)).

(** outputs/mod.rs 30-41 [Output::add_to_model]; csv.rs 57-100; hdf.rs 21-48 with
    and without the feature; memory.rs 39-44, 58-73.  [unwrap_or_default] of the
    aggregation is one without functions, of the order [MetricTimeScenario]
    (recorders/memory.rs 284-288). *)
Definition add_output (hdf5 : bool) (output_path : option path) (o : soutput) : obres rbuilder :=
  match o with
  | SoCsv name filename CfWide (CsSingle set) _ => Ok (BWide name (output_file output_path filename) set)
  | SoCsv _ _ CfWide (CsMultiple _) _ => Err ObWideNeedsSingle
  | SoCsv name filename CfLong (CsSingle set) places => Ok (BLong name (output_file output_path filename) [set] (schema_places places))
  | SoCsv name filename CfLong (CsMultiple sets) places => Ok (BLong name (output_file output_path filename) sets (schema_places places))
  | SoHdf5 name filename set => if hdf5 then Ok (BHdf5 name (output_file output_path filename) set) else Err ObFeatureNotEnabled
  | SoMemory name set agg order =>
      Ok (BMemory name set (load_mem_agg (match agg with Some a => a | None => mkMemAgg None None None end))
            (match order with Some o => o | None => MetricTimeScenario end))
  end.

(** *** Building *)

(** network.rs 2039-2053 [metric_set_map]. *)
Fixpoint metric_set_map_from (i : nat) (names : list string) (map : list (string * nat)) : obres (list (string * nat)) :=
  match names with
  | [] => Ok map
  | n :: rest =>
      if existsb (fun e => String.eqb (fst e) n) map then Err (ObDuplicateSet n)
      else metric_set_map_from (S i) rest ((n, i) :: map)
  end.
Definition metric_set_map (names : list string) : obres (list (string * nat)) := metric_set_map_from 0 names [].
Definition find_set (map : list (string * nat)) (name : string) : obres nat :=
  match find (fun e => String.eqb (fst e) name) map with
  | Some e => Ok (snd e)
  | None => Err (ObSetNotFound name)
  end.

(** csv.rs 33-37, 244-249; hdf.rs 51-56; memory.rs 300-305: the recorders. *)
Inductive recorder :=
| RWide (name : string) (file : path) (idx : nat)
| RLong (name : string) (file : path) (idxs : list nat) (places : option positive)
| RHdf5 (name : string) (file : path) (idx : nat)
| RMemory (name : string) (idx : nat) (agg : aggregation) (order : agg_order).
Definition recorder_name (r : recorder) : string :=
  match r with RWide n _ _ | RLong n _ _ _ | RHdf5 n _ _ | RMemory n _ _ _ => n end.

(** csv.rs 209-223, 383-404; hdf.rs 402-416; memory.rs 416-431 [build]. *)
Definition build_recorder (map : list (string * nat)) (b : rbuilder) : obres recorder :=
  match b with
  | BWide name file set => rbind (find_set map set) (fun i => Ok (RWide name file i))
  | BLong name file sets places => rbind (rmap (find_set map) sets) (fun is => Ok (RLong name file is places))
  | BHdf5 name file set => rbind (find_set map set) (fun i => Ok (RHdf5 name file i))
  | BMemory name set agg order => rbind (find_set map set) (fun i => Ok (RMemory name i agg order))
  end.

(** pywr-schema/src/network.rs 640-650 and pywr-core/src/network.rs 2067, 2197-2210:
    the outputs of the file in their order, then the map of the metric sets,
    then the recorders. *)
Definition load_outputs (hdf5 : bool) (output_path : option path) (sets : list built_set) (outputs : list soutput) : obres (list recorder) :=
  rbind (rmap (add_output hdf5 output_path) outputs) (fun builders =>
  rbind (metric_set_map (map bs_name sets)) (fun m =>
  rmap (build_recorder m) builders)).

(** *** A run with all recorders *)

(** What a recorder holds between time-steps: [RecorderInternalState].  A state
    of another type is a panic (recorders/mod.rs 140-162). *)
Inductive rstate :=
| StWide (file : list (list string))
| StLong (file : list long_record)
| StHdf5 (data : list (list (list Q)))
| StMemory (data : list (list row)).

Section Run.
  Variable p : printing.
  Variable sets : list built_set.
  Variable scenarios : list scenario_id.
  Variable num_steps : nat.

  Definition core_sets : list metric_set := map recorded_set sets.
  Definition get_metric_set (i : nat) : option metric_set := nth_error core_sets i.

  (** [Recorder::setup]: csv.rs 87-155, 310-323; hdf.rs 93-137; memory.rs 312-320. *)
  Definition setup_recorder (r : recorder) : res out_error rstate :=
    match r with
    | RWide _ _ i =>
        match get_metric_set i with
        | Some ms => Ok (StWide (wide_header p (ms_metrics ms) scenarios))
        | None => Err (OfSets MetricSetIndexNotFound)
        end
    | RLong _ _ _ _ => Ok (StLong [])
    | RHdf5 _ _ i =>
        match get_metric_set i with
        | Some ms => rbind (hdf_setup (ms_metrics ms) num_steps (length scenarios)) (fun d => Ok (StHdf5 d))
        | None => Err (OfSets MetricSetIndexNotFound)
        end
    | RMemory _ _ _ _ => Ok (StMemory (mem_setup (length scenarios)))
    end.

  (** The writing that [save] and [finalise] share. *)
  Definition write_recorder (states : list (list metric_set_state)) (r : recorder) (st : rstate) : res out_error rstate :=
    match r, st with
    | RWide _ _ i, StWide f => rbind (wide_save p i states f) (fun f' => Ok (StWide f'))
    | RLong _ _ is places, StLong f => rbind (long_save places core_sets (map bs_name sets) is scenarios states f) (fun f' => Ok (StLong f'))
    | RMemory _ i _ _, StMemory d => rbind (of_sets (mem_save i states d)) (fun d' => Ok (StMemory d'))
    | _, _ => Panic
    end.

  (** [Recorder::save]: csv.rs 157-171, 325-339; hdf.rs 138-173, which takes the
      values of the metrics themselves; memory.rs 322-345. *)
  Definition save_recorder (step : nat) (s : saved_step) (states : list (list metric_set_state)) (r : recorder) (st : rstate) : res out_error rstate :=
    match r, st with
    | RHdf5 _ _ i, StHdf5 d => rbind (hdf_save i step (sv_values s) d) (fun d' => Ok (StHdf5 d'))
    | _, _ => write_recorder states r st
    end.

  (** network.rs 1076-1102 [save_recorders]: one after another. *)
  Fixpoint save_recorders (step : nat) (s : saved_step) (states : list (list metric_set_state)) (rs : list recorder) (sts : list rstate)
    : res out_error (list rstate) :=
    match rs, sts with
    | r :: rs', st :: sts' =>
        rbind (save_recorder step s states r st) (fun st' =>
        rbind (save_recorders step s states rs' sts') (fun rest => Ok (st' :: rest)))
    | _, _ => Ok []
    end.

  (** simple.rs 320-360: in each time-step the metric sets, then the recorders. *)
  Fixpoint network_steps (rs : list recorder) (step : nat) (steps : list saved_step) (states : list (list metric_set_state)) (sts : list rstate)
    : res out_error (list (list metric_set_state) * list rstate) :=
    match steps with
    | [] => Ok (states, sts)
    | s :: rest =>
        rbind (of_sets (save_scenarios core_sets (sv_date s) (sv_dur s) (sv_values s) states)) (fun states' =>
        rbind (save_recorders step s states' rs sts) (fun sts' => network_steps rs (S step) rest states' sts'))
    end.

  (** memory.rs 164-172 [MemoryRecorderResult]. *)
  Record mem_result : Type := mkMemResult {
    mr_name : string; mr_scenarios : list scenario_id; mr_metrics : list (string * string);
    mr_data : list (list row); mr_agg : aggregation; mr_order : agg_order }.

  (** What a run leaves of a recorder: a file, with its path, or a result. *)
  Inductive outcome :=
  | OutWide (file : path) (records : list (list string))
  | OutLong (file : path) (records : list long_record)
  | OutHdf5 (file : path) (data : list (list (list Q)))
  | OutMemory (r : mem_result).

  (** [Recorder::finalise]: csv.rs 173-183, 341-351; hdf.rs 175-189; memory.rs 349-388. *)
  Definition finalise_recorder (states : list (list metric_set_state)) (r : recorder) (st : rstate) : res out_error outcome :=
    match r, st with
    | RHdf5 _ f _, StHdf5 d => Ok (OutHdf5 f d)
    | RMemory name i agg order, StMemory _ =>
        match get_metric_set i with
        | None => Err (OfSets MetricSetIndexNotFound)
        | Some ms =>
            rbind (write_recorder states r st) (fun st' =>
              match st' with StMemory d => Ok (OutMemory (mkMemResult name scenarios (ms_metrics ms) d agg order)) | _ => Panic end)
        end
    | RWide _ f _, StWide _ => rbind (write_recorder states r st) (fun st' => match st' with StWide l => Ok (OutWide f l) | _ => Panic end)
    | RLong _ f _ _, StLong _ => rbind (write_recorder states r st) (fun st' => match st' with StLong l => Ok (OutLong f l) | _ => Panic end)
    | _, _ => Panic
    end.
  Fixpoint finalise_recorders (states : list (list metric_set_state)) (rs : list recorder) (sts : list rstate) : res out_error (list outcome) :=
    match rs, sts with
    | r :: rs', st :: sts' =>
        rbind (finalise_recorder states r st) (fun o =>
        rbind (finalise_recorders states rs' sts') (fun rest => Ok (o :: rest)))
    | _, _ => Ok []
    end.
End Run.

(** network.rs 717-755 [finalise]: of the recorders only those with a result are
    collected, by name; a later one of the same name replaces an earlier one
    ([HashMap::insert]). *)
Definition hash_insert {A} (m : list (string * A)) (e : string * A) : list (string * A) :=
  e :: filter (fun x => negb (String.eqb (fst x) (fst e))) m.
Fixpoint results_of (os : list outcome) (m : list (string * mem_result)) : list (string * mem_result) :=
  match os with
  | [] => m
  | OutMemory r :: rest => results_of rest (hash_insert m (mr_name r, r))
  | _ :: rest => results_of rest m
  end.
Definition network_result (os : list outcome) : list (string * mem_result) := results_of os [].

(** network.rs 596-647 and simple.rs 304-365: a whole run. *)
Definition network_run (p : printing) (sets : list built_set) (rs : list recorder) (scenarios : list scenario_id) (steps : list saved_step)
  : res out_error (list outcome) :=
  rbind (rmap (setup_recorder p sets scenarios (length steps)) rs) (fun sts =>
  rbind (network_steps p sets scenarios rs 0 steps (repeat (map ms_setup (core_sets sets)) (length scenarios)) sts) (fun '(states, sts') =>
  rbind (of_sets (rmap (finalise_sets (core_sets sets)) states)) (fun states' =>
  finalise_recorders p sets scenarios states' rs sts'))).

(** *** The results *)

(** network.rs 507-509 [get]. *)
Definition result_get (m : list (string * mem_result)) (name : string) : option mem_result :=
  option_map snd (find (fun e => String.eqb (fst e) name) m).
(** memory.rs 252-262 [aggregated_value]. *)
Definition aggregated_value (r : mem_result) : res mem_error Q :=
  match mr_order r with
  | MetricTimeScenario => metric_time_scenario (mr_agg r) (mr_data r)
  | TimeMetricScenario => time_metric_scenario (mr_agg r) (mr_data r)
  end.
(** network.rs 512-514 [get_aggregated_value]. *)
Definition get_aggregated_value (m : list (string * mem_result)) (name : string) : res mem_error (option Q) :=
  match result_get m name with
  | None => Ok None
  | Some r => match aggregated_value r with Ok x => Ok (Some x) | Err _ => Ok None | Panic => Panic end
  end.
(** memory.rs 223-246 [iter_long_fmt_records], 264-281 [to_dataframe]: the
    records of the data frame. *)
Definition to_dataframe (r : mem_result) : list long_record :=
  long_records (mr_name r) (map fst (mr_metrics r)) (map snd (mr_metrics r)) (mr_scenarios r) (mr_data r).
