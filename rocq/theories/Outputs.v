(** The recorders that write files: pywr-core/src/recorders/csv.rs and hdf.rs.
    As in Memory.v the values of the metrics in each time-step are inputs.
    Errors of the file system are not modelled; a CSV file is the list of its
    records, an HDF5 file the list of its data sets. *)
From Coq Require Import QArith Qround.
From Verif Require Import Base Calendar Timestep Network AggFuncs Aggregator Memory.
Open Scope nat_scope.

Inductive out_error : Type :=
| OfSets (e : mem_error)
| UnequalLengths          (* the csv crate: a record longer or shorter than the first *)
| AlreadyExists           (* HDF5: a link of that name exists *)
| WrongShape.             (* HDF5: a slice of another length *)
Definition of_sets {A} (r : res mem_error A) : res out_error A :=
  match r with Ok a => Ok a | Err e => Err (OfSets e) | Panic => Panic end.

(** simple.rs 320-360 and network.rs 711-755, 1043-1102 as in Memory.v, for any
    recorder: [save] is called with the states of all metric sets in each
    time-step. *)
Fixpoint run_steps {D} (save : list (list metric_set_state) -> D -> res out_error D) (sets : list metric_set)
    (steps : list saved_step) (states : list (list metric_set_state)) (d : D)
  : res out_error (list (list metric_set_state) * D) :=
  match steps with
  | [] => Ok (states, d)
  | s :: rest =>
      rbind (of_sets (save_scenarios sets (sv_date s) (sv_dur s) (sv_values s) states)) (fun states' =>
        rbind (save states' d) (fun d' => run_steps save sets rest states' d'))
  end.
(** The CSV recorders do the same in [finalise] as in [save]. *)
Definition run_recorder {D} (save : list (list metric_set_state) -> D -> res out_error D) (setup : D)
    (sets : list metric_set) (num_scenarios : nat) (steps : list saved_step) : res out_error D :=
  rbind (run_steps save sets steps (repeat (map ms_setup sets) num_scenarios) setup) (fun '(states, d) =>
    rbind (of_sets (rmap (finalise_sets sets) states)) (fun states' => save states' d)).

(** How numbers and dates are printed, [simulation_id] by [Display],
    [DateTime::to_string] and [format!("{:.2}")]: parameters of the model. *)
Record printing : Type := Printing {
  print_nat : nat -> string;
  print_date : datetime -> string;
  print_value : Q -> string
}.

(** The csv crate's [Writer::write_record], which is not "flexible". *)
Definition write_record {A} (file : list (list A)) (record : list A) : res out_error (list (list A)) :=
  match file with
  | first :: _ => if length record =? length first then Ok (file ++ [record]) else Err UnequalLengths
  | [] => Ok [record]
  end.

(** csv.rs 108-137: the header of the wide format. *)
Definition wide_header (p : printing) (metrics : list (string * string)) (scenarios : list scenario_id) : list (list string) :=
  ["node"%string :: flat_map (fun _ => map fst metrics) scenarios;
   "attribute"%string :: flat_map (fun _ => map snd metrics) scenarios;
   "simulation_id"%string :: flat_map (fun sc => repeat (print_nat p (si_simulation sc)) (length metrics)) scenarios;
   "label"%string :: flat_map (fun sc => repeat (si_label sc) (length metrics)) scenarios].

(** csv.rs 43-68: the loop of [CsvWideFmtOutput::write_values]. *)
Fixpoint wide_row (p : printing) (idx : nat) (states : list (list metric_set_state)) (row : list string)
  : res out_error (list string) :=
  match states with
  | [] => Ok row
  | sc :: rest =>
      match nth_error sc idx with
      | None => Err (OfSets MetricSetIndexNotFound)
      | Some st =>
          match current_values st with
          | Some vs =>
              match row, vs with
              | [], [] => Panic                (* [first().unwrap()] *)
              | [], first :: _ => wide_row p idx rest (print_date p (pv_start first) :: map (fun v => print_value p (pv_value v)) vs)
              | _, _ => wide_row p idx rest (row ++ map (fun v => print_value p (pv_value v)) vs)
              end
          | None => wide_row p idx rest row
          end
      end
  end.
(** csv.rs 43-80. *)
Definition wide_save (p : printing) (idx : nat) (states : list (list metric_set_state)) (file : list (list string))
  : res out_error (list (list string)) :=
  rbind (wide_row p idx states []) (fun row =>
    if 1 <? length row then write_record file row else Ok file).
(** csv.rs 86-150 [setup]: the first four records have one length. *)
Definition wide_run (p : printing) (sets : list metric_set) (idx : nat) (scenarios : list scenario_id) (steps : list saved_step)
  : res out_error (list (list string)) :=
  match nth_error sets idx with
  | None => Err (OfSets MetricSetIndexNotFound)
  | Some ms => run_recorder (wide_save p idx) (wide_header p (ms_metrics ms) scenarios) sets (length scenarios) steps
  end.

(** [f64::round], to whole numbers, halves away from zero. *)
Definition round_half_away (q : Q) : Z := if Qle_bool 0 q then Qfloor (q + (1 # 2)) else Qceiling (q - (1 # 2)).
(** csv.rs 277-282. *)
Definition to_places (places : option positive) (q : Q) : Q :=
  match places with
  | Some n => let scale := inject_Z (10 ^ Zpos n) in (inject_Z (round_half_away (q * scale)) / scale)%Q
  | None => q
  end.
(** pywr-schema/src/outputs/csv.rs 81-82: the number of places of the schema,
    through [NonZeroU32::new]. *)
Definition schema_places (decimal_places : option nat) : option positive :=
  match decimal_places with
  | Some (S n) => Some (Pos.of_succ_nat n)
  | _ => None
  end.
(** csv.rs 252-303 [CsvLongFmtOutput::write_values]; a metric set index with the
    name of the set.  The records of a file, without the header line, which the
    csv crate writes with the first record. *)
Definition set_records (places : option positive) (sc : scenario_id) (name : string) (metrics : list (string * string)) (vs : list pvalue)
  : list long_record :=
  map (fun '(m, v) => LongRecord (pv_start v) (pv_end v) (si_simulation sc) (si_label sc) name (fst m) (snd m) (to_places places (pv_value v)))
      (combine metrics vs).
Definition scenario_records (places : option positive) (sets : list metric_set) (names : list string) (idxs : list nat)
    (sc : scenario_id) (states : list metric_set_state) : res out_error (list long_record) :=
  rbind (rmap (fun idx =>
    match nth_error states idx with
    | None => Err (OfSets MetricSetIndexNotFound)
    | Some st =>
        match current_values st with
        | Some vs =>
            match nth_error sets idx, nth_error names idx with
            | Some ms, Some name => Ok (set_records places sc name (ms_metrics ms) vs)
            | _, _ => Err (OfSets MetricSetIndexNotFound)
            end
        | None => Ok []
        end
    end) idxs) (fun rs => Ok (concat rs)).
Definition long_save (places : option positive) (sets : list metric_set) (names : list string) (idxs : list nat)
    (scenarios : list scenario_id) (states : list (list metric_set_state)) (file : list long_record)
  : res out_error (list long_record) :=
  rbind (rmap (fun '(sc, st) => scenario_records places sets names idxs sc st) (combine scenarios states)) (fun rs =>
    Ok (file ++ concat rs)).
Definition long_run (places : option positive) (sets : list metric_set) (names : list string) (idxs : list nat)
    (scenarios : list scenario_id) (steps : list saved_step) : res out_error (list long_record) :=
  run_recorder (long_save places sets names idxs scenarios) [] sets (length scenarios) steps.

(** *** HDF5 *)

(** hdf.rs 204-258 [require_metric_dataset]: [groups] are the groups below the
    root, [sets] the data sets, each with its group.  Names with a slash are not
    modelled. *)
Definition require_dataset (groups : list string) (sets : list (string * string)) (m : string * string)
  : res out_error (list string * list (string * string)) :=
  rbind (if existsb (String.eqb (fst m)) groups then Ok groups
         else if String.eqb (fst m) "time" then Err AlreadyExists else Ok (groups ++ [fst m])) (fun groups' =>
    if existsb (fun n => (String.eqb (fst n) (fst m) && String.eqb (snd n) (snd m))%bool) sets then Err AlreadyExists
    else Ok (groups', sets ++ [m])).
Fixpoint require_datasets (groups : list string) (sets : list (string * string)) (ms : list (string * string))
  : res out_error (list (string * string)) :=
  match ms with
  | [] => Ok sets
  | m :: ms' => rbind (require_dataset groups sets m) (fun r => require_datasets (fst r) (snd r) ms')
  end.
(** hdf.rs 93-137 [setup] with 321-377: the data set [time] and the group
    [scenarios] are there first.  A new data set is filled with zeros. *)
Definition hdf_setup (metrics : list (string * string)) (num_steps num_scenarios : nat) : res out_error (list (list (list Q))) :=
  rbind (require_datasets ["scenarios"%string] [("scenarios", "groups"); ("scenarios", "indices")]%string metrics) (fun _ =>
    Ok (map (fun _ => repeat (repeat 0%Q num_scenarios) num_steps) metrics)).
(** hdf.rs 138-173 [save]: the values of the metrics themselves, not those of the
    metric set; [None] of the slice error is a wrong row number. *)
Definition write_slice (data : list (list Q)) (row : nat) (values : list Q) : res out_error (list (list Q)) :=
  match nth_error data row with
  | Some old => if length values =? length old then Ok (firstn row data ++ values :: skipn (S row) data) else Err WrongShape
  | None => Err WrongShape
  end.
Definition hdf_save (idx : nat) (step : nat) (values : list (list (list Q))) (data : list (list (list Q)))
  : res out_error (list (list (list Q))) :=
  rmap (fun '(j, d) => write_slice d step (map (fun sc => nth j (nth idx sc []) 0%Q) values)) (combine (seq 0 (length data)) data).
Fixpoint hdf_steps (idx : nat) (step : nat) (steps : list saved_step) (data : list (list (list Q))) : res out_error (list (list (list Q))) :=
  match steps with
  | [] => Ok data
  | s :: rest => rbind (hdf_save idx step (sv_values s) data) (fun data' => hdf_steps idx (S step) rest data')
  end.
(** The number of a time-step is its position (timestep.rs 190-260). *)
Definition hdf_run (sets : list metric_set) (idx num_scenarios : nat) (steps : list saved_step) : res out_error (list (list (list Q))) :=
  match nth_error sets idx with
  | None => Err (OfSets MetricSetIndexNotFound)
  | Some ms => rbind (hdf_setup (ms_metrics ms) (length steps) num_scenarios) (fun data => hdf_steps idx 0 steps data)
  end.
