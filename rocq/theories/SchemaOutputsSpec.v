(** What the outputs of a model file should deliver. *)
From Coq Require Import QArith String.
From Verif Require Import Base Calendar Timestep Network AggFuncs AggFuncsSpec Aggregator Memory MemorySpec Outputs OutputsSpec MetricSets SchemaOutputs.
Open Scope list_scope.
Open Scope nat_scope.

(** Metric set number [i] of the model is the one the file calls [name]. *)
Definition is_set (sets : list built_set) (name : string) (i : nat) (ms : metric_set) : Prop :=
  exists b, nth_error sets i = Some b /\ bs_name b = name /\ ms = recorded_set b.

(** Where a file is written: in the directory for outputs, if there is one and
    the file name does not start at the root. *)
Definition placed (dir : option path) (f : path) : path :=
  match dir with
  | Some d => if pa_absolute f then f else mkPath (pa_absolute d) (pa_parts d ++ pa_parts f)
  | None => f
  end.

(** The sets that an output asks for. *)
Definition asked_sets (o : soutput) : list string :=
  match o with
  | SoCsv _ _ _ (CsSingle n) _ => [n]
  | SoCsv _ _ _ (CsMultiple l) _ => l
  | SoHdf5 _ _ n => [n]
  | SoMemory _ n _ _ => [n]
  end.

(** An output that can be served: a wide file is of one set, HDF5 is compiled
    in, and every set it asks for is defined. *)
Definition servable (hdf5 : bool) (sets : list built_set) (o : soutput) : Prop :=
  match o with
  | SoCsv _ _ CfWide (CsMultiple _) _ => False
  | SoHdf5 _ _ _ => hdf5 = true
  | _ => True
  end /\ forall n, In n (asked_sets o) -> In n (map bs_name sets).

(** A result in memory holds, for every scenario and metric of the set, what the
    metric set recorded of that metric in that scenario. *)
Definition holds_set (ms : metric_set) (i : nat) (scenarios : list scenario_id) (steps : list saved_step) (data : list (list row)) : Prop :=
  length data = length scenarios /\
  forall s rows, nth_error data s = Some rows ->
    Forall (fun r => length (pv_value r) = length (ms_metrics ms)) rows /\
    forall j, j < length (ms_metrics ms) -> recorded ms (history s i j steps) (column j rows).

(** A list of values brought down to one: a single value stands for itself,
    others need a function. *)
Definition reduced (f : option sagg_func) (vs : list Q) (x : Q) : Prop :=
  match vs with
  | [v] => x = v
  | _ => exists g, f = Some g /\ x = calc_iter_f64 (load_func g) vs
  end.
(** The same over time, where the lengths of the periods count. *)
Definition reduced_in_time (f : option sagg_func) (vs : list pvalue) (x : Q) : Prop :=
  match vs with
  | [v] => x = pv_value v
  | _ => exists g, f = Some g /\ calc_period_values (load_func g) vs = Some x
  end.
(** The period of a row with one value. *)
Definition of_row (r : row) (x : Q) : pvalue := PV (pv_start r) (pv_dur r) x.

(** The single value of a result, from the three functions of the file: over the
    metrics, over time and over the scenarios, in the order of the file. *)
Definition wanted_value (m : mem_agg) (order : agg_order) (data : list (list row)) (x : Q) : Prop :=
  exists per_scenario,
    Forall2 (fun rows y =>
      match order with
      | MetricTimeScenario => exists zs, Forall2 (fun r z => reduced (ma_metric m) (pv_value r) z) rows zs /\
          reduced_in_time (ma_time m) (map (fun '(r, z) => of_row r z) (combine rows zs)) y
      | TimeMetricScenario => exists M zs, rows <> [] /\ Forall (fun r => length (pv_value r) = M) rows /\ length zs = M /\
          (forall j z, nth_error zs j = Some z -> reduced_in_time (ma_time m) (column j rows) z) /\ reduced (ma_metric m) zs y
      end) data per_scenario /\
    reduced (ma_scenario m) per_scenario x.
