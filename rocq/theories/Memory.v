(** Metric sets and the memory recorder:
    pywr-core/src/recorders/metric_set.rs, recorders/memory.rs, and the calls in
    network.rs 711-755, 1043-1102.  The values of the metrics in each time-step
    are inputs of the model.  Data frames are not modelled beyond the records
    they are made from. *)
From Coq Require Import QArith.
From Verif Require Import Base Calendar Timestep Network AggFuncs Aggregator.
Open Scope nat_scope.

Inductive mem_error : Type :=
| NeverReturns
| MetricSetIndexNotFound
| AggregationFunctionNotDefined
| AggregationFunctionFailed.

(** The aggregator's only [Err] is a loop that never ends. *)
Definition lift {A} (r : res unit A) : res mem_error A :=
  match r with Ok a => Ok a | Err _ => Err NeverReturns | Panic => Panic end.

(** metric_set.rs 100-105: [MetricSet]; of each metric only the name and the
    attribute are kept. *)
Record metric_set : Type := MetricSet {
  ms_aggregator : option aggregator;
  ms_metrics : list (string * string)
}.

(** metric_set.rs 79-85: [MetricSetState]. *)
Record metric_set_state : Type := MetricSetState {
  current_values : option (list pvalue);
  aggregation_states : option (list agg_state)
}.

(** metric_set.rs 117-125: [MetricSet::setup]. *)
Definition ms_setup (ms : metric_set) : metric_set_state :=
  MetricSetState None (option_map (fun a => map (fun _ => setup a) (ms_metrics ms)) (ms_aggregator ms)).

(** metric_set.rs 157-161: every aggregator is given its value; the values
    yielded are collected. *)
Fixpoint append_each (a : aggregator) (values : list pvalue) (states : list agg_state)
  : res mem_error (list pvalue * list agg_state) :=
  match values, states with
  | v :: values', st :: states' =>
      rbind (lift (append_value a st v)) (fun '(o, st') =>
        rbind (append_each a values' states') (fun '(aggs, sts) =>
          Ok (match o with Some x => x :: aggs | None => aggs end, st' :: sts)))
  | _, _ => Ok ([], states)
  end.

(** metric_set.rs 127-183: [MetricSet::save]. *)
Definition ms_save (ms : metric_set) (date : datetime) (duration : Z) (metric_values : list Q)
    (state : metric_set_state) : res mem_error metric_set_state :=
  let values := map (fun x => PV date duration x) metric_values in
  match ms_aggregator ms with
  | Some a =>
      match aggregation_states state with
      | None => Panic
      | Some states =>
          rbind (append_each a values states) (fun '(aggs, states') =>
            if length aggs =? 0 then Ok (MetricSetState None (Some states'))
            else if length aggs =? length values then Ok (MetricSetState (Some aggs) (Some states'))
            else Panic)
      end
  | None => Ok (MetricSetState (Some values) (aggregation_states state))
  end.

(** metric_set.rs 192-195: [collect::<Option<Vec<_>>>] stops at the first [None]. *)
Fixpoint finalise_each (a : aggregator) (states : list agg_state)
  : res mem_error (option (list pvalue) * list agg_state) :=
  match states with
  | [] => Ok (Some [], [])
  | st :: states' =>
      rbind (lift (finalise a st)) (fun '(o, st') =>
        match o with
        | Some v =>
            rbind (finalise_each a states') (fun '(vs, sts) =>
              Ok (option_map (cons v) vs, st' :: sts))
        | None => Ok (None, st' :: states')
        end)
  end.

(** metric_set.rs 185-200: [MetricSet::finalise]. *)
Definition ms_finalise (ms : metric_set) (state : metric_set_state) : res mem_error metric_set_state :=
  match ms_aggregator ms with
  | Some a =>
      match aggregation_states state with
      | None => Panic
      | Some states =>
          rbind (finalise_each a states) (fun '(vs, states') => Ok (MetricSetState vs (Some states')))
      end
  | None => Ok (MetricSetState None (aggregation_states state))
  end.

(** aggregator/mod.rs 208-219: a row of the values of all metrics, from a slice. *)
Notation row := (period_value (list Q)).
Definition row_of (values : list pvalue) : res mem_error row :=
  match values with
  | [] => Panic
  | first :: _ => Ok (PV (pv_start first) (pv_dur (last values first)) (map pv_value values))
  end.

(** memory.rs 134-147: [InternalState::new]. *)
Definition mem_setup (num_scenarios : nat) : list (list row) := repeat [] num_scenarios.

(** memory.rs 322-345 and 362-373: the loop shared by [save] and [finalise]. *)
Fixpoint mem_save (idx : nat) (ms_states : list (list metric_set_state)) (data : list (list row))
  : res mem_error (list (list row)) :=
  match ms_states, data with
  | sc :: ms_states', d :: data' =>
      match nth_error sc idx with
      | None => Err MetricSetIndexNotFound
      | Some st =>
          rbind (match current_values st with
                 | Some vs => rbind (row_of vs) (fun r => Ok (d ++ [r]))
                 | None => Ok d
                 end) (fun d' =>
            rbind (mem_save idx ms_states' data') (fun rest => Ok (d' :: rest)))
      end
  | _, _ => Ok data
  end.

(** network.rs 1064-1070: all metric sets of one scenario are saved. *)
Fixpoint save_sets (sets : list metric_set) (date : datetime) (duration : Z) (values : list (list Q))
    (states : list metric_set_state) : res mem_error (list metric_set_state) :=
  match sets, values, states with
  | ms :: sets', vs :: values', st :: states' =>
      rbind (ms_save ms date duration vs st) (fun st' =>
        rbind (save_sets sets' date duration values' states') (fun rest => Ok (st' :: rest)))
  | _, _, _ => Ok states
  end.

(** A time-step as the recorders see it: its date, its duration, and for every
    scenario and metric set the values of the metrics. *)
Record saved_step : Type := SavedStep {
  sv_date : datetime;
  sv_dur : Z;
  sv_values : list (list (list Q))
}.

(** network.rs 770-800: the scenarios one after another. *)
Fixpoint save_scenarios (sets : list metric_set) (date : datetime) (duration : Z)
    (values : list (list (list Q))) (states : list (list metric_set_state))
  : res mem_error (list (list metric_set_state)) :=
  match values, states with
  | vs :: values', st :: states' =>
      rbind (save_sets sets date duration vs st) (fun st' =>
        rbind (save_scenarios sets date duration values' states') (fun rest => Ok (st' :: rest)))
  | _, _ => Ok states
  end.

(** simple.rs 320-360: the time-steps one after another; each saves the metric
    sets and then the recorder. *)
Fixpoint save_steps (sets : list metric_set) (idx : nat) (steps : list saved_step)
    (states : list (list metric_set_state)) (data : list (list row))
  : res mem_error (list (list metric_set_state) * list (list row)) :=
  match steps with
  | [] => Ok (states, data)
  | s :: rest =>
      rbind (save_scenarios sets (sv_date s) (sv_dur s) (sv_values s) states) (fun states' =>
        rbind (mem_save idx states' data) (fun data' => save_steps sets idx rest states' data'))
  end.

(** network.rs 725-729: all metric sets of one scenario are finalised. *)
Fixpoint finalise_sets (sets : list metric_set) (states : list metric_set_state)
  : res mem_error (list metric_set_state) :=
  match sets, states with
  | ms :: sets', st :: states' =>
      rbind (ms_finalise ms st) (fun st' =>
        rbind (finalise_sets sets' states') (fun rest => Ok (st' :: rest)))
  | _, _ => Ok states
  end.

(** A run from setup (network.rs 596-627) to [Network::finalise] (711-755): the
    data in the final result of the memory recorder. *)
Definition record_run (sets : list metric_set) (idx num_scenarios : nat) (steps : list saved_step)
  : res mem_error (list (list row)) :=
  let states := repeat (map ms_setup sets) num_scenarios in
  rbind (save_steps sets idx steps states (mem_setup num_scenarios)) (fun '(states', data) =>
    rbind (rmap (finalise_sets sets) states') (fun states'' =>
      match nth_error sets idx with
      | None => Err MetricSetIndexNotFound
      | Some _ => mem_save idx states'' data
      end)).

(** memory.rs 149-158: [LongFmtRecord]. *)
Record long_record : Type := LongRecord {
  lr_start : datetime;
  lr_end : datetime;
  lr_simulation : nat;
  lr_label : string;
  lr_metric_set : string;
  lr_name : string;
  lr_attribute : string;
  lr_value : Q
}.

(** The simulation number and label of a scenario (scenario.rs 480-520). *)
Record scenario_id : Type := ScenarioId { si_simulation : nat; si_label : string }.

(** memory.rs 222-246: [iter_long_fmt_records]. *)
Definition row_records (recorder : string) (names attrs : list string) (sc : scenario_id) (pv : row)
  : list long_record :=
  map (fun '((v, name), attr) =>
         LongRecord (pv_start pv) (pv_end pv) (si_simulation sc) (si_label sc) recorder name attr v)
      (combine (combine (pv_value pv) names) attrs).
Definition long_records (recorder : string) (names attrs : list string) (scenarios : list scenario_id)
    (data : list (list row)) : list long_record :=
  flat_map (fun '(sc, rows) => flat_map (row_records recorder names attrs sc) rows) (combine scenarios data).

(** memory.rs 29-34: [Aggregation]. *)
Record aggregation : Type := Aggregation {
  ag_scenario : option agg_f64;
  ag_time : option agg_f64;
  ag_metric : option agg_f64
}.

(** memory.rs 46-98: the metric and scenario functions, which a single value bypasses. *)
Definition apply_func (func : option agg_f64) (values : list Q) : res mem_error Q :=
  match values with
  | [v] => Ok v
  | _ =>
      match func with
      | None => Err AggregationFunctionNotDefined
      | Some f => Ok (calc_iter_f64 f values)
      end
  end.

(** memory.rs 104-124: the time function. *)
Definition apply_time_func (func : option agg_f64) (values : list pvalue) : res mem_error Q :=
  match values with
  | [v] => Ok (pv_value v)
  | _ =>
      match func with
      | None => Err AggregationFunctionNotDefined
      | Some f =>
          match calc_period_values f values with
          | Some x => Ok x
          | None => Err AggregationFunctionFailed
          end
      end
  end.

(** memory.rs 178-196: [aggregate_metric_time_scenario]. *)
Definition metric_time_scenario (ag : aggregation) (data : list (list row)) : res mem_error Q :=
  rbind (rmap (fun time_data =>
           rbind (rmap (fun r => rbind (apply_func (ag_metric ag) (pv_value r))
                                   (fun x => Ok (PV (pv_start r) (pv_dur r) x))) time_data)
                 (apply_time_func (ag_time ag))) data)
        (apply_func (ag_scenario ag)).

(** aggregator/mod.rs 190-200: [PeriodValue<Vec<T>>::index]. *)
Definition row_index (j : nat) (r : row) : res mem_error pvalue :=
  match nth_error (pv_value r) j with
  | Some x => Ok (PV (pv_start r) (pv_dur r) x)
  | None => Panic
  end.

(** memory.rs 201-222: [aggregate_time_metric_scenario]. *)
Definition time_metric_scenario (ag : aggregation) (data : list (list row)) : res mem_error Q :=
  rbind (rmap (fun time_data =>
           match time_data with
           | [] => Panic
           | first :: _ =>
               rbind (rmap (fun j => rbind (rmap (row_index j) time_data) (apply_time_func (ag_time ag)))
                           (seq 0 (length (pv_value first))))
                     (apply_func (ag_metric ag))
           end) data)
        (apply_func (ag_scenario ag)).
