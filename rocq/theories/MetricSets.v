(** The metric sets of a model file: which metrics a set records and under
    which labels.  Sources: pywr-schema/src/metric_sets/mod.rs, metric.rs,
    agg_funcs.rs; pywr-core/src/recorders/metric_set.rs. *)
From Coq Require Import QArith.
From Verif Require Import Base Calendar AggFuncs Aggregator Memory Network NetworkBuild Formulas NetState SchemaNodes SchemaVirtual.
Local Open Scope string_scope.
Local Open Scope list_scope.
Local Open Scope nat_scope.

(** ** Schema types *)

(** parameters/mod.rs 88-92 [ParameterPhase]. *)
Inductive param_phase := PhBefore | PhAfter | PhBoth.

(** parameters/mod.rs 94-134 [Parameter].  Simplification: of a parameter only
    what a metric set looks at is kept: its name, the name of its type, the
    phase it is calculated in (231-270) and whether it is a Python parameter
    that returns a dictionary. *)
Record sparam := mkSparam { spa_name : string; spa_type : string; spa_phase : param_phase; spa_dict : bool }.

(** metric.rs 515-520 [ParameterReturnValue]; 537-544 [ParameterReference]. *)
Inductive return_value := RvBefore | RvAfter | RvAfterOrInitial.
Record param_ref := mkPref { pr_name : string; pr_key : option string; pr_return : option return_value }.

(** timeseries/mod.rs [TimeseriesColumns]. *)
Inductive ts_columns := TcScenario (name : string) | TcColumn (name : string).

(** metric.rs 44-70 [Metric]. *)
Inductive smetric :=
| MLiteral (q : Q)
| MTable (table : string) (key : list string)
| MNode (name : string) (a : option attribute)
| MVirtual (name : string) (a : option attribute)
| MEdge (e : sedge)
| MTimeseries (name : string) (columns : option ts_columns)
| MParameter (r : param_ref)
| MLocalParameter (r : param_ref)
| MTransfer (name : string).

(** metric_sets/mod.rs 24-29 [MetricAggFrequency], 49-58 [MetricAggregator];
    agg_funcs.rs 50-53 [AnyNonZero], 71-80 [AggFunc].  Simplification: no
    Python functions. *)
Inductive sagg_func := AgSum | AgMax | AgMin | AgProduct | AgMean | AgCountNonZero | AgAnyNonZero (tolerance : option Q).
Inductive sagg_freq := SfMonthly | SfAnnual | SfDays (days : Z).
Inductive sagg := mkSagg (freq : option sagg_freq) (func : sagg_func) (child : option sagg).

(** metric_sets/mod.rs 78-89 [MetricSetFilters], 161-173 [MetricSet]. *)
Record filters := mkFilters { fi_nodes : bool; fi_virtual : bool; fi_params : bool; fi_edges : bool }.
Record smetric_set := mkSms {
  sm_name : string; sm_metrics : option (list smetric); sm_aggregator : option sagg; sm_filters : filters }.

(** network.rs 140-147 [LoadArgs].  Simplification: the tables and time series
    are functions that give the value, or the name of the parameter created
    (properties C48, C61). *)
Record load_args := mkArgs {
  la_schema : schema;
  la_params : list sparam;
  la_tables : string -> list string -> option Q;
  la_timeseries : string -> option ts_columns -> option string }.

(** ** What is handed to the core *)

(** pywr-core/src/metric.rs 458-496 [UnresolvedMetricF64].  A parameter is
    named by an optional parent and a name. *)
Inductive lmetric :=
| LmNode (m : umetric)
| LmVirtual (m : vmetric)
| LmEdge (m : umetric) (label : string)
| LmParam (parent : option string) (name : string) (key : option string) (r : return_value)
| LmConst (q : Q)
| LmTransfer (name : string).

(** recorders/metric_set.rs 46-54 [UnresolvedOutputMetric]. *)
Record output_metric := mkOut {
  om_name : string; om_attribute : string; om_type : string; om_sub_type : option string; om_metric : lmetric }.

(** error.rs [SchemaError], the cases that arise here. *)
Inductive ms_error :=
| MsSchema (e : schema_error)
| MsVirtualNodeNotFound (name : string)
| MsParameterNotFound (name : string)
| MsTableRef (table : string)
| MsTimeseriesRef (name : string)
| MsLocalRequiresParent (name : string)
| MsLiteralOutput
| MsEmptySet (name : string).
Definition mres := res ms_error.
Definition of_schema {A} (r : SchemaNodes.sres A) : mres A :=
  match r with Ok a => Ok a | Err e => Err (MsSchema e) | Panic => Panic end.

(** ** Names and labels *)

(** nodes/attributes.rs 10-28 [NodeAttribute], slots.rs 10-18 [NodeSlot]: the
    derived [Display] prints the name of the variant only. *)
Definition attribute_str (a : attribute) : string :=
  match a with
  | AtInflow => "Inflow" | AtOutflow => "Outflow" | AtVolume => "Volume" | AtMaxVolume => "MaxVolume"
  | AtPropVolume => "ProportionalVolume" | AtLoss => "Loss" | AtDeficit => "Deficit" | AtPower => "Power"
  | AtCompensation => "Compensation" | AtRainfall => "Rainfall" | AtEvaporation => "Evaporation"
  | AtAbstraction => "Abstraction"
  end.
Definition slot_str (s : slot) : string :=
  match s with
  | SlStorage => "Storage" | SlRiver => "River" | SlSpill => "Spill" | SlCompensation => "Compensation"
  | SlAbstraction => "Abstraction" | SlSplit _ => "Split" | SlUser _ => "User"
  end.

(** edge.rs 57-76 [Display for Edge]. *)
Definition edge_str (e : sedge) : string :=
  match se_from_slot e, se_to_slot e with
  | Some f, Some t => se_from e ++ "[" ++ slot_str f ++ "]" ++ "->" ++ se_to e ++ "[" ++ slot_str t ++ "]"
  | Some f, None => se_from e ++ "[" ++ slot_str f ++ "]" ++ "->" ++ se_to e
  | None, Some t => se_from e ++ "->" ++ se_to e ++ "[" ++ slot_str t ++ "]"
  | None, None => se_from e ++ "->" ++ se_to e
  end%string.

(** nodes/mod.rs 243-263, virtual_nodes/mod.rs 44-51: the names of the types. *)
Definition node_type_str (n : snode) : string :=
  match n with
  | SInput _ _ _ _ => "Input" | SLink _ _ _ _ _ _ => "Link" | SOutput _ _ _ _ => "Output" | SStorage _ _ => "Storage"
  | SCatchment _ _ _ => "Catchment" | SRiverGauge _ _ _ _ => "RiverGauge" | SLossLink _ _ _ _ _ => "LossLink"
  | SRiver _ _ _ => "River" | SRiverSplit _ _ _ _ => "RiverSplitWithGauge" | SWtw _ _ _ _ _ _ _ => "WaterTreatmentWorks"
  | SPiecewiseLink _ _ => "PiecewiseLink" | SPiecewiseStorage _ _ _ _ _ _ => "PiecewiseStorage" | SDelay _ _ _ => "Delay"
  | STurbine _ _ _ _ _ _ => "Turbine" | SReservoir _ _ => "Reservoir" | SPlaceholder _ => "Placeholder"
  | SAbstraction _ _ _ _ _ _ => "Abstraction"
  end.
Definition vnode_type_str (v : vnode) : string :=
  match v with
  | VAggregated _ _ _ _ _ => "Aggregated" | VAggStorage _ _ => "AggregatedStorage"
  | VStorage _ _ _ _ _ _ _ _ _ _ => "VirtualStorage"
  end.

(** nodes/mod.rs 371-391 [Node::default_attribute]: core.rs 72, 300, 712, 921,
    1103; river_gauge.rs 59; loss_link.rs 127; river.rs 123;
    river_split_with_gauge.rs 103; water_treatment_works.rs 77;
    piecewise_link.rs 67; piecewise_storage.rs 72; delay.rs 63; turbine.rs 125;
    reservoir.rs 263-265; placeholder.rs 23-25; abstraction.rs 95. *)
Definition default_attribute (n : snode) : attribute :=
  match n with
  | SInput _ _ _ _ => AtOutflow
  | SLink _ _ _ _ _ _ => AtOutflow
  | SOutput _ _ _ _ => AtInflow
  | SStorage _ _ => AtVolume
  | SCatchment _ _ _ => AtOutflow
  | SRiverGauge _ _ _ _ => AtOutflow
  | SLossLink _ _ _ _ _ => AtOutflow
  | SRiver _ _ _ => AtOutflow
  | SRiverSplit _ _ _ _ => AtOutflow
  | SWtw _ _ _ _ _ _ _ => AtOutflow
  | SPiecewiseLink _ _ => AtOutflow
  | SPiecewiseStorage _ _ _ _ _ _ => AtVolume
  | SDelay _ _ _ => AtOutflow
  | STurbine _ _ _ _ _ _ => AtOutflow
  | SReservoir _ _ => AtVolume
  | SPlaceholder _ => AtOutflow
  | SAbstraction _ _ _ _ _ _ => AtAbstraction
  end.

(** virtual_nodes/mod.rs 86-93; aggregated.rs 116, 313; virtual_storage.rs 200. *)
Definition vdefault_attribute (v : vnode) : attribute :=
  match v with
  | VAggregated _ _ _ _ _ => AtOutflow
  | VAggStorage _ _ => AtVolume
  | VStorage _ _ _ _ _ _ _ _ _ _ => AtVolume
  end.

(** ** Loading a metric *)

(** network.rs 462-464, 480-485, 506-511: look-ups by name. *)
Definition lookup_node (args : load_args) (name : string) : mres snode := of_schema (find_node (la_schema args) name).
Definition lookup_vnode (args : load_args) (name : string) : mres vnode :=
  match find (fun v => String.eqb (vnode_name v) name) (sc_vnodes (la_schema args)) with
  | Some v => Ok v
  | None => Err (MsVirtualNodeNotFound name)
  end.
Definition lookup_param (args : load_args) (name : string) : mres sparam :=
  match find (fun p => String.eqb (spa_name p) name) (la_params args) with
  | Some p => Ok p
  | None => Err (MsParameterNotFound name)
  end.

(** metric.rs 540-556 [ParameterReference::load_f64]. *)
Definition load_param_ref (r : param_ref) (parent : option string) : lmetric :=
  LmParam parent (pr_name r) (pr_key r) (match pr_return r with Some v => v | None => RvBefore end).

(** metric.rs 97-149 [Metric::load].  [UnresolvedMetricF64::new_parameter_before]
    reads the value of the before-phase. *)
Definition load_metric (args : load_args) (parent : option string) (m : smetric) : mres lmetric :=
  match m with
  | MNode name a => rbind (lookup_node args name) (fun n => rbind (of_schema (create_metric n a)) (fun u => Ok (LmNode u)))
  | MVirtual name a => rbind (lookup_vnode args name) (fun v => rbind (of_schema (vnode_metric v a)) (fun u => Ok (LmVirtual u)))
  | MParameter r => Ok (load_param_ref r None)
  | MLocalParameter r =>
      match parent with
      | None => Err (MsLocalRequiresParent (pr_name r))
      | Some _ => Ok (load_param_ref r parent)
      end
  | MLiteral q => Ok (LmConst q)
  | MTable t key => match la_tables args t key with Some q => Ok (LmConst q) | None => Err (MsTableRef t) end
  | MTimeseries t c =>
      match la_timeseries args t c with Some p => Ok (LmParam None p None RvBefore) | None => Err (MsTimeseriesRef t) end
  | MTransfer name => Ok (LmTransfer name)
  | MEdge e => rbind (of_schema (edge_metric (la_schema args) e)) (fun u => Ok (LmEdge u (edge_str e)))
  end.

(** metric.rs 151-163 [Metric::name]. *)
Definition output_name (m : smetric) : mres string :=
  match m with
  | MNode name _ => Ok name
  | MVirtual name _ => Ok name
  | MParameter r => Ok (pr_name r)
  | MLocalParameter r => Ok (pr_name r)
  | MLiteral _ => Err MsLiteralOutput
  | MTable t _ => Ok t
  | MTimeseries t _ => Ok t
  | MTransfer name => Ok name
  | MEdge e => Ok (edge_str e)
  end.

(** metric.rs 601-606 [ParameterReference::attribute]: the key, or the return
    value in lower case. *)
Definition param_attribute (r : param_ref) : string :=
  match pr_key r with
  | Some k => k
  | None =>
      match pr_return r with
      | None | Some RvBefore => "before"
      | Some RvAfter => "after"
      | Some RvAfterOrInitial => "afterorelseinitial"
      end
  end.

(** metric.rs 165-182 [Metric::attribute]. *)
Definition output_attribute (args : load_args) (m : smetric) : mres string :=
  match m with
  | MNode name a =>
      rbind (lookup_node args name) (fun n => Ok (attribute_str (match a with Some a => a | None => default_attribute n end)))
  | MVirtual name a =>
      rbind (lookup_vnode args name) (fun v => Ok (attribute_str (match a with Some a => a | None => vdefault_attribute v end)))
  | MParameter r | MLocalParameter r => Ok (param_attribute r)
  | MLiteral _ => Ok "value"
  | MTable _ key => Ok (String.concat ";" key)
  | MTimeseries _ (Some (TcColumn c)) => Ok c
  | MTimeseries _ _ => Ok "value"
  | MTransfer _ => Ok "value"
  | MEdge _ => Ok "Flow"
  end.

(** metric.rs 187-201 [Metric::sub_type]. *)
Definition output_sub_type (args : load_args) (m : smetric) : mres (option string) :=
  match m with
  | MNode name _ => rbind (lookup_node args name) (fun n => Ok (Some (node_type_str n)))
  | MVirtual name _ => rbind (lookup_vnode args name) (fun v => Ok (Some (vnode_type_str v)))
  | MParameter r | MLocalParameter r => rbind (lookup_param args (pr_name r)) (fun p => Ok (Some (spa_type p)))
  | _ => Ok None
  end.

(** metric.rs 40-43: the derived [Display] of [Metric]. *)
Definition output_type (m : smetric) : string :=
  match m with
  | MLiteral _ => "Literal" | MTable _ _ => "Table" | MNode _ _ => "Node" | MVirtual _ _ => "VirtualNode" | MEdge _ => "Edge"
  | MTimeseries _ _ => "Timeseries" | MParameter _ => "Parameter" | MLocalParameter _ => "LocalParameter"
  | MTransfer _ => "InterNetworkTransfer"
  end.

(** metric.rs 203-221 [Metric::load_as_output]. *)
Definition load_as_output (args : load_args) (parent : option string) (m : smetric) : mres output_metric :=
  rbind (load_metric args parent m) (fun metric =>
  rbind (output_sub_type args m) (fun sub_type =>
  rbind (output_name m) (fun name =>
  rbind (output_attribute args m) (fun attribute =>
  Ok (mkOut name attribute (output_type m) sub_type metric))))).

(** ** Metric sets *)

(** metric_sets/mod.rs 93-150 [MetricSetFilters::create_metrics]. *)
Definition param_metrics (p : sparam) : list smetric :=
  if spa_dict p then []
  else match spa_phase p with
       | PhBefore => [MParameter (mkPref (spa_name p) None (Some RvBefore))]
       | PhAfter => [MParameter (mkPref (spa_name p) None (Some RvAfter))]
       | PhBoth => [MParameter (mkPref (spa_name p) None (Some RvBefore)); MParameter (mkPref (spa_name p) None (Some RvAfter))]
       end.
Definition create_metrics (args : load_args) (f : filters) : list smetric :=
  (if fi_nodes f then map (fun n => MNode (snode_name n) None) (sc_nodes (la_schema args)) else []) ++
  (if fi_virtual f then map (fun v => MVirtual (vnode_name v) None) (sc_vnodes (la_schema args)) else []) ++
  (if fi_params f then flat_map param_metrics (la_params args) else []) ++
  (if fi_edges f then map MEdge (sc_edges (la_schema args)) else []).

(** metric_set.rs 45 [PartialEq for UnresolvedOutputMetric], derived. *)
Definition Q_eq_dec (x y : Q) : {x = y} + {x <> y}.
Proof. decide equality; [apply Pos.eq_dec | apply Z.eq_dec]. Defined.
Definition ostring_eq_dec (x y : option string) : {x = y} + {x <> y}.
Proof. decide equality. apply string_dec. Defined.
Definition uname_eq_dec (x y : uname) : {x = y} + {x <> y}.
Proof. decide equality; [apply ostring_eq_dec | apply string_dec]. Defined.
Definition umetric_eq_dec (x y : umetric) : {x = y} + {x <> y}.
Proof.
  decide equality; try apply Q_eq_dec; try apply uname_eq_dec; try apply ostring_eq_dec.
  - decide equality; [apply Q_eq_dec | apply Nat.eq_dec].
  - decide equality; apply string_dec.
  - decide equality; apply string_dec.
  - decide equality; apply uname_eq_dec.
  - decide equality; apply uname_eq_dec.
  - decide equality; decide equality; apply uname_eq_dec.
Defined.
Definition lmetric_eq_dec (x y : lmetric) : {x = y} + {x <> y}.
Proof.
  decide equality; try apply string_dec; try apply ostring_eq_dec; try apply umetric_eq_dec; try apply Q_eq_dec;
  decide equality; apply uname_eq_dec.
Defined.
Definition output_eq_dec (x y : output_metric) : {x = y} + {x <> y}.
Proof. decide equality; try apply string_dec; try apply ostring_eq_dec. apply lmetric_eq_dec. Defined.

(** metric_sets/mod.rs 196-200: what the filters add is appended unless it is
    there already. *)
Definition contains (l : list output_metric) (o : output_metric) : bool :=
  existsb (fun x => if output_eq_dec x o then true else false) l.
Fixpoint append_new (l extra : list output_metric) : list output_metric :=
  match extra with
  | [] => l
  | o :: rest => append_new (if contains l o then l else l ++ [o]) rest
  end.

(** agg_funcs.rs 55-61, 84-101; metric_sets/mod.rs 31-41, 60-72
    [MetricAggregator::load]. *)
Definition load_func (f : sagg_func) : agg_f64 :=
  match f with
  | AgSum => FSum | AgMax => FMax | AgMin => FMin | AgProduct => FProduct | AgMean => FMean | AgCountNonZero => FCountNonZero
  | AgAnyNonZero t => FAnyNonZero (match t with Some t => t | None => 1 # 1000000 end)
  end.
Definition load_freq (f : sagg_freq) : agg_freq :=
  match f with SfMonthly => GMonthly | SfAnnual => GAnnual | SfDays d => GDays d end.
Fixpoint load_agg (a : sagg) : aggregator :=
  match a with
  | mkSagg freq func None => ABase (Level (option_map load_freq freq) (load_func func))
  | mkSagg freq func (Some c) => ANest (Level (option_map load_freq freq) (load_func func)) (load_agg c)
  end.

(** metric_sets/mod.rs 175-230 [MetricSet::add_to_network]: the name of the
    set, its aggregator and its metrics. *)
Record built_set := mkBuilt { bs_name : string; bs_aggregator : option aggregator; bs_metrics : list output_metric }.
Definition add_metric_set (args : load_args) (ms : smetric_set) : mres built_set :=
  rbind (rmap (load_as_output args None) (create_metrics args (sm_filters ms))) (fun from_filters =>
  rbind (match sm_metrics ms with
         | Some metrics =>
             rbind (rmap (load_as_output args None) metrics) (fun listed => Ok (append_new listed from_filters))
         | None => Ok from_filters
         end) (fun outputs =>
  match outputs with
  | [] => Err (MsEmptySet (sm_name ms))
  | _ => Ok (mkBuilt (sm_name ms) (option_map load_agg (sm_aggregator ms)) outputs)
  end)).

(** metric_set.rs 242-260 [MetricSetBuilder::build]: the metrics in order.  The
    recorders (model file Memory.v) see their names and attributes. *)
Definition recorded_set (b : built_set) : metric_set :=
  MetricSet (bs_aggregator b) (map (fun o => (om_name o, om_attribute o)) (bs_metrics b)).
