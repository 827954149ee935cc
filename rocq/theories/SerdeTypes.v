(** The declarations of pywr-schema that a model file is made of, each with the
    place it is taken from: the types reached from ModelSchema and
    MultiNetworkModelSchema, with their `#[serde(..)]` attributes. A field with
    `#[serde(skip_serializing_if = "Option::is_none")]`, also when it comes from
    `#[skip_serializing_none]` on the struct, is an [opt]. `#[serde(flatten)]`
    (only in ReservoirNode) is written out: the fields of the inner struct stand
    in its place. A Box is what it holds. *)
From Coq Require Import Ascii String.
From Coq Require Import List ZArith.
From Verif Require Import Serde.
Import ListNotations.
Open Scope string_scope.
Open Scope list_scope.

(** The integer types of Rust on a 64 bit machine. *)
Definition U64 : ty := TInt 0 18446744073709551615 true.
Definition NonZeroU64 : ty := TInt 0 18446744073709551615 false.
Definition NonZeroI64 : ty := TInt (-9223372036854775808) 9223372036854775807 false.
Definition U32 : ty := TInt 0 4294967295 true.
Definition I32 : ty := TInt (-2147483648) 2147483647 true.
Definition I16 : ty := TInt (-32768) 32767 true.
Definition U8 : ty := TInt 0 255 true.
Definition I8 : ty := TInt (-128) 127 true.

(** A field without attributes, and one that is not written when it is None. *)
Definition fld (key : string) (t : ty) : fmeta * ty := (mkF key [] None SNever, t).
Definition opt (key : string) (t : ty) : fmeta * ty := (mkF key [] None SNone, t).

(** pywr-schema/src/model.rs 441-446 *)
Definition t_ModelSchema : ty :=
  (TStruct false
      [ fld "metadata" (TRef "Metadata");
        fld "time" (TRef "TimeDomain");
        opt "scenarios" (TOpt (TRef "ScenarioDomain"));
        fld "network" (TRef "NetworkSchema") ]).

(** pywr-schema/src/model.rs 782-787 *)
Definition t_MultiNetworkModelSchema : ty :=
  (TStruct false
      [ fld "metadata" (TRef "Metadata");
        fld "time" (TRef "TimeDomain");
        opt "scenarios" (TOpt (TRef "ScenarioDomain"));
        fld "networks" (TVec (TRef "MultiNetworkEntry")) ]).

(** pywr-schema/src/model.rs 40-44 *)
Definition t_Metadata : ty :=
  (TStruct false
      [ fld "title" TStr;
        opt "description" (TOpt TStr);
        opt "minimum_version" (TOpt TStr) ]).

(** pywr-schema/src/model.rs 107-111 *)
Definition t_TimeDomain : ty :=
  (TStruct false
      [ fld "start" TDateTime;
        fld "end" TDateTime;
        fld "timestep" (TRef "Timestep") ]).

(** pywr-schema/src/model.rs 324-329 *)
Definition t_ScenarioDomain : ty :=
  (TStruct true
      [ fld "groups" (TVec (TRef "ScenarioGroup"));
        fld "combinations" (TOpt (TVec (TVec (TRef "ScenarioLabelOrIndex")))) ]).

(** pywr-schema/src/network.rs 153-162 *)
Definition t_NetworkSchema : ty :=
  (TStruct true
      [ fld "nodes" (TVec (TRef "Node"));
        fld "edges" (TVec (TRef "Edge"));
        opt "virtual_nodes" (TOpt (TVec (TRef "VirtualNode")));
        opt "parameters" (TOpt (TVec (TRef "Parameter")));
        opt "tables" (TOpt (TVec (TRef "DataTable")));
        opt "timeseries" (TOpt (TVec (TRef "Timeseries")));
        opt "metric_sets" (TOpt (TVec (TRef "MetricSet")));
        opt "outputs" (TOpt (TVec (TRef "Output"))) ]).

(** pywr-schema/src/model.rs 657-661 *)
Definition t_MultiNetworkEntry : ty :=
  (TStruct false
      [ fld "name" TStr;
        fld "network" (TRef "NetworkSchemaRef");
        fld "transfers" (TVec (TRef "MultiNetworkTransfer")) ]).

(** pywr-schema/src/model.rs 78-85 *)
Definition t_Timestep : ty :=
  (TTag "type"
      [ ("Hours", (TStruct true
          [ fld "hours" NonZeroU64 ]));
        ("Days", (TStruct true
          [ fld "days" NonZeroU64 ]));
        ("Frequency", (TStruct true
          [ fld "freq" TStr ])) ]).

(** pywr-schema/src/model.rs 184-189 *)
Definition t_ScenarioGroup : ty :=
  (TStruct false
      [ fld "name" TStr;
        fld "size" U64;
        opt "labels" (TOpt (TVec TStr));
        opt "subset" (TOpt (TRef "ScenarioGroupSubset")) ]).

(** pywr-schema/src/model.rs 271-274 *)
Definition t_ScenarioLabelOrIndex : ty :=
  (TUntag [TStr; U64]).

(** pywr-schema/src/nodes/mod.rs 246-264 *)
Definition t_Node : ty :=
  (TTag "type"
      [ ("Input", (TRef "InputNode"));
        ("Link", (TRef "LinkNode"));
        ("Output", (TRef "OutputNode"));
        ("Storage", (TRef "StorageNode"));
        ("Catchment", (TRef "CatchmentNode"));
        ("RiverGauge", (TRef "RiverGaugeNode"));
        ("LossLink", (TRef "LossLinkNode"));
        ("Delay", (TRef "DelayNode"));
        ("PiecewiseLink", (TRef "PiecewiseLinkNode"));
        ("PiecewiseStorage", (TRef "PiecewiseStorageNode"));
        ("River", (TRef "RiverNode"));
        ("RiverSplitWithGauge", (TRef "RiverSplitWithGaugeNode"));
        ("WaterTreatmentWorks", (TRef "WaterTreatmentWorksNode"));
        ("Turbine", (TRef "TurbineNode"));
        ("Reservoir", (TRef "ReservoirNode"));
        ("Placeholder", (TRef "PlaceholderNode"));
        ("Abstraction", (TRef "AbstractionNode")) ]).

(** pywr-schema/src/edge.rs 16-21 *)
Definition t_Edge : ty :=
  (TStruct false
      [ fld "from_node" TStr;
        fld "to_node" TStr;
        opt "from_slot" (TOpt (TRef "NodeSlot"));
        opt "to_slot" (TOpt (TRef "NodeSlot")) ]).

(** pywr-schema/src/nodes/virtual_nodes/mod.rs 46-51 *)
Definition t_VirtualNode : ty :=
  (TTag "type"
      [ ("Aggregated", (TRef "AggregatedNode"));
        ("AggregatedStorage", (TRef "AggregatedStorageNode"));
        ("VirtualStorage", (TRef "VirtualStorageNode"));
        ("Placeholder", (TRef "PlaceholderNode")) ]).

(** pywr-schema/src/parameters/mod.rs 99-136 *)
Definition t_Parameter : ty :=
  (TTag "type"
      [ ("Aggregated", (TRef "AggregatedParameter"));
        ("AggregatedIndex", (TRef "AggregatedIndexParameter"));
        ("AsymmetricSwitchIndex", (TRef "AsymmetricSwitchIndexParameter"));
        ("Constant", (TRef "ConstantParameter"));
        ("ConstantScenario", (TRef "ConstantScenarioParameter"));
        ("ControlCurvePiecewiseInterpolated", (TRef "ControlCurvePiecewiseInterpolatedParameter"));
        ("ControlCurveInterpolated", (TRef "ControlCurveInterpolatedParameter"));
        ("ControlCurveIndex", (TRef "ControlCurveIndexParameter"));
        ("ControlCurve", (TRef "ControlCurveParameter"));
        ("DailyProfile", (TRef "DailyProfileParameter"));
        ("IndexedArray", (TRef "IndexedArrayParameter"));
        ("MonthlyProfile", (TRef "MonthlyProfileParameter"));
        ("WeeklyProfile", (TRef "WeeklyProfileParameter"));
        ("UniformDrawdownProfile", (TRef "UniformDrawdownProfileParameter"));
        ("Max", (TRef "MaxParameter"));
        ("Min", (TRef "MinParameter"));
        ("MultiThreshold", (TRef "MultiThresholdParameter"));
        ("Negative", (TRef "NegativeParameter"));
        ("NegativeMax", (TRef "NegativeMaxParameter"));
        ("NegativeMin", (TRef "NegativeMinParameter"));
        ("HydropowerTarget", (TRef "HydropowerTargetParameter"));
        ("Polynomial1D", (TRef "Polynomial1DParameter"));
        ("Threshold", (TRef "ThresholdParameter"));
        ("TablesArray", (TRef "TablesArrayParameter"));
        ("Python", (TRef "PythonParameter"));
        ("Delay", (TRef "DelayParameter"));
        ("DelayIndex", (TRef "DelayIndexParameter"));
        ("Division", (TRef "DivisionParameter"));
        ("Offset", (TRef "OffsetParameter"));
        ("DiscountFactor", (TRef "DiscountFactorParameter"));
        ("Interpolated", (TRef "InterpolatedParameter"));
        ("RbfProfile", (TRef "RbfProfileParameter"));
        ("Rolling", (TRef "RollingParameter"));
        ("RollingIndex", (TRef "RollingIndexParameter"));
        ("Placeholder", (TRef "PlaceholderParameter"));
        ("DiurnalProfile", (TRef "DirunalProfileParameter")) ]).

(** pywr-schema/src/data_tables/mod.rs 58-60 *)
Definition t_DataTable : ty :=
  (TTag "format"
      [ ("CSV", (TRef "CsvDataTable")) ]).

(** pywr-schema/src/timeseries/mod.rs 100-103 *)
Definition t_Timeseries : ty :=
  (TTag "type"
      [ ("Pandas", (TRef "PandasTimeseries"));
        ("Polars", (TRef "PolarsTimeseries")) ]).

(** pywr-schema/src/metric_sets/mod.rs 171-177 *)
Definition t_MetricSet : ty :=
  (TStruct true
      [ fld "name" TStr;
        opt "metrics" (TOpt (TVec (TRef "Metric")));
        opt "aggregator" (TOpt (TRef "MetricAggregator"));
        (mkF "filters" [] (Some (VRec [VBool false; VBool false; VBool false; VBool false])) SNever, (TRef "MetricSetFilters")) ]).

(** pywr-schema/src/outputs/mod.rs 22-26 *)
Definition t_Output : ty :=
  (TTag "type"
      [ ("CSV", (TRef "CsvOutput"));
        ("HDF5", (TRef "Hdf5Output"));
        ("Memory", (TRef "MemoryOutput")) ]).

(** pywr-schema/src/network.rs 661-664 *)
Definition t_NetworkSchemaRef : ty :=
  (TUntag [TStr; (TRef "NetworkSchema")]).

(** pywr-schema/src/model.rs 649-654 *)
Definition t_MultiNetworkTransfer : ty :=
  (TStruct false
      [ fld "from_network" TStr;
        fld "metric" (TRef "Metric");
        fld "name" TStr;
        opt "initial_value" (TOpt TFloat) ]).

(** pywr-schema/src/model.rs 169-173 *)
Definition t_ScenarioGroupSubset : ty :=
  (TTag "type"
      [ ("Slice", (TRef "ScenarioGroupSlice"));
        ("Indices", (TRef "ScenarioGroupIndices"));
        ("Labels", (TRef "ScenarioGroupLabels")) ]).

(** pywr-schema/src/nodes/core.rs 62-69 *)
Definition t_InputNode : ty :=
  (TStruct true
      [ fld "meta" (TRef "NodeMeta");
        opt "parameters" (TOpt (TVec (TRef "Parameter")));
        opt "max_flow" (TOpt (TRef "Metric"));
        opt "min_flow" (TOpt (TRef "Metric"));
        opt "cost" (TOpt (TRef "Metric")) ]).

(** pywr-schema/src/nodes/core.rs 283-297 *)
Definition t_LinkNode : ty :=
  (TStruct true
      [ fld "meta" (TRef "NodeMeta");
        opt "parameters" (TOpt (TVec (TRef "Parameter")));
        opt "max_flow" (TOpt (TRef "Metric"));
        opt "min_flow" (TOpt (TRef "Metric"));
        opt "cost" (TOpt (TRef "Metric"));
        opt "soft_min" (TOpt (TRef "SoftConstraint"));
        opt "soft_max" (TOpt (TRef "SoftConstraint")) ]).

(** pywr-schema/src/nodes/core.rs 702-709 *)
Definition t_OutputNode : ty :=
  (TStruct true
      [ fld "meta" (TRef "NodeMeta");
        opt "parameters" (TOpt (TVec (TRef "Parameter")));
        opt "max_flow" (TOpt (TRef "Metric"));
        opt "min_flow" (TOpt (TRef "Metric"));
        opt "cost" (TOpt (TRef "Metric")) ]).

(** pywr-schema/src/nodes/core.rs 910-918 *)
Definition t_StorageNode : ty :=
  (TStruct true
      [ fld "meta" (TRef "NodeMeta");
        opt "parameters" (TOpt (TVec (TRef "Parameter")));
        opt "max_volume" (TOpt (TRef "Metric"));
        opt "min_volume" (TOpt (TRef "Metric"));
        opt "cost" (TOpt (TRef "Metric"));
        fld "initial_volume" (TRef "StorageInitialVolume") ]).

(** pywr-schema/src/nodes/core.rs 1094-1100 *)
Definition t_CatchmentNode : ty :=
  (TStruct true
      [ fld "meta" (TRef "NodeMeta");
        opt "parameters" (TOpt (TVec (TRef "Parameter")));
        opt "flow" (TOpt (TRef "Metric"));
        opt "cost" (TOpt (TRef "Metric")) ]).

(** pywr-schema/src/nodes/river_gauge.rs 49-56 *)
Definition t_RiverGaugeNode : ty :=
  (TStruct true
      [ fld "meta" (TRef "NodeMeta");
        opt "parameters" (TOpt (TVec (TRef "Parameter")));
        opt "mrf" (TOpt (TRef "Metric"));
        opt "mrf_cost" (TOpt (TRef "Metric"));
        opt "bypass_cost" (TOpt (TRef "Metric")) ]).

(** pywr-schema/src/nodes/loss_link.rs 116-124 *)
Definition t_LossLinkNode : ty :=
  (TStruct true
      [ fld "meta" (TRef "NodeMeta");
        opt "parameters" (TOpt (TVec (TRef "Parameter")));
        opt "loss_factor" (TOpt (TRef "LossFactor"));
        opt "min_net_flow" (TOpt (TRef "Metric"));
        opt "max_net_flow" (TOpt (TRef "Metric"));
        opt "net_cost" (TOpt (TRef "Metric")) ]).

(** pywr-schema/src/nodes/delay.rs 54-60 *)
Definition t_DelayNode : ty :=
  (TStruct true
      [ fld "meta" (TRef "NodeMeta");
        opt "parameters" (TOpt (TVec (TRef "Parameter")));
        fld "delay" (TRef "ConstantValue<u64>");
        fld "initial_value" (TRef "ConstantValue<f64>") ]).

(** pywr-schema/src/nodes/piecewise_link.rs 59-64 *)
Definition t_PiecewiseLinkNode : ty :=
  (TStruct true
      [ fld "meta" (TRef "NodeMeta");
        opt "parameters" (TOpt (TVec (TRef "Parameter")));
        fld "steps" (TVec (TRef "PiecewiseLinkStep")) ]).

(** pywr-schema/src/nodes/piecewise_storage.rs 60-69 *)
Definition t_PiecewiseStorageNode : ty :=
  (TStruct true
      [ fld "meta" (TRef "NodeMeta");
        opt "parameters" (TOpt (TVec (TRef "Parameter")));
        fld "max_volume" (TRef "Metric");
        opt "min_volume" (TOpt (TRef "Metric"));
        opt "cost" (TOpt (TRef "Metric"));
        fld "steps" (TVec (TRef "PiecewiseStore"));
        fld "initial_volume" (TRef "StorageInitialVolume") ]).

(** pywr-schema/src/nodes/river.rs 111-120 *)
Definition t_RiverNode : ty :=
  (TStruct true
      [ fld "meta" (TRef "NodeMeta");
        opt "parameters" (TOpt (TVec (TRef "Parameter")));
        opt "loss_factor" (TOpt (TRef "LossFactor"));
        opt "routing_method" (TOpt (TRef "RoutingMethod")) ]).

(** pywr-schema/src/nodes/river_split_with_gauge.rs 93-100 *)
Definition t_RiverSplitWithGaugeNode : ty :=
  (TStruct true
      [ fld "meta" (TRef "NodeMeta");
        opt "parameters" (TOpt (TVec (TRef "Parameter")));
        opt "mrf" (TOpt (TRef "Metric"));
        opt "mrf_cost" (TOpt (TRef "Metric"));
        fld "splits" (TVec (TRef "RiverSplit")) ]).

(** pywr-schema/src/nodes/water_treatment_works.rs 56-74 *)
Definition t_WaterTreatmentWorksNode : ty :=
  (TStruct true
      [ fld "meta" (TRef "NodeMeta");
        opt "parameters" (TOpt (TVec (TRef "Parameter")));
        opt "loss_factor" (TOpt (TRef "LossFactor"));
        opt "min_flow" (TOpt (TRef "Metric"));
        opt "max_flow" (TOpt (TRef "Metric"));
        opt "soft_min_flow" (TOpt (TRef "Metric"));
        opt "soft_min_flow_cost" (TOpt (TRef "Metric"));
        opt "cost" (TOpt (TRef "Metric")) ]).

(** pywr-schema/src/nodes/turbine.rs 70-103 *)
Definition t_TurbineNode : ty :=
  (TStruct true
      [ fld "meta" (TRef "NodeMeta");
        opt "parameters" (TOpt (TVec (TRef "Parameter")));
        opt "cost" (TOpt (TRef "Metric"));
        opt "target" (TOpt (TRef "Metric"));
        opt "target_type" (TOpt (TRef "TargetType"));
        opt "water_elevation" (TOpt (TRef "Metric"));
        fld "turbine_elevation" TFloat;
        fld "min_head" TFloat;
        fld "efficiency" TFloat;
        fld "water_density" TFloat;
        fld "flow_unit_conversion" TFloat;
        fld "energy_unit_conversion" TFloat ]).

(** pywr-schema/src/nodes/reservoir.rs 219-239 *)
Definition t_ReservoirNode : ty :=
  (TStruct true
      [ fld "meta" (TRef "NodeMeta");
        opt "parameters" (TOpt (TVec (TRef "Parameter")));
        opt "max_volume" (TOpt (TRef "Metric"));
        opt "min_volume" (TOpt (TRef "Metric"));
        opt "cost" (TOpt (TRef "Metric"));
        fld "initial_volume" (TRef "StorageInitialVolume");
        opt "compensation" (TOpt (TRef "Metric"));
        opt "spill" (TOpt (TRef "SpillNodeType"));
        opt "connect_compensation_to_spill" (TOpt TBool);
        opt "surface_area" (TOpt (TRef "Bathymetry"));
        opt "rainfall" (TOpt (TRef "Rainfall"));
        opt "evaporation" (TOpt (TRef "Evaporation"));
        opt "leakage" (TOpt (TRef "Leakage")) ]).

(** pywr-schema/src/nodes/placeholder.rs 18-20 *)
Definition t_PlaceholderNode : ty :=
  (TStruct true
      [ fld "meta" (TRef "NodeMeta") ]).

(** pywr-schema/src/nodes/abstraction.rs 78-92 *)
Definition t_AbstractionNode : ty :=
  (TStruct true
      [ fld "meta" (TRef "NodeMeta");
        opt "parameters" (TOpt (TVec (TRef "Parameter")));
        opt "mrf" (TOpt (TRef "Metric"));
        opt "mrf_cost" (TOpt (TRef "Metric"));
        opt "abs_cost" (TOpt (TRef "Metric"));
        opt "abs_max_flow" (TOpt (TRef "Metric"));
        opt "abs_min_flow" (TOpt (TRef "Metric")) ]).

(** pywr-schema/src/nodes/slots.rs 10-18 *)
Definition t_NodeSlot : ty :=
  (TTag "type"
      [ ("Storage", TNothing);
        ("River", TNothing);
        ("Spill", TNothing);
        ("Compensation", TNothing);
        ("Abstraction", TNothing);
        ("Split", (TStruct false
          [ fld "position" U64 ]));
        ("User", (TStruct false
          [ fld "name" TStr ])) ]).

(** pywr-schema/src/nodes/virtual_nodes/aggregated.rs 105-113 *)
Definition t_AggregatedNode : ty :=
  (TStruct true
      [ fld "meta" (TRef "NodeMeta");
        opt "parameters" (TOpt (TVec (TRef "Parameter")));
        fld "nodes" (TVec (TRef "NodeComponentReference"));
        opt "max_flow" (TOpt (TRef "Metric"));
        opt "min_flow" (TOpt (TRef "Metric"));
        opt "relationship" (TOpt (TRef "Relationship")) ]).

(** pywr-schema/src/nodes/virtual_nodes/aggregated.rs 305-310 *)
Definition t_AggregatedStorageNode : ty :=
  (TStruct true
      [ fld "meta" (TRef "NodeMeta");
        opt "parameters" (TOpt (TVec (TRef "Parameter")));
        fld "storage_nodes" (TVec (TRef "NodeComponentReference")) ]).

(** pywr-schema/src/nodes/virtual_nodes/virtual_storage.rs 184-197 *)
Definition t_VirtualStorageNode : ty :=
  (TStruct true
      [ fld "meta" (TRef "NodeMeta");
        opt "parameters" (TOpt (TVec (TRef "Parameter")));
        fld "nodes" (TVec (TRef "NodeComponentReference"));
        opt "factors" (TOpt (TVec TFloat));
        opt "max_volume" (TOpt (TRef "Metric"));
        opt "min_volume" (TOpt (TRef "Metric"));
        opt "cost" (TOpt (TRef "Metric"));
        fld "initial_volume" (TRef "StorageInitialVolume");
        opt "reset" (TOpt (TRef "VirtualStorageReset"));
        opt "reset_volume" (TOpt (TRef "VirtualStorageResetVolume"));
        opt "window" (TOpt (TRef "RollingWindow")) ]).

(** pywr-schema/src/parameters/aggregated.rs 44-49 *)
Definition t_AggregatedParameter : ty :=
  (TStruct true
      [ fld "meta" (TRef "ParameterMeta");
        fld "phase" (TRef "ParameterPhase");
        fld "agg_func" (TRef "AggFunc");
        fld "metrics" (TVec (TRef "Metric")) ]).

(** pywr-schema/src/parameters/aggregated.rs 107-112 *)
Definition t_AggregatedIndexParameter : ty :=
  (TStruct true
      [ fld "meta" (TRef "ParameterMeta");
        fld "phase" (TRef "ParameterPhase");
        fld "agg_func" (TRef "IndexAggFunc");
        fld "metrics" (TVec (TRef "IndexMetric")) ]).

(** pywr-schema/src/parameters/asymmetric_switch.rs 18-22 *)
Definition t_AsymmetricSwitchIndexParameter : ty :=
  (TStruct true
      [ fld "meta" (TRef "ParameterMeta");
        fld "on_index_parameter" (TRef "IndexMetric");
        fld "off_index_parameter" (TRef "IndexMetric") ]).

(** pywr-schema/src/parameters/core.rs 159-170 *)
Definition t_ConstantParameter : ty :=
  (TStruct true
      [ fld "meta" (TRef "ParameterMeta");
        fld "value" (TRef "ConstantValue<f64>");
        opt "variable" (TOpt (TRef "VariableSettings")) ]).

(** pywr-schema/src/parameters/core.rs 224-232 *)
Definition t_ConstantScenarioParameter : ty :=
  (TStruct true
      [ fld "meta" (TRef "ParameterMeta");
        fld "values" (TRef "ConstantFloatVec");
        fld "scenario_group" TStr ]).

(** pywr-schema/src/parameters/control_curves.rs 360-367 *)
Definition t_ControlCurvePiecewiseInterpolatedParameter : ty :=
  (TStruct true
      [ fld "meta" (TRef "ParameterMeta");
        fld "control_curves" (TVec (TRef "Metric"));
        fld "storage_metric" (TRef "Metric");
        opt "values" (TOpt (TVec (TTuple [TFloat; TFloat])));
        opt "minimum" (TOpt TFloat);
        opt "maximum" (TOpt TFloat) ]).

(** pywr-schema/src/parameters/control_curves.rs 24-29 *)
Definition t_ControlCurveInterpolatedParameter : ty :=
  (TStruct true
      [ fld "meta" (TRef "ParameterMeta");
        fld "control_curves" (TVec (TRef "Metric"));
        fld "storage_metric" (TRef "Metric");
        fld "values" (TVec (TRef "Metric")) ]).

(** pywr-schema/src/parameters/control_curves.rs 144-148 *)
Definition t_ControlCurveIndexParameter : ty :=
  (TStruct true
      [ fld "meta" (TRef "ParameterMeta");
        fld "control_curves" (TVec (TRef "Metric"));
        fld "storage_metric" (TRef "Metric") ]).

(** pywr-schema/src/parameters/control_curves.rs 261-266 *)
Definition t_ControlCurveParameter : ty :=
  (TStruct true
      [ fld "meta" (TRef "ParameterMeta");
        fld "control_curves" (TVec (TRef "Metric"));
        fld "storage_metric" (TRef "Metric");
        fld "values" (TVec (TRef "Metric")) ]).

(** pywr-schema/src/parameters/profiles.rs 27-30 *)
Definition t_DailyProfileParameter : ty :=
  (TStruct true
      [ fld "meta" (TRef "ParameterMeta");
        fld "values" (TRef "ConstantFloatVec") ]).

(** pywr-schema/src/parameters/indexed_array.rs 17-22 *)
Definition t_IndexedArrayParameter : ty :=
  (TStruct true
      [ fld "meta" (TRef "ParameterMeta");
        (mkF "metrics" ["params"] (None) SNever, (TVec (TRef "Metric")));
        fld "index_parameter" (TRef "IndexMetric") ]).

(** pywr-schema/src/parameters/profiles.rs 104-108 *)
Definition t_MonthlyProfileParameter : ty :=
  (TStruct true
      [ fld "meta" (TRef "ParameterMeta");
        fld "values" (TRef "ConstantFloatVec");
        opt "interp_day" (TOpt (TRef "MonthlyInterpDay")) ]).

(** pywr-schema/src/parameters/profiles.rs 578-582 *)
Definition t_WeeklyProfileParameter : ty :=
  (TStruct true
      [ fld "meta" (TRef "ParameterMeta");
        fld "values" (TRef "ConstantFloatVec");
        opt "interp_day" (TOpt (TRef "WeeklyInterpDay")) ]).

(** pywr-schema/src/parameters/profiles.rs 174-179 *)
Definition t_UniformDrawdownProfileParameter : ty :=
  (TStruct true
      [ fld "meta" (TRef "ParameterMeta");
        opt "reset_day" (TOpt (TRef "ConstantValue<u64>"));
        opt "reset_month" (TOpt (TRef "ConstantValue<u64>"));
        opt "residual_days" (TOpt (TRef "ConstantValue<u64>")) ]).

(** pywr-schema/src/parameters/core.rs 278-282 *)
Definition t_MaxParameter : ty :=
  (TStruct true
      [ fld "meta" (TRef "ParameterMeta");
        fld "parameter" (TRef "Metric");
        opt "threshold" (TOpt TFloat) ]).

(** pywr-schema/src/parameters/core.rs 414-418 *)
Definition t_MinParameter : ty :=
  (TStruct true
      [ fld "meta" (TRef "ParameterMeta");
        fld "parameter" (TRef "Metric");
        opt "threshold" (TOpt TFloat) ]).

(** pywr-schema/src/parameters/thresholds.rs 314-328 *)
Definition t_MultiThresholdParameter : ty :=
  (TStruct true
      [ fld "meta" (TRef "ParameterMeta");
        fld "metric" (TRef "Metric");
        fld "thresholds" (TVec (TRef "Metric"));
        fld "predicate" (TRef "Predicate");
        opt "returned_metrics" (TOpt (TVec (TRef "Metric")));
        (mkF "ratchet" [] (Some (VBool false)) SNever, TBool) ]).

(** pywr-schema/src/parameters/core.rs 466-469 *)
Definition t_NegativeParameter : ty :=
  (TStruct true
      [ fld "meta" (TRef "ParameterMeta");
        fld "parameter" (TRef "Metric") ]).

(** pywr-schema/src/parameters/core.rs 525-529 *)
Definition t_NegativeMaxParameter : ty :=
  (TStruct true
      [ fld "meta" (TRef "ParameterMeta");
        fld "metric" (TRef "Metric");
        opt "threshold" (TOpt TFloat) ]).

(** pywr-schema/src/parameters/core.rs 593-597 *)
Definition t_NegativeMinParameter : ty :=
  (TStruct true
      [ fld "meta" (TRef "ParameterMeta");
        fld "metric" (TRef "Metric");
        opt "threshold" (TOpt TFloat) ]).

(** pywr-schema/src/parameters/hydropower.rs 44-83 *)
Definition t_HydropowerTargetParameter : ty :=
  (TStruct true
      [ fld "meta" (TRef "ParameterMeta");
        opt "actual_flow" (TOpt (TRef "Metric"));
        opt "target" (TOpt (TRef "Metric"));
        opt "water_elevation" (TOpt (TRef "Metric"));
        opt "turbine_elevation" (TOpt TFloat);
        opt "min_head" (TOpt TFloat);
        opt "max_flow" (TOpt (TRef "Metric"));
        opt "min_flow" (TOpt (TRef "Metric"));
        opt "efficiency" (TOpt TFloat);
        opt "water_density" (TOpt TFloat);
        opt "flow_unit_conversion" (TOpt TFloat);
        opt "energy_unit_conversion" (TOpt TFloat) ]).

(** pywr-schema/src/parameters/polynomial.rs 19-25 *)
Definition t_Polynomial1DParameter : ty :=
  (TStruct true
      [ fld "meta" (TRef "ParameterMeta");
        fld "metric" (TRef "Metric");
        fld "coefficients" (TVec TFloat);
        opt "scale" (TOpt TFloat);
        opt "offset" (TOpt TFloat) ]).

(** pywr-schema/src/parameters/thresholds.rs 89-104 *)
Definition t_ThresholdParameter : ty :=
  (TStruct true
      [ fld "meta" (TRef "ParameterMeta");
        fld "metric" (TRef "Metric");
        fld "threshold" (TRef "Metric");
        fld "predicate" (TRef "Predicate");
        opt "returned_metrics" (TOpt (TTuple [(TRef "Metric"); (TRef "Metric")]));
        (mkF "ratchet" [] (Some (VBool false)) SNever, TBool) ]).

(** pywr-schema/src/parameters/tables.rs 21-30 *)
Definition t_TablesArrayParameter : ty :=
  (TStruct true
      [ fld "meta" (TRef "ParameterMeta");
        fld "node" TStr;
        fld "where" TStr;
        opt "scenario" (TOpt TStr);
        opt "checksum" (TOpt (TRef "Checksum"));
        fld "url" TStr;
        opt "timestep_offset" (TOpt I32) ]).

(** pywr-schema/src/parameters/python.rs 121-140 *)
Definition t_PythonParameter : ty :=
  (TStruct true
      [ fld "meta" (TRef "ParameterMeta");
        fld "source" (TRef "PythonSource");
        fld "object" (TRef "PythonObject");
        (mkF "return_type" [] (Some (VVar 0 VUnit)) SNever, (TRef "PythonReturnType"));
        opt "args" (TOpt (TVec TValue));
        opt "kwargs" (TOpt (TMap TValue));
        opt "metrics" (TOpt (TMap (TRef "Metric")));
        opt "indices" (TOpt (TMap (TRef "IndexMetric"))) ]).

(** pywr-schema/src/parameters/delay.rs 15-20 *)
Definition t_DelayParameter : ty :=
  (TStruct true
      [ fld "meta" (TRef "ParameterMeta");
        fld "metric" (TRef "Metric");
        fld "delay" U64;
        fld "initial_value" TFloat ]).

(** pywr-schema/src/parameters/delay.rs 47-52 *)
Definition t_DelayIndexParameter : ty :=
  (TStruct true
      [ fld "meta" (TRef "ParameterMeta");
        fld "metric" (TRef "IndexMetric");
        fld "delay" U64;
        fld "initial_value" U64 ]).

(** pywr-schema/src/parameters/core.rs 343-348 *)
Definition t_DivisionParameter : ty :=
  (TStruct true
      [ fld "meta" (TRef "ParameterMeta");
        fld "phase" (TRef "ParameterPhase");
        fld "numerator" (TRef "Metric");
        fld "denominator" (TRef "Metric") ]).

(** pywr-schema/src/parameters/offset.rs 29-42 *)
Definition t_OffsetParameter : ty :=
  (TStruct true
      [ fld "meta" (TRef "ParameterMeta");
        fld "offset" (TRef "ConstantValue<f64>");
        fld "metric" (TRef "Metric");
        opt "variable" (TOpt (TRef "VariableSettings")) ]).

(** pywr-schema/src/parameters/discount_factor.rs 18-22 *)
Definition t_DiscountFactorParameter : ty :=
  (TStruct true
      [ fld "meta" (TRef "ParameterMeta");
        fld "discount_rate" (TRef "Metric");
        fld "base_year" I16 ]).

(** pywr-schema/src/parameters/interpolated.rs 26-33 *)
Definition t_InterpolatedParameter : ty :=
  (TStruct true
      [ fld "meta" (TRef "ParameterMeta");
        fld "x" (TRef "Metric");
        fld "xp" (TVec (TRef "Metric"));
        fld "fp" (TVec (TRef "Metric"));
        opt "error_on_bounds" (TOpt TBool) ]).

(** pywr-schema/src/parameters/profiles.rs 369-379 *)
Definition t_RbfProfileParameter : ty :=
  (TStruct true
      [ fld "meta" (TRef "ParameterMeta");
        fld "points" (TVec (TTuple [U32; TFloat]));
        fld "function" (TRef "RadialBasisFunction");
        fld "variable" (TOpt (TRef "RbfProfileVariableSettings")) ]).

(** pywr-schema/src/parameters/rolling.rs 26-33 *)
Definition t_RollingParameter : ty :=
  (TStruct true
      [ fld "meta" (TRef "ParameterMeta");
        fld "metric" (TRef "Metric");
        fld "window_size" U64;
        fld "initial_value" TFloat;
        opt "min_values" (TOpt U64);
        fld "agg_func" (TRef "AggFunc") ]).

(** pywr-schema/src/parameters/rolling.rs 69-76 *)
Definition t_RollingIndexParameter : ty :=
  (TStruct true
      [ fld "meta" (TRef "ParameterMeta");
        fld "metric" (TRef "IndexMetric");
        fld "window_size" U64;
        fld "initial_value" U64;
        opt "min_values" (TOpt U64);
        fld "agg_func" (TRef "IndexAggFunc") ]).

(** pywr-schema/src/parameters/placeholder.rs 16-18 *)
Definition t_PlaceholderParameter : ty :=
  (TStruct true
      [ fld "meta" (TRef "ParameterMeta") ]).

(** pywr-schema/src/parameters/profiles.rs 647-650 *)
Definition t_DirunalProfileParameter : ty :=
  (TStruct true
      [ fld "meta" (TRef "ParameterMeta");
        fld "values" (TRef "ConstantFloatVec") ]).

(** pywr-schema/src/data_tables/mod.rs 93-100 *)
Definition t_CsvDataTable : ty :=
  (TStruct false
      [ fld "meta" (TRef "TableMeta");
        fld "type" (TRef "DataTableValueType");
        fld "lookup" (TRef "CsvDataTableLookup");
        fld "url" TStr;
        fld "checksum" (TOpt (TRef "Checksum")) ]).

(** pywr-schema/src/timeseries/pandas.rs 17-25 *)
Definition t_PandasTimeseries : ty :=
  (TStruct true
      [ fld "meta" (TRef "ParameterMeta");
        opt "time_col" (TOpt TStr);
        fld "url" TStr;
        opt "kwargs" (TOpt (TMap TValue));
        opt "checksum" (TOpt (TRef "Checksum")) ]).

(** pywr-schema/src/timeseries/polars_dataset.rs 11-18 *)
Definition t_PolarsTimeseries : ty :=
  (TStruct true
      [ fld "meta" (TRef "ParameterMeta");
        opt "time_col" (TOpt TStr);
        fld "url" TStr;
        opt "infer_schema_length" (TOpt U64);
        opt "checksum" (TOpt (TRef "Checksum")) ]).

(** pywr-schema/src/metric.rs 50-69 *)
Definition t_Metric : ty :=
  (TTag "type"
      [ ("Literal", (TStruct true
          [ fld "value" TFloat ]));
        ("Table", (TRef "TableDataRef"));
        ("Node", (TRef "NodeAttrReference"));
        ("VirtualNode", (TRef "VirtualNodeAttrReference"));
        ("Edge", (TRef "EdgeReference"));
        ("Timeseries", (TRef "TimeseriesReference"));
        ("Parameter", (TRef "ParameterReference"));
        ("LocalParameter", (TRef "ParameterReference"));
        ("InterNetworkTransfer", (TStruct true
          [ fld "name" TStr ])) ]).

(** pywr-schema/src/metric_sets/mod.rs 53-60 *)
Definition t_MetricAggregator : ty :=
  (TStruct true
      [ fld "freq" (TOpt (TRef "MetricAggFrequency"));
        fld "func" (TRef "AggFunc");
        fld "child" (TOpt (TRef "MetricAggregator")) ]).

(** pywr-schema/src/metric_sets/mod.rs 81-90 *)
Definition t_MetricSetFilters : ty :=
  (TStruct true
      [ (mkF "all_nodes" [] (Some (VBool false)) SNever, TBool);
        (mkF "all_virtual_nodes" [] (Some (VBool false)) SNever, TBool);
        (mkF "all_parameters" [] (Some (VBool false)) SNever, TBool);
        (mkF "all_edges" [] (Some (VBool false)) SNever, TBool) ]).

(** pywr-schema/src/outputs/csv.rs 47-53 *)
Definition t_CsvOutput : ty :=
  (TStruct false
      [ fld "name" TStr;
        fld "filename" TStr;
        fld "format" (TRef "CsvFormat");
        fld "metric_set" (TRef "CsvMetricSet");
        opt "decimal_places" (TOpt U32) ]).

(** pywr-schema/src/outputs/hdf.rs 12-17 *)
Definition t_Hdf5Output : ty :=
  (TStruct false
      [ fld "name" TStr;
        fld "filename" TStr;
        fld "metric_set" TStr ]).

(** pywr-schema/src/outputs/memory.rs 49-54 *)
Definition t_MemoryOutput : ty :=
  (TStruct false
      [ fld "name" TStr;
        fld "metric_set" TStr;
        opt "aggregation" (TOpt (TRef "MemoryAggregation"));
        opt "order" (TOpt (TRef "MemoryAggregationOrder")) ]).

(** pywr-schema/src/model.rs 148-151 *)
Definition t_ScenarioGroupSlice : ty :=
  (TStruct true
      [ fld "start" U64;
        fld "end" U64 ]).

(** pywr-schema/src/model.rs 155-157 *)
Definition t_ScenarioGroupIndices : ty :=
  (TStruct true
      [ fld "indices" (TVec U64) ]).

(** pywr-schema/src/model.rs 161-163 *)
Definition t_ScenarioGroupLabels : ty :=
  (TStruct true
      [ fld "labels" (TVec TStr) ]).

(** pywr-schema/src/nodes/mod.rs 129-137 *)
Definition t_NodeMeta : ty :=
  (TStruct false
      [ fld "name" TStr;
        opt "comment" (TOpt TStr);
        opt "position" (TOpt (TRef "NodePosition"));
        (mkF "tags" [] (Some (VMap [])) SEmpty, (TMap TStr)) ]).

(** pywr-schema/src/nodes/core.rs 187-190 *)
Definition t_SoftConstraint : ty :=
  (TStruct false
      [ fld "cost" (TOpt (TRef "Metric"));
        fld "flow" (TOpt (TRef "Metric")) ]).

(** pywr-schema/src/nodes/core.rs 859-862 *)
Definition t_StorageInitialVolume : ty :=
  (TTag "type"
      [ ("Absolute", (TStruct true
          [ fld "volume" TFloat ]));
        ("Proportional", (TStruct true
          [ fld "proportion" TFloat ])) ]).

(** pywr-schema/src/nodes/loss_link.rs 34-37 *)
Definition t_LossFactor : ty :=
  (TTag "type"
      [ ("Gross", (TStruct true
          [ fld "factor" (TRef "Metric") ]));
        ("Net", (TStruct true
          [ fld "factor" (TRef "Metric") ])) ]).

(** pywr-schema/src/parameters/mod.rs 755-760 *)
Definition t_ConstantValue_u64 : ty :=
  (TTag "type"
      [ ("Literal", (TStruct true
          [ fld "value" U64 ]));
        ("Table", (TRef "TableDataRef")) ]).

(** pywr-schema/src/parameters/mod.rs 755-760 *)
Definition t_ConstantValue_f64 : ty :=
  (TTag "type"
      [ ("Literal", (TStruct true
          [ fld "value" TFloat ]));
        ("Table", (TRef "TableDataRef")) ]).

(** pywr-schema/src/nodes/piecewise_link.rs 22-26 *)
Definition t_PiecewiseLinkStep : ty :=
  (TStruct true
      [ fld "max_flow" (TOpt (TRef "Metric"));
        fld "min_flow" (TOpt (TRef "Metric"));
        fld "cost" (TOpt (TRef "Metric")) ]).

(** pywr-schema/src/nodes/piecewise_storage.rs 23-26 *)
Definition t_PiecewiseStore : ty :=
  (TStruct true
      [ fld "control_curve" (TRef "Metric");
        fld "cost" (TOpt (TRef "Metric")) ]).

(** pywr-schema/src/nodes/river.rs 65-75 *)
Definition t_RoutingMethod : ty :=
  (TTag "type"
      [ ("Delay", (TStruct true
          [ fld "delay" U64;
            fld "initial_value" (TRef "ConstantValue<f64>") ]));
        ("Muskingum", (TStruct true
          [ fld "travel_time" (TRef "Metric");
            fld "weight" (TRef "Metric");
            fld "initial_condition" (TRef "MuskingumInitialCondition") ])) ]).

(** pywr-schema/src/nodes/river_split_with_gauge.rs 22-28 *)
Definition t_RiverSplit : ty :=
  (TStruct false
      [ fld "factor" (TRef "Metric");
        fld "slot_name" (TOpt TStr) ]).

(** pywr-schema/src/nodes/turbine.rs 32-40 *)
Definition t_TargetType : ty :=
  (TUnits
      [ ("MaxFlow", []);
        ("MinFlow", []);
        ("Both", []) ]).

(** pywr-schema/src/nodes/reservoir.rs 17-22 *)
Definition t_SpillNodeType : ty :=
  (TUnits
      [ ("OutputNode", []);
        ("LinkNode", []) ]).

(** pywr-schema/src/nodes/reservoir.rs 38-43 *)
Definition t_Bathymetry : ty :=
  (TStruct false
      [ fld "data" (TRef "BathymetryType");
        fld "is_storage_proportional" TBool ]).

(** pywr-schema/src/nodes/reservoir.rs 68-74 *)
Definition t_Rainfall : ty :=
  (TStruct false
      [ fld "data" (TRef "Metric");
        fld "use_max_area" (TOpt TBool) ]).

(** pywr-schema/src/nodes/reservoir.rs 47-55 *)
Definition t_Evaporation : ty :=
  (TStruct false
      [ fld "data" (TRef "Metric");
        fld "cost" (TOpt (TRef "Metric"));
        fld "use_max_area" (TOpt TBool) ]).

(** pywr-schema/src/nodes/reservoir.rs 59-64 *)
Definition t_Leakage : ty :=
  (TStruct false
      [ fld "loss" (TRef "Metric");
        fld "cost" (TOpt (TRef "Metric")) ]).

(** pywr-schema/src/metric.rs 487-492 *)
Definition t_NodeComponentReference : ty :=
  (TStruct true
      [ fld "name" TStr;
        fld "component" (TOpt (TRef "NodeComponent")) ]).

(** pywr-schema/src/nodes/virtual_nodes/aggregated.rs 42-57 *)
Definition t_Relationship : ty :=
  (TTag "type"
      [ ("Proportion", (TStruct true
          [ fld "factors" (TVec (TRef "Metric")) ]));
        ("Ratio", (TStruct true
          [ fld "factors" (TVec (TRef "Metric")) ]));
        ("Coefficients", (TStruct true
          [ fld "factors" (TVec (TRef "Metric"));
            fld "rhs" (TOpt (TRef "Metric")) ]));
        ("Exclusive", (TStruct true
          [ fld "min_active" (TOpt U64);
            fld "max_active" (TOpt U64) ])) ]).

(** pywr-schema/src/nodes/virtual_nodes/virtual_storage.rs 60-69 *)
Definition t_VirtualStorageReset : ty :=
  (TTag "type"
      [ ("Never", TNothing);
        ("Annual", (TRef "AnnualReset"));
        ("Monthly", (TStruct true
          [ fld "months" U8 ]));
        ("Seasonal", (TRef "SeasonalReset")) ]).

(** pywr-schema/src/nodes/virtual_nodes/virtual_storage.rs 139-142 *)
Definition t_VirtualStorageResetVolume : ty :=
  (TUnits
      [ ("Initial", []);
        ("Max", []) ]).

(** pywr-schema/src/nodes/virtual_nodes/virtual_storage.rs 101-104 *)
Definition t_RollingWindow : ty :=
  (TTag "type"
      [ ("Days", (TStruct true
          [ fld "days" NonZeroU64 ]));
        ("Timesteps", (TStruct true
          [ fld "timesteps" NonZeroU64 ])) ]).

(** pywr-schema/src/parameters/mod.rs 79-85 *)
Definition t_ParameterMeta : ty :=
  (TStruct false
      [ fld "name" TStr;
        opt "comment" (TOpt TStr);
        (mkF "tags" [] (Some (VMap [])) SEmpty, (TMap TStr)) ]).

(** pywr-schema/src/parameters/mod.rs 88-92 *)
Definition t_ParameterPhase : ty :=
  (TUnits
      [ ("Before", []);
        ("After", []);
        ("Both", []) ]).

(** pywr-schema/src/agg_funcs.rs 75-84 *)
Definition t_AggFunc : ty :=
  (TTag "type"
      [ ("Sum", TNothing);
        ("Max", TNothing);
        ("Min", TNothing);
        ("Product", TNothing);
        ("Mean", TNothing);
        ("CountNonZero", TNothing);
        ("AnyNonZero", (TRef "AnyNonZero"));
        ("Python", (TRef "PythonAggFunc")) ]).

(** pywr-schema/src/agg_funcs.rs 126-140 *)
Definition t_IndexAggFunc : ty :=
  (TTag "type"
      [ ("Sum", TNothing);
        ("Product", TNothing);
        ("Min", TNothing);
        ("Max", TNothing);
        ("Any", TNothing);
        ("All", TNothing);
        ("Python", (TRef "PythonAggFunc")) ]).

(** pywr-schema/src/metric.rs 681-694 *)
Definition t_IndexMetric : ty :=
  (TTag "type"
      [ ("Constant", (TStruct true
          [ fld "value" U64 ]));
        ("Table", (TRef "TableDataRef"));
        ("Node", (TRef "NodeAttrReference"));
        ("Timeseries", (TRef "TimeseriesReference"));
        ("Parameter", (TRef "ParameterReference"));
        ("LocalParameter", (TRef "ParameterReference"));
        ("InterNetworkTransfer", (TStruct true
          [ fld "name" TStr ])) ]).

(** pywr-schema/src/parameters/core.rs 133-138 *)
Definition t_VariableSettings : ty :=
  (TStruct true
      [ fld "is_active" TBool;
        fld "activation" (TRef "ActivationFunction") ]).

(** pywr-schema/src/parameters/mod.rs 916-919 *)
Definition t_ConstantFloatVec : ty :=
  (TTag "type"
      [ ("Literal", (TStruct true
          [ fld "values" (TVec TFloat) ]));
        ("Table", (TRef "TableDataRef")) ]).

(** pywr-schema/src/parameters/profiles.rs 86-89 *)
Definition t_MonthlyInterpDay : ty :=
  (TUnits
      [ ("First", []);
        ("Last", []) ]).

(** pywr-schema/src/parameters/profiles.rs 499-502 *)
Definition t_WeeklyInterpDay : ty :=
  (TUnits
      [ ("First", []);
        ("Last", []) ]).

(** pywr-schema/src/parameters/thresholds.rs 23-34 *)
Definition t_Predicate : ty :=
  (TUnits
      [ ("LT", ["<"]);
        ("GT", [">"]);
        ("EQ", ["=="]);
        ("LE", ["<="]);
        ("GE", [">="]) ]).

(** pywr-schema/src/digest.rs 37-40 *)
Definition t_Checksum : ty :=
  (TTag "type"
      [ ("MD5", (TStruct false
          [ fld "hash" TStr ]));
        ("SHA256", (TStruct false
          [ fld "hash" TStr ])) ]).

(** pywr-schema/src/py_utils.rs 32-35 *)
Definition t_PythonSource : ty :=
  (TTag "type"
      [ ("Module", (TStruct true
          [ fld "module" TStr ]));
        ("Path", (TStruct true
          [ fld "path" TStr ])) ]).

(** pywr-schema/src/parameters/python.rs 30-33 *)
Definition t_PythonObject : ty :=
  (TTag "type"
      [ ("Class", (TStruct true
          [ fld "class" TStr ]));
        ("Function", (TStruct true
          [ fld "function" TStr ])) ]).

(** pywr-schema/src/parameters/python.rs 61-66 *)
Definition t_PythonReturnType : ty :=
  (TUnits
      [ ("Float", []);
        ("Int", []);
        ("Dict", []) ]).

(** pywr-schema/src/parameters/profiles.rs 241-249 *)
Definition t_RadialBasisFunction : ty :=
  (TTag "type"
      [ ("Linear", TNothing);
        ("Cubic", TNothing);
        ("Quintic", TNothing);
        ("ThinPlateSpline", TNothing);
        ("Gaussian", (TStruct true
          [ fld "epsilon" (TOpt TFloat) ]));
        ("MultiQuadric", (TStruct true
          [ fld "epsilon" (TOpt TFloat) ]));
        ("InverseMultiQuadric", (TStruct true
          [ fld "epsilon" (TOpt TFloat) ])) ]).

(** pywr-schema/src/parameters/profiles.rs 322-335 *)
Definition t_RbfProfileVariableSettings : ty :=
  (TStruct true
      [ fld "is_active" TBool;
        fld "days_of_year_range" (TOpt U32);
        fld "value_upper_bounds" (TOpt TFloat);
        fld "value_lower_bounds" (TOpt TFloat) ]).

(** pywr-schema/src/data_tables/mod.rs 48-52 *)
Definition t_TableMeta : ty :=
  (TStruct false
      [ fld "name" TStr;
        opt "comment" (TOpt TStr) ]).

(** pywr-schema/src/data_tables/mod.rs 42-45 *)
Definition t_DataTableValueType : ty :=
  (TUnits
      [ ("Scalar", []);
        ("Array", []) ]).

(** pywr-schema/src/data_tables/mod.rs 85-89 *)
Definition t_CsvDataTableLookup : ty :=
  (TTag "type"
      [ ("Row", (TStruct true
          [ fld "cols" U64 ]));
        ("Col", (TStruct true
          [ fld "rows" U64 ]));
        ("Both", (TStruct true
          [ fld "rows" U64;
            fld "cols" U64 ])) ]).

(** pywr-schema/src/data_tables/mod.rs 340-344 *)
Definition t_TableDataRef : ty :=
  (TStruct true
      [ fld "table" TStr;
        opt "column" (TOpt (TRef "TableIndex"));
        opt "row" (TOpt (TRef "TableIndex")) ]).

(** pywr-schema/src/metric.rs 289-294 *)
Definition t_NodeAttrReference : ty :=
  (TStruct true
      [ fld "name" TStr;
        opt "attribute" (TOpt (TRef "NodeAttribute")) ]).

(** pywr-schema/src/metric.rs 389-394 *)
Definition t_VirtualNodeAttrReference : ty :=
  (TStruct true
      [ fld "name" TStr;
        opt "attribute" (TOpt (TRef "NodeAttribute")) ]).

(** pywr-schema/src/metric.rs 650-653 *)
Definition t_EdgeReference : ty :=
  (TStruct true
      [ fld "edge" (TRef "Edge") ]).

(** pywr-schema/src/timeseries/mod.rs 434-437 *)
Definition t_TimeseriesReference : ty :=
  (TStruct true
      [ fld "name" TStr;
        opt "columns" (TOpt (TRef "TimeseriesColumns")) ]).

(** pywr-schema/src/metric.rs 537-544 *)
Definition t_ParameterReference : ty :=
  (TStruct true
      [ fld "name" TStr;
        opt "key" (TOpt TStr);
        opt "return_value" (TOpt (TRef "ParameterReturnValue")) ]).

(** pywr-schema/src/metric_sets/mod.rs 25-29 *)
Definition t_MetricAggFrequency : ty :=
  (TTag "type"
      [ ("Monthly", TNothing);
        ("Annual", TNothing);
        ("Days", (TStruct true
          [ fld "days" NonZeroI64 ])) ]).

(** pywr-schema/src/outputs/csv.rs 17-21 *)
Definition t_CsvFormat : ty :=
  (TUnits
      [ ("Wide", []);
        ("Long", []) ]).

(** pywr-schema/src/outputs/csv.rs 29-32 *)
Definition t_CsvMetricSet : ty :=
  (TUntag [TStr; (TVec TStr)]).

(** pywr-schema/src/outputs/memory.rs 14-18 *)
Definition t_MemoryAggregation : ty :=
  (TStruct false
      [ opt "time" (TOpt (TRef "AggFunc"));
        opt "scenario" (TOpt (TRef "AggFunc"));
        opt "metric" (TOpt (TRef "AggFunc")) ]).

(** pywr-schema/src/outputs/memory.rs 32-35 *)
Definition t_MemoryAggregationOrder : ty :=
  (TUnits
      [ ("MetricTimeScenario", []);
        ("TimeMetricScenario", []) ]).

(** pywr-schema/src/nodes/mod.rs 112-117 *)
Definition t_NodePosition : ty :=
  (TStruct false
      [ opt "schematic" (TOpt (TTuple [TFloat; TFloat]));
        opt "geographic" (TOpt (TTuple [TFloat; TFloat])) ]).

(** pywr-schema/src/nodes/river.rs 46-49 *)
Definition t_MuskingumInitialCondition : ty :=
  (TTag "type"
      [ ("SteadyState", TNothing);
        ("Specified", (TStruct true
          [ fld "inflow" TFloat;
            fld "outflow" TFloat ])) ]).

(** pywr-schema/src/nodes/reservoir.rs 26-34 *)
Definition t_BathymetryType : ty :=
  (TExt
      [ ("Interpolated", (TStruct false
          [ fld "storage" (TRef "ConstantFloatVec");
            fld "area" (TRef "ConstantFloatVec") ]));
        ("Polynomial", (TVec TFloat)) ]).

(** pywr-schema/src/nodes/components.rs 11-26 *)
Definition t_NodeComponent : ty :=
  (TUnits
      [ ("Inflow", []);
        ("Outflow", []);
        ("Volume", []);
        ("MaxVolume", []);
        ("ProportionalVolume", []);
        ("Loss", []);
        ("Compensation", []);
        ("Rainfall", []);
        ("Evaporation", []);
        ("Abstraction", []) ]).

(** pywr-schema/src/nodes/virtual_nodes/virtual_storage.rs 39-42 *)
Definition t_AnnualReset : ty :=
  (TStruct true
      [ fld "day" I8;
        fld "month" I8 ]).

(** pywr-schema/src/nodes/virtual_nodes/virtual_storage.rs 46-51 *)
Definition t_SeasonalReset : ty :=
  (TStruct true
      [ fld "start_day" I8;
        fld "start_month" I8;
        fld "end_day" I8;
        fld "end_month" I8 ]).

(** pywr-schema/src/agg_funcs.rs 52-54 *)
Definition t_AnyNonZero : ty :=
  (TStruct true
      [ fld "tolerance" (TOpt TFloat) ]).

(** pywr-schema/src/agg_funcs.rs 20-28 *)
Definition t_PythonAggFunc : ty :=
  (TStruct true
      [ fld "source" (TRef "PythonSource");
        fld "object" TStr;
        fld "args" (TOpt (TVec TValue));
        fld "kwargs" (TOpt (TMap TValue)) ]).

(** pywr-schema/src/parameters/core.rs 34-103 *)
Definition t_ActivationFunction : ty :=
  (TTag "type"
      [ ("Unit", (TStruct true
          [ fld "min" TFloat;
            fld "max" TFloat ]));
        ("Rectifier", (TStruct true
          [ fld "min" TFloat;
            fld "max" TFloat;
            fld "off_value" (TOpt TFloat) ]));
        ("BinaryStep", (TStruct true
          [ fld "on_value" TFloat;
            fld "off_value" (TOpt TFloat) ]));
        ("Logistic", (TStruct true
          [ fld "growth_rate" TFloat;
            fld "max" TFloat ])) ]).

(** pywr-schema/src/parameters/mod.rs 946-949 *)
Definition t_TableIndex : ty :=
  (TUntag [TStr; (TVec TStr)]).

(** pywr-schema/src/nodes/attributes.rs 11-28 *)
Definition t_NodeAttribute : ty :=
  (TUnits
      [ ("Inflow", []);
        ("Outflow", []);
        ("Volume", []);
        ("MaxVolume", []);
        ("ProportionalVolume", []);
        ("Loss", []);
        ("Deficit", []);
        ("Power", []);
        ("Compensation", []);
        ("Rainfall", []);
        ("Evaporation", []);
        ("Abstraction", []) ]).

(** pywr-schema/src/timeseries/mod.rs 425-428 *)
Definition t_TimeseriesColumns : ty :=
  (TTag "type"
      [ ("Scenario", (TStruct true
          [ fld "name" TStr ]));
        ("Column", (TStruct true
          [ fld "name" TStr ])) ]).

(** pywr-schema/src/metric.rs 515-520 *)
Definition t_ParameterReturnValue : ty :=
  (TUnits
      [ ("Before", []);
        ("After", []);
        ("AfterOrElseInitial", []) ]).

(** All of them by name. *)
Definition pywr : types :=
  [ ("ModelSchema", t_ModelSchema);
    ("MultiNetworkModelSchema", t_MultiNetworkModelSchema);
    ("Metadata", t_Metadata);
    ("TimeDomain", t_TimeDomain);
    ("ScenarioDomain", t_ScenarioDomain);
    ("NetworkSchema", t_NetworkSchema);
    ("MultiNetworkEntry", t_MultiNetworkEntry);
    ("Timestep", t_Timestep);
    ("ScenarioGroup", t_ScenarioGroup);
    ("ScenarioLabelOrIndex", t_ScenarioLabelOrIndex);
    ("Node", t_Node);
    ("Edge", t_Edge);
    ("VirtualNode", t_VirtualNode);
    ("Parameter", t_Parameter);
    ("DataTable", t_DataTable);
    ("Timeseries", t_Timeseries);
    ("MetricSet", t_MetricSet);
    ("Output", t_Output);
    ("NetworkSchemaRef", t_NetworkSchemaRef);
    ("MultiNetworkTransfer", t_MultiNetworkTransfer);
    ("ScenarioGroupSubset", t_ScenarioGroupSubset);
    ("InputNode", t_InputNode);
    ("LinkNode", t_LinkNode);
    ("OutputNode", t_OutputNode);
    ("StorageNode", t_StorageNode);
    ("CatchmentNode", t_CatchmentNode);
    ("RiverGaugeNode", t_RiverGaugeNode);
    ("LossLinkNode", t_LossLinkNode);
    ("DelayNode", t_DelayNode);
    ("PiecewiseLinkNode", t_PiecewiseLinkNode);
    ("PiecewiseStorageNode", t_PiecewiseStorageNode);
    ("RiverNode", t_RiverNode);
    ("RiverSplitWithGaugeNode", t_RiverSplitWithGaugeNode);
    ("WaterTreatmentWorksNode", t_WaterTreatmentWorksNode);
    ("TurbineNode", t_TurbineNode);
    ("ReservoirNode", t_ReservoirNode);
    ("PlaceholderNode", t_PlaceholderNode);
    ("AbstractionNode", t_AbstractionNode);
    ("NodeSlot", t_NodeSlot);
    ("AggregatedNode", t_AggregatedNode);
    ("AggregatedStorageNode", t_AggregatedStorageNode);
    ("VirtualStorageNode", t_VirtualStorageNode);
    ("AggregatedParameter", t_AggregatedParameter);
    ("AggregatedIndexParameter", t_AggregatedIndexParameter);
    ("AsymmetricSwitchIndexParameter", t_AsymmetricSwitchIndexParameter);
    ("ConstantParameter", t_ConstantParameter);
    ("ConstantScenarioParameter", t_ConstantScenarioParameter);
    ("ControlCurvePiecewiseInterpolatedParameter", t_ControlCurvePiecewiseInterpolatedParameter);
    ("ControlCurveInterpolatedParameter", t_ControlCurveInterpolatedParameter);
    ("ControlCurveIndexParameter", t_ControlCurveIndexParameter);
    ("ControlCurveParameter", t_ControlCurveParameter);
    ("DailyProfileParameter", t_DailyProfileParameter);
    ("IndexedArrayParameter", t_IndexedArrayParameter);
    ("MonthlyProfileParameter", t_MonthlyProfileParameter);
    ("WeeklyProfileParameter", t_WeeklyProfileParameter);
    ("UniformDrawdownProfileParameter", t_UniformDrawdownProfileParameter);
    ("MaxParameter", t_MaxParameter);
    ("MinParameter", t_MinParameter);
    ("MultiThresholdParameter", t_MultiThresholdParameter);
    ("NegativeParameter", t_NegativeParameter);
    ("NegativeMaxParameter", t_NegativeMaxParameter);
    ("NegativeMinParameter", t_NegativeMinParameter);
    ("HydropowerTargetParameter", t_HydropowerTargetParameter);
    ("Polynomial1DParameter", t_Polynomial1DParameter);
    ("ThresholdParameter", t_ThresholdParameter);
    ("TablesArrayParameter", t_TablesArrayParameter);
    ("PythonParameter", t_PythonParameter);
    ("DelayParameter", t_DelayParameter);
    ("DelayIndexParameter", t_DelayIndexParameter);
    ("DivisionParameter", t_DivisionParameter);
    ("OffsetParameter", t_OffsetParameter);
    ("DiscountFactorParameter", t_DiscountFactorParameter);
    ("InterpolatedParameter", t_InterpolatedParameter);
    ("RbfProfileParameter", t_RbfProfileParameter);
    ("RollingParameter", t_RollingParameter);
    ("RollingIndexParameter", t_RollingIndexParameter);
    ("PlaceholderParameter", t_PlaceholderParameter);
    ("DirunalProfileParameter", t_DirunalProfileParameter);
    ("CsvDataTable", t_CsvDataTable);
    ("PandasTimeseries", t_PandasTimeseries);
    ("PolarsTimeseries", t_PolarsTimeseries);
    ("Metric", t_Metric);
    ("MetricAggregator", t_MetricAggregator);
    ("MetricSetFilters", t_MetricSetFilters);
    ("CsvOutput", t_CsvOutput);
    ("Hdf5Output", t_Hdf5Output);
    ("MemoryOutput", t_MemoryOutput);
    ("ScenarioGroupSlice", t_ScenarioGroupSlice);
    ("ScenarioGroupIndices", t_ScenarioGroupIndices);
    ("ScenarioGroupLabels", t_ScenarioGroupLabels);
    ("NodeMeta", t_NodeMeta);
    ("SoftConstraint", t_SoftConstraint);
    ("StorageInitialVolume", t_StorageInitialVolume);
    ("LossFactor", t_LossFactor);
    ("ConstantValue<u64>", t_ConstantValue_u64);
    ("ConstantValue<f64>", t_ConstantValue_f64);
    ("PiecewiseLinkStep", t_PiecewiseLinkStep);
    ("PiecewiseStore", t_PiecewiseStore);
    ("RoutingMethod", t_RoutingMethod);
    ("RiverSplit", t_RiverSplit);
    ("TargetType", t_TargetType);
    ("SpillNodeType", t_SpillNodeType);
    ("Bathymetry", t_Bathymetry);
    ("Rainfall", t_Rainfall);
    ("Evaporation", t_Evaporation);
    ("Leakage", t_Leakage);
    ("NodeComponentReference", t_NodeComponentReference);
    ("Relationship", t_Relationship);
    ("VirtualStorageReset", t_VirtualStorageReset);
    ("VirtualStorageResetVolume", t_VirtualStorageResetVolume);
    ("RollingWindow", t_RollingWindow);
    ("ParameterMeta", t_ParameterMeta);
    ("ParameterPhase", t_ParameterPhase);
    ("AggFunc", t_AggFunc);
    ("IndexAggFunc", t_IndexAggFunc);
    ("IndexMetric", t_IndexMetric);
    ("VariableSettings", t_VariableSettings);
    ("ConstantFloatVec", t_ConstantFloatVec);
    ("MonthlyInterpDay", t_MonthlyInterpDay);
    ("WeeklyInterpDay", t_WeeklyInterpDay);
    ("Predicate", t_Predicate);
    ("Checksum", t_Checksum);
    ("PythonSource", t_PythonSource);
    ("PythonObject", t_PythonObject);
    ("PythonReturnType", t_PythonReturnType);
    ("RadialBasisFunction", t_RadialBasisFunction);
    ("RbfProfileVariableSettings", t_RbfProfileVariableSettings);
    ("TableMeta", t_TableMeta);
    ("DataTableValueType", t_DataTableValueType);
    ("CsvDataTableLookup", t_CsvDataTableLookup);
    ("TableDataRef", t_TableDataRef);
    ("NodeAttrReference", t_NodeAttrReference);
    ("VirtualNodeAttrReference", t_VirtualNodeAttrReference);
    ("EdgeReference", t_EdgeReference);
    ("TimeseriesReference", t_TimeseriesReference);
    ("ParameterReference", t_ParameterReference);
    ("MetricAggFrequency", t_MetricAggFrequency);
    ("CsvFormat", t_CsvFormat);
    ("CsvMetricSet", t_CsvMetricSet);
    ("MemoryAggregation", t_MemoryAggregation);
    ("MemoryAggregationOrder", t_MemoryAggregationOrder);
    ("NodePosition", t_NodePosition);
    ("MuskingumInitialCondition", t_MuskingumInitialCondition);
    ("BathymetryType", t_BathymetryType);
    ("NodeComponent", t_NodeComponent);
    ("AnnualReset", t_AnnualReset);
    ("SeasonalReset", t_SeasonalReset);
    ("AnyNonZero", t_AnyNonZero);
    ("PythonAggFunc", t_PythonAggFunc);
    ("ActivationFunction", t_ActivationFunction);
    ("TableIndex", t_TableIndex);
    ("NodeAttribute", t_NodeAttribute);
    ("TimeseriesColumns", t_TimeseriesColumns);
    ("ParameterReturnValue", t_ParameterReturnValue) ].
