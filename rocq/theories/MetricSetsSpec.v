(** What a metric set of a model file should record, in the terms of the file. *)
From Coq Require Import QArith.
From Verif Require Import Base Calendar AggFuncs Aggregator Network NetworkBuild Formulas NetState SchemaNodes SchemaVirtual MetricSets.
Local Open Scope string_scope.
Local Open Scope list_scope.
Local Open Scope nat_scope.

(** The attribute of a node that is meant when none is given: the volume of
    whatever stores water, what reaches a demand, what an abstraction takes,
    and the outflow of everything else. *)
Definition stores_water (n : snode) : bool :=
  match n with SStorage _ _ | SReservoir _ _ | SPiecewiseStorage _ _ _ _ _ _ => true | _ => false end.
Definition is_demand (n : snode) : bool := match n with SOutput _ _ _ _ => true | _ => false end.
Definition is_abstraction (n : snode) : bool := match n with SAbstraction _ _ _ _ _ _ => true | _ => false end.
Definition usual_attribute (n : snode) : attribute :=
  if stores_water n then AtVolume
  else if is_demand n then AtInflow
  else if is_abstraction n then AtAbstraction
  else AtOutflow.
Definition usual_vattribute (v : vnode) : attribute :=
  match v with VAggregated _ _ _ _ _ => AtOutflow | _ => AtVolume end.

(** The words that labels are written with, from the documentation of the file
    format: the name of the attribute, of the kind of node, and the two ends of
    an edge, each with its slot if one is given. *)
Definition attribute_word (a : attribute) : string :=
  match a with
  | AtInflow => "Inflow" | AtOutflow => "Outflow" | AtVolume => "Volume" | AtMaxVolume => "MaxVolume"
  | AtPropVolume => "ProportionalVolume" | AtLoss => "Loss" | AtDeficit => "Deficit" | AtPower => "Power"
  | AtCompensation => "Compensation" | AtRainfall => "Rainfall" | AtEvaporation => "Evaporation"
  | AtAbstraction => "Abstraction"
  end.
Definition kind_word (n : snode) : string :=
  match n with
  | SInput _ _ _ _ => "Input" | SLink _ _ _ _ _ _ => "Link" | SOutput _ _ _ _ => "Output" | SStorage _ _ => "Storage"
  | SCatchment _ _ _ => "Catchment" | SRiverGauge _ _ _ _ => "RiverGauge" | SLossLink _ _ _ _ _ => "LossLink"
  | SRiver _ _ _ => "River" | SRiverSplit _ _ _ _ => "RiverSplitWithGauge" | SWtw _ _ _ _ _ _ _ => "WaterTreatmentWorks"
  | SPiecewiseLink _ _ => "PiecewiseLink" | SPiecewiseStorage _ _ _ _ _ _ => "PiecewiseStorage" | SDelay _ _ _ => "Delay"
  | STurbine _ _ _ _ _ _ => "Turbine" | SReservoir _ _ => "Reservoir" | SPlaceholder _ => "Placeholder"
  | SAbstraction _ _ _ _ _ _ => "Abstraction"
  end.
Definition vkind_word (v : vnode) : string :=
  match v with
  | VAggregated _ _ _ _ _ => "Aggregated" | VAggStorage _ _ => "AggregatedStorage" | VStorage _ _ _ _ _ _ _ _ _ _ => "VirtualStorage"
  end.
Definition slot_word (s : slot) : string :=
  match s with
  | SlStorage => "Storage" | SlRiver => "River" | SlSpill => "Spill" | SlCompensation => "Compensation"
  | SlAbstraction => "Abstraction" | SlSplit _ => "Split" | SlUser _ => "User"
  end.
Definition end_label (name : string) (s : option slot) : string :=
  match s with Some s => (name ++ ("[" ++ (slot_word s ++ "]")))%string | None => name end.
Definition edge_label (e : sedge) : string :=
  (end_label (se_from e) (se_from_slot e) ++ ("->" ++ end_label (se_to e) (se_to_slot e)))%string.

(** A recorded metric holds what its label says. *)
Definition records_node (o : output_metric) (n : snode) (a : attribute) : Prop :=
  om_name o = snode_name n /\ om_attribute o = attribute_word a /\ om_type o = "Node" /\
  om_sub_type o = Some (kind_word n) /\
  exists m, create_metric n (Some a) = Ok m /\ om_metric o = LmNode m.
Definition records_vnode (o : output_metric) (v : vnode) (a : attribute) : Prop :=
  om_name o = vnode_name v /\ om_attribute o = attribute_word a /\ om_type o = "VirtualNode" /\
  om_sub_type o = Some (vkind_word v) /\
  exists m, vnode_metric v (Some a) = Ok m /\ om_metric o = LmVirtual m.
Definition return_str (r : return_value) : string :=
  match r with RvBefore => "before" | RvAfter => "after" | RvAfterOrInitial => "afterorelseinitial" end.
Definition records_param (o : output_metric) (p : sparam) (r : return_value) : Prop :=
  om_name o = spa_name p /\ om_attribute o = return_str r /\ om_type o = "Parameter" /\
  om_sub_type o = Some (spa_type p) /\ om_metric o = LmParam None (spa_name p) None r.
Definition records_edge (sc : schema) (o : output_metric) (e : sedge) : Prop :=
  om_name o = edge_label e /\ om_attribute o = "Flow" /\ om_type o = "Edge" /\ om_sub_type o = None /\
  exists pairs, connection_pairs sc e = Ok pairs /\ om_metric o = LmEdge (UMultiEdgeFlow pairs) (edge_label e).

(** The phases in which a parameter has a value. *)
Definition has_value (p : sparam) (r : return_value) : Prop :=
  match spa_phase p, r with
  | PhBefore, RvBefore | PhAfter, RvAfter | PhBoth, RvBefore | PhBoth, RvAfter => True
  | _, _ => False
  end.

(** Exactly one entry of a list is such that ... *)
Definition exactly_one {A} (P : A -> Prop) (l : list A) : Prop :=
  exists i, forall j, (exists x, nth_error l j = Some x /\ P x) <-> j = i.

(** The metrics listed in the file, loaded. *)
Definition listed (args : load_args) (ms : smetric_set) : list smetric :=
  match sm_metrics ms with Some l => l | None => [] end.

(** What is recorded besides the list: something the filters ask for. *)
Definition asked_for (args : load_args) (f : filters) (o : output_metric) : Prop :=
  (fi_nodes f = true /\ exists n, In n (sc_nodes (la_schema args)) /\ records_node o n (usual_attribute n)) \/
  (fi_virtual f = true /\ exists v, In v (sc_vnodes (la_schema args)) /\ records_vnode o v (usual_vattribute v)) \/
  (fi_params f = true /\ exists p r, In p (la_params args) /\ spa_dict p = false /\ has_value p r /\ records_param o p r) \/
  (fi_edges f = true /\ exists e, In e (sc_edges (la_schema args)) /\ records_edge (la_schema args) o e).

(** A model file in which every name is used once. *)
Record well_named (args : load_args) : Prop := {
  wn_nodes : validate (la_schema args) = true;
  wn_params : NoDup (map spa_name (la_params args)) }.

(** The levels of an aggregator, outermost first. *)
Fixpoint slevels (a : sagg) : list (option sagg_freq * sagg_func) :=
  match a with mkSagg freq func c => (freq, func) :: match c with Some c => slevels c | None => [] end end.
Fixpoint levels (a : aggregator) : list (option agg_freq * agg_f64) :=
  match a with
  | ABase l => [(lv_freq l, lv_func l)]
  | ANest l c => (lv_freq l, lv_func l) :: levels c
  end.

(** What each entry of the list in the file stands for. *)
Definition records_listed (args : load_args) (o : output_metric) (m : smetric) : Prop :=
  match m with
  | MNode name a =>
      exists n, In n (sc_nodes (la_schema args)) /\ snode_name n = name /\
                records_node o n (match a with Some a => a | None => usual_attribute n end)
  | MVirtual name a =>
      exists v, In v (sc_vnodes (la_schema args)) /\ vnode_name v = name /\
                records_vnode o v (match a with Some a => a | None => usual_vattribute v end)
  | MParameter (mkPref name None r) =>
      exists p, In p (la_params args) /\ spa_name p = name /\
                records_param o p (match r with Some r => r | None => RvBefore end)
  | MParameter (mkPref name (Some k) r) =>
      om_name o = name /\ om_attribute o = k /\
      om_metric o = LmParam None name (Some k) (match r with Some r => r | None => RvBefore end)
  | MEdge e => records_edge (la_schema args) o e
  | MTable t key => om_name o = t /\ exists q, la_tables args t key = Some q /\ om_metric o = LmConst q
  | MTimeseries t c => om_name o = t /\ exists p, la_timeseries args t c = Some p /\ om_metric o = LmParam None p None RvBefore
  | MTransfer name => om_name o = name /\ om_metric o = LmTransfer name
  | MLiteral _ | MLocalParameter _ => False
  end.
