(** The schema layer: how the nodes, virtual nodes and edges of a model file
    become a declaration ([net_builder]) of the network to build.
    Sources: pywr-schema/src/nodes/*.rs, edge.rs, network.rs. *)
From Coq Require Import DecimalString.
From Verif Require Import Base Calendar Network NetworkBuild Formulas.
Local Open Scope string_scope.
Local Open Scope list_scope.
Local Open Scope nat_scope.

(** ** Metrics *)

(** parameters.rs [ParameterName]: parameters that a node creates carry the
    node's name as parent. *)
Definition pname := (string * string)%type.

(** pywr-core/src/metric.rs 458-496 [UnresolvedMetricF64].  Simplification: a
    metric of the file is loaded already.  [UOther] stands for anything the
    file can refer to (parameters, other nodes, tables, time series, ...) in
    the form the solver sees it; the remaining constructors are the metrics the
    schema nodes make themselves.  [UParam] is
    [new_parameter_before(_key)], [UParamAfter] is [new_parameter_after]. *)
Inductive umetric :=
| UConst (q : Q)
| UOther (m : metric)
| UParam (p : pname) (key : option string)
| UParamAfter (p : pname)
| UNodeInFlow (u : uname)
| UNodeOutFlow (u : uname)
| UNodeVolume (u : uname)
| UNodeMaxVolume (u : uname)
| UNodePropVolume (u : uname)
| UNodeMaxFlow (u : uname)
| UMultiNodeInFlow (us : list uname)
| UMultiNodeOutFlow (us : list uname)
| UMultiEdgeFlow (es : list (uname * uname))
| UAggStorageVolume (u : uname)
| UAggStoragePropVolume (u : uname).

(** metric.rs 552-554 [UnresolvedMetricF64::is_constant_zero]: a literal zero
    only. *)
Definition is_constant_zero (m : umetric) : bool :=
  match m with UConst q => Qeq_bool q 0 | _ => false end.

(** The parameters the schema nodes create (names, and what they read). *)
Inductive pdecl :=
| PDelay (p : pname) (m : umetric) (delay : nat) (initial : Q)
| PMuskingum (p : pname) (inflow outflow travel_time weight : umetric) (initial : option (Q * Q))
| PProduct (p : pname) (ms : list umetric)
| PSum (p : pname) (ms : list umetric)
| PDifference (p : pname) (a b : umetric) (min max : option umetric)
| PVolumeBetween (p : pname) (total : umetric) (upper lower : option umetric)
| PInterpolated (p : pname) (m : umetric) (points : list (Q * Q))
| PPolynomial (p : pname) (m : umetric) (coeffs : list Q)
| PHydropower (p : pname) (flow : umetric) (target elevation : option umetric) (h : hydro)
| PDeficit (p : pname) (flow max_flow : umetric).

(** ** Schema types *)

(** slots.rs 9-18 [NodeSlot]; components.rs 11-26 [NodeComponent];
    attributes.rs 11-28 [NodeAttribute]. *)
Inductive slot :=
| SlStorage | SlRiver | SlSpill | SlCompensation | SlAbstraction
| SlSplit (position : nat) | SlUser (name : string).
Inductive component :=
| CoInflow | CoOutflow | CoVolume | CoMaxVolume | CoPropVolume | CoLoss
| CoCompensation | CoRainfall | CoEvaporation | CoAbstraction.
Inductive attribute :=
| AtInflow | AtOutflow | AtVolume | AtMaxVolume | AtPropVolume | AtLoss | AtDeficit | AtPower
| AtCompensation | AtRainfall | AtEvaporation | AtAbstraction.

(** error.rs [SchemaError], the cases that arise here. *)
Inductive schema_error :=
| DuplicateNodeNames
| SchemaNodeNotFound (name : string)
| InputSlotNotSupported (s : slot)
| OutputSlotNotSupported (s : slot)
| ConnectionSlotNotFound (name : string) (s : slot)
| ComponentNotSupported (c : component)
| AttributeNotSupported (a : attribute)
| NotAllowedInFlowConstraint
| NotAllowedInStorageConstraint
| PlaceholderNotAllowed (name : string)
| InvalidNodeAttributes (name : string)
| MissingNodeAttribute (name : string)
| InvalidRollingWindow (name : string).
Definition sres := res schema_error.

(** core.rs 187-190 [SoftConstraint]; loss_link.rs 30-37 [LossFactor];
    river.rs [RoutingMethod]; river_split_with_gauge.rs [RiverSplit];
    piecewise_link.rs [PiecewiseLinkStep]; piecewise_storage.rs
    [PiecewiseStore]; core.rs [StorageInitialVolume]. *)
Record soft := mkSoft { sf_cost : option umetric; sf_flow : option umetric }.
Inductive loss_factor := LGross (m : umetric) | LNet (m : umetric).
Inductive routing :=
| RtDelay (delay : nat) (initial : Q)
| RtMuskingum (travel_time weight : umetric) (initial : option (Q * Q)).
Record split := mkSplit { sp_factor : umetric; sp_slot : option string }.
Record link_step := mkLinkStep { ls_cost : option umetric; ls_min : option umetric; ls_max : option umetric }.
Record store := mkStore { so_curve : umetric; so_cost : option umetric }.
Inductive sinit := SIAbsolute (volume : Q) | SIProportional (proportion : Q).
Inductive spill_type := SpillOutput | SpillLink.
Inductive target_type := TgMax | TgMin | TgBoth.
(** reservoir.rs 38-74 [Bathymetry], [Rainfall], [Evaporation], [Leakage]. *)
Inductive bathymetry_data := BInterpolated (storage area : list Q) | BPolynomial (coeffs : list Q).
Record bathymetry := mkBathy { ba_data : bathymetry_data; ba_proportional : bool }.
Record rainfall := mkRain { ra_data : umetric; ra_max_area : option bool }.
Record evaporation := mkEvap { ev_data : umetric; ev_cost : option umetric; ev_max_area : option bool }.
Record leakage := mkLeak { lk_loss : umetric; lk_cost : option umetric }.

Record storage_fields := mkStorage {
  st_cost : option umetric; st_min : option umetric; st_max : option umetric; st_initial : sinit }.
Record reservoir_fields := mkReservoir {
  rv_storage : storage_fields;
  rv_compensation : option umetric;
  rv_spill : option spill_type;
  rv_connect : option bool;
  rv_area : option bathymetry;
  rv_rainfall : option rainfall;
  rv_evaporation : option evaporation;
  rv_leakage : option leakage }.

(** nodes/mod.rs [Node]: the physical nodes, each with its name and fields.
    Simplification: hydropower constants of a turbine are left out (they only
    reach the turbine's parameter), as are comments and local parameters. *)
Inductive snode :=
| SInput (name : string) (cost min max : option umetric)
| SLink (name : string) (cost min max : option umetric) (soft_min soft_max : option soft)
| SOutput (name : string) (cost min max : option umetric)
| SStorage (name : string) (f : storage_fields)
| SCatchment (name : string) (cost flow : option umetric)
| SRiverGauge (name : string) (mrf mrf_cost bypass_cost : option umetric)
| SLossLink (name : string) (lf : option loss_factor) (cost min max : option umetric)
| SRiver (name : string) (lf : option loss_factor) (rt : option routing)
| SRiverSplit (name : string) (mrf mrf_cost : option umetric) (splits : list split)
| SWtw (name : string) (lf : option loss_factor) (cost min max soft_min soft_min_cost : option umetric)
| SPiecewiseLink (name : string) (steps : list link_step)
| SPiecewiseStorage (name : string) (max : umetric) (min cost : option umetric) (steps : list store) (init : sinit)
| SDelay (name : string) (delay : nat) (initial : Q)
| STurbine (name : string) (cost target elevation : option umetric) (tgt : option target_type) (h : hydro)
| SReservoir (name : string) (f : reservoir_fields)
| SPlaceholder (name : string)
| SAbstraction (name : string) (mrf mrf_cost abs_cost abs_min abs_max : option umetric).

Definition snode_name (n : snode) : string :=
  match n with
  | SInput s _ _ _ | SLink s _ _ _ _ _ | SOutput s _ _ _ | SStorage s _ | SCatchment s _ _
  | SRiverGauge s _ _ _ | SLossLink s _ _ _ _ | SRiver s _ _ | SRiverSplit s _ _ _
  | SWtw s _ _ _ _ _ _ | SPiecewiseLink s _ | SPiecewiseStorage s _ _ _ _ _ | SDelay s _ _
  | STurbine s _ _ _ _ _ | SReservoir s _ | SPlaceholder s | SAbstraction s _ _ _ _ _ => s
  end.

(** virtual_nodes/*.rs.  A reference names a node and, optionally, one of its
    components. *)
Record node_ref := mkRef { rf_name : string; rf_component : option component }.
Inductive srelationship :=
| SrProportion (fs : list umetric)
| SrRatio (fs : list umetric)
| SrCoefficients (fs : list umetric) (rhs : option umetric)
| SrExclusive (min_active max_active : option nat).
Inductive sreset :=
| RsNever | RsAnnual (day month : Z) | RsMonthly (months : Z)
| RsSeasonal (start_day start_month end_day end_month : Z).
Inductive swindow := SwDays (days : nat) | SwTimesteps (n : nat).
Inductive vnode :=
| VAggregated (name : string) (nodes : list node_ref) (min max : option umetric) (rel : option srelationship)
| VAggStorage (name : string) (nodes : list node_ref)
| VStorage (name : string) (nodes : list node_ref) (factors : option (list Q)) (cost min max : option umetric)
    (init : sinit) (reset : option sreset) (reset_volume : option vs_reset_volume) (window : option swindow).
Definition vnode_name (v : vnode) : string :=
  match v with VAggregated s _ _ _ _ | VAggStorage s _ | VStorage s _ _ _ _ _ _ _ _ _ => s end.

(** edge.rs 12-22 [Edge]. *)
Record sedge := mkSedge { se_from : string; se_from_slot : option slot; se_to : string; se_to_slot : option slot }.

(** network.rs [NetworkSchema], without parameters, tables, time series,
    metric sets and outputs. *)
Record schema := mkSchema { sc_nodes : list snode; sc_vnodes : list vnode; sc_edges : list sedge }.

(** ** Sub-names *)

Definition whole (name : string) : uname := (name, None).
Definition sub (name s : string) : uname := (name, Some s).
(** [format!("{i}")] and [format!("{i:02}")]. *)
Definition dec (i : nat) : string := NilZero.string_of_uint (Nat.to_uint i).
Definition dec2 (i : nat) : string := if i <? 10 then ("0" ++ dec i)%string else dec i.

(** river_split_with_gauge.rs 128-138; piecewise_link.rs 81-83;
    piecewise_storage.rs 82-84. *)
Definition split_name (name : string) (i : nat) : uname := sub name ("split-" ++ dec i)%string.
Definition split_agg_name (name : string) (i : nat) : uname := sub name ("split-agg-" ++ dec i)%string.
Definition step_name (name : string) (i : nat) : uname := sub name ("step-" ++ dec2 i)%string.
Definition store_name (name : string) (i : nat) : uname := sub name ("store-" ++ dec2 i)%string.

Definition is_some {A} (o : option A) : bool := match o with Some _ => true | None => false end.

(** ** Connectors *)

Definition no_input_slot {A} (s : option slot) (l : list A) : sres (list A) :=
  match s with Some s => Err (InputSlotNotSupported s) | None => Ok l end.
Definition no_output_slot {A} (s : option slot) (l : list A) : sres (list A) :=
  match s with Some s => Err (OutputSlotNotSupported s) | None => Ok l end.

(** core.rs 319-347: a link and its soft constraint companions. *)
Definition link_parts (name : string) (soft_min soft_max : option soft) : list uname :=
  [whole name] ++ (if is_some soft_min then [sub name "soft_min"] else [])
               ++ (if is_some soft_max then [sub name "soft_max"] else []).

(** river_split_with_gauge.rs 141-147 [default_connectors]. *)
Definition split_parts (name : string) (splits : list split) : list uname :=
  [sub name "mrf"; sub name "bypass"] ++ map (split_name name) (seq 0 (length splits)).

(** [Node::input_connectors], nodes/mod.rs 452-476.  core.rs 86-92, 319-332,
    720-731, 924-930, 1113-1119; river_gauge.rs 81-87; loss_link.rs 149-163;
    river.rs 163-177; river_split_with_gauge.rs 149-155;
    water_treatment_works.rs 109-121; piecewise_link.rs 85-96;
    piecewise_storage.rs 86-92; delay.rs 85-92; turbine.rs 142-148;
    reservoir.rs 283-289; placeholder.rs 30-32; abstraction.rs 129-139. *)
Definition input_connectors (n : snode) (s : option slot) : sres (list uname) :=
  match n with
  | SInput name _ _ _ | SOutput name _ _ _ | SStorage name _ | SCatchment name _ _
  | STurbine name _ _ _ _ _ | SReservoir name _ => no_input_slot s [whole name]
  | SLink name _ _ _ sm sx => no_input_slot s (link_parts name sm sx)
  | SRiverGauge name _ _ _ => no_input_slot s [sub name "mrf"; sub name "bypass"]
  | SLossLink name lf _ _ _ => no_input_slot s ([sub name "net"] ++ if is_some lf then [sub name "loss"] else [])
  | SRiver name lf rt =>
      no_input_slot s
        match is_some lf, is_some rt with
        | false, false => [sub name "net"]
        | true, false => [sub name "net"; sub name "loss"]
        | _, _ => [sub name "inflow"]
        end
  | SRiverSplit name _ _ sp => no_input_slot s (split_parts name sp)
  | SWtw name lf _ _ _ _ _ => no_input_slot s ([sub name "net"] ++ if is_some lf then [sub name "loss"] else [])
  | SPiecewiseLink name steps => no_input_slot s (map (step_name name) (seq 0 (length steps)))
  | SPiecewiseStorage name _ _ _ steps _ => no_input_slot s (map (store_name name) (seq 0 (length steps)))
  | SDelay name _ _ => no_input_slot s [sub name "inflow"]
  | SPlaceholder name => Ok [whole name]
  | SAbstraction name mrf _ _ _ _ =>
      no_input_slot s ([sub name "bypass"; sub name "abstraction"] ++ if is_some mrf then [sub name "mrf"] else [])
  end.

(** [Node::output_connectors], nodes/mod.rs 485-509.  As above;
    river_split_with_gauge.rs 157-191; reservoir.rs 291-317; abstraction.rs
    141-159; water_treatment_works.rs 123-133; river.rs 179-191. *)
Definition output_connectors (n : snode) (s : option slot) : sres (list uname) :=
  match n with
  | SInput name _ _ _ | SOutput name _ _ _ | SStorage name _ | SCatchment name _ _
  | STurbine name _ _ _ _ _ => no_output_slot s [whole name]
  | SLink name _ _ _ sm sx => no_output_slot s (link_parts name sm sx)
  | SRiverGauge name _ _ _ => no_output_slot s [sub name "mrf"; sub name "bypass"]
  | SLossLink name _ _ _ _ => no_output_slot s [sub name "net"]
  | SRiver name lf rt =>
      no_output_slot s
        match is_some lf, is_some rt with
        | false, true => [sub name "outflow"]
        | _, _ => [sub name "net"]
        end
  | SRiverSplit name _ _ sp =>
      match s with
      | None | Some SlRiver => Ok (split_parts name sp)
      | Some (SlSplit i) => if i <? length sp then Ok [split_name name i] else Err (ConnectionSlotNotFound name (SlSplit i))
      | Some (SlUser u) =>
          match position (fun x => match sp_slot x with Some t => String.eqb t u | None => false end) sp with
          | Some i => Ok [split_name name i]
          | None => Err (ConnectionSlotNotFound name (SlUser u))
          end
      | Some s => Err (OutputSlotNotSupported s)
      end
  | SWtw name _ _ _ _ _ _ => no_output_slot s [sub name "net_soft_min_flow"; sub name "net_above_soft_min_flow"]
  | SPiecewiseLink name steps => no_output_slot s (map (step_name name) (seq 0 (length steps)))
  | SPiecewiseStorage name _ _ _ steps _ => no_output_slot s (map (store_name name) (seq 0 (length steps)))
  | SDelay name _ _ => no_output_slot s [sub name "outflow"]
  | SReservoir name f =>
      match s with
      | None | Some SlStorage => Ok [whole name]
      | Some SlCompensation => Ok [sub name "compensation"]
      | Some SlSpill => match rv_spill f with
                        | Some SpillLink => Ok [sub name "spill"]
                        | _ => Err (OutputSlotNotSupported SlSpill)
                        end
      | Some s => Err (OutputSlotNotSupported s)
      end
  | SPlaceholder name => Ok [whole name]
  | SAbstraction name mrf _ _ _ _ =>
      match s with
      | None | Some SlRiver => Ok ((if is_some mrf then [sub name "mrf"] else []) ++ [sub name "bypass"])
      | Some SlAbstraction => Ok [sub name "abstraction"]
      | Some s => Err (OutputSlotNotSupported s)
      end
  end.

(** ** Components *)

Definition component_or (d : component) (c : option component) : component :=
  match c with Some c => c | None => d end.

(** [Node::nodes_for_flow_constraints], nodes/mod.rs 541-566.  core.rs 100-115,
    358-391, 739-755, 1129-1144; river_gauge.rs 97-113; loss_link.rs 177-209;
    river.rs 193-243; river_split_with_gauge.rs 193-216;
    water_treatment_works.rs 135-162; piecewise_link.rs 110-129; delay.rs
    103-118; turbine.rs 156-171; reservoir.rs 334-352; abstraction.rs
    160-197. *)
Definition flow_nodes (n : snode) (c : option component) : sres (list uname) :=
  match n with
  | SInput name _ _ _ | SCatchment name _ _ =>
      match component_or CoOutflow c with CoOutflow => Ok [whole name] | k => Err (ComponentNotSupported k) end
  | SLink name _ _ _ sm sx =>
      match component_or CoOutflow c with
      | CoInflow | CoOutflow => Ok (link_parts name sm sx)
      | k => Err (ComponentNotSupported k)
      end
  | SOutput name _ _ _ =>
      match component_or CoInflow c with CoInflow => Ok [whole name] | k => Err (ComponentNotSupported k) end
  | SStorage _ _ | SPiecewiseStorage _ _ _ _ _ _ => Err NotAllowedInFlowConstraint
  | SRiverGauge name _ _ _ =>
      match component_or CoOutflow c with
      | CoInflow | CoOutflow => Ok [sub name "mrf"; sub name "bypass"]
      | k => Err (ComponentNotSupported k)
      end
  | SLossLink name lf _ _ _ =>
      match component_or CoOutflow c with
      | CoInflow => Ok ([sub name "net"] ++ if is_some lf then [sub name "loss"] else [])
      | CoOutflow => Ok [sub name "net"]
      | CoLoss => Ok (if is_some lf then [sub name "loss"] else [])
      | k => Err (ComponentNotSupported k)
      end
  | SRiver name lf rt =>
      match component_or CoOutflow c with
      | CoInflow => Ok match is_some lf, is_some rt with
                       | false, false => [sub name "net"]
                       | true, false => [sub name "net"; sub name "loss"]
                       | _, _ => [sub name "inflow"]
                       end
      | CoOutflow => Ok (if is_some rt then [sub name "outflow"] else [sub name "net"])
      | CoLoss => Ok (if is_some lf then [sub name "loss"] else [])
      | k => Err (ComponentNotSupported k)
      end
  | SRiverSplit name _ _ sp =>
      match component_or CoOutflow c with
      | CoInflow | CoOutflow => Ok (split_parts name sp)
      | k => Err (ComponentNotSupported k)
      end
  | SWtw name lf _ _ _ _ _ =>
      match component_or CoOutflow c with
      | CoInflow => Ok ([sub name "net"] ++ if is_some lf then [sub name "loss"] else [])
      | CoOutflow => Ok [sub name "net"]
      | CoLoss => Ok [sub name "loss"]
      | k => Err (ComponentNotSupported k)
      end
  | SPiecewiseLink name steps =>
      match component_or CoOutflow c with
      | CoInflow | CoOutflow => Ok (map (step_name name) (seq 0 (length steps)))
      | k => Err (ComponentNotSupported k)
      end
  | SDelay name _ _ =>
      match component_or CoOutflow c with
      | CoInflow => Ok [sub name "inflow"]
      | CoOutflow => Ok [sub name "outflow"]
      | k => Err (ComponentNotSupported k)
      end
  | STurbine name _ _ _ _ _ =>
      match component_or CoOutflow c with
      | CoInflow | CoOutflow => Ok [whole name]
      | k => Err (ComponentNotSupported k)
      end
  | SReservoir name _ =>
      match component_or CoCompensation c with
      | CoLoss => Ok [sub name "leakage"]
      | CoCompensation => Ok [sub name "compensation"]
      | CoRainfall => Ok [sub name "rainfall"]
      | CoEvaporation => Ok [sub name "evaporation"]
      | k => Err (ComponentNotSupported k)
      end
  | SPlaceholder name => Err (PlaceholderNotAllowed name)
  | SAbstraction name mrf _ _ _ _ =>
      match component_or CoAbstraction c with
      | CoInflow => Ok ((if is_some mrf then [sub name "mrf"] else []) ++ [sub name "bypass"; sub name "abstraction"])
      | CoOutflow => Ok ((if is_some mrf then [sub name "mrf"] else []) ++ [sub name "bypass"])
      | CoAbstraction => Ok [sub name "abstraction"]
      | k => Err (ComponentNotSupported k)
      end
  end.

(** [Node::nodes_for_storage_constraints], nodes/mod.rs 574-594. *)
Definition storage_nodes (n : snode) : sres (list uname) :=
  match n with
  | SStorage name _ | SReservoir name _ => Ok [whole name]
  | SPiecewiseStorage name _ _ _ steps _ => Ok (map (store_name name) (seq 0 (S (length steps))))
  | SPlaceholder name => Err (PlaceholderNotAllowed name)
  | _ => Err NotAllowedInStorageConstraint
  end.

(** ** Attributes *)

Definition attribute_or (d : attribute) (a : option attribute) : attribute :=
  match a with Some a => a | None => d end.

(** core.rs 1003-1020: a storage's own attributes (also tried first by a
    reservoir, reservoir.rs 590-593). *)
Definition storage_metric (name : string) (a : option attribute) : sres umetric :=
  match attribute_or AtVolume a with
  | AtVolume => Ok (UNodeVolume (whole name))
  | AtMaxVolume => Ok (UNodeMaxVolume (whole name))
  | AtPropVolume => Ok (UNodePropVolume (whole name))
  | k => Err (AttributeNotSupported k)
  end.

(** [Node::create_metric], nodes/mod.rs 597-625.  core.rs 142-157, 575-611,
    757-789, 1003-1020, 1172-1187; river_gauge.rs 142-163; loss_link.rs
    258-287; river.rs 407-442; river_split_with_gauge.rs 255-281;
    water_treatment_works.rs 231-262; piecewise_link.rs 157-184;
    piecewise_storage.rs 378-396; delay.rs 149-162; turbine.rs 238-258;
    reservoir.rs 590-634; abstraction.rs 249-277. *)
Definition create_metric (n : snode) (a : option attribute) : sres umetric :=
  match n with
  | SInput name _ _ _ | SCatchment name _ _ =>
      match attribute_or AtOutflow a with AtOutflow => Ok (UNodeOutFlow (whole name)) | k => Err (AttributeNotSupported k) end
  | SLink name _ _ _ sm sx =>
      match attribute_or AtOutflow a with
      | AtOutflow => Ok (UMultiNodeInFlow (link_parts name sm sx))
      | AtInflow => Ok (UMultiNodeOutFlow (link_parts name sm sx))
      | k => Err (AttributeNotSupported k)
      end
  | SOutput name _ _ _ =>
      match attribute_or AtInflow a with
      | AtInflow => Ok (UNodeInFlow (whole name))
      | AtDeficit => Ok (UParamAfter (name, "deficit"))
      | k => Err (AttributeNotSupported k)
      end
  | SStorage name _ => storage_metric name a
  | SRiverGauge name _ _ _ =>
      match attribute_or AtOutflow a with
      | AtInflow => Ok (UMultiNodeInFlow [sub name "mrf"; sub name "bypass"])
      | AtOutflow => Ok (UMultiNodeOutFlow [sub name "mrf"; sub name "bypass"])
      | k => Err (AttributeNotSupported k)
      end
  | SLossLink name lf _ _ _ | SWtw name lf _ _ _ _ _ =>
      match attribute_or AtOutflow a with
      | AtInflow => Ok (if is_some lf then UMultiNodeInFlow [sub name "net"; sub name "loss"]
                        else UNodeInFlow (sub name "net"))
      | AtOutflow => Ok (UNodeOutFlow (sub name "net"))
      | AtLoss => Ok (if is_some lf then UNodeInFlow (sub name "loss") else UConst 0)
      | k => Err (AttributeNotSupported k)
      end
  | SRiver name lf rt =>
      match attribute_or AtOutflow a with
      | AtInflow => rbind (flow_nodes n (Some CoInflow)) (fun us => Ok (UMultiNodeInFlow us))
      | AtOutflow => rbind (flow_nodes n (Some CoOutflow)) (fun us => Ok (UMultiNodeOutFlow us))
      | AtLoss => Ok (if is_some lf then UNodeInFlow (sub name "loss") else UConst 0)
      | k => Err (AttributeNotSupported k)
      end
  | SRiverSplit name _ _ sp =>
      match attribute_or AtOutflow a with
      | AtInflow => Ok (UMultiNodeInFlow (split_parts name sp))
      | AtOutflow => Ok (UMultiNodeOutFlow (split_parts name sp))
      | k => Err (AttributeNotSupported k)
      end
  | SPiecewiseLink name steps =>
      match attribute_or AtOutflow a with
      | AtInflow => Ok (UMultiNodeInFlow (map (step_name name) (seq 0 (length steps))))
      | AtOutflow => Ok (UMultiNodeOutFlow (map (step_name name) (seq 0 (length steps))))
      | k => Err (AttributeNotSupported k)
      end
  | SPiecewiseStorage name _ _ _ _ _ =>
      match attribute_or AtVolume a with
      | AtVolume => Ok (UAggStorageVolume (sub name "agg-store"))
      | AtPropVolume => Ok (UAggStoragePropVolume (sub name "agg-store"))
      | k => Err (AttributeNotSupported k)
      end
  | SDelay name _ _ =>
      match attribute_or AtOutflow a with
      | AtOutflow => Ok (UNodeOutFlow (sub name "outflow"))
      | AtInflow => Ok (UNodeInFlow (sub name "inflow"))
      | k => Err (AttributeNotSupported k)
      end
  | STurbine name _ _ _ _ _ =>
      match attribute_or AtOutflow a with
      | AtOutflow => Ok (UNodeOutFlow (whole name))
      | AtInflow => Ok (UNodeInFlow (whole name))
      | AtPower => Ok (UParamAfter (name, "power"))
      | k => Err (AttributeNotSupported k)
      end
  | SReservoir name f =>
      match storage_metric name a with
      | Ok m => Ok m
      | Panic => Panic
      | Err (AttributeNotSupported _) =>
          match attribute_or AtVolume a with
          | AtCompensation => Ok (if is_some (rv_compensation f) then UNodeInFlow (sub name "compensation") else UConst 0)
          | AtRainfall => Ok (if is_some (rv_rainfall f) && is_some (rv_area f)
                              then UNodeInFlow (sub name "rainfall") else UConst 0)
          | AtEvaporation => Ok (if is_some (rv_rainfall f) && is_some (rv_area f)
                                 then UNodeInFlow (sub name "evaporation") else UConst 0)
          | AtVolume => Ok (UNodeVolume (whole name))
          | AtPropVolume => Ok (UNodePropVolume (whole name))
          | AtMaxVolume => Ok (UNodeMaxVolume (whole name))
          | k => Err (AttributeNotSupported k)
          end
      | Err e => Err e
      end
  | SPlaceholder name => Err (PlaceholderNotAllowed name)
  | SAbstraction name _ _ _ _ _ =>
      match attribute_or AtAbstraction a with
      | AtInflow => rbind (flow_nodes n (Some CoInflow)) (fun us => Ok (UMultiNodeInFlow us))
      | AtOutflow => rbind (flow_nodes n (Some CoOutflow)) (fun us => Ok (UMultiNodeInFlow us))
      | AtAbstraction => Ok (UNodeOutFlow (sub name "abstraction"))
      | k => Err (AttributeNotSupported k)
      end
  end.

(** ** Adding to the network *)

(** What one schema element adds to the [NetworkBuilder]: the code's builder
    only appends, to one list per kind of thing. *)
Record added := mkAdded {
  ad_nodes : list node_builder;
  ad_edges : list (uname * uname);
  ad_aggs : list agg_builder;
  ad_vss : list vs_builder;
  ad_agg_storages : list (uname * list uname);
  ad_params : list pdecl }.
Definition nothing : added := mkAdded [] [] [] [] [] [].
Definition merge (a b : added) : added :=
  mkAdded (ad_nodes a ++ ad_nodes b) (ad_edges a ++ ad_edges b) (ad_aggs a ++ ad_aggs b)
          (ad_vss a ++ ad_vss b) (ad_agg_storages a ++ ad_agg_storages b) (ad_params a ++ ad_params b).
Definition declaration (a : added) : net_builder := mkNetB (ad_nodes a) (ad_edges a) (ad_aggs a) (ad_vss a).

Section Resolved.
(** How metrics that are looked up each time-step are numbered in the
    environment the solver reads (see [Network.metric]). *)
Variable key : umetric -> nat.

Definition to_metric (m : umetric) : metric :=
  match m with UConst q => MConst q | UOther m => m | m => MDyn (key m) end.
Definition to_metrics (o : option umetric) : option metric := option_map to_metric o.

(** node.rs 86-160: builders of the four kinds, with cost, minimum and maximum
    flow set where given. *)
Definition flow_node (t : node_type) (u : uname) (cost min max : option umetric) : node_builder :=
  mkNb u t (to_metrics cost) None (to_metrics min) (to_metrics max) None None None.
Definition link := flow_node TLink.
Definition input := flow_node TInput.
Definition output := flow_node TOutput.

(** core.rs 860-880 [From<StorageInitialVolume>] and 945-975 [make_builder]. *)
Definition to_init (i : sinit) : init_volume :=
  match i with SIAbsolute v => IVAbsolute v | SIProportional p => IVProportional p end.
Definition storage (u : uname) (f : storage_fields) : node_builder :=
  mkNb u TStorage (to_metrics (st_cost f)) None None None (Some (to_init (st_initial f)))
       (to_metrics (st_min f)) (to_metrics (st_max f)).

Definition agg (u : uname) (groups : list (list uname)) (min max : option umetric) (r : option relationship) : agg_builder :=
  mkAb u groups (to_metrics min) (to_metrics max) r.

(** loss_link.rs 42-78 [LossFactor::load]. *)
Definition load_loss (lf : loss_factor) : option relationship :=
  match lf with
  | LGross m => if is_constant_zero m then None else Some (RFactored (FProportion [to_metric m]))
  | LNet m => if is_constant_zero m then None else Some (RFactored (FRatio [MConst 1; to_metric m]))
  end.

(** core.rs 392-573 [LinkNode::add_to_network]. *)
Definition add_link (name : string) (cost min max : option umetric) (soft_min soft_max : option soft) : added :=
  let l := whole name in
  let lmin := sub name "soft_min" in
  let lmax := sub name "soft_max" in
  let ag := sub name "aggregate_node" in
  match soft_min, soft_max with
  | None, None => mkAdded [link l cost min max] [] [] [] [] []
  | Some s, None =>
      mkAdded [link l cost None None; link lmin (sf_cost s) None (sf_flow s)] []
              [agg ag [[l; lmin]] min max None] [] [] []
  | None, Some s =>
      mkAdded [link l (sf_cost s) None None; link lmax cost None (sf_flow s)] []
              [agg ag [[l; lmax]] min max None] [] [] []
  | Some s, Some t =>
      (* 544-548: the soft maximum overwrites the maximum of the same
         aggregated node. *)
      let max' := match sf_flow t with Some m => Some m | None => max end in
      mkAdded [link l cost None None; link lmin (sf_cost s) None (sf_flow s); link lmax (sf_cost t) None None] []
              [agg ag [[l; lmin; lmax]] min max' None;
               agg (sub name "aggregate_node_l_l_min") [[l; lmin]] None None None] [] [] []
  end.

(** river_gauge.rs 114-140. *)
Definition add_river_gauge (name : string) (mrf mrf_cost bypass_cost : option umetric) : added :=
  mkAdded [link (sub name "mrf") mrf_cost bypass_cost mrf; link (sub name "bypass") None None None] [] [] [] [] [].

(** loss_link.rs 210-256. *)
Definition add_loss_link (name : string) (lf : option loss_factor) (cost min max : option umetric) : added :=
  let net := sub name "net" in
  let loss := sub name "loss" in
  match lf with
  | None => mkAdded [link net cost min max] [] [] [] [] []
  | Some f =>
      let r := load_loss f in
      mkAdded [output loss None None (match r with Some _ => None | None => Some (UConst 0) end); link net cost min max] []
              [agg (sub name "agg") [[net]; [loss]] None None r] [] [] []
  end.

(** river.rs 306-335 [add_loss_to_network]: the loss node and, unless the
    factor is a literal zero, the aggregated node. *)
Definition river_loss (name : string) (lf : option loss_factor) : node_builder * list agg_builder :=
  let loss := sub name "loss" in
  match lf with
  | None => (output loss None None None, [])
  | Some f =>
      match load_loss f with
      | Some r => (output loss None None None, [agg (sub name "aggregated_loss_node") [[sub name "net"]; [loss]] None None (Some r)])
      | None => (output loss None None (Some (UConst 0)), [])
      end
  end.

(** river.rs 339-405 [add_routing_to_network]: the outflow node, the
    aggregated nodes and the parameters. *)
Definition river_routing (name : string) (rt : option routing) : node_builder * list agg_builder * list pdecl :=
  let out := sub name "outflow" in
  let inn := sub name "inflow" in
  match rt with
  | None => (input out None None None, [], [])
  | Some (RtDelay d q) =>
      let p := (name, "delay") in
      (input out None (Some (UParam p None)) (Some (UParam p None)), [], [PDelay p (UNodeInFlow inn) d q])
  | Some (RtMuskingum t w ini) =>
      let p := (name, "muskingum") in
      (input out None None None,
       [agg (sub name "aggregated_routing_node") [[out]; [inn]] None None
          (Some (RFactored (FCoefficients [MConst 1; to_metric (UParam p (Some "inflow_factor"))]
                                          (Some (to_metric (UParam p (Some "rhs")))))))],
       [PMuskingum p (UNodeInFlow inn) (UNodeOutFlow out) t w ini])
  end.

(** river.rs 246-303. *)
Definition add_river (name : string) (lf : option loss_factor) (rt : option routing) : added :=
  let net := link (sub name "net") None None None in
  let '(loss, la) := river_loss name lf in
  let '(out, ra, ps) := river_routing name rt in
  let inn := output (sub name "inflow") None None None in
  match is_some lf, is_some rt with
  | false, false => mkAdded [net] [] [] [] [] []
  | true, false => mkAdded [net; loss] [] la [] [] []
  | false, true => mkAdded [inn; out] [] ra [] [] ps
  | true, true =>
      mkAdded [net; loss; inn; out]
              [(sub name "outflow", sub name "net"); (sub name "outflow", sub name "loss")]
              (la ++ ra) [] [] ps
  end.

(** river_split_with_gauge.rs 217-253. *)
Definition add_river_split (name : string) (mrf mrf_cost : option umetric) (splits : list split) : added :=
  mkAdded (map (fun i => link (split_name name i) None None None) (seq 0 (length splits)) ++
           [link (sub name "mrf") mrf_cost None mrf; link (sub name "bypass") None None None]) []
          (map (fun p => agg (split_agg_name name (fst p)) [[sub name "bypass"]; [split_name name (fst p)]] None None
                             (Some (RFactored (FProportion [to_metric (sp_factor (snd p))]))))
               (combine (seq 0 (length splits)) splits)) [] [] [].

(** water_treatment_works.rs 163-229. *)
Definition add_wtw (name : string) (lf : option loss_factor) (cost min max soft_min soft_min_cost : option umetric) : added :=
  let net := sub name "net" in
  let loss := sub name "loss" in
  let soft := sub name "net_soft_min_flow" in
  let above := sub name "net_above_soft_min_flow" in
  let '(ln, la) :=
    match lf with
    | None => ([], [])
    | Some f => match load_loss f with
                | Some r => ([output loss None None None], [agg (sub name "agg") [[net]; [loss]] None None (Some r)])
                | None => ([output loss None None (Some (UConst 0))], [])
                end
    end in
  mkAdded (ln ++ [link net cost min max; link soft soft_min_cost None soft_min; link above None None None])
          [(net, soft); (net, above)] la [] [] [].

(** piecewise_link.rs 130-155. *)
Definition add_piecewise_link (name : string) (steps : list link_step) : added :=
  mkAdded (map (fun p => link (step_name name (fst p)) (ls_cost (snd p)) (ls_min (snd p)) (ls_max (snd p)))
               (combine (seq 0 (length steps)) steps)) [] [] [] [] [].

(** piecewise_storage.rs 113-256 and 264-376: store [i] of a piecewise storage
    lies between curve [i - 1] and curve [i]; the residual store on top has no
    upper curve.  The three parameters of a store: *)
Definition max_volume_name (name : string) (i : nat) : pname := (name, ("store-" ++ dec2 i ++ "-max-volume")%string).
Definition prior_volume_name (name : string) (i : nat) : pname := (name, ("store-" ++ dec2 i ++ "-prior-max-volume")%string).
Definition min_volume_name (name : string) (i : nat) : pname := (name, ("store-" ++ dec2 i ++ "-min-volume")%string).
Definition store_params (name : string) (total : umetric) (total_min : option umetric) (steps : list store) (i : nat) : list pdecl :=
  let upper := option_map so_curve (nth_error steps i) in
  let lower := match i with O => None | S j => option_map so_curve (nth_error steps j) end in
  [PVolumeBetween (max_volume_name name i) total upper lower;
   PSum (prior_volume_name name i) (map (fun j => UParam (max_volume_name name j) None) (seq 0 i))] ++
  match total_min with
  | Some m => [PDifference (min_volume_name name i) m (UParam (prior_volume_name name i) None)
                           (Some (UConst 0)) (Some (UParam (max_volume_name name i) None))]
  | None => []
  end.
(** piecewise_storage.rs 354-376 [set_sub_node_initial_volume]. *)
Definition store_init (name : string) (total : umetric) (init : sinit) (i : nat) : init_volume :=
  let prior := to_metric (UParam (prior_volume_name name i) None) in
  match init with
  | SIProportional p => IVDistProportional (to_metric total) p prior
  | SIAbsolute v => IVDistAbsolute v prior
  end.
Definition store_builder (name : string) (total : umetric) (total_min cost : option umetric) (init : sinit) (i : nat) : node_builder :=
  mkNb (store_name name i) TStorage (to_metrics cost) None None None (Some (store_init name total init i))
       (option_map (fun _ => to_metric (UParam (min_volume_name name i) None)) total_min)
       (Some (to_metric (UParam (max_volume_name name i) None))).
Definition add_piecewise_storage (name : string) (total : umetric) (total_min cost : option umetric)
    (steps : list store) (init : sinit) : added :=
  let n := length steps in
  mkAdded (map (fun i => store_builder name total total_min
                           (match nth_error steps i with Some s => so_cost s | None => cost end) init i) (seq 0 (S n)))
          (flat_map (fun i => [(store_name name (S i), store_name name i); (store_name name i, store_name name (S i))]) (seq 0 n))
          [] []
          [(sub name "agg-store", map (store_name name) (seq 0 (S n)))]
          (flat_map (store_params name total total_min steps) (seq 0 (S n))).

(** delay.rs 119-148. *)
Definition add_delay (name : string) (delay : nat) (initial : Q) : added :=
  let p := (name, "delay") in
  mkAdded [output (sub name "inflow") None None None;
           input (sub name "outflow") None (Some (UParam p None)) (Some (UParam p None))] [] [] [] []
          [PDelay p (UNodeInFlow (sub name "inflow")) delay initial].

(** turbine.rs 172-236; [TargetType]'s default is the maximum. *)
Definition add_turbine (name : string) (cost target elevation : option umetric) (tgt : option target_type) (h : hydro) : added :=
  let p := UParam (name, "power") None in
  let limits := match target with
                | None => (None, None)
                | Some _ => match tgt with
                            | None | Some TgMax => (None, Some p)
                            | Some TgMin => (Some p, None)
                            | Some TgBoth => (Some p, Some p)
                            end
                end in
  mkAdded [link (whole name) cost (fst limits) (snd limits)] [] [] [] []
          [PHydropower (name, "power") (UNodeInFlow (whole name)) target elevation h].

(** reservoir.rs 528-588 [get_area_metric]. *)
Definition area_param (name pn : string) (b : bathymetry) (use_max : bool) : pdecl :=
  let current := match ba_proportional b, use_max with
                 | false, false => UNodeVolume (whole name)
                 | true, false => UNodePropVolume (whole name)
                 | false, true => UNodeMaxVolume (whole name)
                 | true, true => UConst 1
                 end in
  match ba_data b with
  | BInterpolated st ar => PInterpolated (name, pn) current (combine st ar)
  | BPolynomial cs => PPolynomial (name, pn) current cs
  end.
Definition flag (o : option bool) (d : bool) : bool := match o with Some b => b | None => d end.

(** reservoir.rs 360-512. *)
Definition add_reservoir (name : string) (f : reservoir_fields) : sres added :=
  let st := whole name in
  let comp := sub name "compensation" in
  let spill := sub name "spill" in
  let a0 := mkAdded [storage st (rv_storage f)] [] [] [] [] [] in
  let a1 := match rv_compensation f with
            | Some m => mkAdded [link comp None (Some m) None] [(st, comp)] [] [] [] []
            | None => nothing
            end in
  let a2 := match rv_spill f with
            | Some SpillOutput => mkAdded [output spill None None None] [(st, spill)] [] [] [] []
            | Some SpillLink => mkAdded [link spill None None None] [(st, spill)] [] [] [] []
            | None => nothing
            end in
  let a3 := if flag (rv_connect f) true && is_some (rv_spill f) && is_some (rv_compensation f)
            then mkAdded [] [(comp, spill)] [] [] [] [] else nothing in
  if (is_some (rv_rainfall f) || is_some (rv_evaporation f)) && negb (is_some (rv_area f))
  then Err (MissingNodeAttribute name)
  else
  let a4 := match rv_area f, rv_rainfall f with
            | Some b, Some r =>
                let p := UParam (name, "rainfall") None in
                mkAdded [input (sub name "rainfall") None (Some p) (Some p)] [(sub name "rainfall", st)] [] [] []
                        [area_param name "rainfall_area" b (flag (ra_max_area r) false);
                         PProduct (name, "rainfall") [ra_data r; UParam (name, "rainfall_area") None]]
            | _, _ => nothing
            end in
  let a5 := match rv_area f, rv_evaporation f with
            | Some b, Some e =>
                let p := UParam (name, "evaporation") None in
                (* 460: created as an input *)
                mkAdded [input (sub name "evaporation") (ev_cost e) None (Some p)] [(st, sub name "evaporation")] [] [] []
                        [area_param name "evaporation_area" b (flag (ev_max_area e) false);
                         PProduct (name, "evaporation") [ev_data e; UParam (name, "evaporation_area") None]]
            | _, _ => nothing
            end in
  let a6 := match rv_leakage f with
            | Some l => mkAdded [output (sub name "leakage") (lk_cost l) None (Some (lk_loss l))] [(st, sub name "leakage")] [] [] [] []
            | None => nothing
            end in
  Ok (merge a0 (merge a1 (merge a2 (merge a3 (merge a4 (merge a5 a6)))))).

(** abstraction.rs 199-247. *)
Definition add_abstraction (name : string) (mrf mrf_cost abs_cost abs_min abs_max : option umetric) : sres added :=
  let rest := [link (sub name "bypass") None None None; link (sub name "abstraction") abs_cost abs_min abs_max] in
  match mrf, mrf_cost with
  | Some m, _ => Ok (mkAdded (link (sub name "mrf") mrf_cost None (Some m) :: rest) [] [] [] [] [])
  | None, Some _ => Err (InvalidNodeAttributes name)
  | None, None => Ok (mkAdded rest [] [] [] [] [])
  end.

(** [Node::add_to_network], nodes/mod.rs 512-529; core.rs 116-140 (input),
    791-815 (output), 976-985 (storage), 1147-1170 (catchment); placeholder.rs
    37-41. *)
Definition add_node (n : snode) : sres added :=
  match n with
  | SInput name c mn mx => Ok (mkAdded [input (whole name) c mn mx] [] [] [] [] [])
  | SLink name c mn mx sm sx => Ok (add_link name c mn mx sm sx)
  | SOutput name c mn mx => Ok (mkAdded [output (whole name) c mn mx] [] [] [] [] [])
  | SStorage name f => Ok (mkAdded [storage (whole name) f] [] [] [] [] [])
  | SCatchment name c fl => Ok (mkAdded [input (whole name) c fl fl] [] [] [] [] [])
  | SRiverGauge name m mc bc => Ok (add_river_gauge name m mc bc)
  | SLossLink name lf c mn mx => Ok (add_loss_link name lf c mn mx)
  | SRiver name lf rt => Ok (add_river name lf rt)
  | SRiverSplit name m mc sp => Ok (add_river_split name m mc sp)
  | SWtw name lf c mn mx sm smc => Ok (add_wtw name lf c mn mx sm smc)
  | SPiecewiseLink name steps => Ok (add_piecewise_link name steps)
  | SPiecewiseStorage name mx mn c steps i => Ok (add_piecewise_storage name mx mn c steps i)
  | SDelay name d q => Ok (add_delay name d q)
  | STurbine name c t e tgt h => Ok (add_turbine name c t e tgt h)
  | SReservoir name f => add_reservoir name f
  | SPlaceholder name => Err (PlaceholderNotAllowed name)
  | SAbstraction name m mc ac amn amx => add_abstraction name m mc ac amn amx
  end.

(** network.rs 462-464 [get_node_by_name]. *)
Definition get_node_by_name (sc : schema) (name : string) : option snode :=
  find (fun n => String.eqb (snode_name n) name) (sc_nodes sc).
Definition find_node (sc : schema) (name : string) : sres snode :=
  match get_node_by_name sc name with Some n => Ok n | None => Err (SchemaNodeNotFound name) end.

(** virtual_storage.rs 71-88 [TryInto<VirtualStorageReset>] and 118-132
    [RollingWindow::as_timesteps]; [step] is the duration of a step in
    nanoseconds if it is the same for all steps. *)
Definition to_reset (r : option sreset) : vs_reset :=
  match r with
  | None | Some RsNever => ResetNever
  | Some (RsAnnual d m) => ResetDayOfYear d m
  | Some (RsMonthly n) => ResetMonths n
  | Some (RsSeasonal sd sm _ _) => ResetDayOfYear sd sm
  end.
Definition to_period (r : option sreset) : vs_period :=
  match r with Some (RsSeasonal sd sm ed em) => ActivePeriod sd sm ed em | _ => AlwaysActive end.
Definition NS_DAY : Z := 86400000000000%Z.
Definition as_timesteps (step : option Z) (w : swindow) : option nat :=
  match w with
  | SwTimesteps n => Some n
  | SwDays days =>
      match step with
      | None => None
      | Some ns =>
          if (ns mod NS_DAY =? 0)%Z then
            let n := days / Z.to_nat (ns / NS_DAY) in
            if n =? 0 then None else Some n
          else None
      end
  end.

(** virtual_nodes/aggregated.rs 149-208. *)
Definition to_relationship (r : srelationship) : relationship :=
  match r with
  | SrProportion fs => RFactored (FProportion (map to_metric fs))
  | SrRatio fs => RFactored (FRatio (map to_metric fs))
  | SrCoefficients fs rhs => RFactored (FCoefficients (map to_metric fs) (to_metrics rhs))
  | SrExclusive mn mx => RExclusive (match mn with Some n => n | None => 0 end) (match mx with Some n => n | None => 1 end)
  end.

Definition ref_nodes (sc : schema) (r : node_ref) : sres (list uname) :=
  rbind (find_node sc (rf_name r)) (fun n => flow_nodes n (rf_component r)).

(** [VirtualNode::add_to_network]: aggregated.rs 129-215 and 326-360;
    virtual_storage.rs 239-300. *)
Definition add_vnode (sc : schema) (step : option Z) (v : vnode) : sres added :=
  match v with
  | VAggregated name refs mn mx rel =>
      rbind (rmap (ref_nodes sc) refs) (fun groups =>
      Ok (mkAdded [] [] [agg (whole name) groups mn mx (option_map to_relationship rel)] [] [] []))
  | VAggStorage name refs =>
      rbind (rmap (fun r => rbind (find_node sc (rf_name r)) storage_nodes) refs) (fun groups =>
      Ok (mkAdded [] [] [] [] [(whole name, concat groups)] []))
  | VStorage name refs fs c mn mx i r rv w =>
      rbind (rmap (ref_nodes sc) refs) (fun groups =>
      rbind (match w with
             | None => Ok None
             | Some w => match as_timesteps step w with Some n => Ok (Some n) | None => Err (InvalidRollingWindow name) end
             end) (fun window =>
      Ok (mkAdded [] [] []
            [mkVb (whole name) (concat groups) fs (to_init i) (to_metrics mn) (to_metrics mx) (to_reset r)
                  (match rv with Some x => x | None => ResetInitial end) window (to_period r) (to_metrics c)] [] [])))
  end.

(** edge.rs 80-110 [iter_node_connection_pairs]: every connector of the source
    with every connector of the target. *)
Definition connection_pairs (sc : schema) (e : sedge) : sres (list (uname * uname)) :=
  rbind (find_node sc (se_from e)) (fun from =>
  rbind (find_node sc (se_to e)) (fun to =>
  rbind (output_connectors from (se_from_slot e)) (fun outs =>
  rbind (input_connectors to (se_to_slot e)) (fun ins =>
  Ok (flat_map (fun f => map (fun t => (f, t)) ins) outs))))).

(** edge.rs 113-124 [add_to_network], 127-140 [create_metric]. *)
Definition add_edge (sc : schema) (e : sedge) : sres added :=
  rbind (connection_pairs sc e) (fun ps => Ok (mkAdded [] ps [] [] [] [])).
Definition edge_metric (sc : schema) (e : sedge) : sres umetric :=
  rbind (connection_pairs sc e) (fun ps => Ok (UMultiEdgeFlow ps)).

(** network.rs 518-547 [validate]: every name is used once. *)
Fixpoint no_repeat (l : list string) : bool :=
  match l with [] => true | x :: r => negb (existsb (String.eqb x) r) && no_repeat r end.
Definition validate (sc : schema) : bool :=
  no_repeat (map snode_name (sc_nodes sc) ++ map vnode_name (sc_vnodes sc)).

(** network.rs 550-655 [NetworkSchema::add_to_network]: validation, nodes,
    virtual nodes, edges.  Simplification: tables, time series, parameters,
    metric sets and outputs are loaded in this function too. *)
Definition load_schema (step : option Z) (sc : schema) : sres added :=
  if validate sc then
    rbind (rmap add_node (sc_nodes sc)) (fun ns =>
    rbind (rmap (add_vnode sc step) (sc_vnodes sc)) (fun vs =>
    rbind (rmap (add_edge sc) (sc_edges sc)) (fun es =>
    Ok (fold_right merge nothing (ns ++ vs ++ es)))))
  else Err DuplicateNodeNames.

End Resolved.
