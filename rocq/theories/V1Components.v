(** What the conversion of a Pywr v1 file makes of each type of parameter and
    node.  V1Convert.v models how a whole file is converted, with a component
    as a list of values; here each type has its own attributes.
    Sources: pywr-schema/src/v1.rs 160-312 and the [TryFromV1] and [TryFrom]
    implementations of pywr-schema/src/parameters/*.rs and nodes/*.rs.
    Simplifications: meta data, and the names that values written inside a
    component are given, are those of V1Convert.v, so the second attempt at a
    control curve (which counts an unnamed one again) has the same name here; the
    conversion of a value is any function that may fail; the row and column of a
    reference to a table are one key.  Not modelled: hydropower targets, table arrays
    (DataFiles.v), data frames (V1Convert.v), and the types that are refused. *)
From Coq Require Import QArith.
From Verif Require Import Base Network Profiles SchemaNodes MetricSets SchemaParams.
Local Open Scope string_scope.
Local Open Scope list_scope.
Local Open Scope nat_scope.

(** error.rs 201-242 [ConversionError], the cases that arise here.  [WValue] is
    any error in the conversion of a value or of a reference to a table. *)
Inductive why :=
| WMissing (attrs : list string)
| WUnexpected (attrs : list string)
| WExtra (attr : string)
| WFeature
| WType (expected : string)
| WNumber (expected found : nat)
| WNotConstant
| WValue.
(** error.rs 169-197 [ComponentConversionError]: the name of the component, the
    attribute and the error. *)
Inductive comp_error := PErr (name attr : string) (w : why) | NErr (name attr : string) (w : why).
Definition cres := res comp_error.

(** serde_json [Value], as far as it is told apart. *)
Inductive kwarg := KBool (b : bool) | KNumber (q : Q) | KString (s : string) | KOther.
Definition kwargs := list (string * kwarg).
Definition kwarg_of (k : kwargs) (key : string) : option kwarg := option_map snd (find (fun p => String.eqb (fst p) key) k).

(** A reference to a table with its key; [None] if it cannot be converted
    (data_tables/mod.rs 366-391). *)
Definition v1_table := option (string * list string).

(** pywr_v1_schema [Predicate], [AggFunc], [IndexAggFunc], [MonthInterpDay]. *)
Inductive v1_predicate := P1LT | P1GT | P1EQ | P1LE | P1GE.
Inductive v1_agg := A1Sum | A1Product | A1Max | A1Min.
Inductive v1_index_agg := I1Sum | I1Product | I1Max | I1Min | I1Any | I1All.
Inductive v1_interp := N1First | N1Last.

(** pywr_v1_schema: where the values of a profile come from ([values],
    [external], [table_ref]); of external data only whether it is given. *)
Record v1_values := mkValues { w_values : option (list Q); w_external : bool; w_table : option v1_table }.

Inductive profile_type := PtDaily | PtWeekly | PtMonthly (interp : option v1_interp).

(** pywr_v1_schema [CoreParameter], the attributes of each type as far as the
    conversion uses them. *)
Inductive v1_body (V : Type) :=
| V1Constant (value : option Q) (table : option v1_table)
| V1ConstantScenario (scenario : string) (values : v1_values)
| V1Max (parameter : V) (threshold : option Q)
| V1Min (parameter : V) (threshold : option Q)
| V1Negative (parameter : V)
| V1NegativeMax (parameter : V) (threshold : option Q)
| V1NegativeMin (parameter : V) (threshold : option Q)
| V1Division (numerator denominator : V)
| V1Aggregated (func : v1_agg) (parameters : list V)
| V1AggregatedIndex (func : v1_index_agg) (parameters : list V)
| V1IndexedArray (parameters : list V) (index : V)
| V1InterpolatedFlow (node : string) (flows values : list V) (kw : option kwargs)
| V1InterpolatedVolume (node : string) (volumes values : list V) (kw : option kwargs)
| V1Polynomial (coefficients : list Q) (storage_node : string) (use_proportional : option bool) (scale offset : option Q)
| V1Discount (rate : Q) (base_year : Z)
| V1ParameterThreshold (parameter threshold : V) (values : option (list Q)) (p : v1_predicate)
| V1NodeThreshold (node : string) (threshold : V) (values : option (list Q)) (p : v1_predicate)
| V1StorageThreshold (storage_node : string) (threshold : V) (values : option (list Q)) (p : v1_predicate)
| V1MultiThreshold (node : string) (thresholds : list V)
| V1MultiThresholdParameter (parameter : V) (thresholds : list V)
| V1Switch (on off : V)
| V1CurveIndex (storage_node : string) (curves : list V)
| V1Curve (storage_node : string) (curves : option (list V)) (curve : option V) (values : option (list Q)) (parameters : option (list V))
| V1CurveInterpolated (storage_node : string) (curves : option (list V)) (curve : option V) (values : option (list Q)) (parameters : option (list V))
| V1CurvePiecewise (storage_node : string) (curves : option (list V)) (curve : option V) (values : option (list (Q * Q))) (minimum : option Q)
| V1Rolling (node : string) (timesteps days : option nat) (initial_flow : option Q)
| V1Profile (t : profile_type) (values : v1_values)
| V1Drawdown (day month residual : option Z)
| V1Rbf (days_of_year : list Z) (values : list Q) (kw : kwargs).
Arguments V1Constant {V}. Arguments V1ConstantScenario {V}. Arguments V1Max {V}. Arguments V1Min {V}. Arguments V1Negative {V}.
Arguments V1NegativeMax {V}. Arguments V1NegativeMin {V}. Arguments V1Division {V}. Arguments V1Aggregated {V}.
Arguments V1AggregatedIndex {V}. Arguments V1IndexedArray {V}. Arguments V1InterpolatedFlow {V}. Arguments V1InterpolatedVolume {V}.
Arguments V1Polynomial {V}. Arguments V1Discount {V}. Arguments V1ParameterThreshold {V}. Arguments V1NodeThreshold {V}.
Arguments V1StorageThreshold {V}. Arguments V1MultiThreshold {V}. Arguments V1MultiThresholdParameter {V}. Arguments V1Switch {V}.
Arguments V1CurveIndex {V}. Arguments V1Curve {V}. Arguments V1CurveInterpolated {V}. Arguments V1CurvePiecewise {V}.
Arguments V1Rolling {V}. Arguments V1Profile {V}. Arguments V1Drawdown {V}. Arguments V1Rbf {V}.

(** parameters/mod.rs 916-919 [ConstantFloatVec]. *)
Inductive float_vec := FvLiteral (values : list Q) | FvTable (table : string) (key : list string).
(** profiles.rs 241-249 [RadialBasisFunction]. *)
Inductive rbf_function :=
| RfLinear | RfCubic | RfQuintic | RfThinPlate | RfGaussian (epsilon : option Q) | RfMultiQuadric (epsilon : option Q)
| RfInverse (epsilon : option Q).

(** The parameters of the new file: those of SchemaParams.v, profiles whose
    values may be in a table, constants by scenario and RBF profiles. *)
Inductive v2_body :=
| NbBody (b : sbody)
| NbDaily (values : float_vec)
| NbWeekly (values : float_vec) (interp : option interp_day)
| NbMonthly (values : float_vec) (interp : option interp_day)
| NbScenario (values : float_vec) (scenario_group : string)
| NbRbf (points : list (Z * Q)) (function : rbf_function).

(** thresholds.rs 36-46; agg_funcs.rs 105-114, 161-172; profiles.rs 140-147. *)
Definition conv_predicate (p : v1_predicate) : spredicate :=
  match p with P1LT => LT | P1GT => GT | P1EQ => EQ | P1LE => LE | P1GE => GE end.
Definition conv_agg (f : v1_agg) : sagg_func :=
  match f with A1Sum => AgSum | A1Product => AgProduct | A1Max => AgMax | A1Min => AgMin end.
Definition conv_index_agg (f : v1_index_agg) : sindex_agg :=
  match f with I1Sum => IaSum | I1Product => IaProduct | I1Max => IaMax | I1Min => IaMin | I1Any => IaAny | I1All => IaAll end.
Definition conv_interp (i : v1_interp) : interp_day := match i with N1First => First | N1Last => Last end.
(** [i32 as i16] (discount_factor.rs 58). *)
Definition as_i16 (z : Z) : Z := ((z + 32768) mod 65536 - 32768)%Z.

(** v1.rs 241-279 [try_convert_values]. *)
Definition conv_vec (name : string) (v : v1_values) : cres float_vec :=
  match w_values v with
  | Some l => Ok (FvLiteral l)
  | None =>
      if w_external v then Err (PErr name "url" WFeature)
      else match w_table v with
           | Some (Some (t, key)) => Ok (FvTable t key)
           | Some None => Err (PErr name "table" WValue)
           | None => Err (PErr name "table" (WMissing ["values"; "table"; "url"]))
           end
  end.

(** interpolated.rs 110-134 and 176-200: [error_on_bounds], unless another kind
    of interpolation is asked for. *)
Definition conv_interp_kwargs (name : string) (kw : option kwargs) : cres (option bool) :=
  match kw with
  | None => Ok None
  | Some kw =>
      let bounds := match kwarg_of kw "bounds_error" with Some (KBool b) => Some b | _ => None end in
      match kwarg_of kw "kind" with
      | Some (KString k) => if String.eqb k "linear" then Ok bounds else Err (PErr name "interp_kwargs" WFeature)
      | _ => Ok bounds
      end
  end.

(** thresholds.rs 170-188, 217-235, 261-279: exactly two values. *)
Definition conv_returned (name : string) (values : option (list Q)) : cres (option (smetric * smetric)) :=
  match values with
  | None => Ok None
  | Some [a; b] => Ok (Some (MLiteral a, MLiteral b))
  | Some l => Err (PErr name "values" (WNumber 2 (length l)))
  end.

(** profiles.rs 414-485: the function and its [epsilon]. *)
Definition conv_rbf (name : string) (kw : kwargs) : cres rbf_function :=
  match kwarg_of kw "smooth" with
  | Some _ => Err (PErr name "smooth" WFeature)
  | None =>
      match kwarg_of kw "norm" with
      | Some _ => Err (PErr name "norm" WFeature)
      | None =>
          rbind (match kwarg_of kw "epsilon" with
                 | Some (KNumber q) => Ok (Some q)
                 | Some _ => Err (PErr name "epsilon" (WType "float"))
                 | None => Ok None
                 end) (fun eps =>
          match kwarg_of kw "function" with
          | Some (KString f) =>
              if String.eqb f "multiquadric" then Ok (RfMultiQuadric eps)
              else if String.eqb f "inverse" then Ok (RfInverse eps)
              else if String.eqb f "gaussian" then Ok (RfGaussian eps)
              else if String.eqb f "linear" then Ok RfLinear
              else if String.eqb f "cubic" then Ok RfCubic
              else if String.eqb f "thin_plate" then Ok RfThinPlate
              else Err (PErr name "rbf_kwargs" WFeature)
          | Some _ => Err (PErr name "rbf_kwargs" (WType "string"))
          | None => Ok (RfMultiQuadric eps)
          end)
      end
  end.

Section Parameters.
  Variable V : Type.
  (** The conversion of a value to a metric and to an index metric. *)
  Variable cv : V -> option smetric.
  Variable ci : V -> option imetric.
  (** [ConversionData::virtual_nodes]: the names of the virtual nodes. *)
  Variable virtuals : list string.
  (** The name the parameter has in the new file. *)
  Variable name : string.

  (** v1.rs 182-201 [try_convert_parameter_attr]. *)
  Definition metric_attr (attr : string) (v : V) : cres smetric := match cv v with Some m => Ok m | None => Err (PErr name attr WValue) end.
  Definition index_attr (attr : string) (v : V) : cres imetric := match ci v with Some m => Ok m | None => Err (PErr name attr WValue) end.

  (** v1.rs 281-312 [try_convert_control_curves]. *)
  Definition conv_curves (curves : option (list V)) (curve : option V) : cres (list smetric) :=
    match curves, curve with
    | Some cs, _ => rmap (metric_attr "control_curves") cs
    | None, Some c => rbind (metric_attr "control_curve" c) (fun m => Ok [m])
    | None, None => Err (PErr name "control_curves" (WMissing ["control_curves"; "control_curve"]))
    end.

  (** control_curves.rs 117-130, 190-203, 332-345, 419-432. *)
  Definition level_of (node : string) : smetric :=
    if existsb (String.eqb node) virtuals then MVirtual node (Some AtPropVolume) else MNode node (Some AtPropVolume).

  (** control_curves.rs 297-355: [TryFromV1<ControlCurveParameterV1>] for
      [ControlCurveParameter], and 216-257 for [ControlCurveIndexParameter]. *)
  Definition conv_curve (node : string) curves curve (values : option (list Q)) (parameters : option (list V)) : cres sbody :=
    rbind (conv_curves curves curve) (fun cs =>
    rbind (match values, parameters with
           | Some vs, _ => Ok (map MLiteral vs)
           | None, Some ps => rmap (metric_attr "parameters") ps
           | None, None => Err (PErr name "values" (WMissing ["values"; "parameters"]))
           end) (fun vs => Ok (SpCurve cs (level_of node) vs))).
  Definition conv_curve_as_index (node : string) curves curve (values : option (list Q)) (parameters : option (list V)) : cres sbody :=
    rbind (conv_curves curves curve) (fun cs =>
    match values, parameters with
    | None, None => Ok (SpCurveIndex (MNode node (Some AtPropVolume)) cs)
    | _, _ => Err (PErr name "values" (WUnexpected ["values"; "parameters"]))
    end).

  Definition profile (t : profile_type) (v : float_vec) : v2_body :=
    match t with
    | PtDaily => NbDaily v
    | PtWeekly => NbWeekly v None
    | PtMonthly i => NbMonthly v (option_map conv_interp i)
    end.

  Definition nb (r : cres sbody) : cres v2_body := rbind r (fun b => Ok (NbBody b)).

  (** parameters/mod.rs 593-746 [TryFromV1<ParameterV1>]. *)
  Definition conv_body (b : v1_body V) : cres v2_body :=
    match b with
    (* core.rs 187-216 *)
    | V1Constant value table =>
        match value, table with
        | Some q, _ => Ok (NbBody (SpConstant (CvLiteral q)))
        | None, Some (Some (t, key)) => Ok (NbBody (SpConstant (CvTable t key)))
        | None, Some None => Err (PErr name "table" WValue)
        | None, None => Ok (NbBody (SpConstant (CvLiteral 0%Q)))
        end
    (* core.rs 254-273 *)
    | V1ConstantScenario g v => rbind (conv_vec name v) (fun v => Ok (NbScenario v g))
    (* core.rs 307-327, 442-462, 490-506, 554-574, 622-641 *)
    | V1Max m th => nb (rbind (metric_attr "parameter" m) (fun m => Ok (SpMax m th)))
    | V1Min m th => nb (rbind (metric_attr "parameter" m) (fun m => Ok (SpMin m th)))
    | V1Negative m => nb (rbind (metric_attr "parameter" m) (fun m => Ok (SpNegative m)))
    | V1NegativeMax m th => nb (rbind (metric_attr "parameter" m) (fun m => Ok (SpNegativeMax m th)))
    | V1NegativeMin m th => nb (rbind (metric_attr "parameter" m) (fun m => Ok (SpNegativeMin m th)))
    (* core.rs 374-397 *)
    | V1Division n d =>
        nb (rbind (metric_attr "numerator" n) (fun n => rbind (metric_attr "denominator" d) (fun d => Ok (SpDivision PhBefore n d))))
    (* aggregated.rs 79-103, 148-172 *)
    | V1Aggregated f ms => nb (rbind (rmap (metric_attr "parameters") ms) (fun ms => Ok (SpAggregated PhBefore (conv_agg f) ms)))
    | V1AggregatedIndex f ms => nb (rbind (rmap (index_attr "parameters") ms) (fun ms => Ok (SpAggregatedIndex PhBefore (conv_index_agg f) ms)))
    (* indexed_array.rs 49-80 *)
    | V1IndexedArray ms i =>
        nb (rbind (rmap (metric_attr "parameters") ms) (fun ms => rbind (index_attr "index_parameter" i) (fun i => Ok (SpIndexedArray ms i))))
    (* interpolated.rs 80-144, 146-210 *)
    | V1InterpolatedFlow n xs ys kw =>
        nb (rbind (rmap (metric_attr "flows") xs) (fun xs => rbind (rmap (metric_attr "values") ys) (fun ys =>
            rbind (conv_interp_kwargs name kw) (fun e => Ok (SpInterpolated (MNode n None) xs ys e)))))
    | V1InterpolatedVolume n xs ys kw =>
        nb (rbind (rmap (metric_attr "volumes") xs) (fun xs => rbind (rmap (metric_attr "values") ys) (fun ys =>
            rbind (conv_interp_kwargs name kw) (fun e => Ok (SpInterpolated (MNode n None) xs ys e)))))
    (* polynomial.rs 53-79 *)
    | V1Polynomial cs n up s o =>
        Ok (NbBody (SpPolynomial (MNode n (Some (match up with Some false => AtVolume | _ => AtPropVolume end))) cs s o))
    (* discount_factor.rs 45-61 *)
    | V1Discount r y => Ok (NbBody (SpDiscount (MLiteral r) (as_i16 y)))
    (* thresholds.rs 156-200, 202-247, 249-294 *)
    | V1ParameterThreshold m th vs p =>
        nb (rbind (metric_attr "parameter" m) (fun m => rbind (metric_attr "threshold" th) (fun th =>
            rbind (conv_returned name vs) (fun r => Ok (SpThreshold m th (conv_predicate p) r false)))))
    | V1NodeThreshold n th vs p =>
        nb (rbind (metric_attr "threshold" th) (fun th => rbind (conv_returned name vs) (fun r =>
            Ok (SpThreshold (MNode n None) th (conv_predicate p) r false))))
    | V1StorageThreshold n th vs p =>
        nb (rbind (conv_returned name vs) (fun r => rbind (metric_attr "threshold" th) (fun th =>
            Ok (SpThreshold (MNode n None) th (conv_predicate p) r false))))
    (* thresholds.rs 376-404, 406-434 *)
    | V1MultiThreshold n ths => nb (rbind (rmap (metric_attr "thresholds") ths) (fun ths => Ok (SpMultiThreshold (MNode n None) ths GE None false)))
    | V1MultiThresholdParameter m ths =>
        nb (rbind (metric_attr "parameter" m) (fun m => rbind (rmap (metric_attr "thresholds") ths) (fun ths =>
            Ok (SpMultiThreshold m ths GE None false))))
    (* asymmetric_switch.rs 47-79 *)
    | V1Switch a b => nb (rbind (index_attr "on_index_parameter" a) (fun a => rbind (index_attr "off_index_parameter" b) (fun b => Ok (SpSwitch a b))))
    (* control_curves.rs 174-212 *)
    | V1CurveIndex n cs => nb (rbind (rmap (metric_attr "control_curves") cs) (fun cs => Ok (SpCurveIndex (level_of n) cs)))
    (* parameters/mod.rs 625-628: a second attempt after any error *)
    | V1Curve n cs c vs ps =>
        match conv_curve n cs c vs ps with
        | Ok b => Ok (NbBody b)
        | Panic => Panic
        | Err _ => nb (conv_curve_as_index n cs c vs ps)
        end
    (* control_curves.rs 72-140 *)
    | V1CurveInterpolated n cs c vs ps =>
        nb (rbind (conv_curves cs c) (fun cs =>
            rbind (match vs, ps with
                   | None, None => Err (PErr name "control_curves" (WMissing ["values"; "parameters"]))
                   | Some _, Some _ => Err (PErr name "control_curves" (WUnexpected ["values"; "parameters"]))
                   | Some vs, None => Ok (map MLiteral vs)
                   | None, Some ps => rmap (metric_attr "parameters") ps
                   end) (fun vs => Ok (SpCurveInterpolated cs (level_of n) vs))))
    (* control_curves.rs 401-444 *)
    | V1CurvePiecewise n cs c vs lo => nb (rbind (conv_curves cs c) (fun cs => Ok (SpCurvePiecewise cs (level_of n) vs lo None)))
    (* rolling.rs 101-160 *)
    | V1Rolling n ts days i =>
        match ts, days with
        | Some ts, None => Ok (NbBody (SpRolling (MNode n None) ts (or_default i 0%Q) None AgMean))
        | None, Some _ => Err (PErr name "days" WFeature)
        | Some _, Some _ | None, None => Err (PErr name "timesteps" WFeature)
        end
    (* profiles.rs 68-83, 149-169, 612-632 *)
    | V1Profile t v => rbind (conv_vec name v) (fun v => Ok (profile t v))
    (* profiles.rs 215-232 *)
    | V1Drawdown d m r => Ok (NbBody (SpDrawdown d m r))
    (* profiles.rs 402-496 *)
    | V1Rbf days vs kw => rbind (conv_rbf name kw) (fun f => Ok (NbRbf (combine days vs) f))
    end.
End Parameters.

(** ** Nodes *)

(** pywr_v1_schema: the virtual storages with what they have in common. *)
Record v1_store (V : Type) := mkV1Store {
  y_nodes : list string; y_factors : option (list Q); y_cost : option V; y_min : option V; y_max : option V;
  y_initial : option Q; y_initial_pc : option Q }.
Arguments mkV1Store {V}. Arguments y_nodes {V}. Arguments y_factors {V}. Arguments y_cost {V}. Arguments y_min {V}.
Arguments y_max {V}. Arguments y_initial {V}. Arguments y_initial_pc {V}.
Inductive v1_store_type :=
| StPlain
| StAnnual (day month : Z) (to_initial : bool)
| StMonthly (months : Z) (to_initial : bool)
| StSeasonal (day month end_day end_month : Z) (to_initial : bool)
| StRolling (days timesteps : option nat).

(** pywr_v1_schema [CoreNode].  [N1Link] is Link or BreakLink, [N1Storage] is
    Storage or Reservoir. *)
Inductive v1_nbody (V : Type) :=
| N1Input (cost min max : option V)
| N1Link (cost min max : option V)
| N1Output (cost min max : option V)
| N1Storage (cost min max : option V) (initial initial_pc : option Q)
| N1Catchment (cost flow : option V)
| N1RiverGauge (mrf mrf_cost cost : option V)
| N1LossLink (loss_factor cost min max : option V)
| N1River (cost min max : option V)
| N1RiverSplitGauge (mrf mrf_cost : option V) (factors : list V) (slots : list string)
| N1PiecewiseLink (nsteps : nat) (costs : option (list V)) (max_flows : option (list (option V)))
| N1Delay (days timesteps : option nat) (initial : option Q)
| N1Aggregated (nodes : list string) (factors : option (list V)) (min max : option V)
| N1AggregatedStorage (nodes : list string)
| N1VirtualStorage (s : v1_store V) (t : v1_store_type).
Arguments N1Input {V}. Arguments N1Link {V}. Arguments N1Output {V}. Arguments N1Storage {V}. Arguments N1Catchment {V}.
Arguments N1RiverGauge {V}. Arguments N1LossLink {V}. Arguments N1River {V}. Arguments N1RiverSplitGauge {V}.
Arguments N1PiecewiseLink {V}. Arguments N1Delay {V}. Arguments N1Aggregated {V}. Arguments N1AggregatedStorage {V}.
Arguments N1VirtualStorage {V}.

(** nodes/mod.rs 642-645 [NodeOrVirtualNode]. *)
Inductive new_node := NewNode (n : snode) | NewVirtual (v : vnode).

Section Nodes.
  Variable V : Type.
  (** The conversion of a value to a metric (loaded, as in SchemaNodes.v). *)
  Variable cn : V -> option umetric.
  Variable name : string.

  (** v1.rs 160-179 [try_convert_node_attr]; 46-58 for optional values. *)
  Definition node_attr (attr : string) (v : V) : cres umetric := match cn v with Some m => Ok m | None => Err (NErr name attr WValue) end.
  Definition opt_attr (attr : string) (v : option V) : cres (option umetric) :=
    match v with Some v => rbind (node_attr attr v) (fun m => Ok (Some m)) | None => Ok None end.

  (** v1.rs 218-239 [try_convert_initial_storage]. *)
  Definition conv_initial (volume pc : option Q) : cres sinit :=
    match volume, pc with
    | Some v, _ => Ok (SIAbsolute v)
    | None, Some p => Ok (SIProportional p)
    | None, None => Err (NErr name "initial_volume" (WMissing ["initial_volume"; "initial_volume_pc"]))
    end.

  (** river_split_with_gauge.rs 331-365 [convert_factors], with the error as the
      caller reports it (301-307). *)
  Definition factor_value (v : V) : cres Q :=
    match cn v with
    | Some (UConst q) => Ok q
    | Some _ => Err (NErr name "factors" WNotConstant)
    | None => Err (NErr name "factors" WValue)
    end.
  Definition conv_factors (fs : list V) : cres (list umetric) :=
    match fs with
    | [] => Ok []
    | f :: rest =>
        rbind (factor_value f) (fun first => rbind (rmap factor_value rest) (fun qs =>
        let sum := (qsum qs + first)%Q in Ok (map (fun q => UConst (q / sum)%Q) qs)))
    end.

  (** virtual_storage.rs 463-495: the window of a rolling virtual storage. *)
  Definition conv_window (days timesteps : option nat) : cres swindow :=
    match days, timesteps with
    | Some d, _ => if d =? 0 then Err (NErr name "window" WFeature) else Ok (SwDays d)
    | None, Some n => if n =? 0 then Err (NErr name "window" WFeature) else Ok (SwTimesteps n)
    | None, None => Err (NErr name "window" (WMissing ["days"; "timesteps"]))
    end.
  Definition reset_volume (to_initial : bool) : option vs_reset_volume := Some (if to_initial then ResetInitial else ResetMax).

  Definition plain_ref (n : string) : node_ref := mkRef n None.

  (** virtual_storage.rs 323-357, 359-402, 404-444, 446-514, 516-563. *)
  Definition conv_store (s : v1_store V) (t : v1_store_type) : cres vnode :=
    rbind (opt_attr "cost" (y_cost s)) (fun cost =>
    rbind (opt_attr "max_volume" (y_max s)) (fun mx =>
    rbind (opt_attr "min_volume" (y_min s)) (fun mn =>
    rbind (conv_initial (y_initial s) (y_initial_pc s)) (fun i =>
    let nodes := map plain_ref (y_nodes s) in
    match t with
    | StPlain => Ok (VStorage name nodes (y_factors s) cost mn mx i None None None)
    | StAnnual d m ti =>
        Ok (VStorage name nodes (y_factors s) cost mn mx i (Some (RsAnnual (as_i8 d) (as_i8 m))) (reset_volume ti) None)
    | StMonthly m ti => Ok (VStorage name nodes (y_factors s) cost mn mx i (Some (RsMonthly m)) (reset_volume ti) None)
    | StSeasonal d m ed em ti =>
        Ok (VStorage name nodes (y_factors s) cost mn mx i (Some (RsSeasonal (as_i8 d) (as_i8 m) (as_i8 ed) (as_i8 em))) (reset_volume ti) None)
    | StRolling ds ts =>
        rbind (conv_window ds ts) (fun w => Ok (VStorage name nodes (y_factors s) cost mn mx i None None (Some w)))
    end)))).

  (** nodes/mod.rs 673-720 [TryFromV1<Box<CoreNodeV1>>]. *)
  Definition conv_nbody (n : v1_nbody V) : cres new_node :=
    match n with
    (* core.rs 160-183, 614-642, 644-671, 819-842 *)
    | N1Input c mn mx =>
        rbind (opt_attr "cost" c) (fun c => rbind (opt_attr "max_flow" mx) (fun mx => rbind (opt_attr "min_flow" mn) (fun mn =>
        Ok (NewNode (SInput name c mn mx)))))
    | N1Link c mn mx =>
        rbind (opt_attr "cost" c) (fun c => rbind (opt_attr "max_flow" mx) (fun mx => rbind (opt_attr "min_flow" mn) (fun mn =>
        Ok (NewNode (SLink name c mn mx None None)))))
    | N1Output c mn mx =>
        rbind (opt_attr "cost" c) (fun c => rbind (opt_attr "max_flow" mx) (fun mx => rbind (opt_attr "min_flow" mn) (fun mn =>
        Ok (NewNode (SOutput name c mn mx)))))
    (* core.rs 1007-1034, 1036-1063 *)
    | N1Storage c mn mx i pc =>
        rbind (opt_attr "cost" c) (fun c => rbind (opt_attr "max_volume" mx) (fun mx => rbind (opt_attr "min_volume" mn) (fun mn =>
        rbind (conv_initial i pc) (fun i => Ok (NewNode (SStorage name (mkStorage c mn mx i)))))))
    (* core.rs 1187-1208: the attribute an error names is [min_flow] *)
    | N1Catchment c f => rbind (opt_attr "cost" c) (fun c => rbind (opt_attr "min_flow" f) (fun f => Ok (NewNode (SCatchment name c f))))
    (* river_gauge.rs 168-191 *)
    | N1RiverGauge m mc c =>
        rbind (opt_attr "mrf" m) (fun m => rbind (opt_attr "mrf_cost" mc) (fun mc => rbind (opt_attr "cost" c) (fun c =>
        Ok (NewNode (SRiverGauge name m mc c)))))
    (* loss_link.rs 293-321 *)
    | N1LossLink lf c mn mx =>
        rbind (opt_attr "loss_factor" lf) (fun lf => rbind (opt_attr "cost" c) (fun c => rbind (opt_attr "max_flow" mx) (fun mx =>
        rbind (opt_attr "min_flow" mn) (fun mn => Ok (NewNode (SLossLink name (option_map LNet lf) c mn mx))))))
    (* river.rs 452-494 *)
    | N1River c mn mx =>
        match mx, mn, c with
        | Some _, _, _ => Err (NErr name "max_flow" (WExtra "max_flow"))
        | None, Some _, _ => Err (NErr name "min_flow" (WExtra "min_flow"))
        | None, None, Some _ => Err (NErr name "cost" (WExtra "cost"))
        | None, None, None => Ok (NewNode (SRiver name None None))
        end
    (* river_split_with_gauge.rs 288-328 *)
    | N1RiverSplitGauge m mc fs slots =>
        rbind (opt_attr "mrf" m) (fun m => rbind (opt_attr "mrf_cost" mc) (fun mc => rbind (conv_factors fs) (fun ps =>
        Ok (NewNode (SRiverSplit name m mc (map (fun p => mkSplit (fst p) (Some (snd p))) (combine ps (skipn 1 slots))))))))
    (* piecewise_link.rs 188-245 *)
    | N1PiecewiseLink n costs maxs =>
        rbind (match costs with None => Ok (repeat None n) | Some l => rmap (fun v => rbind (node_attr "costs" v) (fun m => Ok (Some m))) l end) (fun costs =>
        rbind (match maxs with None => Ok (repeat None n) | Some l => rmap (opt_attr "max_flows") l end) (fun maxs =>
        Ok (NewNode (SPiecewiseLink name (map (fun p => mkLinkStep (fst p) None (snd p)) (combine costs maxs))))))
    (* delay.rs 166-199 *)
    | N1Delay ds ts i =>
        match ds, ts with
        | Some d, _ => Ok (NewNode (SDelay name d (or_default i 0%Q)))
        | None, Some d => Ok (NewNode (SDelay name d (or_default i 0%Q)))
        | None, None => Err (NErr name "delay" (WMissing ["days"; "timesteps"]))
        end
    (* aggregated.rs 233-276, 379-391 *)
    | N1Aggregated ns fs mn mx =>
        rbind (match fs with
               | Some l => rbind (rmap (fun v => match cn v with Some m => Ok m | None => Err (PErr name "factors" WValue) end) l)
                                 (fun l => Ok (Some (SrRatio l)))
               | None => Ok None
               end) (fun rel =>
        rbind (opt_attr "max_flow" mx) (fun mx => rbind (opt_attr "min_flow" mn) (fun mn =>
        Ok (NewVirtual (VAggregated name (map plain_ref ns) mn mx rel)))))
    | N1AggregatedStorage ns => Ok (NewVirtual (VAggStorage name (map plain_ref ns)))
    | N1VirtualStorage s t => rbind (conv_store s t) (fun v => Ok (NewVirtual v))
    end.
End Nodes.
