(** The parameters of a model file: under which name each is registered in the
    core, which metrics it is given, and what it then computes.  Sources:
    pywr-schema/src/parameters/*.rs (the [add_to_network] functions),
    pywr-schema/src/metric.rs, pywr-schema/src/network.rs 600-632; what the core
    parameters compute is that of Formulas.v, ControlCurves.v, Profiles.v,
    AggFuncs.v and ParamsTemporal.v.
    Not modelled: Python, hydropower, radial basis function, table array and
    constant scenario parameters, and the parameters that time series create. *)
From Coq Require Import QArith.
From Verif Require Import Base Calendar Network AggFuncs ControlCurves Formulas ParamsTemporal Profiles SchemaNodes SchemaVirtual MetricSets.
Local Open Scope string_scope.
Local Open Scope list_scope.
Local Open Scope nat_scope.

(** ** Names *)

(** pywr-core/src/parameters/mod.rs 428-458 [ParameterName], [new],
    [new_with_subname]. *)
Record cname := mkCname { cn_name : string; cn_sub : option string; cn_parent : option string }.
Definition pname_new (name : string) (parent : option string) : cname := mkCname name None parent.
Definition pname_with_sub (name : string) (sub parent : option string) : cname := mkCname name sub parent.

(** ** Schema types *)

(** metric.rs 681-694 [IndexMetric].  [IxOther] stands for the cases that name
    no parameter (tables, nodes, time series, transfers). *)
Inductive imetric := IxConstant (n : Z) | IxParameter (r : param_ref) | IxLocalParameter (r : param_ref) | IxOther (k : nat).

(** parameters/mod.rs 755-760 [ConstantValue]. *)
Inductive cvalue := CvLiteral (q : Q) | CvTable (table : string) (key : list string).

(** agg_funcs.rs 116-132 [IndexAggFunc]; no Python functions. *)
Inductive sindex_agg := IaSum | IaProduct | IaMin | IaMax | IaAny | IaAll.

(** thresholds.rs 21-33 [Predicate]. *)
Inductive spredicate := LT | GT | EQ | LE | GE.

(** parameters/mod.rs 94-134 [Parameter], with the fields of each kind of
    parameter: core.rs, aggregated.rs, indexed_array.rs, interpolated.rs,
    polynomial.rs, offset.rs, discount_factor.rs, thresholds.rs,
    asymmetric_switch.rs, control_curves.rs, delay.rs, rolling.rs, profiles.rs
    and placeholder.rs.  Simplifications: the values of profiles are literal,
    and the settings for optimisation ([variable]) are left out. *)
Inductive sbody :=
| SpConstant (value : cvalue)
| SpMax (parameter : smetric) (threshold : option Q)
| SpMin (parameter : smetric) (threshold : option Q)
| SpNegative (parameter : smetric)
| SpNegativeMax (metric : smetric) (threshold : option Q)
| SpNegativeMin (metric : smetric) (threshold : option Q)
| SpDivision (phase : param_phase) (numerator denominator : smetric)
| SpAggregated (phase : param_phase) (func : sagg_func) (metrics : list smetric)
| SpAggregatedIndex (phase : param_phase) (func : sindex_agg) (metrics : list imetric)
| SpIndexedArray (metrics : list smetric) (index : imetric)
| SpInterpolated (x : smetric) (xp fp : list smetric) (error_on_bounds : option bool)
| SpPolynomial (metric : smetric) (coefficients : list Q) (scale offset : option Q)
| SpOffset (offset : cvalue) (metric : smetric)
| SpDiscount (rate : smetric) (base_year : Z)
| SpThreshold (metric threshold : smetric) (p : spredicate) (returned : option (smetric * smetric)) (ratchet : bool)
| SpMultiThreshold (metric : smetric) (thresholds : list smetric) (p : spredicate) (returned : option (list smetric)) (ratchet : bool)
| SpSwitch (on off : imetric)
| SpCurve (curves : list smetric) (storage : smetric) (values : list smetric)
| SpCurveIndex (storage : smetric) (curves : list smetric)
| SpCurveInterpolated (curves : list smetric) (storage : smetric) (values : list smetric)
| SpCurvePiecewise (curves : list smetric) (storage : smetric) (values : option (list (Q * Q))) (minimum maximum : option Q)
| SpDelay (metric : smetric) (delay : nat) (initial : Q)
| SpDelayIndex (metric : imetric) (delay : nat) (initial : Z)
| SpRolling (metric : smetric) (window : nat) (initial : Q) (min_values : option nat) (func : sagg_func)
| SpRollingIndex (metric : imetric) (window : nat) (initial : Z) (min_values : option nat) (func : sindex_agg)
| SpDaily (values : list Q)
| SpDiurnal (values : list Q)
| SpWeekly (values : list Q) (interp : option interp_day)
| SpMonthly (values : list Q) (interp : option interp_day)
| SpDrawdown (day month residual : option Z)
| SpPlaceholder.
Record sparameter := mkParam { sp_name : string; sp_body : sbody }.

(** What of a model file concerns parameters: those of each node, those of each
    virtual node and those of the network (nodes/mod.rs 420-440;
    nodes/virtual_nodes/aggregated.rs 108, 308, virtual_storage.rs 187;
    network.rs 157). *)
Record pfile := mkPfile {
  pf_nodes : list (string * list sparameter); pf_vnodes : list (string * list sparameter); pf_globals : list sparameter }.

(** ** What is handed to the core *)

(** pywr-core/src/metric.rs 1479-1491 [UnresolvedMetricU64]. *)
Inductive lindex := LiConst (n : Z) | LiParam (name : cname) (key : option string) (r : return_value) | LiOther (k : nat).

(** The core builders with their arguments (pywr-core/src/parameters/*.rs). *)
Inductive cbody :=
| CConstant (value : Q)
| CMax (m : lmetric) (threshold : Q)
| CMin (m : lmetric) (threshold : Q)
| CNegative (m : lmetric)
| CNegativeMax (m : lmetric) (threshold : Q)
| CNegativeMin (m : lmetric) (threshold : Q)
| CDivision (phase : param_phase) (numerator denominator : lmetric)
| CAggregated (phase : param_phase) (func : agg_f64) (metrics : list lmetric)
| CAggregatedIndex (phase : param_phase) (func : agg_u64) (metrics : list lindex)
| CIndexedArray (index : lindex) (metrics : list lmetric)
| CInterpolated (x : lmetric) (points : list (lmetric * lmetric)) (error_on_bounds : bool)
| CPolynomial (m : lmetric) (coefficients : list Q) (scale offset : Q)
| COffset (m : lmetric) (offset : Q)
| CDiscount (rate : lmetric) (base_year : Z)
| CThreshold (m threshold : lmetric) (p : predicate) (ratchet : bool)
| CMultiThreshold (m : lmetric) (thresholds : list lmetric) (p : predicate) (ratchet : bool)
| CSwitch (on off : lindex)
| CCurve (m : lmetric) (curves values : list lmetric)
| CCurveIndex (m : lmetric) (curves : list lmetric)
| CCurveInterpolated (m : lmetric) (curves values : list lmetric)
| CCurvePiecewise (m : lmetric) (maximum minimum : Q) (curves : list lmetric) (values : list (Q * Q))
| CDelay (m : lmetric) (delay : nat) (initial : Q)
| CDelayIndex (m : lindex) (delay : nat) (initial : Z)
| CRolling (m : lmetric) (window : nat) (initial : Q) (min_values : nat) (func : agg_f64)
| CRollingIndex (m : lindex) (window : nat) (initial : Z) (min_values : nat) (func : agg_u64)
| CDaily (values : list Q)
| CDiurnal (values : list Q)
| CWeekly (values : weekly_values) (interp : option interp_day)
| CMonthly (values : list Q) (interp : option interp_day)
| CDrawdown (day month residual : Z)
(* made by nodes only *)
| CDifference (a b : lmetric) (min max : option lmetric)
| CVolumeBetween (total : lmetric) (upper lower : option lmetric).
Record cparam := mkCparam { cp_name : cname; cp_body : cbody }.

(** error.rs [SchemaError], the cases that arise here. *)
Inductive pl_error :=
| PlMetric (e : ms_error)
| PlLength (expected found : nat)
| PlWeeks (name : string)
| PlPlaceholder (name : string).
Definition plres := res pl_error.
Definition of_metric {A} (r : mres A) : plres A := match r with Ok a => Ok a | Err e => Err (PlMetric e) | Panic => Panic end.

(** ** Loading *)

Definition or_default {A} (o : option A) (d : A) : A := match o with Some a => a | None => d end.

(** metric.rs 562-580 [load_u64] and 691-740 [IndexMetric::load]. *)
Definition load_index_ref (r : param_ref) (parent : option string) : lindex :=
  LiParam (pname_new (pr_name r) parent) (pr_key r) (or_default (pr_return r) RvBefore).
Definition load_index (parent : option string) (m : imetric) : plres lindex :=
  match m with
  | IxConstant n => Ok (LiConst n)
  | IxParameter r => Ok (load_index_ref r None)
  | IxLocalParameter r =>
      match parent with
      | None => Err (PlMetric (MsLocalRequiresParent (pr_name r)))
      | Some _ => Ok (load_index_ref r parent)
      end
  | IxOther k => Ok (LiOther k)
  end.

(** agg_funcs.rs 142-158. *)
Definition load_index_func (f : sindex_agg) : agg_u64 :=
  match f with IaSum => USum | IaProduct => UProduct | IaMin => UMin | IaMax => UMax | IaAny => UAny | IaAll => UAll end.
(** thresholds.rs 48-58. *)
Definition load_predicate (p : spredicate) : predicate :=
  match p with LT => PLess | GT => PGreater | EQ => PEqual | LE => PLessEqual | GE => PGreaterEqual end.
(** parameters/mod.rs 863-875 [ConstantValue::load]. *)
Definition load_value (args : load_args) (v : cvalue) : plres Q :=
  match v with
  | CvLiteral q => Ok q
  | CvTable t key => match la_tables args t key with Some q => Ok q | None => Err (PlMetric (MsTableRef t)) end
  end.
(** [u64 as i8] and [u64 as u8] (profiles.rs 189-200). *)
Definition as_i8 (z : Z) : Z := ((z + 128) mod 256 - 128)%Z.
Definition as_u8 (z : Z) : Z := (z mod 256)%Z.
(** [Vec::insert(59, values[58])] (profiles.rs 42-55). *)
Definition insert_feb29 (values : list Q) : list Q := firstn 59 values ++ [nth 58 values 0%Q] ++ skipn 59 values.

(** The [add_to_network] functions, each giving the core parameters it
    registers, in order.  [parent] is the node a local parameter belongs to.
    Which of the metrics are loaded with [parent] and which with [None] is as
    in the code. *)
Section Load.
  Variable args : load_args.
  Variable parent : option string.
  Notation load p m := (of_metric (load_metric args p m)).
  Notation loads p ms := (rmap (fun m => of_metric (load_metric args p m)) ms).

  Definition load_body (name : string) (b : sbody) : plres (list cparam) :=
    let own := pname_new name parent in
    let one c := Ok [mkCparam own c] in
    match b with
    (* core.rs 174-184 *)
    | SpConstant v => rbind (load_value args v) (fun q => one (CConstant q))
    (* core.rs 286-304, 422-439, 473-487, 533-551, 601-619 *)
    | SpMax m t => rbind (load None m) (fun m => one (CMax m (or_default t 0%Q)))
    | SpMin m t => rbind (load None m) (fun m => one (CMin m (or_default t 0%Q)))
    | SpNegative m => rbind (load None m) (fun m => one (CNegative m))
    | SpNegativeMax m t => rbind (load None m) (fun m => one (CNegativeMax m (or_default t 0%Q)))
    | SpNegativeMin m t => rbind (load None m) (fun m => one (CNegativeMin m (or_default t 0%Q)))
    (* core.rs 352-371 *)
    | SpDivision ph n d => rbind (load None n) (fun n => rbind (load None d) (fun d => one (CDivision ph n d)))
    (* aggregated.rs 53-76, 122-145 *)
    | SpAggregated ph f ms => rbind (loads parent ms) (fun ms => one (CAggregated ph (load_func f) ms))
    | SpAggregatedIndex ph f ms => rbind (rmap (load_index parent) ms) (fun ms => one (CAggregatedIndex ph (load_index_func f) ms))
    (* indexed_array.rs 26-46 *)
    | SpIndexedArray ms i => rbind (load_index None i) (fun i => rbind (loads parent ms) (fun ms => one (CIndexedArray i ms)))
    (* interpolated.rs 37-77 *)
    | SpInterpolated x xp fp e =>
        rbind (load None x) (fun x =>
        if negb (length xp =? length fp) then Err (PlLength (length xp) (length fp))
        else rbind (loads None xp) (fun xp => rbind (loads None fp) (fun fp => one (CInterpolated x (combine xp fp) (or_default e true)))))
    (* polynomial.rs 29-50 *)
    | SpPolynomial m cs s o => rbind (load None m) (fun m => one (CPolynomial m cs (or_default s 1%Q) (or_default o 0%Q)))
    (* offset.rs 46-63 *)
    | SpOffset o m => rbind (load None m) (fun m => rbind (load_value args o) (fun o => one (COffset m o)))
    (* discount_factor.rs 26-42 *)
    | SpDiscount r y => rbind (load None r) (fun r => one (CDiscount r y))
    (* thresholds.rs 107-152 *)
    | SpThreshold m t p returned ratchet =>
        rbind (load None m) (fun m => rbind (load None t) (fun t =>
        match returned with
        | None => one (CThreshold m t (load_predicate p) ratchet)
        | Some (a, b) =>
            let inner := pname_with_sub name (Some "threshold") (Some name) in
            rbind (load None a) (fun a => rbind (load None b) (fun b =>
            Ok [mkCparam inner (CThreshold m t (load_predicate p) ratchet);
                mkCparam own (CIndexedArray (LiParam inner None RvBefore) [a; b])]))
        end))
    (* thresholds.rs 331-373 *)
    | SpMultiThreshold m ts p returned ratchet =>
        rbind (load None m) (fun m => rbind (loads parent ts) (fun ts =>
        match returned with
        | None => Ok [mkCparam (pname_new name None) (CMultiThreshold m ts (load_predicate p) ratchet)]
        | Some vs =>
            let inner := pname_with_sub name (Some "threshold") (Some name) in
            rbind (loads None vs) (fun vs =>
            Ok [mkCparam inner (CMultiThreshold m ts (load_predicate p) ratchet);
                mkCparam own (CIndexedArray (LiParam inner None RvBefore) vs)])
        end))
    (* asymmetric_switch.rs 26-44 *)
    | SpSwitch a b => rbind (load_index None a) (fun a => rbind (load_index None b) (fun b => one (CSwitch a b)))
    (* control_curves.rs 270-294, 152-171, 33-69, 371-398 *)
    | SpCurve cs m vs => rbind (load None m) (fun m => rbind (loads parent cs) (fun cs => rbind (loads parent vs) (fun vs => one (CCurve m cs vs))))
    | SpCurveIndex m cs => rbind (load parent m) (fun m => rbind (loads parent cs) (fun cs => one (CCurveIndex m cs)))
    | SpCurveInterpolated cs m vs => rbind (load None m) (fun m => rbind (loads None cs) (fun cs => rbind (loads None vs) (fun vs => one (CCurveInterpolated m cs vs))))
    | SpCurvePiecewise cs m vs lo hi =>
        rbind (load parent m) (fun m => rbind (loads parent cs) (fun cs =>
        one (CCurvePiecewise m (or_default hi 1%Q) (or_default lo 0%Q) cs (or_default vs []))))
    (* delay.rs 24-41, 56-73 *)
    | SpDelay m n i => rbind (load None m) (fun m => one (CDelay m n i))
    | SpDelayIndex m n i => rbind (load_index None m) (fun m => one (CDelayIndex m n i))
    (* rolling.rs 37-56, 80-98 *)
    | SpRolling m w i mn f => rbind (load None m) (fun m => one (CRolling m w i (or_default mn w) (load_func f)))
    | SpRollingIndex m w i mn f => rbind (load_index None m) (fun m => one (CRollingIndex m w i (or_default mn w) (load_index_func f)))
    (* profiles.rs 34-65, 654-675, 586-609, 112-137, 183-212 *)
    | SpDaily vs =>
        if length vs =? 366 then one (CDaily vs)
        else if length vs =? 365 then one (CDaily (insert_feb29 vs))
        else Err (PlLength 366 (length vs))
    | SpDiurnal vs => if length vs =? 24 then one (CDiurnal vs) else Err (PlLength 24 (length vs))
    | SpWeekly vs i => match weekly_try_from vs with Some w => one (CWeekly w i) | None => Err (PlWeeks name) end
    | SpMonthly vs i => if length vs =? 12 then one (CMonthly vs i) else Err (PlLength 12 (length vs))
    | SpDrawdown d m r =>
        one (CDrawdown (match d with Some d => as_i8 d | None => 1%Z end) (match m with Some m => as_i8 m | None => 1%Z end)
          (match r with Some r => as_u8 r | None => 0%Z end))
    (* placeholder.rs 20-25 *)
    | SpPlaceholder => Err (PlPlaceholder name)
    end.
End Load.

(** parameters/mod.rs 275-319 [Parameter::add_to_network]. *)
Definition load_parameter (args : load_args) (parent : option string) (p : sparameter) : plres (list cparam) :=
  load_body args parent (sp_name p) (sp_body p).

(** network.rs 600-632: the parameters of the nodes, then those of the network.
    Those of the virtual nodes are not added. *)
Definition load_parameters (args : load_args) (f : pfile) : plres (list cparam) :=
  rbind (rmap (fun np => rmap (load_parameter args (Some (fst np))) (snd np)) (pf_nodes f)) (fun locals =>
  rbind (rmap (load_parameter args None) (pf_globals f)) (fun globals =>
  Ok (concat (map (@concat cparam) locals) ++ concat globals))).

(** ** What the core parameters compute *)

(** A value of a parameter, and when it is read or computed in a time-step. *)
Inductive value := VF (q : Q) | VI (z : Z).
Inductive moment := Before | After.

(** The values of all metrics in a run: of float and of index metrics, before
    and after the solve of each time-step; and the date of each time-step.  A
    reading that fails ends the run, so that here every reading gives a
    number. *)
Record reader := mkReader {
  rd_f : moment -> nat -> lmetric -> Q; rd_i : moment -> nat -> lindex -> Z; rd_date : nat -> datetime }.

(** When a parameter has a value (core.rs 363-367, aggregated.rs 62-66,
    131-135; all others before the solve). *)
Definition body_phase (b : cbody) : param_phase :=
  match b with CDivision ph _ _ | CAggregated ph _ _ | CAggregatedIndex ph _ _ => ph | _ => PhBefore end.
Definition at_moment (ph : param_phase) (mo : moment) : bool :=
  match ph, mo with PhBefore, Before | PhAfter, After | PhBoth, _ => true | _, _ => false end.

Definition as_f (r : calc) : res calc_error value := rbind r (fun q => Ok (VF q)).
Definition of_curve {A} (r : res curve_error A) : res calc_error A :=
  match r with Ok a => Ok a | Err _ => Err (NotRead "curve") | Panic => Panic end.
Definition of_profile (r : profile_value) : calc := match r with Ok q => Ok q | _ => Panic end.
Definition of_unit {A} (r : res unit A) : res calc_error A := match r with Ok a => Ok a | Err _ => Err (NotRead "state") | Panic => Panic end.

(** The parameters without a memory: the value in time-step [t] at [mo].
    Integer overflow panics.  pywr-core: see Formulas.v, ControlCurves.v,
    Profiles.v; aggregated.rs 45-75, aggregated_index.rs 45-75, offset.rs
    55-66. *)
Definition point (rd : reader) (mo : moment) (t : nat) (b : cbody) : res calc_error value :=
  let f m := Ok (rd_f rd mo t m) : calc in
  let r m := Ok (rd_f rd mo t m) : reading in
  match b with
  | CConstant q => Ok (VF q)
  | CMax m q => as_f (max_param q (f m))
  | CMin m q => as_f (min_param q (f m))
  | CNegative m => as_f (negative_param (f m))
  | CNegativeMax m q => as_f (negative_max_param q (f m))
  | CNegativeMin m q => as_f (negative_min_param q (f m))
  | CDivision _ n d => as_f (division (f n) (f d))
  | CAggregated _ g ms => Ok (VF (calc_iter_f64 g (map (rd_f rd mo t) ms)))
  | CAggregatedIndex _ g ms => rbind (of_unit (calc_iter_u64 Checked g (map (rd_i rd mo t) ms))) (fun z => Ok (VI z))
  | CIndexedArray i ms => as_f (indexed_array (Ok (Z.to_nat (rd_i rd mo t i))) (map f ms))
  | CInterpolated x ps e => as_f (interpolated (f x) (map (fun p => (f (fst p), f (snd p))) ps) e)
  | CPolynomial m cs s o => as_f (polynomial cs s o (f m))
  | COffset m o => Ok (VF (rd_f rd mo t m + o)%Q)
  | CDiscount m y => as_f (discount_factor y (d_year (dt_date (rd_date rd t))) (f m))
  | CCurve m cs vs => as_f (of_curve (control_curve_value (r m) (map r cs) (map r vs)))
  | CCurveIndex m cs => rbind (of_curve (control_curve_index (r m) (map r cs))) (fun k => Ok (VI (Z.of_nat k)))
  | CCurveInterpolated m cs vs => as_f (of_curve (control_curve_interpolated (r m) (map r cs) (map r vs)))
  | CCurvePiecewise m hi lo cs vs => as_f (of_curve (piecewise_interpolated (r m) hi lo (map r cs) vs))
  | CDaily vs => as_f (of_profile (daily_profile vs (rd_date rd t)))
  | CDiurnal vs => as_f (of_profile (diurnal_profile vs (rd_date rd t)))
  | CWeekly w i => as_f (of_profile (weekly_profile w i (rd_date rd t)))
  | CMonthly vs i => as_f (of_profile (monthly_profile vs i (rd_date rd t)))
  | CDrawdown d m r =>
      match reset_day_of_year d m with Some doy => Ok (VF (uniform_drawdown r doy (rd_date rd t))) | None => Err (NotRead "reset date") end
  | CDifference a b mn mx => as_f (difference_before (f a) (f b) (option_map f mn) (option_map f mx))
  | CVolumeBetween total up lo => as_f (of_curve (volume_between (r total) (option_map r up) (option_map r lo)))
  | _ => Err PhaseNotEnabled
  end.

(** A whole run of [T] time-steps: [outs] are the values of the parameter, at
    [mo], one per time-step.  A delay or rolling parameter is computed before
    the solve and remembers the value of its metric after it; if its metric is
    a simple one, which does not change during a time-step, it does both at
    once (delay.rs 252-285, rolling.rs 311-343). *)
Definition steps {A} (T : nat) (g : nat -> A) : list A := map g (seq 0 T).
Definition remembered {S A} (E : Type) (before : S -> res E (A * S)) (after : A -> S -> S) (compute : A -> S -> res E (A * S)) (s : S)
    (g : moment -> nat -> A) (T : nat) (outs : list A) : Prop :=
  hooked_run before after s (steps T (g After)) = Ok outs \/
  ((forall t, g Before t = g After t) /\ direct_run compute s (steps T (g Before)) = Ok outs).
Definition evaluates (rd : reader) (T : nat) (mo : moment) (b : cbody) (outs : list value) : Prop :=
  match b with
  | CThreshold m t p ra =>
      exists zs, direct_run (threshold_before p ra) threshold_setup (steps T (fun i => (rd_f rd mo i m, rd_f rd mo i t))) = Ok zs /\ outs = map VI zs
  | CMultiThreshold m ts p ra =>
      exists ks, direct_run (multi_threshold_before p ra) multi_threshold_setup (steps T (fun i => (rd_f rd mo i m, map (rd_f rd mo i) ts))) = Ok ks /\
        outs = map (fun k => VI (Z.of_nat k)) ks
  | CSwitch a b =>
      exists zs, direct_run switch_before switch_setup (steps T (fun i => (rd_i rd mo i a, rd_i rd mo i b))) = Ok zs /\ outs = map VI zs
  | CDelay m n i =>
      exists qs, remembered unit delay_before delay_after delay_compute (delay_setup n i) (fun mo t => rd_f rd mo t m) T qs /\ outs = map VF qs
  | CDelayIndex m n i =>
      exists zs, remembered unit delay_before delay_after delay_compute (delay_setup n i) (fun mo t => rd_i rd mo t m) T zs /\ outs = map VI zs
  | CRolling m w i mn g =>
      let agg l := Ok (calc_iter_f64 g l) in
      exists qs, remembered unit (rolling_before agg mn i) (rolling_after w) (rolling_compute agg w mn i) rolling_setup (fun mo t => rd_f rd mo t m) T qs /\
        outs = map VF qs
  | CRollingIndex m w i mn g =>
      let agg := calc_iter_u64 Checked g in
      exists zs, remembered unit (rolling_before agg mn i) (rolling_after w) (rolling_compute agg w mn i) rolling_setup (fun mo t => rd_i rd mo t m) T zs /\
        outs = map VI zs
  | _ => rmap (fun t => point rd mo t b) (seq 0 T) = Ok outs
  end.

(** ** A run of the core parameters *)

(** The values of the parameters at [mo] of each time-step. *)
Definition valuation := moment -> nat -> cname -> value.
Definition float_of (v : value) : Q := match v with VF q => q | VI z => inject_Z z end.
Definition int_of (v : value) : Z := match v with VI z => z | VF _ => 0%Z end.

(** pywr-core/src/metric.rs 182-320, 1352-1390 [get_value]: constants, the
    values of parameters before and after the solve, and everything else
    ([other_f], [other_i]). *)
Definition read_f (V : valuation) (other_f : moment -> nat -> lmetric -> Q) (mo : moment) (t : nat) (m : lmetric) : Q :=
  match m with
  | LmConst q => q
  | LmParam parent name None RvBefore => float_of (V Before t (pname_new name parent))
  | LmParam parent name None RvAfter => float_of (V After t (pname_new name parent))
  | _ => other_f mo t m
  end.
Definition read_i (V : valuation) (other_i : moment -> nat -> lindex -> Z) (mo : moment) (t : nat) (m : lindex) : Z :=
  match m with
  | LiConst z => z
  | LiParam name None RvBefore => int_of (V Before t name)
  | LiParam name None RvAfter => int_of (V After t name)
  | _ => other_i mo t m
  end.
Definition reader_of (V : valuation) other_f other_i (date : nat -> datetime) : reader :=
  mkReader (read_f V other_f) (read_i V other_i) date.

(** The equations a run of [T] time-steps satisfies (C19_equations_partial):
    every registered parameter has the values it computes from the readings. *)
Definition runs (V : valuation) other_f other_i (date : nat -> datetime) (T : nat) (cps : list cparam) : Prop :=
  forall c mo, In c cps -> at_moment (body_phase (cp_body c)) mo = true ->
  evaluates (reader_of V other_f other_i date) T mo (cp_body c) (steps T (fun t => V mo t (cp_name c))).
