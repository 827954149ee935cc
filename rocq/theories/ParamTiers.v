(** The core parameters a model file loads into, as the core builds and
    evaluates them: which metrics each builder resolves and for which phase, in
    which store it puts the parameter (constant, simple or general) given the
    classes of these metrics, and what each of the implementations of the
    parameter does.  Sources: pywr-core/src/parameters/*.rs.
    The functions the implementations call are those of Formulas.v,
    ControlCurves.v, Profiles.v, AggFuncs.v and ParamsTemporal.v; the schedule
    in which they are called is that of ParamBuild.v and ParamEval.v.
    Simplification: which error a reading or a calculation ends with is not
    kept. *)
From Coq Require Import QArith.
From Verif Require Import Base Calendar Network AggFuncs ControlCurves Formulas ParamsTemporal Profiles SchemaNodes SchemaVirtual MetricSets SchemaParams ParamBuild ParamEval.
Local Open Scope string_scope.
Local Open Scope list_scope.
Local Open Scope nat_scope.

(** ** Metrics and builders *)

(** The numbers that stand for parameter names, literals and everything that is
    not a parameter in ParamBuild.v. *)
Record coding := Coding {
  cd_name : cname -> nat; cd_key : string -> nat; cd_f : lmetric -> nat; cd_i : lindex -> nat }.

Section Builders.
Variable cd : coding.

(** pywr-core/src/parameters/mod.rs 421-425 [ParameterReturnValue], twice. *)
Definition rv_of (r : MetricSets.return_value) : ParamBuild.return_value :=
  match r with RvBefore => RVBefore | RvAfter => RVAfter | RvAfterOrInitial => RVAfterOrInitial end.

(** pywr-core/src/metric.rs 458-496 [UnresolvedMetricF64] and 1479-1491
    [UnresolvedMetricU64]. *)
Definition uref_f (m : lmetric) : uref :=
  match m with
  | LmConst _ => ULit (cd_f cd m)
  | LmParam parent name None r => UF64 (cd_name cd (pname_new name parent)) (rv_of r)
  | LmParam parent name (Some k) r => UMulti (cd_name cd (pname_new name parent)) (cd_key cd k) (rv_of r)
  | LmNode (SchemaNodes.UNodeMaxFlow _) => ParamBuild.UNodeMaxFlow (cd_f cd m)
  | _ => ParamBuild.UOther (cd_f cd m)
  end.
Definition uref_i (m : lindex) : uref :=
  match m with
  | LiConst _ => ULit (cd_i cd m)
  | LiParam name None r => UU64 (cd_name cd name) (rv_of r)
  | LiParam name (Some k) r => UMulti (cd_name cd name) (cd_key cd k) (rv_of r)
  | LiOther _ => ParamBuild.UOther (cd_i cd m)
  end.

(** The metrics each builder resolves, in order: max.rs 67-82, min.rs 65-80,
    negative.rs 64-78, negativemax.rs 65-80, negativemin.rs 65-80, division.rs
    112-139, aggregated.rs 173-217, aggregated_index.rs 173-221,
    indexed_array.rs 81-98, interpolated.rs 94-117, polynomial.rs 90-107,
    offset.rs 135-150, discount_factor.rs 67-83, threshold.rs 139-157,
    multi_threshold.rs 121-140, asymmetric.rs 94-108, control_curves/simple.rs
    106-127, control_curves/index.rs 80-97, control_curves/interpolated.rs
    103-123, control_curves/piecewise.rs 115-136, delay.rs 252-283 and 291-322,
    rolling.rs 319-354 and 362-397, difference.rs 141-186,
    control_curves/volume_between.rs 90-143; constant.rs and profiles/ have none. *)
Definition body_urefs (b : cbody) : list uref :=
  let given o := match o with Some m => [uref_f m] | None => [] end in
  match b with
  | CConstant _ | CDaily _ | CDiurnal _ | CWeekly _ _ | CMonthly _ _ | CDrawdown _ _ _ => []
  | CMax m _ | CMin m _ | CNegative m | CNegativeMax m _ | CNegativeMin m _ => [uref_f m]
  | CPolynomial m _ _ _ | COffset m _ | CDiscount m _ => [uref_f m]
  | CDivision _ n d => [uref_f n; uref_f d]
  | CAggregated _ _ ms => map uref_f ms
  | CAggregatedIndex _ _ ms => map uref_i ms
  | CIndexedArray i ms => uref_i i :: map uref_f ms
  | CInterpolated x ps _ => uref_f x :: flat_map (fun p => [uref_f (fst p); uref_f (snd p)]) ps
  | CThreshold m t _ _ => [uref_f m; uref_f t]
  | CMultiThreshold m ts _ _ => uref_f m :: map uref_f ts
  | CSwitch a b => [uref_i a; uref_i b]
  | CCurve m cs vs | CCurveInterpolated m cs vs => uref_f m :: map uref_f cs ++ map uref_f vs
  | CCurveIndex m cs | CCurvePiecewise m _ _ cs _ => uref_f m :: map uref_f cs
  | CDelay m _ _ | CRolling m _ _ _ _ => [uref_f m]
  | CDelayIndex m _ _ | CRollingIndex m _ _ _ _ => [uref_i m]
  | CDifference a b mn mx => uref_f a :: uref_f b :: given mn ++ given mx
  | CVolumeBetween t up lo => uref_f t :: given up ++ given lo
  end.

(** metric.rs 424-429 [MetricConsumerPhase], as the constructors [before],
    [after] and [both] of the builders set it (aggregated.rs 133-160,
    aggregated_index.rs 134-160, division.rs 77-104). *)
Definition consumer (ph : param_phase) : consumer_phase :=
  match ph with PhBefore => CBefore | PhAfter => CAfter | PhBoth => CBoth end.

(** The phase for which each builder resolves its metrics. *)
Definition body_consumer (b : cbody) : consumer_phase :=
  match b with
  | CDivision ph _ _ | CAggregated ph _ _ | CAggregatedIndex ph _ _ => consumer ph
  | CDelay _ _ _ | CDelayIndex _ _ _ | CRolling _ _ _ _ _ | CRollingIndex _ _ _ _ _ => CAfter
  | _ => CBefore
  end.

(** metric.rs 382-398, 1442-1458 [try_into_constant_metrics_f64],
    [try_into_simple_metrics_f64] and their copies. *)
Definition all_constant (ks : list mclass) : bool := forallb (fun k => match k with KConst => true | _ => false end) ks.
Definition all_simple (ks : list mclass) : bool := forallb (fun k => match k with KGeneral => false | _ => true end) ks.

(** parameters/mod.rs 789-835 [GeneralParameterEntry::before], [after], [both]
    and [before_with_after_hook]. *)
Definition entry_before : shape := ShGeneral true None.
Definition entry_after : shape := ShGeneral false (Some OpValue).
Definition entry_both : shape := ShGeneral true (Some OpValue).
Definition entry_before_with_after_hook : shape := ShGeneral true (Some OpHook).

(** What each builder makes of the classes of its metrics; a constant and the
    profiles have none (the [build]
    functions cited at [body_urefs]; constant.rs 140-149, profiles/daily.rs
    56-66, diurnal.rs 59-69, weekly.rs 216-227, monthly.rs 125-135,
    uniform_drawdown.rs 102-121). *)
Definition body_shape (b : cbody) (ks : list mclass) : option shape :=
  match b with
  | CConstant _ => match ks with [] => Some ShConst | _ => None end
  | CDaily _ | CDiurnal _ | CWeekly _ _ | CMonthly _ _ | CDrawdown _ _ _ => match ks with [] => Some ShSimple | _ => None end
  | CDivision ph _ _ =>
      match ph with PhBefore => Some entry_before | PhAfter => Some entry_after | PhBoth => Some entry_both end
  | CAggregated ph _ _ | CAggregatedIndex ph _ _ =>
      match ph with
      | PhBefore =>
          if all_constant ks then Some ShConst
          else if all_simple ks then Some ShSimple
          else Some entry_before
      | PhAfter => Some entry_after
      | PhBoth => Some entry_both
      end
  | CDelay _ _ _ | CDelayIndex _ _ _ | CRolling _ _ _ _ _ | CRollingIndex _ _ _ _ _ =>
      if all_simple ks then Some ShSimple else Some entry_before_with_after_hook
  | CDifference _ _ _ _ => if all_simple ks then Some ShSimple else Some entry_before
  | CVolumeBetween _ _ _ => if all_simple ks then Some ShSimple else None
  | _ => Some entry_before
  end.

(** The type of the value: [ParameterBuilder<f64>] or [ParameterBuilder<u64>]. *)
Definition body_type (b : cbody) : ptype :=
  match b with
  | CAggregatedIndex _ _ _ | CThreshold _ _ _ _ | CMultiThreshold _ _ _ _ | CSwitch _ _ | CCurveIndex _ _
  | CDelayIndex _ _ _ | CRollingIndex _ _ _ _ _ => PU64
  | _ => PF64
  end.

(** profiles/uniform_drawdown.rs 107-112: the only builder that refuses its own
    arguments. *)
Definition body_precheck (b : cbody) : bool :=
  match b with
  | CDrawdown d m _ => match reset_day_of_year d m with Some _ => true | None => false end
  | _ => true
  end.

(** The builder of a parameter. *)
Definition builder_of (c : cparam) : pbuilder :=
  PBuilder (cd_name cd (cp_name c)) (body_type (cp_body c)) (body_precheck (cp_body c))
    (map (fun u => (u, body_consumer (cp_body c))) (body_urefs (cp_body c))) (body_shape (cp_body c)).

End Builders.

(** ** Implementations *)

Section Bodies.
Context {X Er : Type}.

(** A value: f64, u64, or anything else (a [MultiValue]). *)
Inductive pvalue := PvF (q : Q) | PvI (z : Z) | PvOther (x : X).

(** parameters/mod.rs 515-520 the internal state: none, a value set from
    outside (constant.rs 39-46), the memory of a delay or rolling parameter, and
    those of threshold, multi-threshold and switch; [SOther] is that of another
    parameter. *)
Inductive pint :=
| SNone
| SValue (v : option Q)
| SMemoryF (l : list Q)
| SMemoryI (l : list Z)
| SActivated (b : bool)
| SPosition (n : nat)
| SSwitch (z : Z)
| SOther (x : X).

(** metric.rs 239-242, 1360-1381 (and 37-44, 81-88, 1283-1289, 1315-1321 for
    constant and simple metrics): a u64 is read as f64 with [as f64]. *)
Definition view (a : access) (v : pvalue) : option pvalue :=
  match a, v with
  | AcF64, PvF q => Some (PvF q)
  | AcU64, PvI z => Some (PvI z)
  | AcU64asF64, PvI z => Some (PvF (inject_Z z))
  | _, _ => None
  end.

(** The reading of a metric, as a number. *)
Definition to_f (r : res Er pvalue) : calc :=
  match r with Ok (PvF q) => Ok q | Panic => Panic | _ => Err (NotRead "metric") end.
Definition to_i (r : res Er pvalue) : res calc_error Z :=
  match r with Ok (PvI z) => Ok z | Panic => Panic | _ => Err (NotRead "metric") end.
Definition to_r (r : res Er pvalue) : reading :=
  match r with Ok (PvF q) => Ok q | Panic => Panic | _ => Err (ReadingFailed "metric") end.

Definition out_f (s : pint) (r : calc) : res calc_error (pvalue * pint) := rbind r (fun q => Ok (PvF q, s)).
Definition out_i (s : pint) (r : res calc_error Z) : res calc_error (pvalue * pint) := rbind r (fun z => Ok (PvI z, s)).

(** [downcast_internal_state_mut] and [downcast_internal_state_ref]
    (parameters/mod.rs 631-653) panic when the state is another one. *)
Definition memory_f (s : pint) : res calc_error (list Q) := match s with SMemoryF l => Ok l | _ => Panic end.
Definition memory_i (s : pint) : res calc_error (list Z) := match s with SMemoryI l => Ok l | _ => Panic end.

(** aggregated.rs 45-57 [before]; aggregated_index.rs 47-59. *)
Definition aggregated_before (g : agg_f64) (rs : list (res Er pvalue)) : calc :=
  rbind (rmap to_f rs) (fun values => Ok (calc_iter_f64 g values)).
Definition aggregated_index_before (g : agg_u64) (rs : list (res Er pvalue)) : res calc_error Z :=
  rbind (rmap to_i rs) (fun values => of_unit (calc_iter_u64 Checked g values)).
(** aggregated.rs 61-73 [after]; aggregated_index.rs 63-75. *)
Definition aggregated_after (g : agg_f64) (rs : list (res Er pvalue)) : calc :=
  rbind (rmap to_f rs) (fun values => Ok (calc_iter_f64 g values)).
Definition aggregated_index_after (g : agg_u64) (rs : list (res Er pvalue)) : res calc_error Z :=
  rbind (rmap to_i rs) (fun values => of_unit (calc_iter_u64 Checked g values)).
(** aggregated.rs 77-89 [compute] of the simple version; aggregated_index.rs
    79-91. *)
Definition aggregated_simple (g : agg_f64) (rs : list (res Er pvalue)) : calc :=
  rbind (rmap to_f rs) (fun values => Ok (calc_iter_f64 g values)).
Definition aggregated_index_simple (g : agg_u64) (rs : list (res Er pvalue)) : res calc_error Z :=
  rbind (rmap to_i rs) (fun values => of_unit (calc_iter_u64 Checked g values)).
(** aggregated.rs 99-112 [compute] of the constant version; aggregated_index.rs
    101-114. *)
Definition aggregated_const (g : agg_f64) (rs : list (res Er pvalue)) : calc :=
  rbind (rmap to_f rs) (fun values => Ok (calc_iter_f64 g values)).
Definition aggregated_index_const (g : agg_u64) (rs : list (res Er pvalue)) : res calc_error Z :=
  rbind (rmap to_i rs) (fun values => of_unit (calc_iter_u64 Checked g values)).

(** threshold.rs 75-99 [before]. *)
Definition threshold_general (p : predicate) (ratchet : bool) (metric threshold : calc) (previously_activated : bool)
    : res calc_error (Z * bool) :=
  if ratchet && previously_activated then Ok (1%Z, previously_activated)
  else
    rbind threshold (fun threshold =>
    rbind metric (fun value =>
      if predicate_apply p value threshold then Ok (1%Z, true) else Ok (0%Z, previously_activated))).

(** multi_threshold.rs 48-80 [before]; the loop stops reading at the first
    threshold that is met. *)
Fixpoint position_loop (p : predicate) (value : Q) (thresholds : list calc) (position : nat) : res calc_error nat :=
  match thresholds with
  | [] => Ok position
  | t :: rest =>
      rbind t (fun t => if predicate_apply p value t then Ok position else position_loop p value rest (position + 1))
  end.
Definition multi_threshold_general (p : predicate) (ratchet : bool) (metric : calc) (thresholds : list calc) (previous_max : nat)
    : res calc_error (nat * nat) :=
  rbind metric (fun value =>
  rbind (position_loop p value thresholds 0) (fun position =>
    if ratchet then
      if previous_max <? position then Ok (position, position) else Ok (previous_max, previous_max)
    else Ok (position, previous_max))).

(** asymmetric.rs 42-67 [before]; the off parameter is read only if it is
    needed. *)
Definition switch_general (on off : res calc_error Z) (current_state : Z) : res calc_error (Z * Z) :=
  rbind on (fun on_value =>
    if (0 <? current_state)%Z then
      if (0 <? on_value)%Z then Ok (current_state, current_state)
      else rbind off (fun off_value => if (off_value =? 0)%Z then Ok (0%Z, 0%Z) else Ok (current_state, current_state))
    else if (0 <? on_value)%Z then Ok (1%Z, 1%Z)
    else Ok (current_state, current_state)).

(** An optional metric among the readings. *)
Definition optional {A B} (o : option A) (l : list B) : option B * list B :=
  match o, l with Some _, r :: tl => (Some r, tl) | _, _ => (None, l) end.

(** difference.rs 46-65 [before] and 69-80 [compute]. *)
Definition difference_read (mn mx : option lmetric) (a b : res Er pvalue) (rest : list (res Er pvalue)) : calc :=
  let (rmn, rest) := optional mn rest in
  let (rmx, _) := optional mx rest in
  difference_before (to_f a) (to_f b) (option_map to_f rmn) (option_map to_f rmx).
(** control_curves/volume_between.rs 30-47 [compute]. *)
Definition volume_read (up lo : option lmetric) (total : res Er pvalue) (rest : list (res Er pvalue)) : calc :=
  let (rup, rest) := optional up rest in
  let (rlo, _) := optional lo rest in
  of_curve (volume_between (to_r total) (option_map to_r rup) (option_map to_r rlo)).

Fixpoint in_pairs {A} (l : list A) : list (A * A) :=
  match l with a :: b :: tl => (a, b) :: in_pairs tl | _ => [] end.

(** [setup] (delay.rs 67-75, rolling.rs 78-86 and 98-106, threshold.rs 54-62,
    multi_threshold.rs 27-35, asymmetric.rs 24-30, constant.rs 39-46; all others,
    also offset.rs, have no state). *)
Definition body_setup (b : cbody) : pint :=
  match b with
  | CConstant _ => SValue None
  | CDelay _ n i => SMemoryF (delay_setup n i)
  | CDelayIndex _ n i => SMemoryI (delay_setup n i)
  | CRolling _ _ _ _ _ => SMemoryF rolling_setup
  | CRollingIndex _ _ _ _ _ => SMemoryI rolling_setup
  | CThreshold _ _ _ _ => SActivated threshold_setup
  | CMultiThreshold _ _ _ _ => SPosition multi_threshold_setup
  | CSwitch _ _ => SSwitch switch_setup
  | _ => SNone
  end.

(** [ConstParameter::compute]: constant.rs 57-64 with 26-31; aggregated.rs,
    aggregated_index.rs. *)
Definition const_body (b : cbody) (rs : list (res Er pvalue)) (s : pint) : res calc_error (pvalue * pint) :=
  match b with
  | CConstant q =>
      match s with
      | SValue (Some value) => Ok (PvF value, s)
      | SValue None => Ok (PvF q, s)
      | _ => Panic
      end
  | CAggregated _ g _ => out_f s (aggregated_const g rs)
  | CAggregatedIndex _ g _ => out_i s (aggregated_index_const g rs)
  | _ => Err PhaseNotEnabled
  end.

(** [SimpleParameter::compute]: profiles/daily.rs 21-27, diurnal.rs 24-30,
    weekly.rs 174-180, monthly.rs 63-89, uniform_drawdown.rs 26-64;
    aggregated.rs, aggregated_index.rs; delay.rs 124-144 and 199-219; rolling.rs
    158-183 and 241-266. *)
Definition simple_body (date : datetime) (b : cbody) (rs : list (res Er pvalue)) (s : pint) : res calc_error (pvalue * pint) :=
  match b with
  | CDaily vs => out_f s (of_profile (daily_profile vs date))
  | CDiurnal vs => out_f s (of_profile (diurnal_profile vs date))
  | CWeekly w i => out_f s (of_profile (weekly_profile w i date))
  | CMonthly vs i => out_f s (of_profile (monthly_profile vs i date))
  | CDrawdown d m r =>
      match reset_day_of_year d m with
      | Some doy => Ok (PvF (uniform_drawdown r doy date), s)
      | None => Err (NotRead "reset date")
      end
  | CAggregated _ g _ => out_f s (aggregated_simple g rs)
  | CAggregatedIndex _ g _ => out_i s (aggregated_index_simple g rs)
  | CDelay _ _ _ =>
      match rs with
      | [m] => rbind (memory_f s) (fun l => rbind (to_f m) (fun v =>
                 rbind (of_unit (delay_compute v l)) (fun p => Ok (PvF (fst p), SMemoryF (snd p)))))
      | _ => Panic
      end
  | CDelayIndex _ _ _ =>
      match rs with
      | [m] => rbind (memory_i s) (fun l => rbind (to_i m) (fun v =>
                 rbind (of_unit (delay_compute v l)) (fun p => Ok (PvI (fst p), SMemoryI (snd p)))))
      | _ => Panic
      end
  | CRolling _ w i mn g =>
      match rs with
      | [m] => rbind (memory_f s) (fun l => rbind (to_f m) (fun v =>
                 rbind (of_unit (rolling_compute (fun l => Ok (calc_iter_f64 g l)) w mn i v l))
                   (fun p => Ok (PvF (fst p), SMemoryF (snd p)))))
      | _ => Panic
      end
  | CRollingIndex _ w i mn g =>
      match rs with
      | [m] => rbind (memory_i s) (fun l => rbind (to_i m) (fun v =>
                 rbind (of_unit (rolling_compute (calc_iter_u64 Checked g) w mn i v l))
                   (fun p => Ok (PvI (fst p), SMemoryI (snd p)))))
      | _ => Panic
      end
  | CDifference _ _ mn mx => match rs with a :: b :: rest => out_f s (difference_read mn mx a b rest) | _ => Panic end
  | CVolumeBetween _ up lo => match rs with t :: rest => out_f s (volume_read up lo t rest) | _ => Panic end
  | _ => Err PhaseNotEnabled
  end.

(** [GeneralBeforeParameter::before] (max.rs 34-42, min.rs 33-40, negative.rs
    33-41, negativemax.rs 33-40, negativemin.rs 33-40, division.rs 33-46,
    indexed_array.rs 34-51, interpolated.rs 36-58, polynomial.rs 36-51,
    discount_factor.rs 33-43, control_curves/simple.rs 35-68, index.rs 34-49,
    interpolated.rs 36-65, piecewise.rs 37-70, delay.rs 88-104 and 163-179,
    rolling.rs 119-133 and 202-216; offset.rs 56-65 panics because it has no
    state, 27-32). *)
Definition before_body (date : datetime) (b : cbody) (rs : list (res Er pvalue)) (s : pint) : res calc_error (pvalue * pint) :=
  match b, rs with
  | CMax _ q, [m] => out_f s (max_param q (to_f m))
  | CMin _ q, [m] => out_f s (min_param q (to_f m))
  | CNegative _, [m] => out_f s (negative_param (to_f m))
  | CNegativeMax _ q, [m] => out_f s (negative_max_param q (to_f m))
  | CNegativeMin _ q, [m] => out_f s (negative_min_param q (to_f m))
  | CDivision _ _ _, [n; d] => out_f s (division (to_f n) (to_f d))
  | CAggregated _ g _, _ => out_f s (aggregated_before g rs)
  | CAggregatedIndex _ g _, _ => out_i s (aggregated_index_before g rs)
  | CIndexedArray _ _, i :: ms =>
      out_f s (indexed_array (rbind (to_i i) (fun z => Ok (Z.to_nat z))) (map to_f ms))
  | CInterpolated _ _ e, x :: ps => out_f s (interpolated (to_f x) (in_pairs (map to_f ps)) e)
  | CPolynomial _ cs sc o, [m] => out_f s (polynomial cs sc o (to_f m))
  | COffset _ _, [m] => Panic
  | CDiscount _ y, [m] => out_f s (discount_factor y (d_year (dt_date date)) (to_f m))
  | CThreshold _ _ p ra, [m; t] =>
      match s with
      | SActivated a => rbind (threshold_general p ra (to_f m) (to_f t) a) (fun r => Ok (PvI (fst r), SActivated (snd r)))
      | _ => Panic
      end
  | CMultiThreshold _ _ p ra, m :: ts =>
      match s with
      | SPosition k => rbind (multi_threshold_general p ra (to_f m) (map to_f ts) k)
                         (fun r => Ok (PvI (Z.of_nat (fst r)), SPosition (snd r)))
      | _ => Panic
      end
  | CSwitch _ _, [a; b] =>
      match s with
      | SSwitch c => rbind (switch_general (to_i a) (to_i b) c) (fun r => Ok (PvI (fst r), SSwitch (snd r)))
      | _ => Panic
      end
  | CCurve _ cs _, m :: rest =>
      out_f s (of_curve (control_curve_value (to_r m) (map to_r (firstn (length cs) rest)) (map to_r (skipn (length cs) rest))))
  | CCurveIndex _ _, m :: cs =>
      out_i s (rbind (of_curve (control_curve_index (to_r m) (map to_r cs))) (fun k => Ok (Z.of_nat k)))
  | CCurveInterpolated _ cs _, m :: rest =>
      out_f s (of_curve (control_curve_interpolated (to_r m) (map to_r (firstn (length cs) rest)) (map to_r (skipn (length cs) rest))))
  | CCurvePiecewise _ hi lo _ vs, m :: cs =>
      out_f s (of_curve (piecewise_interpolated (to_r m) hi lo (map to_r cs) vs))
  | CDelay _ _ _, _ =>
      rbind (memory_f s) (fun l => rbind (of_unit (delay_before l)) (fun p => Ok (PvF (fst p), SMemoryF (snd p))))
  | CDelayIndex _ _ _, _ =>
      rbind (memory_i s) (fun l => rbind (of_unit (delay_before l)) (fun p => Ok (PvI (fst p), SMemoryI (snd p))))
  | CRolling _ _ i mn g, _ =>
      rbind (memory_f s) (fun l =>
      rbind (of_unit (rolling_before (fun l => Ok (calc_iter_f64 g l)) mn i l)) (fun p => Ok (PvF (fst p), SMemoryF (snd p))))
  | CRollingIndex _ _ i mn g, _ =>
      rbind (memory_i s) (fun l =>
      rbind (of_unit (rolling_before (calc_iter_u64 Checked g) mn i l)) (fun p => Ok (PvI (fst p), SMemoryI (snd p))))
  | CDifference _ _ mn mx, a :: b :: rest => out_f s (difference_read mn mx a b rest)
  | _, _ => Err PhaseNotEnabled
  end.

(** [GeneralAfterParameter::after]: division.rs 50-63; aggregated.rs,
    aggregated_index.rs. *)
Definition after_body (b : cbody) (rs : list (res Er pvalue)) (s : pint) : res calc_error (pvalue * pint) :=
  match b, rs with
  | CDivision _ _ _, [n; d] => out_f s (division (to_f n) (to_f d))
  | CAggregated _ g _, _ => out_f s (aggregated_after g rs)
  | CAggregatedIndex _ g _, _ => out_i s (aggregated_index_after g rs)
  | _, _ => Err PhaseNotEnabled
  end.

(** [GeneralAfterParameterHook::after]: delay.rs 107-120 and 182-195, rolling.rs
    136-154 and 219-237. *)
Definition hook_body (b : cbody) (rs : list (res Er pvalue)) (s : pint) : res calc_error pint :=
  match b, rs with
  | CDelay _ _ _, [m] => rbind (memory_f s) (fun l => rbind (to_f m) (fun v => Ok (SMemoryF (delay_after v l))))
  | CDelayIndex _ _ _, [m] => rbind (memory_i s) (fun l => rbind (to_i m) (fun v => Ok (SMemoryI (delay_after v l))))
  | CRolling _ w _ _ _, [m] => rbind (memory_f s) (fun l => rbind (to_f m) (fun v => Ok (SMemoryF (rolling_after w v l))))
  | CRollingIndex _ w _ _ _, [m] => rbind (memory_i s) (fun l => rbind (to_i m) (fun v => Ok (SMemoryI (rolling_after w v l))))
  | _, _ => Err PhaseNotEnabled
  end.

(** An error of a parameter as an error of the network. *)
Definition lift {A} (er : calc_error -> Er) (r : res calc_error A) : res Er A :=
  match r with Ok a => Ok a | Err e => Err (er e) | Panic => Panic end.

End Bodies.

Arguments pvalue : clear implicits.
Arguments pint : clear implicits.

(** The evaluation of a network ([sem] of ParamEval.v) in which the parameters
    [cps] do what is modelled here.  Nothing is said about other parameters,
    the nodes, the solver or the metrics that read the network. *)
Record implements {X Env Net Er : Type} (cd : coding) (env_date : Env -> datetime) (er : calc_error -> Er)
    (sm : sem (pvalue X) (pint X) Env Net Er) (cps : list cparam) : Prop := {
  im_view : forall a v, (forall k, a <> AcMulti k) ->
    sm_view sm a v = match view a v with Some w => Ok w | None => Err (er (NotRead "metric")) end;
  im_lit_f : forall q, sm_lit sm (cd_f cd (LmConst q)) = PvF q;
  im_lit_i : forall z, sm_lit sm (cd_i cd (LiConst z)) = PvI z;
  im_setup : forall c, In c cps -> sm_init sm (cd_name cd (cp_name c)) = body_setup (cp_body c);
  im_const : forall c, In c cps -> forall rs s,
    sm_const sm (cd_name cd (cp_name c)) rs s = lift er (const_body (cp_body c) rs s);
  im_simple : forall c, In c cps -> forall env rs s,
    sm_simple sm env (cd_name cd (cp_name c)) rs s = lift er (simple_body (env_date env) (cp_body c) rs s);
  im_before : forall c, In c cps -> forall env rs s,
    sm_before sm env (cd_name cd (cp_name c)) rs s = lift er (before_body (env_date env) (cp_body c) rs s);
  im_after : forall c, In c cps -> forall env rs s,
    sm_after sm env (cd_name cd (cp_name c)) rs s = lift er (after_body (cp_body c) rs s);
  im_hook : forall c, In c cps -> forall env rs s,
    sm_hook sm env (cd_name cd (cp_name c)) rs s = lift er (hook_body (cp_body c) rs s) }.
