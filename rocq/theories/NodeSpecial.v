(** Two parameters that nodes of a model file create for themselves and that a
    model file cannot, or not in this form, declare: the coefficients of
    Muskingum routing and the power of a turbine; and a third that an output
    creates when its deficit is asked for.  Sources:
    pywr-core/src/parameters/muskingum.rs, hydropower.rs, deficit.rs;
    pywr-core/src/state/mod.rs 229-231. *)
From Coq Require Import Ascii String.
From Coq Require Import QArith.
From Verif Require Import Base Timestep Formulas Network SchemaNodes MetricSets SchemaParams ParamBuild ParamEval ParamTiers NodeParams.
Local Open Scope string_scope.
Local Open Scope list_scope.
Local Open Scope nat_scope.

Inductive special :=
(** muskingum.rs 126-136 *)
| SpMuskingum (p : SchemaNodes.pname) (inflow outflow travel_time weight : lmetric) (initial : option (Q * Q))
(** hydropower.rs 151-164, with an actual flow and without limits of the flow,
    as turbine.rs 199-213 makes it *)
| SpHydropower (p : SchemaNodes.pname) (flow : lmetric) (target elevation : option lmetric) (h : hydro)
(** deficit.rs 15-19.  In place of the metric "maximum flow of a node"
    [max_flow] is the metric that gives the maximum flow, which is what is read
    (pywr-core/src/metric.rs 186-190); where the maximum flow is itself a value
    after the solve the order of the two values is not modelled. *)
| SpDeficit (p : SchemaNodes.pname) (flow max_flow : lmetric).

Definition special_name (s : special) : cname :=
  match s with SpMuskingum p _ _ _ _ _ | SpHydropower p _ _ _ _ | SpDeficit p _ _ => own_name p end.

Section Made.
Variable name : nat -> lmetric.

(** The parameter that a node registers: river.rs 380-389, turbine.rs 199-216. *)
Definition registered_special (d : pdecl) : option special :=
  match d with
  | PMuskingum p i o k w ini => Some (SpMuskingum p (metric_of name i) (metric_of name o) (metric_of name k) (metric_of name w) ini)
  | PHydropower p fl tg el h => Some (SpHydropower p (metric_of name fl) (option_map (metric_of name) tg) (option_map (metric_of name) el) h)
  | _ => None
  end.

(** pywr-schema/src/nodes/core.rs 757-789 [create_metric]: the parameter that an
    output registers when its deficit is asked for and that is not there yet.
    node.rs 845-850: without a maximum flow it is the largest number. *)
Definition asked_deficit (n : snode) : option special :=
  match n with
  | SOutput o _ _ mx =>
      Some (SpDeficit (o, "deficit") (LmNode (UNodeInFlow (whole o))) (match mx with Some m => metric_of name m | None => LmConst F64_MAX end))
  | _ => None
  end.
End Made.

Definition given_refs (cd : coding) (ph : consumer_phase) (m : option lmetric) : list (uref * consumer_phase) :=
  match m with Some m => [(uref_f cd m, ph)] | None => [] end.

(** muskingum.rs 163-184, hydropower.rs 190-295 and deficit.rs 72-88 [build]: the metrics in
    the order in which they are resolved, the phase in which each is used, and
    what is built. *)
Definition special_builder (cd : coding) (s : special) : pbuilder :=
  match s with
  | SpMuskingum _ i o k w _ =>
      PBuilder (cd_name cd (special_name s)) PMulti true (map (fun m => (uref_f cd m, CBefore)) [i; o; k; w])
        (fun _ => Some (ShGeneral true None))
  | SpHydropower _ fl tg el _ =>
      PBuilder (cd_name cd (special_name s)) PF64 true
        ([(uref_f cd fl, CAfter)] ++ given_refs cd CBefore tg ++ given_refs cd CBoth el)
        (fun _ => Some (ShGeneral (match tg with Some _ => true | None => false end) (Some OpValue)))
  | SpDeficit _ fl mx =>
      PBuilder (cd_name cd (special_name s)) PF64 true (map (fun m => (uref_f cd m, CAfter)) [fl; mx]) (fun _ => Some (ShGeneral false (Some OpValue)))
  end.

Section Evaluation.
Context {X Er : Type}.
(** state/mod.rs [MultiValue::new] from the entries of its map. *)
Variable multi : list (string * Q) -> X.

(** The reading of an optional metric and the readings that remain. *)
Definition take {A R} (m : option A) (rs : list R) : option R * list R :=
  match m, rs with
  | Some _, r :: rs => (Some r, rs)
  | _, _ => (None, rs)
  end.

(** muskingum.rs 63-99 [before]; hydropower.rs 70-114 [before].  Neither has
    a state of its own. *)
Definition special_before (first : bool) (s : special) (rs : list (res Er (pvalue X))) : res calc_error (pvalue X) :=
  match s with
  | SpMuskingum _ _ _ _ _ ini =>
      match rs with
      | [i; o; k; w] =>
          rbind (muskingum_before first ini (to_f i) (to_f o) (to_f k) (to_f w)) (fun v =>
            Ok (PvOther (multi [("inflow_factor", fst v); ("rhs", snd v)])))
      | _ => Err (NotRead "metrics")
      end
  | SpHydropower _ _ tg el h =>
      let t := take tg rs in
      let e := take el (snd t) in
      rbind (hydropower_before h (option_map to_f (fst t)) (option_map to_f (fst e)) None None) (fun q => Ok (PvF q))
  | SpDeficit _ _ _ => Err PhaseNotEnabled
  end.

(** hydropower.rs 117-147 [after]; deficit.rs 37-48 [after]. *)
Definition special_after (s : special) (rs : list (res Er (pvalue X))) : res calc_error (pvalue X) :=
  match s, rs with
  | SpHydropower _ _ tg el h, fl :: rs =>
      let t := take tg rs in
      let e := take el (snd t) in
      rbind (hydropower_after h (Some (to_f fl)) (option_map to_f (fst e))) (fun q => Ok (PvF q))
  | SpDeficit _ _ _, [fl; mx] => rbind (deficit (to_f fl) (to_f mx)) (fun q => Ok (PvF q))
  | _, _ => Err PhaseNotEnabled
  end.
End Evaluation.

(** The evaluation of a network in which the parameters [sps] do what is
    modelled here.  state/mod.rs 229-231 [MultiValue::get_value]: a value of
    several is looked up by its key (said here of the values of Muskingum routing). *)
Record implements_special {X Net Er : Type} (cd : coding) (er : calc_error -> Er)
    (sm : sem (pvalue X) (pint X) timestep Net Er) (sps : list special) (multi : list (string * Q) -> X) : Prop := {
  is_multi : forall f r, let x := PvOther (multi [("inflow_factor", f); ("rhs", r)]) in
    sm_view sm (AcMulti (cd_key cd "inflow_factor")) x = Ok (PvF f) /\ sm_view sm (AcMulti (cd_key cd "rhs")) x = Ok (PvF r);
  is_before : forall s, In s sps -> forall env rs x,
    sm_before sm env (cd_name cd (special_name s)) rs x = lift er (rbind (special_before multi (is_first env) s rs) (fun v => Ok (v, x)));
  is_after : forall s, In s sps -> forall env rs x,
    sm_after sm env (cd_name cd (special_name s)) rs x = lift er (rbind (special_after s rs) (fun v => Ok (v, x))) }.
