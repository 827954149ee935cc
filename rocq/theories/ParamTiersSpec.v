(** What the recorded values of a run have to do with the values of the
    parameters. *)
From Coq Require Import QArith.
From Verif Require Import Base Calendar Profiles MetricSets SchemaParams ParamBuild ParamEval ParamEvalSpec ParamTiers.
Local Open Scope list_scope.
Local Open Scope nat_scope.

(** A network that contains the parameters [cps], perhaps among others, and does
    not refer to the maximum flow of a node (C19 says why). *)
Definition network_of (cd : coding) (cps : list cparam) (bs : list pbuilder) (nd : network_def) : Prop :=
  (forall c, In c cps -> In (builder_of cd c) bs) /\ plain_builders bs /\ plain_network nd /\
  (forall b, In b bs -> (exists c, builder_of cd c = b) \/ well_typed b).

(** The values recorded at the end of each time-step for the metrics [out] are
    those of these metrics after the solve. *)
Definition records {X Er : Type} (cd : coding) (V : valuation) (other_f : moment -> nat -> lmetric -> Q) (other_i : moment -> nat -> lindex -> Z)
    (out : list uref) (outss : list (list (res Er (pvalue X)))) : Prop :=
  forall t outs i, nth_error outss t = Some outs ->
    (forall m q, nth_error out i = Some (uref_f cd m) -> nth_error outs i = Some (Ok (PvF q)) -> read_f V other_f After t m = q) /\
    (forall m z, nth_error out i = Some (uref_i cd m) -> nth_error outs i = Some (Ok (PvI z)) -> read_i V other_i After t m = z).

(** What is not a parameter is read from the state of the network, which is
    that after the solve of the time-step, or that before it, from which the
    solver started. *)
Definition observes {Env Net Er X : Type} (sm : sem (pvalue X) (pint X) Env Net Er) (cd : coding) (envs : list Env) (nets : moment -> nat -> Net)
    (other_f : moment -> nat -> lmetric -> Q) (other_i : moment -> nat -> lindex -> Z) : Prop :=
  (forall t env, nth_error envs t = Some env ->
     (exists rs, sm_solve sm env rs (nets Before t) = Ok (nets After t)) /\
     (forall t', t = S t' -> exists rs, sm_nodes_before sm env rs (nets After t') = Ok (nets Before t))) /\
  (forall mo t m q, t < length envs -> uref_f cd m = ParamBuild.UOther (cd_f cd m) ->
     sm_observe sm (nets mo t) (cd_f cd m) = Ok (PvF q) -> other_f mo t m = q) /\
  (forall mo t m z, t < length envs -> uref_i cd m = ParamBuild.UOther (cd_i cd m) ->
     sm_observe sm (nets mo t) (cd_i cd m) = Ok (PvI z) -> other_i mo t m = z).

(** ** Which parameters can be built *)

(** Parameters that read their metrics after the solve. *)
Definition reads_after (b : cbody) : Prop :=
  match b with
  | CDivision PhAfter _ _ | CAggregated PhAfter _ _ | CAggregatedIndex PhAfter _ _ => True
  | CDelay _ _ _ | CDelayIndex _ _ _ | CRolling _ _ _ _ _ | CRollingIndex _ _ _ _ _ => True
  | _ => False
  end.

(** What a metric refers to has the value the metric asks for, and has it by the
    time the metric is read. *)
Definition readable (cd : coding) (cps : list cparam) (nodes other : list nat) (b : cbody) (u : uref) : Prop :=
  match u with
  | ULit _ => True
  | ParamBuild.UNodeMaxFlow k => In k nodes
  | ParamBuild.UOther k => In k other
  | UF64 n rv | UU64 n rv | UMulti n _ rv =>
      forall c, In c cps -> cd_name cd (cp_name c) = n ->
      match rv with
      | RVBefore => at_moment (body_phase (cp_body c)) Before = true
      | RVAfter => at_moment (body_phase (cp_body c)) After = true /\ reads_after b
      | RVAfterOrInitial => at_moment (body_phase (cp_body c)) After = true
      end
  end.

(** The date at which a drawdown starts again is one of the calendar. *)
Definition reset_exists (b : cbody) : Prop :=
  match b with CDrawdown d m _ => reset_day_of_year d m <> None | _ => True end.

(** A parameter a file can give: what reads a volume between two control curves
    is only made for the stores of a storage node. *)
Definition not_made_by_storage (b : cbody) : Prop := match b with CVolumeBetween _ _ _ => False | _ => True end.
