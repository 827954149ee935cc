(** C83: a Pywr v1 parameter or node becomes one that means the same, or is
    refused with an error that names it. *)
From Coq Require Import QArith Lia.
From Verif Require Import Base Calendar Network NetworkBuildLemmas AggFuncs ControlCurves ParamsTemporalSpec SchemaNodes MetricSets SchemaParams SchemaParamsSpec V1Convert V1Components V1ComponentsSpec V1ComponentsLemmas.
Local Open Scope string_scope.
Local Open Scope list_scope.
Local Open Scope nat_scope.

(** ** Parameters *)

(** If the metric a value becomes reads only what the value stands for, then a
    parameter whose conversion succeeds and whose new form has its meaning has the
    meaning of the v1 parameter.  Missing: the meaning of RBF profiles (see
    [C83_rbf]), and control curves without values of a virtual storage (see
    [C83_bare_curve_refuted]). *)
Theorem C83_parameters_partial :
  forall args W other_f other_i date T tv chosen sc name (V : Type) (cv : V -> option smetric) (ci : V -> option imetric)
         (rv : moment -> nat -> V -> Q -> Prop) (ri : moment -> nat -> V -> Z -> Prop) virtuals,
  (forall v m mo t q, cv v = Some m -> reads args W other_f sc mo t m q -> rv mo t v q) ->
  (forall v m mo t z, ci v = Some m -> reads_i W other_i sc mo t m z -> ri mo t v z) ->
  forall b r, ~ bare_curve_of_virtual virtuals b ->
  conv_body V cv ci virtuals name b = Ok r ->
  v2_means args W other_f other_i date T tv chosen sc name r ->
  v1_means args W other_f other_i date T tv chosen sc name V rv ri virtuals b.
Proof. intros. eapply conv_means; eassumption. Qed.
Print Assumptions C83_parameters_partial.

(** A parameter is accepted if and only if its attributes are there and of the
    kinds that are supported, and converting one does not panic. *)
Theorem C83_accepted :
  forall (V : Type) cv ci virtuals name (b : v1_body V),
  ((exists r, conv_body V cv ci virtuals name b = Ok r) <-> supported cv ci b) /\ conv_body V cv ci virtuals name b <> Panic.
Proof.
  intros. pose proof (conv_supported V cv ci virtuals name b) as H. destruct (conv_body V cv ci virtuals name b) as [r|e|]; cbn in H; [| |contradiction].
  - split; [split; [auto | eauto] | discriminate].
  - split; [split; [intros (r & E); discriminate | intros S; contradiction] | discriminate].
Qed.
Print Assumptions C83_accepted.

(** An error is about the parameter, and if it says that the value of an
    attribute cannot be converted, then a value of that attribute cannot (or it is
    a table that cannot). *)
Theorem C83_reported :
  forall (V : Type) cv ci virtuals name (b : v1_body V) e,
  conv_body V cv ci virtuals name b = Err e ->
  names e = name /\
  forall a, blames e a -> (exists v, In (a, v) (attribute_values b) /\ (cv v = None \/ ci v = None)) \/ a = "table" /\ has_table b.
Proof. intros. apply conv_fair in H. exact H. Qed.
Print Assumptions C83_reported.

(** The points of an RBF profile are the days and values at the same position, up
    to the end of the shorter list; the function is the one named, with the epsilon
    given if it has one, or multiquadric if none is named. *)
Theorem C83_rbf :
  forall (V : Type) cv ci virtuals name days values kw r,
  conv_body V cv ci virtuals name (V1Rbf days values kw) = Ok r ->
  exists points f, r = NbRbf points f /\
    length points = Nat.min (length days) (length values) /\
    (forall k d q, nth_error points k = Some (d, q) <-> nth_error days k = Some d /\ nth_error values k = Some q) /\
    exists eps, match kwarg_of kw "epsilon" with Some e => exists q, e = KNumber q /\ eps = Some q | None => eps = None end /\
    match kwarg_of kw "function" with
    | None => f = RfMultiQuadric eps
    | Some g => exists s, g = KString s /\
        In (s, f) [("multiquadric", RfMultiQuadric eps); ("inverse", RfInverse eps); ("gaussian", RfGaussian eps);
                   ("linear", RfLinear); ("cubic", RfCubic); ("thin_plate", RfThinPlate)]
    end.
Proof.
  intros V cv ci virtuals name days values kw r H. cbn [conv_body] in H. apply rbind_Ok in H. destruct H as (f & Hf & H). injection H as <-.
  exists (combine days values), f. split; [reflexivity|]. split; [apply combine_length|]. split.
  - clear. revert values. induction days as [|d days IH]; intros [|q values] [|k] d' q'; cbn; split; intros H; try (destruct H; congruence); try discriminate.
    + injection H as <- <-. auto.
    + apply IH. exact H.
    + apply IH. exact H.
  - unfold conv_rbf in Hf. destruct (kwarg_of kw "smooth"); [discriminate|]. destruct (kwarg_of kw "norm"); [discriminate|].
    apply rbind_Ok in Hf. destruct Hf as (eps & He & Hf). exists eps. split.
    + destruct (kwarg_of kw "epsilon") as [[]|]; inversion He; eauto.
    + destruct (kwarg_of kw "function") as [[]|]; try discriminate; [|injection Hf as <-; reflexivity]. exists s. split; [reflexivity|].
      repeat match type of Hf with context [String.eqb ?g ?w] => destruct (String.eqb_spec g w); [injection Hf as <-; subst; cbn; tauto|] end. discriminate.
Qed.
Print Assumptions C83_rbf.

(** ** What is not kept *)

(** A control curve without values of a virtual storage becomes one of a node
    of that name; and so do thresholds, interpolations, polynomials and rolling
    means of virtual storages.  If no node has that name none of them can be
    loaded. *)
Theorem C83_bare_curve_refuted :
  forall (V : Type) cv ci virtuals name n cs c r,
  In n virtuals -> conv_body V cv ci virtuals name (V1Curve n cs c None None) = Ok r ->
  exists curves, r = NbBody (SpCurveIndex (MNode n (Some AtPropVolume)) curves).
Proof.
  intros V cv ci virtuals name n cs c r I H. cbn [conv_body] in H. destruct (conv_curve V cv virtuals name n cs c None None) eqn:E; [|unfold nb, conv_curve_as_index in H|discriminate].
  - exfalso. unfold conv_curve in E. destruct (conv_curves V cv name cs c); discriminate.
  - apply rbind_Ok in H. destruct H as (x & H1 & H). injection H as <-. apply rbind_Ok in H1. destruct H1 as (l & H1 & H). injection H as <-. eauto.
Qed.
Print Assumptions C83_bare_curve_refuted.

(** The node, or storage, a parameter is about. *)
Definition about {V} (b : v1_body V) : option string :=
  match b with
  | V1NodeThreshold n _ _ _ | V1StorageThreshold n _ _ _ | V1MultiThreshold n _ | V1InterpolatedFlow n _ _ _
  | V1InterpolatedVolume n _ _ _ | V1Polynomial _ n _ _ _ | V1Rolling n _ _ _ | V1Curve n _ _ None None => Some n
  | _ => None
  end.
Theorem C83_of_virtual_refuted :
  forall (V : Type) cv ci virtuals name (b : v1_body V) n r args parent,
  about b = Some n -> conv_body V cv ci virtuals name b = Ok r ->
  (forall x, In x (sc_nodes (la_schema args)) -> snode_name x <> n) ->
  exists body, r = NbBody body /\ forall cps, load_body args parent name body <> Ok cps.
Proof.
  intros V cv ci virtuals name b n r args parent A C N.
  assert (L : forall p a, of_metric (load_metric args p (MNode n a)) = Err (PlMetric (MsSchema (SchemaNodeNotFound n)))).
  { intros p a. cbn. unfold lookup_node, find_node, get_node_by_name. destruct (find _ _) eqn:F; [|reflexivity].
    apply find_some in F. destruct F as (F1 & F2). apply String.eqb_eq in F2. destruct (N _ F1 F2). }
  destruct b; cbn [about] in A; try discriminate; try (injection A as ->); cbn [conv_body] in C; unfold nb in C;
    repeat match goal with
    | H : rbind _ _ = Ok _ |- _ => apply rbind_Ok in H; destruct H as (? & ? & H)
    | H : Ok _ = Ok _ |- _ => injection H as <-
    end; try (eexists; split; [reflexivity|]; intros cps; cbn [load_body]; rewrite L; cbn; discriminate).
  - destruct values; [discriminate|]. destruct parameters; [discriminate|]. injection A as ->.
    destruct (conv_curve V cv virtuals name n curves curve None None) eqn:E; [exfalso; unfold conv_curve in E; destruct (conv_curves V cv name curves curve); discriminate| |discriminate].
    unfold conv_curve_as_index in C. apply rbind_Ok in C. destruct C as (x & C1 & C). injection C as <-. apply rbind_Ok in C1. destruct C1 as (l & C1 & C). injection C as <-.
    eexists. split; [reflexivity|]. intros cps. cbn [load_body]. rewrite L. cbn. discriminate.
  - destruct timesteps, days; try discriminate; injection C as <-; (eexists; split; [reflexivity|]; intros cps; cbn [load_body]; rewrite L; cbn; discriminate).
Qed.
Print Assumptions C83_of_virtual_refuted.

(** A control curve whose parameter cannot be converted is reported as having
    parameters it should not have; and if it has values its parameters are dropped
    whether they can be converted or not. *)
Theorem C83_curve_error_refuted :
  forall (V : Type) cv ci virtuals name n (c p : V),
  cv c <> None -> cv p = None ->
  conv_body V cv ci virtuals name (V1Curve n None (Some c) None (Some [p])) = Err (PErr name "values" (WUnexpected ["values"; "parameters"])).
Proof.
  intros. cbn. unfold conv_curve, conv_curve_as_index, metric_attr. cbn. destruct (cv c) eqn:E; [|contradiction]. unfold metric_attr. rewrite E. cbn. unfold metric_attr. rewrite H0. reflexivity.
Qed.
Print Assumptions C83_curve_error_refuted.

Theorem C83_both_given_refuted :
  forall (V : Type) cv ci virtuals name n cs c vs (ps qs : option (list V)),
  conv_body V cv ci virtuals name (V1Curve n cs c (Some vs) ps) = conv_body V cv ci virtuals name (V1Curve n cs c (Some vs) qs) \/
  exists e, conv_body V cv ci virtuals name (V1Curve n cs c (Some vs) ps) = Err e.
Proof.
  intros. cbn [conv_body]. unfold conv_curve, conv_curve_as_index, nb. destruct (conv_curves V cv name cs c); cbn; [left; reflexivity | right; eauto | left; reflexivity].
Qed.
Print Assumptions C83_both_given_refuted.

(** A base year is kept modulo 2^16. *)
Theorem C83_year_refuted :
  forall (V : Type) cv ci virtuals name rate y,
  conv_body V cv ci virtuals name (V1Discount rate (y + 65536)) = conv_body V cv ci virtuals name (V1Discount rate y).
Proof. intros. cbn. unfold as_i16. do 4 f_equal. replace (y + 65536 + 32768)%Z with ((y + 32768) + 1 * 65536)%Z by lia. rewrite Z_mod_plus_full. reflexivity. Qed.
Print Assumptions C83_year_refuted.

(** ** Nodes *)

(** A node whose conversion succeeds becomes the one that [becomes] describes. *)
Theorem C83_nodes :
  forall (V : Type) cn name (n : v1_nbody V) r, conv_nbody V cn name n = Ok r -> becomes cn name n r.
Proof. intros. apply node_becomes. assumption. Qed.
Print Assumptions C83_nodes.

Theorem C83_nodes_accepted :
  forall (V : Type) cn name (n : v1_nbody V),
  ((exists r, conv_nbody V cn name n = Ok r) <-> nsupported cn n) /\ conv_nbody V cn name n <> Panic.
Proof.
  intros. pose proof (node_supported V cn name n) as H. destruct (conv_nbody V cn name n) as [r|e|]; cbn in H; [| |contradiction].
  - split; [split; [auto | eauto] | discriminate].
  - split; [split; [intros (r & E); discriminate | intros S; contradiction] | discriminate].
Qed.
Print Assumptions C83_nodes_accepted.

(** Missing: catchments. *)
Theorem C83_nodes_reported_partial :
  forall (V : Type) cn name (n : v1_nbody V) e, ~ is_catchment n -> conv_nbody V cn name n = Err e ->
  names e = name /\ forall a, blames e a -> exists v, In (a, v) (node_values n) /\ cn v = None.
Proof.
  intros V cn name n e N H. destruct (node_fair V cn name n N e H) as (A & B). split; [exact A|]. intros a Ha. destruct (B a Ha) as [X|[]]. exact X.
Qed.
Print Assumptions C83_nodes_reported_partial.

(** The flow of a catchment that cannot be converted is reported as an
    attribute that catchments do not have; a factor of an aggregated node as that of
    a parameter. *)
Theorem C83_nodes_reported_refuted :
  forall (V : Type) cn name (v : V), cn v = None ->
  conv_nbody V cn name (N1Catchment None (Some v)) = Err (NErr name "min_flow" WValue) /\
  ~ In "min_flow" (map fst (node_values (N1Catchment (Some v) (Some v)))) /\
  forall nodes, conv_nbody V cn name (N1Aggregated nodes (Some [v]) None None) = Err (PErr name "factors" WValue).
Proof.
  intros V cn name v H. cbn. unfold node_attr. rewrite H. split; [reflexivity|]. split; [|reflexivity]. cbn. intuition discriminate.
Qed.
Print Assumptions C83_nodes_reported_refuted.

(** No slot that an edge of a v1 file can have leads to one of the parts of
    a converted split: an edge from it is refused or connects all of them. *)
Theorem C83_split_edges_refuted :
  forall (V : Type) cn name m mc fs slots r,
  conv_nbody V cn name (N1RiverSplitGauge m mc fs slots) = Ok r ->
  exists node, r = NewNode node /\
    forall s slot, conv_slot s = Some slot ->
      output_connectors node (Some slot) = output_connectors node None \/ exists e, output_connectors node (Some slot) = Err e.
Proof.
  intros V cn name m mc fs slots r H. cbn [conv_nbody] in H.
  repeat match goal with H : rbind _ _ = Ok _ |- _ => apply rbind_Ok in H; destruct H as (? & ? & H) end. injection H as <-.
  eexists. split; [reflexivity|]. intros s slot Hs. unfold conv_slot in Hs.
  repeat match type of Hs with context [String.eqb ?g ?w] => destruct (String.eqb g w); [injection Hs as <-; cbn; first [left; reflexivity | right; eexists; reflexivity]|] end. discriminate.
Qed.
Print Assumptions C83_split_edges_refuted.

(** Steps of a piecewise link that have a cost but no maximum in their list, or
    the other way round, are dropped without an error. *)
Theorem C83_steps_dropped_refuted :
  forall (V : Type) cn name n (costs : list V) maxs, Forall (fun v => cn v <> None) costs -> Forall (fun o => forall v, o = Some v -> cn v <> None) maxs ->
  exists steps, conv_nbody V cn name (N1PiecewiseLink n (Some costs) (Some maxs)) = Ok (NewNode (SPiecewiseLink name steps)) /\
    length steps = Nat.min (length costs) (length maxs).
Proof.
  intros V cn name n costs maxs Hc Hm.
  destruct (C83_nodes_accepted V cn name (N1PiecewiseLink n (Some costs) (Some maxs))) as ((_ & A) & _).
  destruct A as (r & Hr). { split; intros l E; injection E as <-; [exact Hc | exact Hm]. }
  pose proof (C83_nodes _ _ _ _ _ Hr) as (steps & L & _ & _ & _ & ->). exists steps. auto.
Qed.
Print Assumptions C83_steps_dropped_refuted.

(** A delay in days becomes one of as many time-steps, however long they are;
    and of two delays or two initial volumes one is dropped. *)
Theorem C83_delay_days_refuted :
  forall (V : Type) (cn : V -> option umetric) name d other i,
  conv_nbody V cn name (N1Delay (Some d) other i) = conv_nbody V cn name (N1Delay None (Some d) i).
Proof. reflexivity. Qed.
Print Assumptions C83_delay_days_refuted.

Theorem C83_two_volumes_refuted :
  forall (V : Type) (cn : V -> option umetric) name c mn mx v pc,
  conv_nbody V cn name (N1Storage c mn mx (Some v) (Some pc)) = conv_nbody V cn name (N1Storage c mn mx (Some v) None).
Proof. reflexivity. Qed.
Print Assumptions C83_two_volumes_refuted.

(** ** Examples *)

Definition vc_args : load_args := mkArgs (mkSchema [SStorage "res" (mkStorage None None None (SIAbsolute 5%Q))] [] []) [] (fun _ _ => None) (fun _ _ => None).
Definition vc_cv (q : Q) : option smetric := if Qeq_bool q 99 then None else Some (MLiteral q).
Definition vc_ci (q : Q) : option imetric := None.
Definition vc_W : valuation := fun _ t _ => VI (if (t <? 2)%nat then 1%Z else 0%Z).
Definition vc_other (_ : moment) (t : nat) (_ : lmetric) : Q := inject_Z (Z.of_nat t).

(** The level of a storage is compared with a value: the hypotheses of
    [C83_parameters_partial] hold of it. *)
Example C83_example :
  exists r,
    conv_body Q vc_cv vc_ci [] "p" (V1StorageThreshold "res" 2%Q None P1LT) = Ok r /\
    (forall v m mo t q, vc_cv v = Some m -> reads vc_args vc_W vc_other None mo t m q -> (v == q)%Q) /\
    forall oi date tv chosen, v2_means vc_args vc_W vc_other oi date 4 tv chosen None "p" r.
Proof.
  eexists. split; [reflexivity|]. split.
  - intros v m mo t q H R. unfold vc_cv in H. destruct (Qeq_bool v 99); [discriminate|]. injection H as <-. inversion R; subst; [reflexivity|]. destruct H.
  - intros. cbn. exists [0; 1; 2; 3]%Q, [2; 2; 2; 2]%Q. split; [|split].
    + split; [reflexivity|]. intros t x H. assert (E : x = vc_other Before t (LmNode (UNodeVolume (whole "res")))).
      { do 4 (destruct t as [|t]; [injection H as <-; reflexivity|]). destruct t; discriminate. }
      rewrite E. apply reads_other; [exact I | reflexivity].
    + split; [reflexivity|]. intros t x H. assert (E : x = 2%Q) by (do 4 (destruct t as [|t]; [injection H as <-; reflexivity|]); destruct t; discriminate).
      rewrite E. constructor.
    + intros t H. assert (C : t = 0 \/ t = 1 \/ t = 2 \/ t = 3) by lia. destruct C as [-> | [-> | [-> | ->]]].
      * left. split; [exists 0%Q, 2%Q; repeat split; reflexivity | reflexivity].
      * left. split; [exists 1%Q, 2%Q; repeat split; reflexivity | reflexivity].
      * right. split; [intros (x & th & Hx & Ht & L); injection Hx as <-; injection Ht as <-; vm_compute in L; discriminate | reflexivity].
      * right. split; [intros (x & th & Hx & Ht & L); injection Hx as <-; injection Ht as <-; vm_compute in L; discriminate | reflexivity].
Qed.

(** A split of three factors and a rolling virtual storage are converted. *)
Definition vc_cn (q : Q) : option umetric := if Qeq_bool q 99 then None else Some (UConst q).
Example C83_nodes_example :
  (exists splits, conv_nbody Q vc_cn "s" (N1RiverSplitGauge (Some 7%Q) None [1; 1; 2]%Q ["river"; "a"; "b"]) = Ok (NewNode (SRiverSplit "s" (Some (UConst 7)) None splits)) /\
     map sp_slot splits = [Some "a"; Some "b"] /\ Forall2 (fun s q => exists f, sp_factor s = UConst f /\ f == q)%Q splits [1 # 4; 1 # 2]%Q) /\
  conv_nbody Q vc_cn "v" (N1VirtualStorage (mkV1Store ["s"] None None None (Some 10%Q) (Some 5%Q) None) (StRolling (Some 30) None)) =
    Ok (NewVirtual (VStorage "v" [mkRef "s" None] None None None (Some (UConst 10)) (SIAbsolute 5) None None (Some (SwDays 30)))) /\
  conv_nbody Q vc_cn "s" (N1LossLink (Some 99%Q) None None None) = Err (NErr "s" "loss_factor" WValue).
Proof.
  split; [|split; reflexivity]. eexists. split; [reflexivity|]. split; [reflexivity|].
  constructor; [|constructor; [|constructor]]; eexists; (split; [reflexivity | reflexivity]).
Qed.

(** The other theorems are about parameters that are accepted and refused. *)
Example C83_more_example :
  conv_body Q vc_cv vc_ci ["v"] "p" (V1Rbf [1; 100; 200]%Z [5; 6]%Q [("epsilon", KNumber 2); ("function", KString "gaussian")]) =
    Ok (NbRbf [(1, 5%Q); (100, 6%Q)]%Z (RfGaussian (Some 2%Q))) /\
  conv_body Q vc_cv vc_ci ["v"] "p" (V1Division 1 99)%Q = Err (PErr "p" "denominator" WValue) /\
  conv_body Q vc_cv vc_ci ["v"] "p" (V1Curve "v" None (Some 1%Q) None None) = Ok (NbBody (SpCurveIndex (MNode "v" (Some AtPropVolume)) [MLiteral 1])) /\
  conv_body Q vc_cv vc_ci ["v"] "p" (V1Curve "v" None (Some 1%Q) (Some [2; 3]%Q) None) =
    Ok (NbBody (SpCurve [MLiteral 1] (MVirtual "v" (Some AtPropVolume)) [MLiteral 2; MLiteral 3])) /\
  (forall x, In x (sc_nodes (la_schema vc_args)) -> snode_name x <> "v").
Proof. repeat split. intros x [<- | []]. discriminate. Qed.
