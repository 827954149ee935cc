(** C42 (Muskingum routing) and C59 (delays): water that flows along a reach, in
    runs of a model file. *)
From Coq Require Import Lqa.
From Verif Require Import Base Calendar Network NetworkBuild NetworkSpec NetworkBuildLemmas Lp LpSpec LpRowLemmas LpDynLemmas LpRelLemmas
  Props_Network Props_Lp Props_LpRel ParamsTemporal ParamsTemporalSpec ParamsTemporalLemmas Formulas SchemaNodes SchemaMetrics SchemaSpec
  SchemaLemmas SchemaNodeLemmas SchemaEdgeLemmas Props_Schema SchemaRun SchemaRunCheck RoutingSpec.
Local Open Scope string_scope.
Local Open Scope list_scope.
Local Open Scope nat_scope.

(** ** C42: the equation *)
(** The relation the parameter imposes on the new inflow and outflow is the
    continuity equation, whatever the travel time and weight. *)
Theorem C42_continuity : forall K X I0 O0 I1 O1 first initial f r, routing_defined K X ->
  (first = false \/ first = true /\ initial = Some (I0, O0)) ->
  muskingum_before first initial (Ok I0) (Ok O0) (Ok K) (Ok X) = Ok (f, r) ->
  (1 * O1 + f * I1 == r <-> continuity K X I0 O0 I1 O1)%Q.
Proof.
  intros K X I0 O0 I1 O1 first initial f r Hd Hf E.
  assert (E' : Ok (E := calc_error) ((- inflow_factor X K)%Q, muskingum_rhs I0 O0 X K) = Ok (f, r))
    by (destruct Hf as [->|[-> ->]]; exact E).
  injection E' as <- <-. unfold routing_defined in Hd. unfold inflow_factor, muskingum_rhs, continuity, reach_storage.
  assert (Ed : (1 * O1 + - ((1 - 2 * X * K) / (2 * K * (1 - X) + 1)) * I1 -
     (I0 * (1 + 2 * X * K) / (2 * K * (1 - X) + 1) + O0 * (2 * K * (1 - X) - 1) / (2 * K * (1 - X) + 1)) ==
     (2 / (2 * K * (1 - X) + 1)) * ((K * (X * I1 + (1 - X) * O1) - K * (X * I0 + (1 - X) * O0)) - ((I0 + I1) / 2 - (O0 + O1) / 2)))%Q).
  { field. exact Hd. }
  assert (Hn : ~ (2 / (2 * K * (1 - X) + 1) == 0)%Q).
  { intros E0. assert (E2 : (2 == 2 / (2 * K * (1 - X) + 1) * (2 * K * (1 - X) + 1))%Q) by (field; exact Hd). rewrite E0 in E2. lra. }
  split; intros Hr.
  - assert (E0 : (2 / (2 * K * (1 - X) + 1) * ((K * (X * I1 + (1 - X) * O1) - K * (X * I0 + (1 - X) * O0)) - ((I0 + I1) / 2 - (O0 + O1) / 2)) == 0)%Q)
      by (rewrite <- Ed, Hr; ring).
    apply Qmult_integral in E0. destruct E0 as [E0|E0]; [contradiction|]. lra.
  - rewrite Hr in Ed. assert (E0 : forall u v : Q, (u - v == 0 -> u == v)%Q) by (intros; lra). apply E0. rewrite Ed. ring.
Qed.
Print Assumptions C42_continuity.

(** A run that starts in a steady state: what flows in flows out. *)
Theorem C42_steady_start : forall K X i o I1 O1 f r, routing_defined K X ->
  muskingum_before true None i o (Ok K) (Ok X) = Ok (f, r) -> (1 * O1 + f * I1 == r <-> O1 == I1)%Q.
Proof.
  intros K X i o I1 O1 f r Hd E. cbn [muskingum_before rbind] in E. injection E as <- <-.
  unfold steady_state_inflow_factor, steady_state_outflow_factor. unfold routing_defined in Hd.
  assert (Ef : (- (2 / (2 * K * (1 - X) + 1)) / (1 - (2 * K * (1 - X) - 1) / (2 * K * (1 - X) + 1)) == - (1))%Q).
  { field. split; [exact Hd|]. lra. }
  rewrite Ef. split; intros E; lra.
Qed.
Print Assumptions C42_steady_start.

(** A steady state is preserved: an unchanged inflow is passed on unchanged. *)
Theorem C42_steady_state : forall K X q O1, routing_defined K X -> (continuity K X q q q O1 <-> O1 == q)%Q.
Proof.
  intros K X q O1 Hd. unfold continuity, reach_storage, routing_defined in *.
  assert (E : ((K * (X * q + (1 - X) * O1) - K * (X * q + (1 - X) * q)) - ((q + q) / 2 - (q + O1) / 2) == (2 * K * (1 - X) + 1) / 2 * (O1 - q))%Q) by field.
  split; intros Hc.
  - assert (E0 : ((2 * K * (1 - X) + 1) / 2 * (O1 - q) == 0)%Q) by (rewrite <- E; lra).
    apply Qmult_integral in E0. destruct E0 as [E0|E0]; [exfalso; apply Hd | lra].
    assert (E1 : (2 * K * (1 - X) + 1 == (2 * K * (1 - X) + 1) / 2 * 2)%Q) by field. rewrite E1, E0. reflexivity.
  - rewrite Hc. field.
Qed.
Print Assumptions C42_steady_state.

Lemma continuity_expanded K X I0 O0 I1 O1 : continuity K X I0 O0 I1 O1 <->
  ((2 * K * (1 - X) + 1) * O1 == (1 - 2 * K * X) * I1 + (1 + 2 * K * X) * I0 + (2 * K * (1 - X) - 1) * O0)%Q.
Proof.
  unfold continuity, reach_storage.
  assert (E : ((2 * K * (1 - X) + 1) * O1 - ((1 - 2 * K * X) * I1 + (1 + 2 * K * X) * I0 + (2 * K * (1 - X) - 1) * O0) ==
    2 * ((K * (X * I1 + (1 - X) * O1) - K * (X * I0 + (1 - X) * O0)) - ((I0 + I1) / 2 - (O0 + O1) / 2)))%Q) by field.
  split; intros Hc.
  - assert (Hz : forall u v : Q, (u - v == 0 -> u == v)%Q) by (intros; lra). apply Hz. rewrite E, Hc. ring.
  - assert (Hz : forall u v : Q, (2 * (u - v) == 0 -> u == v)%Q) by (intros; lra). apply Hz. rewrite <- E, Hc. ring.
Qed.

(** Where the coefficients are not negative the outflow lies between the last
    inflow, the last outflow and the new inflow: no water is invented. *)
Theorem C42_outflow_in_range : forall K X I0 O0 I1 O1 lo hi, (0 <= 2 * K * X /\ 2 * K * X <= 1 /\ 1 <= 2 * K * (1 - X))%Q ->
  continuity K X I0 O0 I1 O1 -> (lo <= I0 <= hi)%Q -> (lo <= O0 <= hi)%Q -> (lo <= I1 <= hi)%Q -> (lo <= O1 <= hi)%Q.
Proof.
  intros K X I0 O0 I1 O1 lo hi (H1 & H2 & H3) Hc (L0 & L1) (M0 & M1) (N0 & N1). apply continuity_expanded in Hc.
  remember (2 * K * X)%Q as u. remember (2 * K * (1 - X))%Q as v. clear Hequ Heqv.
  split.
  - assert (E : ((v + 1) * (O1 - lo) == (1 - u) * (I1 - lo) + (1 + u) * (I0 - lo) + (v - 1) * (O0 - lo))%Q)
      by (setoid_replace ((v + 1) * (O1 - lo))%Q with ((v + 1) * O1 - (v + 1) * lo)%Q by ring; rewrite Hc; ring).
    assert (Hp : (0 <= (v + 1) * (O1 - lo))%Q).
    { rewrite E. assert (0 <= (1 - u) * (I1 - lo))%Q by (apply Qmult_le_0_compat; lra).
      assert (0 <= (1 + u) * (I0 - lo))%Q by (apply Qmult_le_0_compat; lra).
      assert (0 <= (v - 1) * (O0 - lo))%Q by (apply Qmult_le_0_compat; lra). lra. }
    destruct (Qlt_le_dec O1 lo) as [Hl|Hl]; [exfalso; nra | exact Hl].
  - assert (E : ((v + 1) * (hi - O1) == (1 - u) * (hi - I1) + (1 + u) * (hi - I0) + (v - 1) * (hi - O0))%Q)
      by (setoid_replace ((v + 1) * (hi - O1))%Q with ((v + 1) * hi - (v + 1) * O1)%Q by ring; rewrite Hc; ring).
    assert (Hp : (0 <= (v + 1) * (hi - O1))%Q).
    { rewrite E. assert (0 <= (1 - u) * (hi - I1))%Q by (apply Qmult_le_0_compat; lra).
      assert (0 <= (1 + u) * (hi - I0))%Q by (apply Qmult_le_0_compat; lra).
      assert (0 <= (v - 1) * (hi - O0))%Q by (apply Qmult_le_0_compat; lra). lra. }
    destruct (Qlt_le_dec hi O1) as [Hl|Hl]; [exfalso; nra | exact Hl].
Qed.
Print Assumptions C42_outflow_in_range.

(** With a constant travel time and weight the volume that entered less the
    volume that left is the change in storage, over any number of time-steps. *)
Theorem C42_mass : forall K X flows prev kxs, Forall (fun kx => fst kx == K /\ snd kx == X)%Q kxs -> continues prev kxs flows ->
  (passed (fst prev) (map fst flows) - passed (snd prev) (map snd flows) ==
   reach_storage K X (fst (last flows prev)) (snd (last flows prev)) - reach_storage K X (fst prev) (snd prev))%Q.
Proof.
  intros K X flows. induction flows as [|[i o] r IH]; intros prev kxs Hk Hc; destruct kxs as [|[k w] kr]; cbn [continues] in Hc; try contradiction.
  - cbn. ring.
  - destruct Hc as [Hc Hr]. inversion Hk as [|? ? [E1 E2] Hk']; subst. specialize (IH (i, o) kr Hk' Hr).
    assert (El : last ((i, o) :: r) prev = last r (i, o)).
    { clear. generalize dependent o. generalize dependent i. generalize dependent prev. induction r as [|p r IH]; intros; [reflexivity|].
      change (last ((i, o) :: p :: r) prev) with (last (p :: r) prev). destruct p as [i' o']. rewrite (IH prev i' o').
      symmetry. apply (IH (i, o) i' o'). }
    rewrite El. cbn [map passed fst snd] in *. unfold continuity in Hc. cbn [fst snd] in Hc.
    unfold reach_storage in *. rewrite E1, E2 in Hc. lra.
Qed.
Print Assumptions C42_mass.

(** If the weight changes during the run this is no longer so: the storage of
    the last time-step is recomputed with the new weight. *)
Theorem C42_varying_weight_refuted : exists K X X' prev kxs flows,
  (0 < K /\ 0 <= X <= 1 # 2 /\ 0 <= X' <= 1 # 2)%Q /\ kxs = [(K, X); (K, X')] /\ continues prev kxs flows /\
  ~ (passed (fst prev) (map fst flows) - passed (snd prev) (map snd flows) ==
     reach_storage K X' (fst (last flows prev)) (snd (last flows prev)) - reach_storage K X (fst prev) (snd prev))%Q.
Proof.
  exists 1%Q, 0%Q, (1#2)%Q, (0, 0)%Q, [(1, 0); (1, 1#2)]%Q, [(3, 1); (1, 3)]%Q.
  split; [lra|]. split; [reflexivity|]. cbn -[Qplus Qmult Qminus Qdiv]. unfold continuity, reach_storage.
  split; [split; [vm_compute; reflexivity | split; [vm_compute; reflexivity | exact I]] | vm_compute; discriminate].
Qed.
Print Assumptions C42_varying_weight_refuted.

(** A reach whose travel time is long for its weight (more than [1 / 2X]
    time-steps) limits what can flow in; once dry it stays dry. *)
Theorem C42_dry_reach_stays_dry : forall K X I1 O1, (0 <= K /\ X <= 1 /\ 1 < 2 * K * X)%Q ->
  continuity K X 0 0 I1 O1 -> (0 <= I1)%Q -> (0 <= O1)%Q -> (I1 == 0 /\ O1 == 0)%Q.
Proof.
  intros K X I1 O1 (H0 & H1 & H2) Hc Hi Ho. apply continuity_expanded in Hc.
  assert (Hv : (0 <= 2 * K * (1 - X))%Q) by nra. remember (2 * K * X)%Q as u. remember (2 * K * (1 - X))%Q as v. clear Hequ Heqv.
  assert (E : ((v + 1) * O1 + (u - 1) * I1 == 0)%Q) by (rewrite Hc; ring).
  assert (0 <= v * O1)%Q by (apply Qmult_le_0_compat; lra).
  assert (0 <= (u - 1) * I1)%Q by (apply Qmult_le_0_compat; lra).
  assert (E1 : (O1 == 0)%Q) by nra. split; [|exact E1].
  rewrite E1 in E. assert (E2 : ((u - 1) * I1 == 0)%Q) by (rewrite <- E; ring). apply Qmult_integral in E2. destruct E2; [lra | assumption].
Qed.
Print Assumptions C42_dry_reach_stays_dry.
(** ** C42 in runs of a model file *)
(** The equation the solver is given for a river with Muskingum routing. *)
Lemma muskingum_row key step sc a net s x name lf K X ini : simulated key step sc a net s x ->
  In (SRiver name lf (Some (RtMuskingum K X ini))) (sc_nodes sc) -> separate a net (sub name "aggregated_routing_node") ->
  exists i j, declared (declaration a) i (sub name "inflow") /\ declared (declaration a) j (sub name "outflow") /\
    (1 * outflow net (edge_flow net x) j + value key s (UParam (name, "muskingum") (Some "inflow_factor")) * inflow net (edge_flow net x) i ==
     value key s (UParam (name, "muskingum") (Some "rhs")))%Q.
Proof.
  intros H Hin Hsep. destruct (loaded_node _ _ _ _ (sm_load _ _ _ _ _ _ _ H) _ Hin) as (p & Hp & Hpo). cbn [add_node] in Hp. injection Hp as <-.
  unfold add_river in Hpo. destruct (river_loss key name lf) as [lo la].
  assert (Hn : In (output key (sub name "inflow") None None None) (ad_nodes a) /\ In (input key (sub name "outflow") None None None) (ad_nodes a) /\
    In (agg key (sub name "aggregated_routing_node") [[sub name "outflow"]; [sub name "inflow"]] None None
          (Some (RFactored (FCoefficients [MConst 1; to_metric key (UParam (name, "muskingum") (Some "inflow_factor"))]
                                          (Some (to_metric key (UParam (name, "muskingum") (Some "rhs")))))))) (ad_aggs a)).
  { cbn [river_routing is_some] in Hpo. destruct lf as [l|]; cbn [is_some] in Hpo.
    - split; [apply (po_nodes _ _ Hpo); cbn; tauto|]. split; [apply (po_nodes _ _ Hpo); cbn; tauto|].
      apply (po_aggs _ _ Hpo). cbn [ad_aggs]. apply in_or_app. right. left. reflexivity.
    - split; [apply (po_nodes _ _ Hpo); cbn; tauto|]. split; [apply (po_nodes _ _ Hpo); cbn; tauto|].
      apply (po_aggs _ _ Hpo). cbn; tauto. }
  destruct Hn as (Hni & Hno & Hag).
  destruct (a_output _ _ _ _ _ _ _ H _ _ _ _ Hni) as (i & Hi & Fi). destruct (an_input _ _ _ _ _ _ _ H _ _ _ _ Hno) as (j & Hj & Fj).
  exists i, j. split; [exact Hi|]. split; [exact Hj|].
  destruct (built_agg _ _ _ _ _ _ _ H _ Hag) as (k & g & Ek & Eg & HF & _ & _ & Hrel). cbn [ab_nodes ab_rel agg] in HF, Hrel.
  destruct (sm_solved _ _ _ _ _ _ _ H) as (fm & order & ss & Hs). pose proof (Hsep k _ g Ek eq_refl Eg) as Hfs.
  assert (Egs : a_nodes g = [[j]; [i]]).
  { remember (a_nodes g) as gs eqn:Egs. clear Egs. invF2.
    repeat match goal with Hd : declared _ ?y (sub name "inflow") |- _ =>
      lazymatch y with i => fail | _ => rewrite (declared_unique _ _ _ _ _ _ _ H y i _ Hd Hi) in *; clear Hd end end.
    repeat match goal with Hd : declared _ ?y (sub name "outflow") |- _ =>
      lazymatch y with j => fail | _ => rewrite (declared_unique _ _ _ _ _ _ _ H y j _ Hd Hj) in *; clear Hd end end. reflexivity. }
  pose proof (C38_dynamic_coefficients_partial net fm order ss s x k g _ _ _ (C37_built_well_formed _ net (sm_build _ _ _ _ _ _ _ H)) Hs Eg Hfs Hrel) as Hc.
  rewrite Egs in Hc. specialize (Hc eq_refl (or_intror (or_introl eq_refl))). unfold coefficients_hold, group_flow in Hc.
  cbn [map qsum fold_right metric_value] in Hc. rewrite Fi, Fj in Hc. fold (value key s (UParam (name, "muskingum") (Some "inflow_factor"))) in Hc.
  fold (value key s (UParam (name, "muskingum") (Some "rhs"))) in Hc. rewrite <- Hc. ring.
Qed.

(** The flows of the river in a time-step. *)
Definition river_flows (a : added) (net : network) (n : snode) (t : run_step) (io : Q * Q) : Prop :=
  node_metric a net (rs_x t) n AtInflow (fst io) /\ node_metric a net (rs_x t) n AtOutflow (snd io).

(** In every run of a model file the flows of a river with Muskingum routing
    satisfy the continuity equation, time-step by time-step, whatever the file
    says about travel time and weight. *)
Theorem C42_river : forall key step sc a net tr name lf K X ini,
  file_run key step sc a net tr -> In (SRiver name lf (Some (RtMuskingum K X ini))) (sc_nodes sc) ->
  separate a net (sub name "aggregated_routing_node") ->
  (forall t, In t tr -> routing_defined (before key t K) (before key t X)) ->
  exists flows, Forall2 (river_flows a net (SRiver name lf (Some (RtMuskingum K X ini)))) tr flows /\
    routed ini (map (fun t => (before key t K, before key t X)) tr) flows.
Proof.
  intros key step sc a net tr name lf K X ini Hr Hin Hsep Hdef.
  destruct tr as [|t0 tr0] eqn:Etr; [exists []; split; [constructor | exact I]|]. rewrite <- Etr in *.
  assert (H0 : simulated key step sc a net (rs_state t0) (rs_x t0)) by (apply (fr_steps _ _ _ _ _ _ Hr); rewrite Etr; left; reflexivity).
  destruct (muskingum_row _ _ _ _ _ _ _ _ _ _ _ _ H0 Hin Hsep) as (i & j & Hi & Hj & _).
  set (io := fun t => (inflow net (edge_flow net (rs_x t)) i, outflow net (edge_flow net (rs_x t)) j)).
  exists (map io tr). split.
  { assert (HF : forall l, (forall t, In t l -> In t tr) -> Forall2 (river_flows a net (SRiver name lf (Some (RtMuskingum K X ini)))) l (map io l)).
    { induction l as [|t l IH]; intros Hl; [constructor|]. constructor; [|apply IH; intros; apply Hl; right; assumption].
      pose proof (fr_steps _ _ _ _ _ _ Hr t (Hl t (or_introl eq_refl))) as H. split.
      - destruct lf; (eapply metric_is; [reflexivity | apply (value_ins _ _ _ _ _ _ _ H _ [i]); two_parts | unfold io; cbn [fst]; qs]).
      - destruct lf; (eapply metric_is; [reflexivity | apply (value_outs _ _ _ _ _ _ _ H _ [j]); two_parts | unfold io; cbn [snd]; qs]). }
    apply HF. auto. }
  (* what the parameter gives *)
  assert (Hd : In (PMuskingum (name, "muskingum") (UNodeInFlow (sub name "inflow")) (UNodeOutFlow (sub name "outflow")) K X ini) (ad_params a)).
  { destruct (loaded_node _ _ _ _ (sm_load _ _ _ _ _ _ _ H0) _ Hin) as (p & Hp & Hpo). cbn [add_node] in Hp. injection Hp as <-.
    apply (po_params _ _ Hpo). unfold add_river. destruct (river_loss key name lf). destruct lf; left; reflexivity. }
  pose proof (fr_params _ _ _ _ _ _ Hr _ Hd) as Hf. cbn [follows] in Hf.
  assert (Hrow : forall k t, nth_error tr k = Some t -> forall f r,
    muskingum_before (k =? 0) ini (Ok (before key t (UNodeInFlow (sub name "inflow")))) (Ok (before key t (UNodeOutFlow (sub name "outflow"))))
      (Ok (before key t K)) (Ok (before key t X)) = Ok (f, r) -> (1 * snd (io t) + f * fst (io t) == r)%Q).
  { intros k t Hk f r E. destruct (Hf k t Hk) as (f' & r' & E' & E1 & E2). rewrite E' in E. injection E as <- <-.
    destruct (muskingum_row _ _ _ _ _ _ _ _ _ _ _ _ (fr_steps _ _ _ _ _ _ Hr t (nth_error_In _ _ Hk)) Hin Hsep) as (i' & j' & Hi' & Hj' & Hx).
    rewrite (declared_unique _ _ _ _ _ _ _ H0 i' i _ Hi' Hi), (declared_unique _ _ _ _ _ _ _ H0 j' j _ Hj' Hj) in Hx.
    unfold before in E1, E2. rewrite E1, E2 in Hx. exact Hx. }
  assert (Hprev : forall k t t', nth_error tr k = Some t -> nth_error tr (S k) = Some t' ->
    (before key t' (UNodeInFlow (sub name "inflow")) == fst (io t))%Q /\ (before key t' (UNodeOutFlow (sub name "outflow")) == snd (io t))%Q).
  { intros k t t' Hk Hk'. pose proof (fr_steps _ _ _ _ _ _ Hr t (nth_error_In _ _ Hk)) as H. split.
    - apply (fr_before _ _ _ _ _ _ Hr k t t' _ _ Hk Hk'); [|apply (value_in _ _ _ _ _ _ _ H _ _ Hi)].
      apply in_flat_map. eexists. split; [exact Hd|]. left. reflexivity.
    - apply (fr_before _ _ _ _ _ _ Hr k t t' _ _ Hk Hk'); [|apply (value_out _ _ _ _ _ _ _ H _ _ Hj)].
      apply in_flat_map. eexists. split; [exact Hd|]. right. left. reflexivity. }
  assert (Hcont : forall l k t, nth_error tr k = Some t -> skipn (S k) tr = l ->
    continues (io t) (map (fun t => (before key t K, before key t X)) l) (map io l)).
  { induction l as [|t' l IH]; intros k t Hk Hl; [exact I|]. assert (Hk' : nth_error tr (S k) = Some t').
    { rewrite <- (firstn_skipn (S k) tr), Hl. rewrite nth_error_app2; rewrite firstn_length_le; try lia.
      - rewrite Nat.sub_diag. reflexivity.
      - apply nth_error_Some_lt in Hk. lia.
      - apply nth_error_Some_lt in Hk. lia. }
    cbn [map continues]. split.
    - cbn [fst snd]. destruct (Hprev k t t' Hk Hk') as (E1 & E2).
      destruct (muskingum_before (S k =? 0) ini (Ok (before key t' (UNodeInFlow (sub name "inflow")))) (Ok (before key t' (UNodeOutFlow (sub name "outflow"))))
         (Ok (before key t' K)) (Ok (before key t' X))) as [[f r]| |] eqn:E; try discriminate.
      pose proof (Hrow (S k) t' Hk' f r E) as Hx.
      pose proof (proj1 (C42_continuity _ _ _ _ _ _ _ _ _ _ (Hdef _ (nth_error_In _ _ Hk')) (or_introl eq_refl) E) Hx) as Hy.
      unfold continuity, reach_storage in *. rewrite E1, E2 in Hy. exact Hy.
    - apply (IH (S k) t' Hk'). rewrite <- (Nat.add_1_l (S k)). change (1 + S k) with (S (S k)).
      assert (Hs : skipn (S (S k)) tr = tl (skipn (S k) tr)).
      { clear. generalize (S k) as n. intros n. revert tr. induction n as [|n IH]; intros [|y tr]; cbn; try reflexivity.
        rewrite <- IH. reflexivity. }
      rewrite Hs, Hl. reflexivity. }
  assert (Hk0 : nth_error tr 0 = Some t0) by (rewrite Etr; reflexivity).
  pose proof (Hcont tr0 0 t0 Hk0 ltac:(rewrite Etr; reflexivity)) as Hc. rewrite Etr. cbn [map routed]. split; [|exact Hc].
  destruct ini as [[i0 o0]|].
  - cbn [fst snd].
    destruct (muskingum_before (0 =? 0) (Some (i0, o0)) (Ok (before key t0 (UNodeInFlow (sub name "inflow")))) (Ok (before key t0 (UNodeOutFlow (sub name "outflow"))))
         (Ok (before key t0 K)) (Ok (before key t0 X))) as [[f r]| |] eqn:E; try discriminate.
    pose proof (Hrow 0 t0 Hk0 f r E) as Hx.
    exact (proj1 (C42_continuity _ _ i0 o0 _ _ true (Some (i0, o0)) _ _ (Hdef _ (nth_error_In _ _ Hk0)) (or_intror (conj eq_refl eq_refl)) E) Hx).
  - destruct (muskingum_before (0 =? 0) None (Ok (before key t0 (UNodeInFlow (sub name "inflow")))) (Ok (before key t0 (UNodeOutFlow (sub name "outflow"))))
         (Ok (before key t0 K)) (Ok (before key t0 X))) as [[f r]| |] eqn:E; try discriminate.
    pose proof (Hrow 0 t0 Hk0 f r E) as Hx. apply (C42_steady_start _ _ _ _ (fst (io t0)) (snd (io t0)) f r) in E; [apply E, Hx|].
    apply Hdef, (nth_error_In _ _ Hk0).
Qed.
Print Assumptions C42_river.

(** So with a constant travel time and weight the volumes balance over the run:
    what entered the river after the first time-step less what left it is the
    change in storage. *)
Theorem C42_river_mass : forall key step sc a net tr name lf K X ini k w,
  file_run key step sc a net tr -> In (SRiver name lf (Some (RtMuskingum K X ini))) (sc_nodes sc) ->
  separate a net (sub name "aggregated_routing_node") -> tr <> [] ->
  (forall t, In t tr -> before key t K == k /\ before key t X == w)%Q -> routing_defined k w ->
  exists first rest, Forall2 (river_flows a net (SRiver name lf (Some (RtMuskingum K X ini)))) tr (first :: rest) /\
    (passed (fst first) (map fst rest) - passed (snd first) (map snd rest) ==
     reach_storage k w (fst (last rest first)) (snd (last rest first)) - reach_storage k w (fst first) (snd first))%Q.
Proof.
  intros key step sc a net tr name lf K X ini k w Hr Hin Hsep Hne Hkw Hd.
  destruct (C42_river _ _ _ _ _ _ _ _ _ _ _ Hr Hin Hsep) as (flows & HF & Hro).
  { intros t Ht. destruct (Hkw t Ht) as [E1 E2]. unfold routing_defined in *. rewrite E1, E2. exact Hd. }
  destruct tr as [|t tr]; [contradiction|]. inversion HF as [|? io ? r Hio Hf]; subst. exists io, r. split; [exact HF|].
  cbn [map routed] in Hro. destruct Hro as [_ Hc]. apply (C42_mass k w r io _) in Hc; [exact Hc|].
  apply Forall_forall. intros p Hp. apply in_map_iff in Hp. destruct Hp as (t' & <- & Ht'). apply Hkw. right. exact Ht'.
Qed.
Print Assumptions C42_river_mass.
(** Ten units a day for a day, then five, then nothing: the river delivers ten,
    nine and four point eight. *)
Definition ex_muskingum (w : Q) : schema :=
  mkSchema [SInput "in" None None None; SRiver "r" None (Some (RtMuskingum (UConst 1) (UConst w) None)); SOutput "out" None None None] []
           [ex_edge "in" "r"; ex_edge "r" "out"].
Definition ex_river_key (m : umetric) : nat :=
  match m with
  | UParam _ (Some _) => if String.eqb match m with UParam _ (Some k) => k | _ => "" end "rhs" then 1 else 0
  | UNodeInFlow _ => 2
  | UNodeOutFlow _ => 3
  | _ => 4
  end.
Definition ex_river_run (o1 : Q) : list (list Q * list Q * (umetric -> Q)) :=
  [([- (1); 0; 0; 0], [10; 10], fun _ => 0); ([- (1#5); 8; 10; 10], [5; o1], fun _ => 0); ([- (1#5); 24#5; 5; o1], [0; 24#5], fun _ => 0)]%Q.
Example C42_river_example :
  let sc := ex_muskingum (1#4) in
  let a := ex_run_added ex_river_key sc in
  file_run ex_river_key None sc a (ex_run_net ex_river_key sc) (ex_steps ex_river_key sc (ex_river_run 9)) /\
  separate a (ex_run_net ex_river_key sc) (sub "r" "aggregated_routing_node") /\
  (forall t, In t (ex_steps ex_river_key sc (ex_river_run 9)) -> before ex_river_key t (UConst 1) == 1 /\ before ex_river_key t (UConst (1#4)) == 1#4)%Q /\
  routing_defined 1 (1#4) /\ ex_run_check ex_river_key sc (ex_river_run 8) = false.
Proof.
  cbv zeta. split; [apply ex_file_run; vm_compute; reflexivity|]. split; [apply separate_check_sound; vm_compute; reflexivity|].
  split; [intros t _; split; reflexivity|]. split; [vm_compute; discriminate | vm_compute; reflexivity].
Qed.

(** With a weight or travel time beyond the usual limits (2KX > 1) a river that
    carries no water in one time-step never carries any again. *)
Theorem C42_river_stays_dry : forall key step sc a net tr name lf K X ini j t t',
  file_run key step sc a net tr -> In (SRiver name lf (Some (RtMuskingum K X ini))) (sc_nodes sc) ->
  separate a net (sub name "aggregated_routing_node") ->
  (forall t, In t tr -> 0 <= before key t K /\ before key t X <= 1 /\ 1 < 2 * before key t K * before key t X)%Q ->
  nth_error tr j = Some t -> nth_error tr (S j) = Some t' ->
  river_flows a net (SRiver name lf (Some (RtMuskingum K X ini))) t (0, 0)%Q ->
  river_flows a net (SRiver name lf (Some (RtMuskingum K X ini))) t' (0, 0)%Q.
Proof.
  intros key step sc a net tr name lf K X ini j t t' Hr Hin Hsep Hkx Hj Hj' H0.
  destruct (C42_river _ _ _ _ _ _ _ _ _ _ _ Hr Hin Hsep) as (flows & HF & Hro).
  { intros u Hu. destruct (Hkx u Hu) as (Ka & Kb & _). unfold routing_defined. intros E.
    assert (0 <= before key u K * (1 - before key u X))%Q by (apply Qmult_le_0_compat; lra). lra. }
  assert (Hlen := Forall2_length' _ _ _ HF).
  destruct (nth_error_lt_Some flows j) as (io & Eio); [rewrite <- Hlen; apply (nth_error_Some_lt _ _ _ Hj)|].
  destruct (nth_error_lt_Some flows (S j)) as (io' & Eio'); [rewrite <- Hlen; apply (nth_error_Some_lt _ _ _ Hj')|].
  pose proof (Forall2_nth_error _ _ _ _ _ _ HF Hj Eio) as (Hi & Ho). pose proof (Forall2_nth_error _ _ _ _ _ _ HF Hj' Eio') as (Hi' & Ho').
  (* the flows at [j] are zero *)
  assert (Huniq : forall at_ q q' u, node_metric a net (rs_x u) (SRiver name lf (Some (RtMuskingum K X ini))) at_ q ->
     node_metric a net (rs_x u) (SRiver name lf (Some (RtMuskingum K X ini))) at_ q' -> (q == q')%Q).
  { intros at_ q q' u (m & v & E1 & E2 & E3) (m' & v' & E1' & E2' & E3'). rewrite E1 in E1'. injection E1' as <-.
    rewrite E2 in E2'. injection E2' as <-. rewrite <- E3, <- E3'. reflexivity. }
  destruct H0 as (Hz & Hz'). cbn [fst snd] in Hz, Hz'.
  assert (Z1 : (fst io == 0)%Q) by (apply (Huniq _ _ _ _ Hi Hz)). assert (Z2 : (snd io == 0)%Q) by (apply (Huniq _ _ _ _ Ho Hz')).
  assert (Hc : continuity (before key t' K) (before key t' X) (fst io) (snd io) (fst io') (snd io')).
  { assert (G : forall l kxs fl prev, continues prev kxs fl -> forall k kx p q, kxs = map (fun t => (before key t K, before key t X)) l ->
      nth_error (prev :: fl) k = Some p -> nth_error fl k = Some q -> nth_error kxs k = Some kx ->
      continuity (fst kx) (snd kx) (fst p) (snd p) (fst q) (snd q)).
    { clear. intros l kxs fl prev Hc k kx p q _. revert kxs fl prev Hc. induction k as [|k IH]; intros [|x kxs] [|y fl] prev Hc E1 E2 E3; try discriminate.
      - cbn in E1, E2, E3. injection E1 as <-. injection E2 as <-. injection E3 as <-. apply Hc.
      - cbn [continues] in Hc. apply (IH kxs fl y (proj2 Hc)); [exact E1 | exact E2 | exact E3]. }
    destruct tr as [|t0 tr]; [destruct j; discriminate|]. destruct flows as [|io0 flows]; [destruct j; discriminate|].
    cbn [map routed] in Hro. destruct Hro as [_ Hro].
    apply (G tr _ _ _ Hro j (before key t' K, before key t' X) io io' eq_refl); [exact Eio | exact Eio' |].
    cbn [nth_error] in Hj'. rewrite nth_error_map, Hj'. reflexivity. }
  assert (Hpos : (0 <= fst io' /\ 0 <= snd io')%Q).
  { pose proof (fr_steps _ _ _ _ _ _ Hr t' (nth_error_In _ _ Hj')) as H.
    destruct (muskingum_row _ _ _ _ _ _ _ _ _ _ _ _ H Hin Hsep) as (i & k & Hdi & Hdk & _). split.
    - assert (E : (fst io' == inflow net (edge_flow net (rs_x t')) i)%Q).
      { apply (Huniq AtInflow _ _ _ Hi'). destruct lf; (eapply metric_is; [reflexivity | apply (value_ins _ _ _ _ _ _ _ H _ [i]); two_parts | qs]). }
      rewrite E. apply (inflow_non_negative _ _ _ _ _ _ _ H).
    - assert (E : (snd io' == outflow net (edge_flow net (rs_x t')) k)%Q).
      { apply (Huniq AtOutflow _ _ _ Ho'). destruct lf; (eapply metric_is; [reflexivity | apply (value_outs _ _ _ _ _ _ _ H _ [k]); two_parts | qs]). }
      rewrite E. apply (outflow_non_negative _ _ _ _ _ _ _ H). }
  assert (Hc' : continuity (before key t' K) (before key t' X) 0 0 (fst io') (snd io')).
  { unfold continuity, reach_storage in *. rewrite Z1, Z2 in Hc. exact Hc. }
  destruct (C42_dry_reach_stays_dry _ _ _ _ (Hkx t' (nth_error_In _ _ Hj')) Hc' (proj1 Hpos) (proj2 Hpos)) as [E1 E2].
  split; cbn [fst snd].
  - destruct Hi' as (m & v & M1 & M2 & M3). exists m, v. split; [exact M1|]. split; [exact M2|]. rewrite M3. assumption.
  - destruct Ho' as (m & v & M1 & M2 & M3). exists m, v. split; [exact M1|]. split; [exact M2|]. rewrite M3. assumption.
Qed.
Print Assumptions C42_river_stays_dry.

(** ** C59: delays *)
(** What a delay of [n] time-steps lets out in time-step [t] is what came in [n]
    time-steps before, or the initial value. *)
Lemma delayed_flows key step sc a net tr name n q lim :
  file_run key step sc a net tr -> lim = UParam (name, "delay") None ->
  In (input key (sub name "outflow") None (Some lim) (Some lim)) (ad_nodes a) ->
  In (output key (sub name "inflow") None None None) (ad_nodes a) ->
  In (PDelay (name, "delay") (UNodeInFlow (sub name "inflow")) n q) (ad_params a) ->
  not_exclusive a net (sub name "outflow") -> (forall t, In t tr -> (0 < st_days (rs_state t))%Q) ->
  forall i j, declared (declaration a) i (sub name "inflow") -> declared (declaration a) j (sub name "outflow") ->
  (1 <= n \/ tr = []) /\ forall k t, nth_error tr k = Some t ->
    (outflow net (edge_flow net (rs_x t)) j == delayed n q (map (fun t => inflow net (edge_flow net (rs_x t)) i) tr) k)%Q.
Proof.
  intros Hr -> Hno Hni Hp Hex Hdays i j Hi Hj. pose proof (fr_params _ _ _ _ _ _ Hr _ Hp) as Hf. cbn [follows] in Hf. destruct Hf as (vs & Hrun & HF).
  destruct n as [|n].
  { destruct tr as [|t0 tr]; [split; [right; reflexivity | intros k t Hk; destruct k; discriminate]|].
    cbn [map] in Hrun. rewrite delay_general_zero in Hrun. discriminate. }
  split; [left; lia|]. intros k t Hk. rewrite (delay_general (S n) q) in Hrun by lia. injection Hrun as Hvs.
  pose proof (fr_steps _ _ _ _ _ _ Hr t (nth_error_In _ _ Hk)) as H.
  assert (Fj : node_flow net (edge_flow net (rs_x t)) j = outflow net (edge_flow net (rs_x t)) j).
  { destruct (an_input _ _ _ _ _ _ _ H _ _ _ _ Hno) as (j' & Hj' & Fj). rewrite (declared_unique _ _ _ _ _ _ _ H j j' _ Hj Hj'). exact Fj. }
  pose proof (limits_at _ _ _ _ _ _ _ H _ TInput _ _ _ j Hno ltac:(discriminate) Hex (Hdays t (nth_error_In _ _ Hk)) Hj) as (L1 & L2).
  cbn [value_or] in L1, L2. rewrite Fj in L1, L2.
  assert (Ek : nth_error vs k = Some (delayed (S n) q (map (fun t => rs_after t (UNodeInFlow (sub name "inflow"))) tr) k)).
  { rewrite <- Hvs. rewrite nth_error_map. rewrite map_length.
    assert (Hs : nth_error (seq 0 (length tr)) k = Some k).
    { rewrite (nth_error_nth' _ 0); [rewrite seq_nth by (apply (nth_error_Some_lt _ _ _ Hk)); reflexivity|].
      rewrite seq_length. apply (nth_error_Some_lt _ _ _ Hk). }
    rewrite Hs. reflexivity. }
  pose proof (Forall2_nth_error _ _ _ _ _ _ HF Hk Ek) as E. cbn beta in E. unfold before in E.
  assert (E1 : (outflow net (edge_flow net (rs_x t)) j == delayed (S n) q (map (fun t => rs_after t (UNodeInFlow (sub name "inflow"))) tr) k)%Q)
    by (rewrite <- E; lra).
  rewrite E1. unfold delayed. destruct (k <? S n); [reflexivity|].
  assert (Hlt := nth_error_Some_lt _ _ _ Hk).
  destruct (nth_error_lt_Some tr (k - S n) ltac:(lia)) as (u & Hu).
  rewrite (nth_error_nth (map (fun t => rs_after t (UNodeInFlow (sub name "inflow"))) tr) (k - S n) q
            (x := rs_after u (UNodeInFlow (sub name "inflow")))) by (rewrite nth_error_map, Hu; reflexivity).
  rewrite (nth_error_nth (map (fun t => inflow net (edge_flow net (rs_x t)) i) tr) (k - S n) q
            (x := inflow net (edge_flow net (rs_x u)) i)) by (rewrite nth_error_map, Hu; reflexivity).
  apply (fr_after _ _ _ _ _ _ Hr u _ _ (nth_error_In _ _ Hu)).
  apply (value_in _ _ _ _ _ _ _ (fr_steps _ _ _ _ _ _ Hr u (nth_error_In _ _ Hu)) _ _ Hi).
Qed.

(** The two schema nodes that delay flows. *)
Definition delays (n : snode) (name : string) (d : nat) (q : Q) : Prop :=
  n = SDelay name d q \/ exists lf, n = SRiver name lf (Some (RtDelay d q)).

Lemma delay_parts key step sc a n name d q : load_schema key step sc = Ok a -> In n (sc_nodes sc) -> delays n name d q ->
  In (input key (sub name "outflow") None (Some (UParam (name, "delay") None)) (Some (UParam (name, "delay") None))) (ad_nodes a) /\
  In (output key (sub name "inflow") None None None) (ad_nodes a) /\
  In (PDelay (name, "delay") (UNodeInFlow (sub name "inflow")) d q) (ad_params a).
Proof.
  intros Hl Hin Hd. destruct (loaded_node _ _ _ _ Hl _ Hin) as (p & Hp & Hpo).
  destruct Hd as [->|(lf & ->)]; cbn [add_node] in Hp; injection Hp as <-.
  - split; [apply (po_nodes _ _ Hpo); cbn; tauto|]. split; [apply (po_nodes _ _ Hpo); cbn; tauto|]. apply (po_params _ _ Hpo). cbn; tauto.
  - unfold add_river in Hpo. destruct (river_loss key name lf). destruct lf; cbn [river_routing is_some] in Hpo;
      (split; [apply (po_nodes _ _ Hpo); cbn; tauto|]; split; [apply (po_nodes _ _ Hpo); cbn; tauto|]; apply (po_params _ _ Hpo); cbn; tauto).
Qed.

(** In every run of a model file, a delay node or a river with delay routing
    lets out in each time-step exactly what entered [d] time-steps before, and
    the initial flow in the first [d]. *)
Theorem C59_delay : forall key step sc a net tr n name d q,
  file_run key step sc a net tr -> In n (sc_nodes sc) -> delays n name d q ->
  not_exclusive a net (sub name "outflow") -> (forall t, In t tr -> (0 < st_days (rs_state t))%Q) ->
  exists flows, Forall2 (river_flows a net n) tr flows /\
    forall k io, nth_error flows k = Some io ->
      (k < d -> (snd io == q)%Q) /\
      (d <= k -> exists io', nth_error flows (k - d) = Some io' /\ (snd io == fst io')%Q).
Proof.
  intros key step sc a net tr n name d q Hr Hin Hd Hex Hdays.
  destruct tr as [|t0 tr0] eqn:Etr; [exists []; split; [constructor | intros [|k]; discriminate]|]. rewrite <- Etr in *.
  assert (H0 : simulated key step sc a net (rs_state t0) (rs_x t0)) by (apply (fr_steps _ _ _ _ _ _ Hr); rewrite Etr; left; reflexivity).
  destruct (delay_parts _ _ _ _ _ _ _ _ (sm_load _ _ _ _ _ _ _ H0) Hin Hd) as (Hno & Hni & Hp).
  destruct (a_output _ _ _ _ _ _ _ H0 _ _ _ _ Hni) as (i & Hi & _). destruct (an_input _ _ _ _ _ _ _ H0 _ _ _ _ Hno) as (j & Hj & _).
  destruct (delayed_flows _ _ _ _ _ _ _ _ _ _ Hr eq_refl Hno Hni Hp Hex Hdays i j Hi Hj) as (_ & Hk).
  set (io := fun t => (inflow net (edge_flow net (rs_x t)) i, outflow net (edge_flow net (rs_x t)) j)).
  exists (map io tr). split.
  { assert (HF : forall l, (forall t, In t l -> In t tr) -> Forall2 (river_flows a net n) l (map io l)).
    { induction l as [|t l IH]; intros Hl; [constructor|]. constructor; [|apply IH; intros; apply Hl; right; assumption].
      pose proof (fr_steps _ _ _ _ _ _ Hr t (Hl t (or_introl eq_refl))) as H. unfold river_flows, io. cbn [fst snd].
      destruct Hd as [->|(lf & ->)].
      - split; [eapply metric_is; [reflexivity | apply (value_in _ _ _ _ _ _ _ H _ i Hi) | reflexivity]
               |eapply metric_is; [reflexivity | apply (value_out _ _ _ _ _ _ _ H _ j Hj) | reflexivity]].
      - split; destruct lf; (eapply metric_is; [reflexivity | first [apply (value_ins _ _ _ _ _ _ _ H _ [i]); two_parts | apply (value_outs _ _ _ _ _ _ _ H _ [j]); two_parts] | qs]). }
    apply HF. auto. }
  intros k p Ep. rewrite nth_error_map in Ep. destruct (nth_error tr k) as [t|] eqn:Et; [|discriminate]. injection Ep as <-.
  specialize (Hk k t Et). unfold io. cbn [fst snd]. unfold delayed in Hk. destruct (k <? d) eqn:Ek.
  - apply Nat.ltb_lt in Ek. split; [intros _; exact Hk | lia].
  - apply Nat.ltb_ge in Ek. split; [lia|]. intros _. assert (Hlt := nth_error_Some_lt _ _ _ Et).
    destruct (nth_error_lt_Some tr (k - d) ltac:(lia)) as (u & Hu). exists (io u). rewrite nth_error_map, Hu. split; [reflexivity|].
    rewrite Hk, (nth_error_nth (map (fun t => inflow net (edge_flow net (rs_x t)) i) tr) (k - d) q
            (x := inflow net (edge_flow net (rs_x u)) i)) by (rewrite nth_error_map, Hu; reflexivity). reflexivity.
Qed.
Print Assumptions C59_delay.

(** A delay of no time-steps is accepted by the schema but such a model file
    never gets past its first time-step. *)
Theorem C59_zero_delay_never_runs : forall key step sc a net tr n name q,
  file_run key step sc a net tr -> In n (sc_nodes sc) -> delays n name 0 q -> tr = [].
Proof.
  intros key step sc a net tr n name q Hr Hin Hd. destruct tr as [|t0 tr]; [reflexivity|]. exfalso.
  assert (H0 : simulated key step sc a net (rs_state t0) (rs_x t0)) by (apply (fr_steps _ _ _ _ _ _ Hr); left; reflexivity).
  destruct (delay_parts _ _ _ _ _ _ _ _ (sm_load _ _ _ _ _ _ _ H0) Hin Hd) as (_ & _ & Hp).
  pose proof (fr_params _ _ _ _ _ _ Hr _ Hp) as Hf. cbn [follows] in Hf. destruct Hf as (vs & Hrun & _).
  cbn [map] in Hrun. rewrite delay_general_zero in Hrun. discriminate.
Qed.
Print Assumptions C59_zero_delay_never_runs.

(** A delay of two time-steps, four units initially. *)
Definition ex_delay (d : nat) : schema :=
  mkSchema [SInput "in" None None None; SDelay "d" d 4; SOutput "out" None None None] [] [ex_edge "in" "d"; ex_edge "d" "out"].
Definition ex_delay_run (o3 : Q) : list (list Q * list Q * (umetric -> Q)) :=
  [([0; 0; 0; 0; 4], [10; 4], fun _ => 0); ([0; 0; 0; 0; 4], [5; 4], fun _ => 0); ([0; 0; 0; 0; 10], [0; 10], fun _ => 0);
   ([0; 0; 0; 0; 5], [1; o3], fun _ => 0)]%Q.
Example C59_example :
  let sc := ex_delay 2 in
  let a := ex_run_added ex_river_key sc in
  let tr := ex_steps ex_river_key sc (ex_delay_run 5) in
  file_run ex_river_key None sc a (ex_run_net ex_river_key sc) tr /\
  not_exclusive a (ex_run_net ex_river_key sc) (sub "d" "outflow") /\ (forall t, In t tr -> (0 < st_days (rs_state t))%Q) /\
  ex_run_check ex_river_key sc (ex_delay_run 4) = false /\ ex_run_check ex_river_key (ex_delay 0) [] = true /\
  ex_run_check ex_river_key (ex_delay 0) [([0; 0; 0; 0; 4], [4; 4], fun _ => 0)]%Q = false.
Proof.
  cbv zeta. split; [apply ex_file_run; vm_compute; reflexivity|]. split; [apply ex_run_not_exclusive; vm_compute; reflexivity|].
  split; [intros t Ht; cbn in Ht; intuition (subst; reflexivity)|].
  split; [vm_compute; reflexivity|]. split; vm_compute; reflexivity.
Qed.
