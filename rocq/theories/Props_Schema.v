(** Nodes of a model file in a solved time-step: C40, C41, C49, C52-C56. *)
From Coq Require Import Lqa.
From Verif Require Import Base Calendar Network NetworkBuild NetworkSpec NetworkBuildLemmas Lp LpSpec LpRowLemmas LpRelLemmas Props_Network
  Props_Lp Props_LpRel SchemaNodes SchemaMetrics SchemaSpec SchemaLemmas SchemaNodeLemmas.
Local Open Scope string_scope.
Local Open Scope list_scope.
Local Open Scope nat_scope.

Ltac here := cbv [river_loss river_routing is_some ad_nodes ad_aggs ad_edges add_river_gauge add_river_split add_link add_wtw add_river add_delay add_turbine length seq map In app]; tauto.
Ltac two_parts := constructor; [eassumption|]; repeat (constructor; [eassumption|]); constructor.
Ltac qs := cbn [map qsum fold_right]; try lra.

(** *** Concrete model files are checked by evaluation *)
Definition ex_key (m : umetric) : nat := 0.
Definition ex_added (sc : schema) : added := match load_schema ex_key None sc with Ok a => a | _ => nothing end.
Definition ex_net (sc : schema) : network := match build_network (declaration (ex_added sc)) with Ok n => n | _ => mkNet [] [] [] [] end.
Definition ex_check (sc : schema) (s : lp_state) (x : nat -> Q) : bool :=
  match load_schema ex_key None sc with Ok a => match build_network (declaration a) with Ok n => true | _ => false end | _ => false end
  && forallb (fun a => negb (has_exclusivity a)) (net_aggs (ex_net sc))
  && solved_check (ex_net sc) F64_MAX [] [] s x.
Lemma ex_simulated sc s x : ex_check sc s x = true -> simulated ex_key None sc (ex_added sc) (ex_net sc) s x.
Proof.
  unfold ex_check. intros E. apply andb_prop in E. destruct E as [E E3]. apply andb_prop in E. destruct E as [E1 E2].
  assert (Hl : exists a, load_schema ex_key None sc = Ok a) by (destruct (load_schema ex_key None sc); try discriminate; eauto).
  destruct Hl as (a & Hl). assert (Ea : ex_added sc = a) by (unfold ex_added; rewrite Hl; reflexivity).
  constructor.
  - rewrite Ea. exact Hl.
  - unfold ex_net. rewrite Ea. rewrite Hl in E1. destruct (build_network (declaration a)); try discriminate. reflexivity.
  - exists F64_MAX, [], []. apply solved_check_sound; [apply valid_order_nil; exact E2 | exact E3].
Qed.
Lemma ex_not_exclusive sc u : forallb (fun a => negb (has_exclusivity a)) (net_aggs (ex_net sc)) = true ->
  not_exclusive (ex_added sc) (ex_net sc) u.
Proof.
  intros E i _ (g & ns & Hg & (mn & mx & Hr) & _). rewrite forallb_forall in E. specialize (E g Hg).
  unfold has_exclusivity in E. rewrite Hr in E. discriminate.
Qed.

(** ** C40: loss links *)
(** Constant factors: the loss is the configured share, and nothing else goes
    missing. *)
Theorem C40_loss_link : forall key step sc a net s x name lf c mn mx q,
  simulated key step sc a net s x -> In (SLossLink name (Some lf) c mn mx) (sc_nodes sc) ->
  constant (factor_metric lf) q -> valid_factor lf q ->
  (q == 0 -> not_exclusive a net (sub name "loss") /\ 0 < st_days s)%Q ->
  exists qi qo ql,
    node_metric a net x (SLossLink name (Some lf) c mn mx) AtInflow qi /\
    node_metric a net x (SLossLink name (Some lf) c mn mx) AtOutflow qo /\
    node_metric a net x (SLossLink name (Some lf) c mn mx) AtLoss ql /\
    (qi == qo + ql)%Q /\ loses lf q qi qo ql.
Proof.
  intros key step sc a net s x name lf c mn mx q H Hin Hc Hv Hz.
  destruct (loaded_node _ _ _ _ (sm_load _ _ _ _ _ _ _ H) _ Hin) as (p & Hp & Hpo). cbn [add_node add_loss_link] in Hp. injection Hp as <-.
  destruct (loss_constant _ _ _ _ _ _ _ H lf q (sub name "net") (sub name "loss") (sub name "agg") c mn mx
              (match load_loss key lf with Some _ => None | None => Some (UConst 0) end) Hc Hv) as (i & j & Hi & Hj & Bi & L).
  - apply (po_nodes _ _ Hpo). here.
  - apply (po_nodes _ _ Hpo). here.
  - intros r Er. apply (po_aggs _ _ Hpo). cbn [ad_aggs]. rewrite Er. left. reflexivity.
  - intros E. rewrite E. split; [reflexivity|]. apply Hz. apply (zero_constant (factor_metric lf) q Hc).
    destruct lf as [m|m]; cbn [load_loss factor_metric] in *; destruct (is_constant_zero m); congruence.
  - exists (outflow net (edge_flow net x) i + inflow net (edge_flow net x) j)%Q, (outflow net (edge_flow net x) i), (inflow net (edge_flow net x) j).
    split; [eapply metric_is; [reflexivity | apply (value_ins _ _ _ _ _ _ _ H _ [i; j]); two_parts | qs]|].
    split; [eapply metric_is; [reflexivity | apply (value_out _ _ _ _ _ _ _ H _ i); eassumption | qs]|].
    split; [eapply metric_is; [reflexivity | apply (value_in _ _ _ _ _ _ _ H _ j); eassumption | qs]|].
    split; [lra | exact L].
Qed.
Print Assumptions C40_loss_link.

(** Without a factor nothing is lost. *)
Theorem C40_no_loss_factor : forall key step sc a net s x name c mn mx,
  simulated key step sc a net s x -> In (SLossLink name None c mn mx) (sc_nodes sc) ->
  exists q, node_metric a net x (SLossLink name None c mn mx) AtInflow q /\
    node_metric a net x (SLossLink name None c mn mx) AtOutflow q /\
    node_metric a net x (SLossLink name None c mn mx) AtLoss 0.
Proof.
  intros key step sc a net s x name c mn mx H Hin.
  destruct (loaded_node _ _ _ _ (sm_load _ _ _ _ _ _ _ H) _ Hin) as (p & Hp & Hpo). cbn [add_node add_loss_link] in Hp. injection Hp as <-.
  destruct (a_link _ _ _ _ _ _ _ H (sub name "net") c mn mx) as (i & Hi & _ & Bi); [apply (po_nodes _ _ Hpo); here|].
  exists (outflow net (edge_flow net x) i).
  split; [eapply metric_is; [reflexivity | apply (value_in _ _ _ _ _ _ _ H _ i); eassumption | exact Bi]|].
  split; [eapply metric_is; [reflexivity | apply (value_out _ _ _ _ _ _ _ H _ i); eassumption | reflexivity]|].
  eapply metric_is; [reflexivity | reflexivity | reflexivity].
Qed.
Print Assumptions C40_no_loss_factor.

(** Factors that vary in time.  Full statement: as [C40_loss_link], with the
    factor's current value.  Proved when the loss link's flows are not also tied
    by another aggregated node with factors; without that condition the
    statement is false (C38_dynamic_shared_row_refuted). *)
Theorem C40_varying_loss_partial : forall key step sc a net s x name lf c mn mx,
  simulated key step sc a net s x -> In (SLossLink name (Some lf) c mn mx) (sc_nodes sc) ->
  is_constant_zero (factor_metric lf) = false -> valid_factor lf (value key s (factor_metric lf)) ->
  separate a net (sub name "agg") ->
  exists qi qo ql,
    node_metric a net x (SLossLink name (Some lf) c mn mx) AtInflow qi /\
    node_metric a net x (SLossLink name (Some lf) c mn mx) AtOutflow qo /\
    node_metric a net x (SLossLink name (Some lf) c mn mx) AtLoss ql /\
    (qi == qo + ql)%Q /\ loses lf (value key s (factor_metric lf)) qi qo ql.
Proof.
  intros key step sc a net s x name lf c mn mx H Hin Hnz Hv Hsep.
  destruct (loaded_node _ _ _ _ (sm_load _ _ _ _ _ _ _ H) _ Hin) as (p & Hp & Hpo). cbn [add_node add_loss_link] in Hp. injection Hp as <-.
  assert (Hr : exists r, load_loss key lf = Some r) by (destruct lf as [m|m]; cbn [load_loss factor_metric] in *; rewrite Hnz; eauto).
  destruct Hr as (r & Er).
  destruct (loss_varying _ _ _ _ _ _ _ H lf (sub name "net") (sub name "loss") (sub name "agg") c mn mx None r Er Hv) as (i & j & Hi & Hj & Bi & L).
  - apply (po_nodes _ _ Hpo). here.
  - apply (po_nodes _ _ Hpo). cbn [ad_nodes]. rewrite Er. left. reflexivity.
  - apply (po_aggs _ _ Hpo). cbn [ad_aggs]. rewrite Er. left. reflexivity.
  - exact Hsep.
  - exists (outflow net (edge_flow net x) i + inflow net (edge_flow net x) j)%Q, (outflow net (edge_flow net x) i), (inflow net (edge_flow net x) j).
    split; [eapply metric_is; [reflexivity | apply (value_ins _ _ _ _ _ _ _ H _ [i; j]); two_parts | qs]|].
    split; [eapply metric_is; [reflexivity | apply (value_out _ _ _ _ _ _ _ H _ i); eassumption | qs]|].
    split; [eapply metric_is; [reflexivity | apply (value_in _ _ _ _ _ _ _ H _ j); eassumption | qs]|].
    split; [lra | exact L].
Qed.
Print Assumptions C40_varying_loss_partial.

(** A source, a loss link and a demand: of 10 arriving, a quarter is lost. *)
Definition ex_edge (f t : string) : sedge := mkSedge f None t None.
Definition ex_loss (lf : loss_factor) : schema :=
  mkSchema [SInput "in" None None None; SLossLink "ll" (Some lf) None None None; SOutput "out" None None None] []
           [ex_edge "in" "ll"; ex_edge "ll" "out"].
Definition ex_state := rel_state 0 0.
Example C40_example :
  let sc := ex_loss (LGross (UConst (1#4))) in let x := rel_x [15#2; 5#2]%Q in
  simulated ex_key None sc (ex_added sc) (ex_net sc) ex_state x /\
  In (SLossLink "ll" (Some (LGross (UConst (1#4)))) None None None) (sc_nodes sc) /\
  ex_check sc ex_state (rel_x [8; 2]%Q) = false /\
  ex_check (ex_loss (LNet (UConst (1#4)))) ex_state (rel_x [8; 2]%Q) = true /\
  ex_check (ex_loss (LNet (UConst 0))) ex_state (rel_x [8; 2]%Q) = false /\
  ex_check (ex_loss (LNet (UConst 0))) ex_state (rel_x [8; 0]%Q) = true.
Proof.
  cbv zeta. split; [apply ex_simulated; vm_compute; reflexivity|]. split; [cbn [sc_nodes ex_loss In]; tauto|].
  split; [vm_compute; reflexivity|]. split; [vm_compute; reflexivity|]. split; vm_compute; reflexivity.
Qed.

(** A gross factor of 1 or more is not refused; it is ignored, and nothing need
    be lost. *)
Theorem C40_factor_one_ignored_refuted : exists sc x name lf c mn mx,
  simulated ex_key None sc (ex_added sc) (ex_net sc) ex_state x /\ In (SLossLink name (Some lf) c mn mx) (sc_nodes sc) /\
  constant (factor_metric lf) 1 /\
  node_metric (ex_added sc) (ex_net sc) x (SLossLink name (Some lf) c mn mx) AtInflow 10 /\
  node_metric (ex_added sc) (ex_net sc) x (SLossLink name (Some lf) c mn mx) AtLoss 0 /\ ~ loses lf 1 10 10 0.
Proof.
  exists (ex_loss (LGross (UConst 1))), (rel_x [10; 0]%Q), "ll", (LGross (UConst 1)), None, None, None.
  split; [apply ex_simulated; vm_compute; reflexivity|]. split; [cbn [sc_nodes ex_loss In]; tauto|]. split; [left; reflexivity|].
  split; [eexists; eexists; split; [reflexivity|]; split; [vm_compute; reflexivity | vm_compute; reflexivity]|].
  split; [eexists; eexists; split; [reflexivity|]; split; [vm_compute; reflexivity | vm_compute; reflexivity]|].
  vm_compute. discriminate.
Qed.
Print Assumptions C40_factor_one_ignored_refuted.

(** ** C41: river splits *)
Definition split_at (splits : list split) (i : nat) (q : Q) : Prop :=
  exists sp, nth_error splits i = Some sp /\ constant (sp_factor sp) q.

Lemma split_parts_in key name mrf mc splits i sp : nth_error splits i = Some sp ->
  In (link key (split_name name i) None None None) (ad_nodes (add_river_split key name mrf mc splits)) /\
  In (agg key (split_agg_name name i) [[sub name "bypass"]; [split_name name i]] None None
          (Some (RFactored (FProportion [to_metric key (sp_factor sp)])))) (ad_aggs (add_river_split key name mrf mc splits)).
Proof.
  intros E. pose proof (nth_error_Some_lt _ _ _ E) as Hlt. cbn [ad_nodes ad_aggs add_river_split]. split.
  - apply in_or_app. left. apply (in_map (fun i => link key (split_name name i) None None None)). apply in_seq. lia.
  - apply in_map_iff. exists (i, sp). split; [reflexivity|]. apply (nth_error_In _ i). clear Hlt.
    enough (G : forall o, nth_error (combine (seq o (length splits)) splits) i = Some (o + i, sp)) by exact (G 0).
    revert i E. induction splits as [|s0 splits IH]; intros [|i] E o; try discriminate; cbn [length seq combine nth_error] in *.
    + rewrite Nat.add_0_r. congruence.
    + rewrite (IH i E (S o)). do 2 f_equal. lia.
Qed.

(** Every split takes its configured proportion of the flow through itself and
    the bypass (constant factors, every number of splits).  Missing for C41:
    the proportion should be of the flow through the bypass and all splits. *)
Theorem C41_split_against_bypass_partial : forall key step sc a net s x name mrf mc splits i q,
  simulated key step sc a net s x -> In (SRiverSplit name mrf mc splits) (sc_nodes sc) ->
  split_at splits i q -> (0 <= q /\ q < 1)%Q ->
  exists qb qs, part_flow a net x (sub name "bypass") qb /\ part_flow a net x (split_name name i) qs /\ (qs == q * (qb + qs))%Q.
Proof.
  intros key step sc a net s x name mrf mc splits i q H Hin (sp & Esp & Hc) Hq.
  destruct (loaded_node _ _ _ _ (sm_load _ _ _ _ _ _ _ H) _ Hin) as (p & Hp & Hpo). cbn [add_node] in Hp. injection Hp as <-.
  destruct (split_parts_in key name mrf mc splits i sp Esp) as [_ Ha]. apply (po_aggs _ _ Hpo) in Ha.
  rewrite (constant_metric key _ q Hc) in Ha. destruct (agg_proportion _ _ _ _ _ _ _ H _ _ _ _ _ _ Ha Hq) as (k & j & Hk & Hj & E).
  exists (node_flow net (edge_flow net x) k), (node_flow net (edge_flow net x) j).
  split; [exists k; split; [exact Hk | reflexivity]|]. split; [exists j; split; [exact Hj | reflexivity] | exact E].
Qed.
Print Assumptions C41_split_against_bypass_partial.

(** With one split this is all the flow that does not go via the minimum
    residual flow route. *)
Theorem C41_one_split : forall key step sc a net s x name mrf mc sp q,
  simulated key step sc a net s x -> In (SRiverSplit name mrf mc [sp]) (sc_nodes sc) ->
  constant (sp_factor sp) q -> (0 <= q /\ q < 1)%Q ->
  exists total qm qs, node_metric a net x (SRiverSplit name mrf mc [sp]) AtInflow total /\
    node_metric a net x (SRiverSplit name mrf mc [sp]) AtOutflow total /\
    part_flow a net x (sub name "mrf") qm /\ part_flow a net x (split_name name 0) qs /\ (qs == q * (total - qm))%Q.
Proof.
  intros key step sc a net s x name mrf mc sp q H Hin Hc Hq.
  destruct (C41_split_against_bypass_partial key step sc a net s x name mrf mc [sp] 0 q H Hin) as (qb & qs & (k & Hk & Ek) & (j & Hj & Ej) & E);
    [exists sp; split; [reflexivity | exact Hc] | exact Hq |].
  destruct (loaded_node _ _ _ _ (sm_load _ _ _ _ _ _ _ H) _ Hin) as (p & Hp & Hpo). cbn [add_node] in Hp. injection Hp as <-.
  destruct (a_link _ _ _ _ _ _ _ H (sub name "mrf") mc None mrf) as (i & Hi & Fi & Bi); [apply (po_nodes _ _ Hpo); here|].
  destruct (a_link _ _ _ _ _ _ _ H (sub name "bypass") None None None) as (k' & Hk' & Fk & Bk); [apply (po_nodes _ _ Hpo); here|].
  destruct (a_link _ _ _ _ _ _ _ H (split_name name 0) None None None) as (j' & Hj' & Fj & Bj); [apply (po_nodes _ _ Hpo); here|].
  rewrite <- (declared_unique _ _ _ _ _ _ _ H k k' _ Hk Hk') in *. rewrite <- (declared_unique _ _ _ _ _ _ _ H j j' _ Hj Hj') in *.
  rewrite Fk in Ek. rewrite Fj in Ej.
  exists (outflow net (edge_flow net x) i + qb + qs)%Q, (outflow net (edge_flow net x) i), qs.
  split; [eapply metric_is; [reflexivity | apply (value_ins _ _ _ _ _ _ _ H _ [i; k; j]); two_parts | qs]|].
  split; [eapply metric_is; [reflexivity | apply (value_outs _ _ _ _ _ _ _ H _ [i; k; j]); two_parts | qs]|].
  split; [exists i; split; [exact Hi | rewrite Fi; reflexivity]|].
  split; [exists j; split; [exact Hj | rewrite Fj; exact Ej]|]. rewrite E at 1. ring.
Qed.
Print Assumptions C41_one_split.

(** Two splits of one half each: the code gives each as much as the bypass, a
    third of the flow. *)
Definition ex_splits : list split := [mkSplit (UConst (1#2)) None; mkSplit (UConst (1#2)) None].
Definition ex_river (splits : list split) : schema :=
  mkSchema [SInput "in" None None None; SRiverSplit "split" (Some (UConst 2)) None splits; SOutput "out" None None None] []
           [ex_edge "in" "split"; ex_edge "split" "out"].
Theorem C41_two_splits_refuted : exists sc x name mrf mc splits total qm qs,
  simulated ex_key None sc (ex_added sc) (ex_net sc) ex_state x /\ In (SRiverSplit name mrf mc splits) (sc_nodes sc) /\
  split_at splits 0 (1#2) /\ split_at splits 1 (1#2) /\
  node_metric (ex_added sc) (ex_net sc) x (SRiverSplit name mrf mc splits) AtInflow total /\
  part_flow (ex_added sc) (ex_net sc) x (sub name "mrf") qm /\ part_flow (ex_added sc) (ex_net sc) x (split_name name 0) qs /\
  ~ (qs == (1#2) * (total - qm))%Q.
Proof.
  exists (ex_river ex_splits), (rel_x [2; 3; 3; 3]%Q), "split", (Some (UConst 2)), None, ex_splits, 11%Q, 2%Q, 3%Q.
  split; [apply ex_simulated; vm_compute; reflexivity|]. split; [cbn [sc_nodes ex_river In]; tauto|].
  split; [eexists; split; [reflexivity|]; left; reflexivity|]. split; [eexists; split; [reflexivity|]; left; reflexivity|].
  split; [eexists; eexists; split; [reflexivity|]; split; [vm_compute; reflexivity | vm_compute; reflexivity]|].
  split; [exists 3; split; vm_compute; reflexivity|]. split; [exists 1; split; vm_compute; reflexivity|]. vm_compute. discriminate.
Qed.
Print Assumptions C41_two_splits_refuted.
Example C41_example :
  let sc := ex_river [mkSplit (UConst (1#4)) None] in
  simulated ex_key None sc (ex_added sc) (ex_net sc) ex_state (rel_x [2; 3; 1]%Q) /\
  ex_check sc ex_state (rel_x [2; 3; 2]%Q) = false.
Proof. cbv zeta. split; [apply ex_simulated; vm_compute; reflexivity | vm_compute; reflexivity]. Qed.

Ltac loaded H Hin Hpo := let p := fresh "p" in let Hp := fresh "Hp" in
  destruct (loaded_node _ _ _ _ (sm_load _ _ _ _ _ _ _ H) _ Hin) as (p & Hp & Hpo); cbn [add_node] in Hp; injection Hp as <-.
Ltac in_nodes Hpo := apply (po_nodes _ _ Hpo); here.
Ltac in_aggs Hpo := apply (po_aggs _ _ Hpo); here.
Ltac part_is i Hi Fi := exists i; split; [exact Hi | rewrite Fi; reflexivity].

(** ** C49: river gauges *)
(** The minimum residual flow bounds the flow of its own route only, and its
    cost is charged there. *)
Theorem C49_mrf_route : forall key step sc a net s x name mrf mc bc,
  simulated key step sc a net s x -> In (SRiverGauge name mrf mc bc) (sc_nodes sc) -> (0 < st_days s)%Q ->
  not_exclusive a net (sub name "mrf") -> not_exclusive a net (sub name "bypass") ->
  exists total qm qb,
    node_metric a net x (SRiverGauge name mrf mc bc) AtInflow total /\
    node_metric a net x (SRiverGauge name mrf mc bc) AtOutflow total /\
    part_flow a net x (sub name "mrf") qm /\ part_flow a net x (sub name "bypass") qb /\ (total == qm + qb)%Q /\
    (qm <= value_or key s mrf F64_MAX)%Q /\ (0 <= qb)%Q /\
    own_cost a net s (sub name "mrf") (value_or key s mc 0).
Proof.
  intros key step sc a net s x name mrf mc bc H Hin Hd Hx1 Hx2. loaded H Hin Hpo. cbn [add_river_gauge] in Hpo.
  assert (Hm : In (link key (sub name "mrf") mc bc mrf) (ad_nodes a)) by in_nodes Hpo.
  assert (Hy : In (link key (sub name "bypass") None None None) (ad_nodes a)) by in_nodes Hpo.
  destruct (a_link _ _ _ _ _ _ _ H _ _ _ _ Hm) as (i & Hi & Fi & Bi). destruct (a_link _ _ _ _ _ _ _ H _ _ _ _ Hy) as (j & Hj & Fj & Bj).
  pose proof (limits_at _ _ _ _ _ _ _ H _ TLink _ _ _ i Hm ltac:(discriminate) Hx1 Hd Hi) as [_ Lu].
  pose proof (limits_at _ _ _ _ _ _ _ H _ TLink _ _ _ j Hy ltac:(discriminate) Hx2 Hd Hj) as [Ll _].
  exists (outflow net (edge_flow net x) i + outflow net (edge_flow net x) j)%Q, (outflow net (edge_flow net x) i), (outflow net (edge_flow net x) j).
  split; [eapply metric_is; [reflexivity | apply (value_ins _ _ _ _ _ _ _ H _ [i; j]); two_parts | qs]|].
  split; [eapply metric_is; [reflexivity | apply (value_outs _ _ _ _ _ _ _ H _ [i; j]); two_parts | qs]|].
  split; [part_is i Hi Fi|]. split; [part_is j Hj Fj|]. split; [reflexivity|].
  split; [rewrite <- Fi; exact Lu|]. split; [rewrite <- Fj; exact Ll|]. exact (part_cost _ _ _ _ _ _ _ H TLink _ _ _ _ Hm).
Qed.
Print Assumptions C49_mrf_route.

(** The bypass cost is never charged: whatever it is, flow through the bypass
    costs nothing ... *)
Theorem C49_bypass_costs_nothing : forall key step sc a net s x name mrf mc bc,
  simulated key step sc a net s x -> In (SRiverGauge name mrf mc bc) (sc_nodes sc) -> own_cost a net s (sub name "bypass") 0.
Proof.
  intros key step sc a net s x name mrf mc bc H Hin. loaded H Hin Hpo. cbn [add_river_gauge] in Hpo.
  exact (part_cost _ _ _ _ _ _ _ H TLink (sub name "bypass") None None None ltac:(in_nodes Hpo)).
Qed.
Print Assumptions C49_bypass_costs_nothing.
(** ... and it is a lower limit of the minimum residual flow route instead. *)
Theorem C49_bypass_cost_is_lower_limit : forall key step sc a net s x name mrf mc bc,
  simulated key step sc a net s x -> In (SRiverGauge name mrf mc (Some bc)) (sc_nodes sc) -> (0 < st_days s)%Q ->
  not_exclusive a net (sub name "mrf") ->
  exists qm, part_flow a net x (sub name "mrf") qm /\ (value key s bc <= qm)%Q.
Proof.
  intros key step sc a net s x name mrf mc bc H Hin Hd Hx1. loaded H Hin Hpo. cbn [add_river_gauge] in Hpo.
  assert (Hm : In (link key (sub name "mrf") mc (Some bc) mrf) (ad_nodes a)) by in_nodes Hpo.
  destruct (a_link _ _ _ _ _ _ _ H _ _ _ _ Hm) as (i & Hi & Fi & Bi).
  pose proof (limits_at _ _ _ _ _ _ _ H _ TLink _ _ _ i Hm ltac:(discriminate) Hx1 Hd Hi) as [Ll _].
  exists (outflow net (edge_flow net x) i). split; [part_is i Hi Fi|]. rewrite <- Fi. exact Ll.
Qed.
Print Assumptions C49_bypass_cost_is_lower_limit.
Definition ex_gauge (bc : option umetric) : schema :=
  mkSchema [SInput "in" None None None; SRiverGauge "g" (Some (UConst 5)) (Some (UConst (-10))) bc; SOutput "out" None None None] []
           [ex_edge "in" "g"; ex_edge "g" "out"].
Theorem C49_bypass_cost_refuted : exists sc x name mrf mc bc,
  simulated ex_key None sc (ex_added sc) (ex_net sc) ex_state x /\ In (SRiverGauge name mrf mc (Some bc)) (sc_nodes sc) /\
  (value ex_key ex_state bc == 3)%Q /\ ~ own_cost (ex_added sc) (ex_net sc) ex_state (sub name "bypass") 3.
Proof.
  assert (Hs : simulated ex_key None (ex_gauge (Some (UConst 3))) (ex_added (ex_gauge (Some (UConst 3)))) (ex_net (ex_gauge (Some (UConst 3))))
                 ex_state (rel_x [4; 6]%Q)) by (apply ex_simulated; vm_compute; reflexivity).
  exists (ex_gauge (Some (UConst 3))), (rel_x [4; 6]%Q), "g", (Some (UConst 5)), (Some (UConst (-10))), (UConst 3).
  split; [exact Hs|]. split; [cbn [sc_nodes ex_gauge In]; tauto|]. split; [reflexivity|].
  intros (i & n & m & Hi & En & Ec & Em).
  destruct (C49_bypass_costs_nothing _ _ _ _ _ _ _ "g" (Some (UConst 5)) (Some (UConst (-10))) (Some (UConst 3)) Hs) as (j & n' & m' & Hj & En' & Ec' & Em');
    [cbn [sc_nodes ex_gauge In]; tauto|].
  rewrite (declared_unique _ _ _ _ _ _ _ Hs i j _ Hi Hj) in En. rewrite En in En'. injection En' as <-. rewrite Ec in Ec'. injection Ec' as <-.
  rewrite Em in Em'. vm_compute in Em'. discriminate.
Qed.
Print Assumptions C49_bypass_cost_refuted.
Example C49_example :
  simulated ex_key None (ex_gauge None) (ex_added (ex_gauge None)) (ex_net (ex_gauge None)) ex_state (rel_x [4; 6]%Q) /\
  not_exclusive (ex_added (ex_gauge None)) (ex_net (ex_gauge None)) (sub "g" "mrf") /\
  ex_check (ex_gauge None) ex_state (rel_x [6; 6]%Q) = false.
Proof.
  split; [apply ex_simulated; vm_compute; reflexivity|]. split; [apply ex_not_exclusive; vm_compute; reflexivity | vm_compute; reflexivity].
Qed.

(** ** C52: links with soft constraints *)
(** The flow of a link keeps to its limits if it has at most one soft
    constraint. *)
Theorem C52_hard_limits_partial : forall key step sc a net s x name c mn mx sm sx,
  simulated key step sc a net s x -> In (SLink name c mn mx sm sx) (sc_nodes sc) ->
  (sm = None \/ sx = None) -> (sm = None -> sx = None -> not_exclusive a net (whole name) /\ 0 < st_days s)%Q ->
  exists q, node_metric a net x (SLink name c mn mx sm sx) AtInflow q /\
    node_metric a net x (SLink name c mn mx sm sx) AtOutflow q /\ limited key s mn mx q.
Proof.
  intros key step sc a net s x name c mn mx sm sx H Hin Hsoft Hplain. loaded H Hin Hpo.
  destruct sm as [sm|], sx as [sx|]; cbn [add_link] in Hpo; [destruct Hsoft; discriminate| | |].
  - destruct (a_link _ _ _ _ _ _ _ H (whole name) c None None) as (i & Hi & Fi & Bi); [in_nodes Hpo|].
    destruct (a_link _ _ _ _ _ _ _ H (sub name "soft_min") (sf_cost sm) None (sf_flow sm)) as (j & Hj & Fj & Bj); [in_nodes Hpo|].
    destruct (agg_limits _ _ _ _ _ _ _ H (sub name "aggregate_node") [[whole name; sub name "soft_min"]] mn mx None) as (gs & HF & L); [in_aggs Hpo|].
    invF2. repeat match goal with Hd : declared _ ?k (whole name) |- _ => first [constr_eq k i; fail 1 | rewrite (declared_unique _ _ _ _ _ _ _ H k i _ Hd Hi) in *; clear Hd] end.
    repeat match goal with Hd : declared _ ?k (sub name "soft_min") |- _ => first [constr_eq k j; fail 1 | rewrite (declared_unique _ _ _ _ _ _ _ H k j _ Hd Hj) in *; clear Hd] end.
    exists (group_flow net (edge_flow net x) (concat [[i; j]])). unfold group_flow in *. cbn [concat app map qsum fold_right] in *. rewrite Fi, Fj in *.
    split; [eapply metric_is; [reflexivity | apply (value_outs _ _ _ _ _ _ _ H _ [i; j]); two_parts | qs]|].
    split; [eapply metric_is; [reflexivity | apply (value_ins _ _ _ _ _ _ _ H _ [i; j]); two_parts | qs] | exact L].
  - destruct (a_link _ _ _ _ _ _ _ H (whole name) (sf_cost sx) None None) as (i & Hi & Fi & Bi); [in_nodes Hpo|].
    destruct (a_link _ _ _ _ _ _ _ H (sub name "soft_max") c None (sf_flow sx)) as (j & Hj & Fj & Bj); [in_nodes Hpo|].
    destruct (agg_limits _ _ _ _ _ _ _ H (sub name "aggregate_node") [[whole name; sub name "soft_max"]] mn mx None) as (gs & HF & L); [in_aggs Hpo|].
    invF2. repeat match goal with Hd : declared _ ?k (whole name) |- _ => first [constr_eq k i; fail 1 | rewrite (declared_unique _ _ _ _ _ _ _ H k i _ Hd Hi) in *; clear Hd] end.
    repeat match goal with Hd : declared _ ?k (sub name "soft_max") |- _ => first [constr_eq k j; fail 1 | rewrite (declared_unique _ _ _ _ _ _ _ H k j _ Hd Hj) in *; clear Hd] end.
    exists (group_flow net (edge_flow net x) (concat [[i; j]])). unfold group_flow in *. cbn [concat app map qsum fold_right] in *. rewrite Fi, Fj in *.
    split; [eapply metric_is; [reflexivity | apply (value_outs _ _ _ _ _ _ _ H _ [i; j]); two_parts | qs]|].
    split; [eapply metric_is; [reflexivity | apply (value_ins _ _ _ _ _ _ _ H _ [i; j]); two_parts | qs] | exact L].
  - destruct (Hplain eq_refl eq_refl) as [Hex Hd]. assert (Hm : In (link key (whole name) c mn mx) (ad_nodes a)) by in_nodes Hpo.
    destruct (a_link _ _ _ _ _ _ _ H _ _ _ _ Hm) as (i & Hi & Fi & Bi).
    pose proof (limits_at _ _ _ _ _ _ _ H _ TLink _ _ _ i Hm ltac:(discriminate) Hex Hd Hi) as L. rewrite Fi in L.
    exists (outflow net (edge_flow net x) i).
    split; [eapply metric_is; [reflexivity | apply (value_outs _ _ _ _ _ _ _ H _ [i]); two_parts | qs]|].
    split; [eapply metric_is; [reflexivity | apply (value_ins _ _ _ _ _ _ _ H _ [i]); two_parts | qs] | exact L].
Qed.
Print Assumptions C52_hard_limits_partial.

(** The soft constraint itself: flow up to the soft amount can take the part
    with its own price; the rest of the link's flow takes the other. *)
Theorem C52_soft_min : forall key step sc a net s x name c mn mx sf,
  simulated key step sc a net s x -> In (SLink name c mn mx (Some sf) None) (sc_nodes sc) -> (0 < st_days s)%Q ->
  not_exclusive a net (sub name "soft_min") ->
  exists q q0 q1, node_metric a net x (SLink name c mn mx (Some sf) None) AtOutflow q /\
    part_flow a net x (whole name) q0 /\ part_flow a net x (sub name "soft_min") q1 /\ (q == q0 + q1)%Q /\
    (0 <= q1)%Q /\ (q1 <= value_or key s (sf_flow sf) F64_MAX)%Q /\
    own_cost a net s (whole name) (value_or key s c 0) /\ own_cost a net s (sub name "soft_min") (value_or key s (sf_cost sf) 0).
Proof.
  intros key step sc a net s x name c mn mx sf H Hin Hd Hex. loaded H Hin Hpo.
  assert (H0 : In (link key (whole name) c None None) (ad_nodes a)) by in_nodes Hpo.
  assert (H1 : In (link key (sub name "soft_min") (sf_cost sf) None (sf_flow sf)) (ad_nodes a)) by in_nodes Hpo.
  destruct (a_link _ _ _ _ _ _ _ H _ _ _ _ H0) as (i & Hi & Fi & Bi). destruct (a_link _ _ _ _ _ _ _ H _ _ _ _ H1) as (j & Hj & Fj & Bj).
  pose proof (limits_at _ _ _ _ _ _ _ H _ TLink _ _ _ j H1 ltac:(discriminate) Hex Hd Hj) as [Ll Lu]. rewrite Fj in Ll, Lu.
  exists (outflow net (edge_flow net x) i + outflow net (edge_flow net x) j)%Q, (outflow net (edge_flow net x) i), (outflow net (edge_flow net x) j).
  split; [eapply metric_is; [reflexivity | apply (value_ins _ _ _ _ _ _ _ H _ [i; j]); two_parts | qs]|].
  split; [part_is i Hi Fi|]. split; [part_is j Hj Fj|]. split; [reflexivity|]. split; [exact Ll|]. split; [exact Lu|].
  split; [exact (part_cost _ _ _ _ _ _ _ H TLink _ _ _ _ H0) | exact (part_cost _ _ _ _ _ _ _ H TLink _ _ _ _ H1)].
Qed.
Print Assumptions C52_soft_min.
Theorem C52_soft_max : forall key step sc a net s x name c mn mx sf,
  simulated key step sc a net s x -> In (SLink name c mn mx None (Some sf)) (sc_nodes sc) -> (0 < st_days s)%Q ->
  not_exclusive a net (sub name "soft_max") ->
  exists q q0 q1, node_metric a net x (SLink name c mn mx None (Some sf)) AtOutflow q /\
    part_flow a net x (whole name) q0 /\ part_flow a net x (sub name "soft_max") q1 /\ (q == q0 + q1)%Q /\
    (0 <= q1)%Q /\ (q1 <= value_or key s (sf_flow sf) F64_MAX)%Q /\
    own_cost a net s (whole name) (value_or key s (sf_cost sf) 0) /\ own_cost a net s (sub name "soft_max") (value_or key s c 0).
Proof.
  intros key step sc a net s x name c mn mx sf H Hin Hd Hex. loaded H Hin Hpo.
  assert (H0 : In (link key (whole name) (sf_cost sf) None None) (ad_nodes a)) by in_nodes Hpo.
  assert (H1 : In (link key (sub name "soft_max") c None (sf_flow sf)) (ad_nodes a)) by in_nodes Hpo.
  destruct (a_link _ _ _ _ _ _ _ H _ _ _ _ H0) as (i & Hi & Fi & Bi). destruct (a_link _ _ _ _ _ _ _ H _ _ _ _ H1) as (j & Hj & Fj & Bj).
  pose proof (limits_at _ _ _ _ _ _ _ H _ TLink _ _ _ j H1 ltac:(discriminate) Hex Hd Hj) as [Ll Lu]. rewrite Fj in Ll, Lu.
  exists (outflow net (edge_flow net x) i + outflow net (edge_flow net x) j)%Q, (outflow net (edge_flow net x) i), (outflow net (edge_flow net x) j).
  split; [eapply metric_is; [reflexivity | apply (value_ins _ _ _ _ _ _ _ H _ [i; j]); two_parts | qs]|].
  split; [part_is i Hi Fi|]. split; [part_is j Hj Fj|]. split; [reflexivity|]. split; [exact Ll|]. split; [exact Lu|].
  split; [exact (part_cost _ _ _ _ _ _ _ H TLink _ _ _ _ H0) | exact (part_cost _ _ _ _ _ _ _ H TLink _ _ _ _ H1)].
Qed.
Print Assumptions C52_soft_max.

(** With both soft constraints the soft maximum takes the place of the hard one:
    it cannot be exceeded at any cost ... *)
Theorem C52_soft_max_cannot_be_exceeded : forall key step sc a net s x name c mn mx sm t cost,
  simulated key step sc a net s x -> In (SLink name c mn mx (Some sm) (Some (mkSoft cost (Some t)))) (sc_nodes sc) ->
  exists q, node_metric a net x (SLink name c mn mx (Some sm) (Some (mkSoft cost (Some t)))) AtOutflow q /\
    limited key s mn (Some t) q.
Proof.
  intros key step sc a net s x name c mn mx sm t cost H Hin. loaded H Hin Hpo. cbn [add_link sf_flow sf_cost] in Hpo.
  destruct (a_link _ _ _ _ _ _ _ H (whole name) c None None) as (i & Hi & Fi & Bi); [in_nodes Hpo|].
  destruct (a_link _ _ _ _ _ _ _ H (sub name "soft_min") (sf_cost sm) None (sf_flow sm)) as (j & Hj & Fj & Bj); [in_nodes Hpo|].
  destruct (a_link _ _ _ _ _ _ _ H (sub name "soft_max") cost None None) as (k & Hk & Fk & Bk); [in_nodes Hpo|].
  destruct (agg_limits _ _ _ _ _ _ _ H (sub name "aggregate_node") [[whole name; sub name "soft_min"; sub name "soft_max"]] mn (Some t) None)
    as (gs & HF & L); [in_aggs Hpo|].
  invF2. repeat match goal with Hd : declared _ ?k (whole name) |- _ => first [constr_eq k i; fail 1 | rewrite (declared_unique _ _ _ _ _ _ _ H k i _ Hd Hi) in *; clear Hd] end.
  repeat match goal with Hd : declared _ ?k (sub name "soft_min") |- _ => first [constr_eq k j; fail 1 | rewrite (declared_unique _ _ _ _ _ _ _ H k j _ Hd Hj) in *; clear Hd] end.
  repeat match goal with Hd : declared _ ?l (sub name "soft_max") |- _ => first [constr_eq l k; fail 1 | rewrite (declared_unique _ _ _ _ _ _ _ H l k _ Hd Hk) in *; clear Hd] end.
  exists (group_flow net (edge_flow net x) (concat [[i; j; k]])). unfold group_flow in *. cbn [concat app map qsum fold_right] in *. rewrite Fi, Fj, Fk in *.
  split; [eapply metric_is; [reflexivity | apply (value_ins _ _ _ _ _ _ _ H _ [i; j; k]); two_parts | qs] | exact L].
Qed.
Print Assumptions C52_soft_max_cannot_be_exceeded.
(** ... and the hard maximum is not kept. *)
Definition ex_link (mx : option umetric) (sm sx : option soft) : schema :=
  mkSchema [SInput "in" None None None; SLink "l" None None mx sm sx; SOutput "out" None None None] [] [ex_edge "in" "l"; ex_edge "l" "out"].
Definition ex_soft (c q : Q) : option soft := Some (mkSoft (Some (UConst c)) (Some (UConst q))).
Theorem C52_hard_max_lost_refuted : exists sc x name c mn mx sm sx q,
  simulated ex_key None sc (ex_added sc) (ex_net sc) ex_state x /\ In (SLink name c mn (Some mx) sm sx) (sc_nodes sc) /\
  (forall u, not_exclusive (ex_added sc) (ex_net sc) u) /\
  node_metric (ex_added sc) (ex_net sc) x (SLink name c mn (Some mx) sm sx) AtOutflow q /\ ~ (q <= value ex_key ex_state mx)%Q.
Proof.
  exists (ex_link (Some (UConst 10)) (ex_soft (-5) 4) (ex_soft 5 12)), (rel_x [4; 4; 4]%Q), "l", None, None, (UConst 10), (ex_soft (-5) 4), (ex_soft 5 12), 12%Q.
  split; [apply ex_simulated; vm_compute; reflexivity|]. split; [cbn [sc_nodes ex_link In]; tauto|].
  split; [intros u; apply ex_not_exclusive; vm_compute; reflexivity|].
  split; [eexists; eexists; split; [reflexivity|]; split; [vm_compute; reflexivity | vm_compute; reflexivity]|].
  vm_compute. intros E. exact (E eq_refl).
Qed.
Print Assumptions C52_hard_max_lost_refuted.
Example C52_example :
  let sc := ex_link (Some (UConst 10)) (ex_soft (-5) 4) None in
  simulated ex_key None sc (ex_added sc) (ex_net sc) ex_state (rel_x [5; 4]%Q) /\
  ex_check sc ex_state (rel_x [7; 4]%Q) = false /\ ex_check sc ex_state (rel_x [4; 5]%Q) = false /\
  let sc' := ex_link (Some (UConst 10)) None (ex_soft 5 8) in
  simulated ex_key None sc' (ex_added sc') (ex_net sc') ex_state (rel_x [1; 8]%Q) /\
  ex_check sc' ex_state (rel_x [3; 8]%Q) = false.
Proof.
  cbv zeta. split; [apply ex_simulated; vm_compute; reflexivity|]. split; [vm_compute; reflexivity|]. split; [vm_compute; reflexivity|].
  split; [apply ex_simulated; vm_compute; reflexivity | vm_compute; reflexivity].
Qed.

(** ** C53: rivers *)
(** A river without routing loses the configured share. *)
Theorem C53_river_loss : forall key step sc a net s x name lf q,
  simulated key step sc a net s x -> In (SRiver name (Some lf) None) (sc_nodes sc) ->
  constant (factor_metric lf) q -> valid_factor lf q ->
  (q == 0 -> not_exclusive a net (sub name "loss") /\ 0 < st_days s)%Q ->
  exists qi qo ql,
    node_metric a net x (SRiver name (Some lf) None) AtInflow qi /\
    node_metric a net x (SRiver name (Some lf) None) AtOutflow qo /\
    node_metric a net x (SRiver name (Some lf) None) AtLoss ql /\
    (qi == qo + ql)%Q /\ loses lf q qi qo ql.
Proof.
  intros key step sc a net s x name lf q H Hin Hc Hv Hz. loaded H Hin Hpo. cbv [add_river river_loss river_routing is_some] in Hpo.
  destruct (loss_constant _ _ _ _ _ _ _ H lf q (sub name "net") (sub name "loss") (sub name "aggregated_loss_node") None None None
              (match load_loss key lf with Some _ => None | None => Some (UConst 0) end) Hc Hv) as (i & j & Hi & Hj & Bi & L).
  - apply (po_nodes _ _ Hpo). destruct (load_loss key lf); here.
  - apply (po_nodes _ _ Hpo). destruct (load_loss key lf); here.
  - intros r Er. apply (po_aggs _ _ Hpo). rewrite Er. left. reflexivity.
  - intros E. rewrite E. split; [reflexivity|]. apply Hz. apply (zero_constant (factor_metric lf) q Hc).
    destruct lf as [m|m]; cbn [load_loss factor_metric] in *; destruct (is_constant_zero m); congruence.
  - exists (outflow net (edge_flow net x) i + inflow net (edge_flow net x) j)%Q, (outflow net (edge_flow net x) i), (inflow net (edge_flow net x) j).
    split; [eapply metric_is; [reflexivity | apply (value_ins _ _ _ _ _ _ _ H _ [i; j]); two_parts | qs]|].
    split; [eapply metric_is; [reflexivity | apply (value_outs _ _ _ _ _ _ _ H _ [i]); two_parts | qs]|].
    split; [eapply metric_is; [reflexivity | apply (value_in _ _ _ _ _ _ _ H _ j); eassumption | qs]|].
    split; [lra | exact L].
Qed.
Print Assumptions C53_river_loss.

(** A plain river passes on what arrives. *)
Theorem C53_plain_river : forall key step sc a net s x name,
  simulated key step sc a net s x -> In (SRiver name None None) (sc_nodes sc) ->
  exists q, node_metric a net x (SRiver name None None) AtInflow q /\ node_metric a net x (SRiver name None None) AtOutflow q /\
    node_metric a net x (SRiver name None None) AtLoss 0.
Proof.
  intros key step sc a net s x name H Hin. loaded H Hin Hpo.
  destruct (a_link _ _ _ _ _ _ _ H (sub name "net") None None None) as (i & Hi & _ & Bi); [in_nodes Hpo|].
  exists (outflow net (edge_flow net x) i).
  split; [eapply metric_is; [reflexivity | apply (value_ins _ _ _ _ _ _ _ H _ [i]); two_parts | qs]|].
  split; [eapply metric_is; [reflexivity | apply (value_outs _ _ _ _ _ _ _ H _ [i]); two_parts | qs]|].
  eapply metric_is; [reflexivity | reflexivity | reflexivity].
Qed.
Print Assumptions C53_plain_river.
