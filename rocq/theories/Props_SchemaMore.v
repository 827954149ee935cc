(** More nodes of a model file: C54, C55, C56, and the names of parts: C57. *)
From Coq Require Import Lqa Permutation Decimal DecimalString DecimalNat DecimalFacts.
From Verif Require Import Base Calendar Network NetworkBuild NetworkSpec NetworkBuildLemmas Lp LpSpec LpRowLemmas LpDynLemmas LpRelLemmas
  Props_Network Props_Lp Props_LpRel SchemaNodes SchemaMetrics SchemaSpec SchemaLemmas SchemaNodeLemmas SchemaEdgeLemmas Props_Schema Props_SchemaEdges.
Local Open Scope string_scope.
Local Open Scope list_scope.
Local Open Scope nat_scope.

(** ** C54: water treatment works *)
Lemma wtw_parts key name lf c mn mx sm smc a : part_of (add_wtw key name lf c mn mx sm smc) a ->
  In (link key (sub name "net") c mn mx) (ad_nodes a) /\ In (link key (sub name "net_soft_min_flow") smc None sm) (ad_nodes a) /\
  In (link key (sub name "net_above_soft_min_flow") None None None) (ad_nodes a).
Proof.
  intros Hpo. repeat split; apply (po_nodes _ _ Hpo); unfold add_wtw; (destruct lf as [lf|]; [destruct (load_loss key lf)|]); cbn [ad_nodes In app]; tauto.
Qed.

(** The water leaving is the inflow less the loss, is within the limits, and is
    divided between the priced allowance (up to the soft minimum) and the rest. *)
Theorem C54_treatment_works : forall key step sc a net s x name lf c mn mx sm smc,
  simulated key step sc a net s x -> In (SWtw name lf c mn mx sm smc) (sc_nodes sc) -> (0 < st_days s)%Q ->
  not_exclusive a net (sub name "net") -> not_exclusive a net (sub name "net_soft_min_flow") ->
  exists qi qo ql q0 q1,
    node_metric a net x (SWtw name lf c mn mx sm smc) AtInflow qi /\
    node_metric a net x (SWtw name lf c mn mx sm smc) AtOutflow qo /\
    node_metric a net x (SWtw name lf c mn mx sm smc) AtLoss ql /\
    part_flow a net x (sub name "net_soft_min_flow") q0 /\ part_flow a net x (sub name "net_above_soft_min_flow") q1 /\
    (qi == qo + ql)%Q /\ (qo == q0 + q1)%Q /\ limited key s mn mx qo /\
    (0 <= q0 /\ q0 <= value_or key s sm F64_MAX /\ 0 <= q1)%Q /\
    own_cost a net s (sub name "net") (value_or key s c 0) /\
    own_cost a net s (sub name "net_soft_min_flow") (value_or key s smc 0) /\
    own_cost a net s (sub name "net_above_soft_min_flow") 0 /\
    match lf with
    | None => (ql == 0)%Q
    | Some lf => forall q, constant (factor_metric lf) q -> valid_factor lf q ->
        (q == 0 -> not_exclusive a net (sub name "loss"))%Q -> loses lf q qi qo ql
    end.
Proof.
  intros key step sc a net s x name lf c mn mx sm smc H Hin Hd Hx1 Hx2.
  destruct (loaded_node _ _ _ _ (sm_load _ _ _ _ _ _ _ H) _ Hin) as (p & Hp & Hpo). pose proof Hp as Hp0. cbn [add_node] in Hp. injection Hp as <-.
  destruct (wtw_parts _ _ _ _ _ _ _ _ _ Hpo) as (Hn & Hs & Ha).
  destruct (a_link _ _ _ _ _ _ _ H _ _ _ _ Hn) as (i & Di & Fi & Bi).
  destruct (a_link _ _ _ _ _ _ _ H _ _ _ _ Hs) as (j & Dj & Fj & Bj). destruct (a_link _ _ _ _ _ _ _ H _ _ _ _ Ha) as (k & Dk & Fk & Bk).
  pose proof (limits_at _ _ _ _ _ _ _ H _ TLink _ _ _ i Hn ltac:(discriminate) Hx1 Hd Di) as Li. rewrite Fi in Li.
  pose proof (limits_at _ _ _ _ _ _ _ H _ TLink _ _ _ j Hs ltac:(discriminate) Hx2 Hd Dj) as [Lj Uj]. rewrite Fj in Lj, Uj.
  pose proof (outflow_non_negative _ _ _ _ _ _ _ H k) as Lk.
  assert (Ee : ad_edges (add_wtw key name lf c mn mx sm smc) = [(sub name "net", sub name "net_soft_min_flow"); (sub name "net", sub name "net_above_soft_min_flow")]).
  { unfold add_wtw. destruct lf as [lf|]; [destruct (load_loss key lf)|]; reflexivity. }
  assert (Esum : (outflow net (edge_flow net x) i == outflow net (edge_flow net x) j + outflow net (edge_flow net x) k)%Q).
  { rewrite <- Bj, <- Bk.
    rewrite (own_outflow _ _ _ _ _ _ _ H _ _ (sub name "net") i Hin Hp0 eq_refl Di).
    2:{ intros slot outs E. cbn [output_connectors] in E. apply no_output_slot_Ok in E. destruct E as [-> _]. unfold sub. cbn [In]. intuition congruence. }
    rewrite (own_inflow _ _ _ _ _ _ _ H _ _ (sub name "net_soft_min_flow") j Hin Hp0 eq_refl Dj).
    2:{ intros slot outs E. cbn [input_connectors] in E. apply no_input_slot_Ok in E. destruct E as [-> _]. destruct (is_some lf); unfold sub; cbn [In app]; intuition congruence. }
    rewrite (own_inflow _ _ _ _ _ _ _ H _ _ (sub name "net_above_soft_min_flow") k Hin Hp0 eq_refl Dk).
    2:{ intros slot outs E. cbn [input_connectors] in E. apply no_input_slot_Ok in E. destruct E as [-> _]. destruct (is_some lf); unfold sub; cbn [In app]; intuition congruence. }
    rewrite Ee. clear. unfold into, out_of. cbn [filter fst snd]. unfold uname_eqb, sub. cbn [fst snd]. rewrite !String.eqb_refl. cbn. ring. }
  pose proof (part_cost _ _ _ _ _ _ _ H TLink _ _ _ _ Hn) as Cn. pose proof (part_cost _ _ _ _ _ _ _ H TLink _ _ _ _ Hs) as Cs.
  pose proof (part_cost _ _ _ _ _ _ _ H TLink _ _ _ _ Ha) as Ca.
  destruct lf as [lf|].
  - assert (Hl : In (output key (sub name "loss") None None (match load_loss key lf with Some _ => None | None => Some (UConst 0) end)) (ad_nodes a)).
    { apply (po_nodes _ _ Hpo). unfold add_wtw. destruct (load_loss key lf); left; reflexivity. }
    destruct (a_output _ _ _ _ _ _ _ H _ _ _ _ Hl) as (l & Dl & _).
    exists (outflow net (edge_flow net x) i + inflow net (edge_flow net x) l)%Q, (outflow net (edge_flow net x) i), (inflow net (edge_flow net x) l),
      (outflow net (edge_flow net x) j), (outflow net (edge_flow net x) k).
    split; [eapply metric_is; [reflexivity | apply (value_ins _ _ _ _ _ _ _ H _ [i; l]); two_parts | qs]|].
    split; [eapply metric_is; [reflexivity | apply (value_out _ _ _ _ _ _ _ H _ i); eassumption | qs]|].
    split; [eapply metric_is; [reflexivity | apply (value_in _ _ _ _ _ _ _ H _ l); eassumption | qs]|].
    split; [part_is j Dj Fj|]. split; [part_is k Dk Fk|]. split; [reflexivity|]. split; [exact Esum|]. split; [exact Li|]. split; [auto|].
    split; [exact Cn|]. split; [exact Cs|]. split; [exact Ca|].
    intros q Hc Hv Hz.
    destruct (loss_constant _ _ _ _ _ _ _ H lf q (sub name "net") (sub name "loss") (sub name "agg") c mn mx
                (match load_loss key lf with Some _ => None | None => Some (UConst 0) end) Hc Hv Hn Hl) as (i' & j' & Hi' & Hj' & _ & L).
    + intros r Er. apply (po_aggs _ _ Hpo). unfold add_wtw. rewrite Er. left. reflexivity.
    + intros E. rewrite E. split; [reflexivity|]. split; [|exact Hd]. apply Hz. apply (zero_constant (factor_metric lf) q Hc).
      destruct lf as [m|m]; cbn [load_loss factor_metric] in *; destruct (is_constant_zero m); congruence.
    + rewrite (declared_unique _ _ _ _ _ _ _ H i' i _ Hi' Di), (declared_unique _ _ _ _ _ _ _ H j' l _ Hj' Dl) in L. exact L.
  - exists (outflow net (edge_flow net x) i), (outflow net (edge_flow net x) i), 0%Q,
      (outflow net (edge_flow net x) j), (outflow net (edge_flow net x) k).
    split; [eapply metric_is; [reflexivity | apply (value_in _ _ _ _ _ _ _ H _ i); eassumption | exact Bi]|].
    split; [eapply metric_is; [reflexivity | apply (value_out _ _ _ _ _ _ _ H _ i); eassumption | qs]|].
    split; [eapply metric_is; [reflexivity | reflexivity | reflexivity]|].
    split; [part_is j Dj Fj|]. split; [part_is k Dk Fk|]. split; [ring|]. split; [exact Esum|]. split; [exact Li|]. split; [auto|].
    split; [exact Cn|]. split; [exact Cs|]. split; [exact Ca|]. reflexivity.
Qed.
Print Assumptions C54_treatment_works.
Definition ex_wtw (lf : option loss_factor) : schema :=
  mkSchema [SInput "in" None None None; SWtw "w" lf None (Some (UConst 2)) (Some (UConst 9)) (Some (UConst 5)) (Some (UConst (-1))); SOutput "out" None None None] []
           [ex_edge "in" "w"; ex_edge "w" "out"].
Example C54_example :
  let sc := ex_wtw (Some (LNet (UConst (1#4)))) in
  simulated ex_key None sc (ex_added sc) (ex_net sc) ex_state (rel_x [5; 3; 8; 2; 5; 3]%Q) /\
  not_exclusive (ex_added sc) (ex_net sc) (sub "w" "net") /\
  ex_check sc ex_state (rel_x [5; 3; 8; 4; 5; 3]%Q) = false /\
  ex_check sc ex_state (rel_x [6; 2; 8; 2; 6; 2]%Q) = false /\
  ex_check sc ex_state (rel_x [4; 8; 12; 3; 4; 8]%Q) = false /\
  ex_check (ex_wtw None) ex_state (rel_x [5; 3; 8; 5; 3]%Q) = true.
Proof.
  cbv zeta. split; [apply ex_simulated; vm_compute; reflexivity|]. split; [apply ex_not_exclusive; vm_compute; reflexivity|].
  split; [vm_compute; reflexivity|]. split; [vm_compute; reflexivity|]. split; vm_compute; reflexivity.
Qed.

(** ** C55: catchments and abstractions *)
Theorem C55_catchment : forall key step sc a net s x name c fl,
  simulated key step sc a net s x -> In (SCatchment name c (Some fl)) (sc_nodes sc) -> (0 < st_days s)%Q -> not_exclusive a net (whole name) ->
  node_metric a net x (SCatchment name c (Some fl)) AtOutflow (value key s fl).
Proof.
  intros key step sc a net s x name c fl H Hin Hd Hx. loaded H Hin Hpo.
  assert (Hn : In (input key (whole name) c (Some fl) (Some fl)) (ad_nodes a)) by in_nodes Hpo.
  destruct (an_input _ _ _ _ _ _ _ H _ _ _ _ Hn) as (i & Di & Fi).
  pose proof (limits_at _ _ _ _ _ _ _ H _ TInput _ _ _ i Hn ltac:(discriminate) Hx Hd Di) as [Ll Lu]. rewrite Fi in Ll, Lu. cbn [value_or] in Ll, Lu.
  eapply metric_is; [reflexivity | apply (value_out _ _ _ _ _ _ _ H _ i); eassumption | lra].
Qed.
Print Assumptions C55_catchment.

Theorem C55_abstraction : forall key step sc a net s x name mrf mc ac amn amx,
  simulated key step sc a net s x -> In (SAbstraction name mrf mc ac amn amx) (sc_nodes sc) -> (0 < st_days s)%Q ->
  not_exclusive a net (sub name "mrf") -> not_exclusive a net (sub name "abstraction") ->
  exists qi qo qa qm qb,
    node_metric a net x (SAbstraction name mrf mc ac amn amx) AtInflow qi /\
    node_metric a net x (SAbstraction name mrf mc ac amn amx) AtOutflow qo /\
    node_metric a net x (SAbstraction name mrf mc ac amn amx) AtAbstraction qa /\
    (qi == qo + qa)%Q /\ (qo == qm + qb)%Q /\ part_flow a net x (sub name "bypass") qb /\ (0 <= qb)%Q /\
    limited key s amn amx qa /\ own_cost a net s (sub name "abstraction") (value_or key s ac 0) /\
    match mrf with
    | Some m => part_flow a net x (sub name "mrf") qm /\ (0 <= qm /\ qm <= value key s m)%Q /\ own_cost a net s (sub name "mrf") (value_or key s mc 0)
    | None => (qm == 0)%Q /\ mc = None
    end.
Proof.
  intros key step sc a net s x name mrf mc ac amn amx H Hin Hd Hx1 Hx2.
  destruct (loaded_node _ _ _ _ (sm_load _ _ _ _ _ _ _ H) _ Hin) as (p & Hp & Hpo). cbn [add_node] in Hp. unfold add_abstraction in Hp.
  assert (Hb : In (link key (sub name "bypass") None None None) (ad_nodes a)) by (destruct mrf, mc; try discriminate; injection Hp as <-; in_nodes Hpo).
  assert (Ha : In (link key (sub name "abstraction") ac amn amx) (ad_nodes a)) by (destruct mrf, mc; try discriminate; injection Hp as <-; in_nodes Hpo).
  destruct (a_link _ _ _ _ _ _ _ H _ _ _ _ Hb) as (i & Di & Fi & Bi). destruct (a_link _ _ _ _ _ _ _ H _ _ _ _ Ha) as (j & Dj & Fj & Bj).
  pose proof (limits_at _ _ _ _ _ _ _ H _ TLink _ _ _ j Ha ltac:(discriminate) Hx2 Hd Dj) as Lj. rewrite Fj in Lj.
  pose proof (outflow_non_negative _ _ _ _ _ _ _ H i) as Pi. pose proof (part_cost _ _ _ _ _ _ _ H TLink _ _ _ _ Ha) as Ca.
  destruct mrf as [m|].
  - assert (Hm : In (link key (sub name "mrf") mc None (Some m)) (ad_nodes a)) by (injection Hp as <-; in_nodes Hpo).
    destruct (a_link _ _ _ _ _ _ _ H _ _ _ _ Hm) as (k & Dk & Fk & Bk).
    pose proof (limits_at _ _ _ _ _ _ _ H _ TLink _ _ _ k Hm ltac:(discriminate) Hx1 Hd Dk) as [Lk Uk]. rewrite Fk in Lk, Uk.
    exists (outflow net (edge_flow net x) k + outflow net (edge_flow net x) i + outflow net (edge_flow net x) j)%Q,
      (outflow net (edge_flow net x) k + outflow net (edge_flow net x) i)%Q, (outflow net (edge_flow net x) j), (outflow net (edge_flow net x) k), (outflow net (edge_flow net x) i).
    split; [eapply metric_is; [reflexivity | apply (value_ins _ _ _ _ _ _ _ H _ [k; i; j]); two_parts | qs]|].
    split; [eapply metric_is; [reflexivity | apply (value_ins _ _ _ _ _ _ _ H _ [k; i]); two_parts | qs]|].
    split; [eapply metric_is; [reflexivity | apply (value_out _ _ _ _ _ _ _ H _ j); eassumption | qs]|].
    split; [ring|]. split; [reflexivity|]. split; [part_is i Di Fi|]. split; [exact Pi|]. split; [exact Lj|]. split; [exact Ca|].
    split; [part_is k Dk Fk|]. split; [split; [exact Lk | exact Uk]|]. exact (part_cost _ _ _ _ _ _ _ H TLink _ _ _ _ Hm).
  - destruct mc; [discriminate|].
    exists (outflow net (edge_flow net x) i + outflow net (edge_flow net x) j)%Q, (outflow net (edge_flow net x) i), (outflow net (edge_flow net x) j), 0%Q, (outflow net (edge_flow net x) i).
    split; [eapply metric_is; [reflexivity | apply (value_ins _ _ _ _ _ _ _ H _ [i; j]); two_parts | qs]|].
    split; [eapply metric_is; [reflexivity | apply (value_ins _ _ _ _ _ _ _ H _ [i]); two_parts | qs]|].
    split; [eapply metric_is; [reflexivity | apply (value_out _ _ _ _ _ _ _ H _ j); eassumption | qs]|].
    split; [ring|]. split; [ring|]. split; [part_is i Di Fi|]. split; [exact Pi|]. split; [exact Lj|]. split; [exact Ca|].
    split; [reflexivity | reflexivity].
Qed.
Print Assumptions C55_abstraction.

(** What leaves by the abstraction's slot is the abstraction. *)
Theorem C55_abstraction_slot : forall key step sc a net s x name mrf mc ac amn amx,
  simulated key step sc a net s x -> In (SAbstraction name mrf mc ac amn amx) (sc_nodes sc) ->
  exists qa qs, node_metric a net x (SAbstraction name mrf mc ac amn amx) AtAbstraction qa /\
    Forall2 (edge_metric_is sc a net x) (edges_from sc (SAbstraction name mrf mc ac amn amx) (from_abstraction (SAbstraction name mrf mc ac amn amx))) qs /\
    (qa == qsum qs)%Q.
Proof.
  intros key step sc a net s x name mrf mc ac amn amx H Hin.
  destruct (loaded_node _ _ _ _ (sm_load _ _ _ _ _ _ _ H) _ Hin) as (p & Hp & Hpo). pose proof Hp as Hp0. cbn [add_node] in Hp. unfold add_abstraction in Hp.
  assert (Ha : In (link key (sub name "abstraction") ac amn amx) (ad_nodes a)) by (destruct mrf, mc; try discriminate; injection Hp as <-; in_nodes Hpo).
  destruct (a_link _ _ _ _ _ _ _ H _ _ _ _ Ha) as (j & Dj & Fj & Bj).
  destruct (outflow_total _ _ _ _ _ _ _ H (SAbstraction name mrf mc ac amn amx) p [sub name "abstraction"] [j]
              (from_abstraction (SAbstraction name mrf mc ac amn amx)) Hin Hp0) as (qs & HF & Eq).
  { nodup_names. } { named. }
  { intros e outs E. cbn [output_connectors] in E. cbn [from_abstraction]. destruct (se_from_slot e) as [[]|]; try discriminate; injection E as <-; try apply incl_refl;
      intros u Hu; destruct (is_some mrf); cbn [app In] in Hu |- *; unfold sub in *; intuition congruence. }
  { destruct mrf, mc; try discriminate; injection Hp as <-; intros e []. }
  { constructor; [exact Dj | constructor]. }
  exists (outflow net (edge_flow net x) j), qs.
  split; [eapply metric_is; [reflexivity | apply (value_out _ _ _ _ _ _ _ H _ j); eassumption | qs]|]. split; [exact HF|].
  rewrite <- Eq. unfold qsum. cbn [map fold_right]. ring.
Qed.
Print Assumptions C55_abstraction_slot.

Definition ex_abs : schema :=
  mkSchema [SCatchment "c" None (Some (UConst 12)); SAbstraction "b" (Some (UConst 5)) (Some (UConst (-10))) None None (Some (UConst 4));
            SOutput "sea" None None None; SOutput "town" None None None] []
           [ex_edge "c" "b"; ex_edge "b" "sea"; mkSedge "b" (Some SlAbstraction) "town" None].
Example C55_example :
  simulated ex_key None ex_abs (ex_added ex_abs) (ex_net ex_abs) ex_state (rel_x [4; 3; 5; 5; 4; 3]%Q) /\
  not_exclusive (ex_added ex_abs) (ex_net ex_abs) (sub "b" "mrf") /\
  ex_check ex_abs ex_state (rel_x [3; 3; 5; 5; 3; 3]%Q) = false /\
  ex_check ex_abs ex_state (rel_x [3; 3; 6; 6; 3; 3]%Q) = false /\
  ex_check ex_abs ex_state (rel_x [2; 5; 5; 5; 2; 5]%Q) = false.
Proof.
  split; [apply ex_simulated; vm_compute; reflexivity|]. split; [apply ex_not_exclusive; vm_compute; reflexivity|].
  split; [vm_compute; reflexivity|]. split; vm_compute; reflexivity.
Qed.

(** ** C57: names of parts *)
Lemma to_uint_nonnil n : Nat.to_uint n <> Nil.
Proof. rewrite <- (Unsigned.of_to n), Unsigned.to_of. apply unorm_nonnil. Qed.
Lemma dec_inv i : option_map Nat.of_uint (NilZero.uint_of_string (dec i)) = Some i.
Proof. unfold dec. rewrite NilZero.usu by apply to_uint_nonnil. cbn [option_map]. rewrite Unsigned.of_to. reflexivity. Qed.
Lemma dec_inj i j : dec i = dec j -> i = j.
Proof. intros E. pose proof (dec_inv i) as H. rewrite E, dec_inv in H. congruence. Qed.
Lemma dec2_inv i : option_map Nat.of_uint (NilZero.uint_of_string (dec2 i)) = Some i.
Proof.
  unfold dec2. destruct (Nat.ltb_spec i 10) as [Hi|Hi]; [|apply dec_inv].
  do 10 (destruct i as [|i]; [vm_compute; reflexivity|]). lia.
Qed.
Lemma dec2_inj i j : dec2 i = dec2 j -> i = j.
Proof. intros E. pose proof (dec2_inv i) as H. rewrite E, dec2_inv in H. congruence. Qed.
Lemma append_inj p s t : (p ++ s)%string = (p ++ t)%string -> s = t.
Proof. induction p as [|c p IH]; cbn [String.append]; [trivial|]. intros E. apply IH. congruence. Qed.
Lemma split_name_inj n i j : split_name n i = split_name n j -> i = j.
Proof. unfold split_name, sub. intros E. injection E as E. apply dec_inj. exact E. Qed.
Lemma split_agg_name_inj n i j : split_agg_name n i = split_agg_name n j -> i = j.
Proof. unfold split_agg_name, sub. intros E. injection E as E. apply dec_inj. exact E. Qed.
Lemma step_name_inj n i j : step_name n i = step_name n j -> i = j.
Proof. unfold step_name, sub. intros E. injection E as E. apply dec2_inj. exact E. Qed.
Lemma store_name_inj n i j : store_name n i = store_name n j -> i = j.
Proof. unfold store_name, sub. intros E. injection E as E. apply dec2_inj. exact E. Qed.
Lemma nodup_map_inj {A B} (g : A -> B) l : (forall i j, g i = g j -> i = j) -> NoDup l -> NoDup (map g l).
Proof. intros Hg Hl. induction Hl as [|x l Hx Hl IH]; cbn [map]; constructor; [|exact IH]. intros E. apply in_map_iff in E. destruct E as (y & E & Hy). apply Hg in E. subst y. contradiction. Qed.

Ltac nodup_parts := unfold whole, sub; repeat (constructor; [cbn [In nb_name ab_name]; intuition congruence|]); try constructor.
Lemma add_node_names key n p : add_node key n = Ok p ->
  (NoDup (map nb_name (ad_nodes p)) /\ named (snode_name n) (map nb_name (ad_nodes p))) /\
  (NoDup (map ab_name (ad_aggs p)) /\ named (snode_name n) (map ab_name (ad_aggs p))) /\ ad_vss p = [] /\
  (NoDup (map fst (ad_agg_storages p)) /\ named (snode_name n) (map fst (ad_agg_storages p))).
Proof.
  assert (Nil : forall name, NoDup (@nil uname) /\ named name []) by (intros; split; [constructor | intros u []]).
  intros E. destruct n; cbn [add_node snode_name] in *; try discriminate.
  1,3,4,5: injection E as <-; cbn [ad_nodes ad_aggs ad_vss ad_agg_storages map]; repeat split; try constructor; try (intros []); try named; constructor.
  - injection E as <-. unfold add_link. destruct soft_min, soft_max; cbn [ad_nodes ad_aggs ad_vss ad_agg_storages map fst nb_name link flow_node ab_name agg]; (split; [split; [nodup_parts | named]|]); (split; [split; [nodup_parts | named]|]); auto.
  - injection E as <-. cbn [add_river_gauge ad_nodes ad_aggs ad_vss ad_agg_storages map nb_name link flow_node]. split; [split; [nodup_parts | named]|]. auto.
  - injection E as <-. unfold add_loss_link. destruct lf; cbn [ad_nodes ad_aggs ad_vss ad_agg_storages map nb_name link output flow_node ab_name agg]; (split; [split; [nodup_parts | named]|]); (split; [split; [nodup_parts | named]|]); auto.
  - injection E as <-. unfold add_river, river_loss, river_routing. destruct lf as [lf|]; [destruct (load_loss key lf)|]; (destruct rt as [[]|]);
      cbn [is_some ad_nodes ad_aggs ad_vss ad_agg_storages map nb_name link input output flow_node ab_name agg app]; (split; [split; [nodup_parts | named]|]); (split; [split; [nodup_parts | named]|]); auto.
  - injection E as <-. cbn [ad_aggs ad_vss ad_agg_storages add_river_split]. split.
    + rewrite split_names. split.
      * apply (Permutation_NoDup (Permutation_sym (split_perm name splits))). unfold split_parts.
        apply NoDup_app_intro; [nodup_parts | apply nodup_map_inj; [apply split_name_inj | apply seq_NoDup] |].
        intros u Hu Hm. apply in_map_iff in Hm. destruct Hm as (i & <- & _). cbn [In] in Hu. unfold sub, split_name in Hu. cbn [String.append] in Hu.
        destruct Hu as [Hu|[Hu|[]]]; discriminate Hu.
      * apply named_app; [apply named_map; reflexivity | named].
    + split; [|auto]. cbn [ad_aggs add_river_split]. rewrite map_map. cbn [ab_name agg].
      pose proof (map_combine_fst (split_agg_name name) splits 0) as Em. rewrite Em.
      split; [apply nodup_map_inj; [apply split_agg_name_inj | apply seq_NoDup] | apply named_map; reflexivity].
  - injection E as <-. unfold add_wtw. destruct lf as [lf|]; [destruct (load_loss key lf)|];
      cbn [ad_nodes ad_aggs ad_vss ad_agg_storages map nb_name link output flow_node ab_name agg app]; (split; [split; [nodup_parts | named]|]); (split; [split; [nodup_parts | named]|]); auto.
  - injection E as <-. rewrite step_names. cbn [ad_aggs ad_vss ad_agg_storages add_piecewise_link map].
    split; [split; [apply nodup_map_inj; [apply step_name_inj | apply seq_NoDup] | apply named_map; reflexivity]|]. auto.
  - injection E as <-. cbn [ad_nodes ad_aggs ad_vss ad_agg_storages add_piecewise_storage map fst].
    assert (Em : forall l, map nb_name (map (fun i => store_builder key name max min (match nth_error steps i with Some s => so_cost s | None => cost end) init i) l) = map (store_name name) l)
      by (intros l; rewrite map_map; reflexivity).
    split; [|split; [auto|split; [reflexivity|split; [nodup_parts | named]]]].
    change (NoDup (map nb_name (map (fun i => store_builder key name max min (match nth_error steps i with Some s => so_cost s | None => cost end) init i) (seq 0 (S (length steps))))) /\
      named name (map nb_name (map (fun i => store_builder key name max min (match nth_error steps i with Some s => so_cost s | None => cost end) init i) (seq 0 (S (length steps)))))).
    rewrite Em. split; [apply nodup_map_inj; [apply store_name_inj | apply seq_NoDup] | apply named_map; reflexivity].
  - injection E as <-. cbn [add_delay ad_nodes ad_aggs ad_vss ad_agg_storages map nb_name input output flow_node]. split; [split; [nodup_parts | named]|]. auto.
  - injection E as <-. cbn [add_turbine ad_nodes ad_aggs ad_vss ad_agg_storages map nb_name link flow_node]. split; [split; [nodup_parts | named]|]. auto.
  - unfold add_reservoir in E. destruct ((is_some (rv_rainfall f) || is_some (rv_evaporation f)) && negb (is_some (rv_area f))); [discriminate|]. injection E as <-.
    cbn [merge ad_nodes ad_aggs ad_vss ad_agg_storages].
    destruct (rv_compensation f), (rv_spill f) as [[]|], (rv_area f), (rv_rainfall f), (rv_evaporation f), (rv_leakage f), (flag (rv_connect f) true);
      cbn [is_some andb nothing ad_nodes ad_aggs ad_vss ad_agg_storages map nb_name link input output storage flow_node app];
      (split; [split; [nodup_parts | named]|]); auto.
  - unfold add_abstraction in E. destruct mrf, mrf_cost; try discriminate; injection E as <-; cbn [ad_nodes ad_aggs ad_vss ad_agg_storages map nb_name link flow_node];
      (split; [split; [nodup_parts | named]|]); auto.
Qed.

Lemma nodup_by_node {A} key (g : added -> list A) (nm : A -> uname) l ns :
  Forall2 (fun n p => add_node key n = Ok p) l ns -> NoDup (map snode_name l) ->
  (forall n p, add_node key n = Ok p -> NoDup (map nm (g p)) /\ named (snode_name n) (map nm (g p))) ->
  NoDup (map nm (flat_map g ns)) /\ (forall u, In u (map nm (flat_map g ns)) -> In (fst u) (map snode_name l)).
Proof.
  intros HF Hnd Hg. induction HF as [|n p l ns E HF IH]; [split; [constructor | intros u []]|].
  cbn [map] in Hnd. inversion Hnd as [|? ? Hn Hnd']; subst. destruct (IH Hnd') as [IH1 IH2]. destruct (Hg n p E) as [G1 G2].
  cbn [flat_map]. rewrite map_app. split.
  - apply NoDup_app_intro; [exact G1 | exact IH1 |]. intros u Hu Hu'. apply Hn. rewrite <- (G2 u Hu). exact (IH2 u Hu').
  - intros u Hu. apply in_app_or in Hu. cbn [map]. destruct Hu as [Hu|Hu]; [left; symmetry; exact (G2 u Hu) | right; exact (IH2 u Hu)].
Qed.
Lemma flat_map_nil {A B} (g : A -> list B) l : (forall p, In p l -> g p = []) -> flat_map g l = [].
Proof. induction l as [|p l IH]; intros H; [reflexivity|]. cbn [flat_map]. rewrite (H p (or_introl eq_refl)). apply IH. intros q Hq. apply H. right. exact Hq. Qed.
Lemma vnode_adds key sc step l vs : Forall2 (fun v p => add_vnode key sc step v = Ok p) l vs ->
  flat_map ad_nodes vs = [] /\
  (forall u, In u (map ab_name (flat_map ad_aggs vs)) -> In (fst u) (map vnode_name l)) /\ (NoDup (map vnode_name l) -> NoDup (map ab_name (flat_map ad_aggs vs))) /\
  (forall u, In u (map vb_name (flat_map ad_vss vs)) -> In (fst u) (map vnode_name l)) /\ (NoDup (map vnode_name l) -> NoDup (map vb_name (flat_map ad_vss vs))) /\
  (forall u, In u (map fst (flat_map ad_agg_storages vs)) -> In (fst u) (map vnode_name l)) /\ (NoDup (map vnode_name l) -> NoDup (map fst (flat_map ad_agg_storages vs))).
Proof.
  intros HF. induction HF as [|v p l vs E HF IH]; [cbn; repeat split; try constructor; intros u []|].
  assert (Ep : ad_nodes p = [] /\ (forall u, In u (map ab_name (ad_aggs p)) -> u = whole (vnode_name v)) /\ length (ad_aggs p) <= 1 /\
    (forall u, In u (map vb_name (ad_vss p)) -> u = whole (vnode_name v)) /\ length (ad_vss p) <= 1 /\
    (forall u, In u (map fst (ad_agg_storages p)) -> u = whole (vnode_name v)) /\ length (ad_agg_storages p) <= 1).
  { destruct v; cbn [add_vnode vnode_name] in *; apply rbind_Ok in E; destruct E as (g & _ & E).
    1,2: injection E as <-; cbn [ad_nodes ad_aggs ad_vss ad_agg_storages map length fst ab_name agg In]; repeat split; try lia; intros u []; try contradiction; auto.
    apply rbind_Ok in E. destruct E as (w & _ & E). injection E as <-.
    cbn [ad_nodes ad_aggs ad_vss ad_agg_storages map length vb_name In]. repeat split; try lia; intros u []; try contradiction; auto. }
  destruct Ep as (E1 & E2 & L2 & E3 & L3 & E4 & L4). destruct IH as (I1 & I2 & I2' & I3 & I3' & I4 & I4').
  assert (One : forall {A} (nm : A -> uname) (g g' : list A), length g <= 1 -> (forall u, In u (map nm g) -> u = whole (vnode_name v)) ->
            (forall u, In u (map nm g') -> In (fst u) (map vnode_name l)) -> (NoDup (map vnode_name l) -> NoDup (map nm g')) ->
            (forall u, In u (map nm (g ++ g')) -> In (fst u) (map vnode_name (v :: l))) /\ (NoDup (map vnode_name (v :: l)) -> NoDup (map nm (g ++ g')))).
  { intros A nm g g' Hl Hg Hi Hn. split.
    - intros u Hu. rewrite map_app in Hu. apply in_app_or in Hu. cbn [map]. destruct Hu as [Hu|Hu]; [left; rewrite (Hg u Hu); reflexivity | right; exact (Hi u Hu)].
    - intros Hnd. cbn [map] in Hnd. inversion Hnd as [|? ? Hnv Hnd']; subst. rewrite map_app. apply NoDup_app_intro; [|exact (Hn Hnd')|].
      + destruct g as [|y [|]]; cbn [length map] in *; [constructor | constructor; [intros [] | constructor] | lia].
      + intros u Hu Hu'. apply Hnv. rewrite (Hg u Hu) in Hu'. exact (Hi _ Hu'). }
  destruct (One _ ab_name _ _ L2 E2 I2 I2') as [A1 A2]. destruct (One _ vb_name _ _ L3 E3 I3 I3') as [B1 B2]. destruct (One _ fst _ _ L4 E4 I4 I4') as [C1 C2].
  cbn [flat_map]. rewrite E1, I1. auto 8.
Qed.

(** A model file that loads declares its nodes, aggregated nodes, virtual storages
    and aggregated storages under pairwise different names. *)
Theorem C57_names_never_collide : forall key step sc a, load_schema key step sc = Ok a ->
  NoDup (map nb_name (ad_nodes a)) /\ NoDup (map ab_name (ad_aggs a)) /\ NoDup (map vb_name (ad_vss a)) /\ NoDup (map fst (ad_agg_storages a)).
Proof.
  intros key step sc a Hl. destruct (load_schema_inv _ _ _ _ Hl) as (Hv & ns & vs & es & Hn & Hvs & He & ->).
  destruct (validate_names _ Hv) as (Nn & Nv & Disj). destruct (vnode_adds _ _ _ _ _ Hvs) as (V1 & V2 & V2' & V3 & V3' & V4 & V4').
  assert (Ees : flat_map ad_nodes es = [] /\ flat_map ad_aggs es = [] /\ flat_map ad_vss es = [] /\ flat_map ad_agg_storages es = []).
  { repeat split; apply flat_map_nil; intros p Hp; destruct (Forall2_In_pair _ _ _ _ He Hp) as (e & _ & E); unfold add_edge in E; apply rbind_Ok in E; destruct E as (ps & _ & E); injection E as <-; reflexivity. }
  destruct Ees as (X1 & X2 & X3 & X4).
  rewrite fold_merge_nodes, fold_merge_aggs, fold_merge_vss, fold_merge_agg_storages, !flat_map_app, X1, X2, X3, X4, V1, !app_nil_r.
  destruct (nodup_by_node key ad_nodes nb_name _ _ Hn Nn) as [N1 _]; [intros n p E; apply (proj1 (add_node_names key n p E))|].
  destruct (nodup_by_node key ad_aggs ab_name _ _ Hn Nn) as [A1 A2]; [intros n p E; apply (proj1 (proj2 (add_node_names key n p E)))|].
  destruct (nodup_by_node key ad_agg_storages fst _ _ Hn Nn) as [S1 S2]; [intros n p E; apply (proj2 (proj2 (proj2 (add_node_names key n p E))))|].
  assert (Zv : flat_map ad_vss ns = []).
  { apply flat_map_nil. intros p Hp. destruct (Forall2_In_pair _ _ _ _ Hn Hp) as (n & _ & E). apply (proj1 (proj2 (proj2 (add_node_names key n p E)))). }
  rewrite Zv. cbn [app]. rewrite !map_app. split; [exact N1|]. split; [|split; [exact (V3' Nv)|]].
  - apply NoDup_app_intro; [exact A1 | exact (V2' Nv) |]. intros u Hu Hu'. exact (Disj _ (A2 u Hu) (V2 u Hu')).
  - apply NoDup_app_intro; [exact S1 | exact (V4' Nv) |]. intros u Hu Hu'. exact (Disj _ (S2 u Hu) (V4 u Hu')).
Qed.
Print Assumptions C57_names_never_collide.

(** Every part carries the name of the node it belongs to. *)
Theorem C57_parts_belong_to_nodes : forall key step sc a u, load_schema key step sc = Ok a ->
  In u (map nb_name (ad_nodes a)) -> exists n, In n (sc_nodes sc) /\ fst u = snode_name n.
Proof.
  intros key step sc a u Hl Hu. destruct (load_schema_inv _ _ _ _ Hl) as (Hv & ns & vs & es & Hn & Hvs & He & ->).
  destruct (vnode_adds _ _ _ _ _ Hvs) as (V1 & _).
  assert (X1 : flat_map ad_nodes es = []).
  { apply flat_map_nil; intros p Hp; destruct (Forall2_In_pair _ _ _ _ He Hp) as (e & _ & E); unfold add_edge in E; apply rbind_Ok in E; destruct E as (ps & _ & E); injection E as <-; reflexivity. }
  rewrite fold_merge_nodes, !flat_map_app, X1, V1, !app_nil_r in Hu. rewrite map_flat_map in Hu. apply in_flat_map in Hu. destruct Hu as (p & Hp & Hu).
  destruct (Forall2_In_pair _ _ _ _ Hn Hp) as (n & Hin & E). exists n. split; [exact Hin|]. exact (proj2 (proj1 (add_node_names key n p E)) u Hu).
Qed.
Print Assumptions C57_parts_belong_to_nodes.
Example C57_example :
  exists a, load_schema ex_key None (mkSchema [SRiverSplit "r" None None (repeat (mkSplit (UConst (1#20)) None) 12); SPiecewiseLink "p" (repeat (mkLinkStep None None None) 11)] [] []) = Ok a /\
  length (ad_nodes a) = 25 /\ In (sub "r" "split-10") (map nb_name (ad_nodes a)) /\ In (sub "p" "step-09") (map nb_name (ad_nodes a)).
Proof. eexists. split; [vm_compute; reflexivity|]. split; [reflexivity|]. cbn [ad_nodes map nb_name In]. split; [tauto | tauto]. Qed.

(** ** C56: reservoirs *)
(** A reservoir with evaporation can never be built into a network: the
    evaporation part is a source of water, but the reservoir flows into it. *)
Theorem C56_evaporation_never_builds : forall key step sc a name f,
  load_schema key step sc = Ok a -> In (SReservoir name f) (sc_nodes sc) -> rv_evaporation f <> None ->
  forall net, build_network (declaration a) <> Ok net.
Proof.
  intros key step sc a name f Hl Hin Hev net Hb. destruct (loaded_node _ _ _ _ Hl _ Hin) as (p & Hp & Hpo). cbn [add_node] in Hp. unfold add_reservoir in Hp.
  destruct (rv_evaporation f) as [e|] eqn:Ee; [|contradiction]. destruct (rv_area f) as [ar|] eqn:Ea; [|rewrite orb_true_r in Hp; discriminate].
  cbn [is_some negb] in Hp. rewrite andb_false_r in Hp. injection Hp as <-.
  pose proof (build_valid _ _ Hb) as Hvd.
  assert (Hn : In (input key (sub name "evaporation") (ev_cost e) None (Some (UParam (name, "evaporation") None))) (ad_nodes a)).
  { apply (po_nodes _ _ Hpo). cbn [merge ad_nodes]. rewrite !in_app_iff. cbn [In]. tauto. }
  assert (Hedge : In (whole name, sub name "evaporation") (ad_edges a)).
  { apply (po_edges _ _ Hpo). cbn [merge ad_edges]. rewrite !in_app_iff. cbn [In]. tauto. }
  pose proof (vd_nodes _ Hvd _ Hn) as Ht. cbn [nb_type input flow_node nb_name declaration b_edges] in Ht. apply (proj2 Ht).
  apply Exists_exists. exists (whole name, sub name "evaporation"). split; [exact Hedge | reflexivity].
Qed.
Print Assumptions C56_evaporation_never_builds.

(** The surface area is needed for rainfall and evaporation. *)
Theorem C56_area_needed : forall key step sc a name f,
  load_schema key step sc = Ok a -> In (SReservoir name f) (sc_nodes sc) -> rv_rainfall f <> None \/ rv_evaporation f <> None -> rv_area f <> None.
Proof.
  intros key step sc a name f Hl Hin H Ha. destruct (loaded_node _ _ _ _ Hl _ Hin) as (p & Hp & _). cbn [add_node] in Hp. unfold add_reservoir in Hp.
  rewrite Ha in Hp. destruct (rv_rainfall f), (rv_evaporation f); cbn in Hp; try discriminate. destruct H; contradiction.
Qed.
Print Assumptions C56_area_needed.

(** Without evaporation every combination builds, even with nothing else in the
    file, as long as the compensation has somewhere to go. *)
Theorem C56_others_build : forall key step name f,
  rv_evaporation f = None -> (rv_rainfall f <> None -> rv_area f <> None) ->
  rv_spill f <> Some SpillLink ->
  (rv_compensation f <> None -> rv_spill f = Some SpillOutput /\ rv_connect f <> Some false) ->
  exists a net, load_schema key step (mkSchema [SReservoir name f] [] []) = Ok a /\ build_network (declaration a) = Ok net.
Proof.
  intros key step name f Hev Har Hsp Hco.
  assert (Hload : exists a, load_schema key step (mkSchema [SReservoir name f] [] []) = Ok a /\ exists p, add_reservoir key name f = Ok p /\ a = merge p nothing).
  { unfold load_schema. cbn [validate sc_nodes sc_vnodes sc_edges map app no_repeat existsb negb andb vnode_name snode_name rmap add_node].
    assert (E : exists p, add_reservoir key name f = Ok p).
    { unfold add_reservoir. rewrite Hev. destruct (rv_rainfall f) as [r|]; cbn [is_some orb andb negb]; [|eexists; reflexivity].
      destruct (rv_area f) as [ar|]; cbn [is_some negb andb]; [eexists; reflexivity | exfalso; apply Har; congruence]. }
    destruct E as (p & E). exists (merge p nothing). split; [|exists p; auto].
    cbn [validate sc_nodes sc_vnodes sc_edges map app no_repeat]. unfold validate. cbn. rewrite E. cbn. reflexivity. }
  destruct Hload as (a & Hl & p & Hp & ->). exists (merge p nothing).
  destruct (C57_names_never_collide _ _ _ _ Hl) as (N1 & N2 & N3 & _).
  assert (Hv : valid_declaration (declaration (merge p nothing))); [|destruct (valid_builds _ Hv) as (net & Hb); exists net; auto].
  unfold add_reservoir in Hp. rewrite Hev in Hp.
  destruct f as [stf co sp cn ar ra ev le]. cbn [rv_storage rv_compensation rv_spill rv_connect rv_area rv_rainfall rv_evaporation rv_leakage] in *. subst ev.
  assert (Hfl : co <> None -> sp = Some SpillOutput /\ flag cn true = true) by (intros Hc; destruct (Hco Hc) as [? Hcn]; split; [assumption | destruct cn as [[]|]; [reflexivity | congruence | reflexivity]]).
  clear Hco Hl. constructor; try assumption; clear N1 N2 N3;
    (destruct co as [co|]; [destruct (Hfl ltac:(discriminate)) as [-> Efl]; rewrite Efl in Hp | destruct sp as [[]|]; [| congruence |]];
     (destruct ra as [ra|]; [destruct ar as [ar|]; [|exfalso; apply Har; congruence] | destruct ar as [ar|]]);
     destruct le as [le|]; cbn [is_some andb orb negb] in Hp; rewrite ?andb_false_r, ?andb_true_r in Hp; injection Hp as <-).
  all: cbn.
  all: try (intros ? ? ? []; fail). all: try (intros ? ? []; fail).
  all: try (repeat (constructor; [cbn; unfold whole, sub; intuition congruence|]); constructor; fail).
  all: unfold leaves, enters, whole, sub; intros e He.
  all: repeat (destruct He as [<-|He]; [cbn; rewrite ?Exists_cons, ?Exists_nil; cbn; intuition (discriminate || congruence)|]); contradiction.
Qed.
Print Assumptions C56_others_build.

(** The attached flows: the rainfall enters the reservoir and is the rainfall on
    its surface; the compensation, the spill and the leakage leave it, the
    compensation at least the one asked for and the leakage at most. *)
Theorem C56_attached_flows : forall key step sc a net s x name f,
  simulated key step sc a net s x -> In (SReservoir name f) (sc_nodes sc) -> (0 < st_days s)%Q ->
  (forall u, not_exclusive a net (sub name u)) ->
  (forall m, rv_compensation f = Some m ->
     (exists k, leads a net k (whole name) (sub name "compensation")) /\
     exists q, part_flow a net x (sub name "compensation") q /\ (value key s m <= q)%Q) /\
  (rv_spill f <> None -> exists k, leads a net k (whole name) (sub name "spill")) /\
  (forall r b, rv_rainfall f = Some r -> rv_area f = Some b ->
     (exists k, leads a net k (sub name "rainfall") (whole name)) /\
     (exists p, In p (ad_params a) /\ p = PProduct (name, "rainfall") [ra_data r; UParam (name, "rainfall_area") None]) /\
     part_flow a net x (sub name "rainfall") (value key s (UParam (name, "rainfall") None))) /\
  (forall l, rv_leakage f = Some l ->
     (exists k, leads a net k (whole name) (sub name "leakage")) /\
     exists q, part_flow a net x (sub name "leakage") q /\ (0 <= q /\ q <= value key s (lk_loss l))%Q /\
       own_cost a net s (sub name "leakage") (value_or key s (lk_cost l) 0)).
Proof.
  intros key step sc a net s x name f H Hin Hd Hx.
  destruct (loaded_node _ _ _ _ (sm_load _ _ _ _ _ _ _ H) _ Hin) as (p & Hp & Hpo). cbn [add_node] in Hp. unfold add_reservoir in Hp.
  pose proof (sm_build _ _ _ _ _ _ _ H) as Hb.
  assert (Hk : forall e, In e (ad_edges a) -> exists k, leads a net k (fst e) (snd e)).
  { intros [o i] He. destruct (In_nth_error _ _ He) as (k & Ek). exists k. apply (leads_iff _ _ _ _ _ Hb). exact Ek. }
  assert (Hp' : p = merge (mkAdded [storage key (whole name) (rv_storage f)] [] [] [] [] []) (merge (match rv_compensation f with
            | Some m => mkAdded [link key (sub name "compensation") None (Some m) None] [(whole name, sub name "compensation")] [] [] [] []
            | None => nothing end) (merge (match rv_spill f with
            | Some SpillOutput => mkAdded [output key (sub name "spill") None None None] [(whole name, sub name "spill")] [] [] [] []
            | Some SpillLink => mkAdded [link key (sub name "spill") None None None] [(whole name, sub name "spill")] [] [] [] []
            | None => nothing end) (merge (if flag (rv_connect f) true && is_some (rv_spill f) && is_some (rv_compensation f)
            then mkAdded [] [(sub name "compensation", sub name "spill")] [] [] [] [] else nothing) (merge (match rv_area f, rv_rainfall f with
            | Some b, Some r => let p := UParam (name, "rainfall") None in
                mkAdded [input key (sub name "rainfall") None (Some p) (Some p)] [(sub name "rainfall", whole name)] [] [] []
                        [area_param name "rainfall_area" b (flag (ra_max_area r) false);
                         PProduct (name, "rainfall") [ra_data r; UParam (name, "rainfall_area") None]]
            | _, _ => nothing end) (merge (match rv_area f, rv_evaporation f with
            | Some b, Some e => let p := UParam (name, "evaporation") None in
                mkAdded [input key (sub name "evaporation") (ev_cost e) None (Some p)] [(whole name, sub name "evaporation")] [] [] []
                        [area_param name "evaporation_area" b (flag (ev_max_area e) false);
                         PProduct (name, "evaporation") [ev_data e; UParam (name, "evaporation_area") None]]
            | _, _ => nothing end) (match rv_leakage f with
            | Some l => mkAdded [output key (sub name "leakage") (lk_cost l) None (Some (lk_loss l))] [(whole name, sub name "leakage")] [] [] [] []
            | None => nothing end))))))).
  { destruct (_ && _) in Hp at 1; [discriminate|]. injection Hp as <-. reflexivity. }
  clear Hp. subst p. split; [|split; [|split]].
  - intros m E. rewrite E in Hpo. assert (Hn : In (link key (sub name "compensation") None (Some m) None) (ad_nodes a)).
    { apply (po_nodes _ _ Hpo). cbn [merge ad_nodes]. rewrite !in_app_iff. cbn [In]. tauto. }
    split; [apply (Hk (_, _)); apply (po_edges _ _ Hpo); cbn [merge ad_edges]; rewrite !in_app_iff; cbn [In]; tauto|].
    destruct (a_link _ _ _ _ _ _ _ H _ _ _ _ Hn) as (i & Di & Fi & _).
    pose proof (limits_at _ _ _ _ _ _ _ H _ TLink _ _ _ i Hn ltac:(discriminate) (Hx _) Hd Di) as [L _].
    eexists. split; [exists i; split; [exact Di | reflexivity] | exact L].
  - intros E. apply (Hk (_, _)). apply (po_edges _ _ Hpo). cbn [merge ad_edges]. rewrite !in_app_iff. destruct (rv_spill f) as [[]|]; [| |congruence]; cbn [In ad_edges]; tauto.
  - intros r b Er Eb. rewrite Er, Eb in Hpo. cbv zeta in Hpo.
    assert (Hn : In (input key (sub name "rainfall") None (Some (UParam (name, "rainfall") None)) (Some (UParam (name, "rainfall") None))) (ad_nodes a)).
    { apply (po_nodes _ _ Hpo). cbn [merge ad_nodes]. rewrite !in_app_iff. cbn [In]. tauto. }
    split; [apply (Hk (_, _)); apply (po_edges _ _ Hpo); cbn [merge ad_edges]; rewrite !in_app_iff; cbn [In]; tauto|].
    split; [eexists; split; [|reflexivity]; apply (po_params _ _ Hpo); cbn [merge ad_params]; rewrite !in_app_iff; cbn [In]; tauto|].
    destruct (an_input _ _ _ _ _ _ _ H _ _ _ _ Hn) as (i & Di & Fi).
    pose proof (limits_at _ _ _ _ _ _ _ H _ TInput _ _ _ i Hn ltac:(discriminate) (Hx _) Hd Di) as [L U]. cbn [value_or] in L, U.
    exists i. split; [exact Di | lra].
  - intros l E. rewrite E in Hpo. assert (Hn : In (output key (sub name "leakage") (lk_cost l) None (Some (lk_loss l))) (ad_nodes a)).
    { apply (po_nodes _ _ Hpo). cbn [merge ad_nodes]. rewrite !in_app_iff. cbn [In]. tauto. }
    split; [apply (Hk (_, _)); apply (po_edges _ _ Hpo); cbn [merge ad_edges]; rewrite !in_app_iff; cbn [In]; tauto|].
    destruct (a_output _ _ _ _ _ _ _ H _ _ _ _ Hn) as (i & Di & Fi).
    pose proof (limits_at _ _ _ _ _ _ _ H _ TOutput _ _ _ i Hn ltac:(discriminate) (Hx _) Hd Di) as [L U]. cbn [value_or] in L, U.
    eexists. split; [exists i; split; [exact Di | reflexivity]|]. split; [auto | exact (part_cost _ _ _ _ _ _ _ H TOutput _ _ _ _ Hn)].
Qed.
Print Assumptions C56_attached_flows.

(** Where the area of a reservoir's surface is read off its bathymetry: at the
    volume held, as a volume or as a proportion of the greatest, whichever the
    bathymetry is in, or at the greatest when the greatest area is asked for. *)
Inductive surface_at (name : string) (b : bathymetry) : option bool -> umetric -> Prop :=
| at_volume : forall g, g <> Some true -> ba_proportional b = false -> surface_at name b g (UNodeVolume (whole name))
| at_proportion : forall g, g <> Some true -> ba_proportional b = true -> surface_at name b g (UNodePropVolume (whole name))
| at_greatest_volume : ba_proportional b = false -> surface_at name b (Some true) (UNodeMaxVolume (whole name))
| at_greatest_proportion : ba_proportional b = true -> surface_at name b (Some true) (UConst 1).
Definition surface_read (b : bathymetry) (p : string * string) (m : umetric) (d : pdecl) : Prop :=
  (forall st ar, ba_data b = BInterpolated st ar -> d = PInterpolated p m (combine st ar)) /\
  (forall cs, ba_data b = BPolynomial cs -> d = PPolynomial p m cs).
Theorem C56_surface : forall key step sc a name f b,
  load_schema key step sc = Ok a -> In (SReservoir name f) (sc_nodes sc) -> rv_area f = Some b ->
  (forall r, rv_rainfall f = Some r -> exists m d, surface_at name b (ra_max_area r) m /\
     surface_read b (name, "rainfall_area") m d /\ In d (ad_params a) /\
     In (PProduct (name, "rainfall") [ra_data r; UParam (name, "rainfall_area") None]) (ad_params a)) /\
  (forall e, rv_evaporation f = Some e -> exists m d, surface_at name b (ev_max_area e) m /\
     surface_read b (name, "evaporation_area") m d /\ In d (ad_params a) /\
     In (PProduct (name, "evaporation") [ev_data e; UParam (name, "evaporation_area") None]) (ad_params a)).
Proof.
  intros key step sc a name f b Hl Hin Eb.
  assert (Ha : forall pn g, exists m, surface_at name b g m /\ surface_read b (name, pn) m (area_param name pn b (flag g false))).
  { intros pn g. unfold area_param, surface_read. destruct (ba_proportional b) eqn:Ep, g as [[]|]; cbn [flag]; eexists;
      (split; [constructor; (assumption || discriminate)|]); destruct (ba_data b); split; intros; congruence. }
  destruct (loaded_node _ _ _ _ Hl _ Hin) as (p & Hp & Hpo). cbn [add_node] in Hp. unfold add_reservoir in Hp. rewrite Eb in Hp.
  cbn [is_some negb] in Hp. rewrite andb_false_r in Hp. injection Hp as <-. cbv zeta in Hpo.
  split; intros r Er; rewrite Er in Hpo.
  - destruct (Ha "rainfall_area" (ra_max_area r)) as (m & Hm & Hr). exists m. eexists. split; [exact Hm|]. split; [exact Hr|].
    split; apply (po_params _ _ Hpo); cbn [merge ad_params]; rewrite !in_app_iff; cbn [In]; tauto.
  - destruct (Ha "evaporation_area" (ev_max_area r)) as (m & Hm & Hr). exists m. eexists. split; [exact Hm|]. split; [exact Hr|].
    split; apply (po_params _ _ Hpo); cbn [merge ad_params]; rewrite !in_app_iff; cbn [In]; tauto.
Qed.
Print Assumptions C56_surface.

Definition ex_reservoir (ev : option evaporation) : schema :=
  mkSchema [SCatchment "c" None (Some (UConst 4));
            SReservoir "r" (mkReservoir (mkStorage None None (Some (UConst 100)) (SIAbsolute 50)) (Some (UConst 3)) (Some SpillOutput) None
                              (Some (mkBathy (BPolynomial [7]%Q) false)) (Some (mkRain (UConst (1#2)) None)) ev (Some (mkLeak (UConst 2) None)))]
           [] [ex_edge "c" "r"].
Example C56_example :
  let sc := ex_reservoir None in let s := rel_state (7#2) 0 in
  simulated ex_key None sc (ex_added sc) (ex_net sc) s (rel_x [3; 10; 7#2; 2; 4]%Q) /\
  (forall u, not_exclusive (ex_added sc) (ex_net sc) (sub "r" u)) /\
  ex_check sc s (rel_x [2; 10; 7#2; 2; 4]%Q) = false /\
  ex_check sc s (rel_x [3; 10; 3; 2; 4]%Q) = false /\
  ex_check sc s (rel_x [3; 10; 7#2; 3; 4]%Q) = false /\
  (exists a e, load_schema ex_key None (ex_reservoir (Some (mkEvap (UConst 1) None None))) = Ok a /\ build_network (declaration a) = Err e).
Proof.
  cbv zeta. split; [apply ex_simulated; vm_compute; reflexivity|]. split; [intros u; apply ex_not_exclusive; vm_compute; reflexivity|].
  split; [vm_compute; reflexivity|]. split; [vm_compute; reflexivity|]. split; [vm_compute; reflexivity|].
  eexists; eexists; split; vm_compute; reflexivity.
Qed.

Example C56_surface_example :
  let f := mkReservoir (mkStorage None None (Some (UConst 100)) (SIAbsolute 50)) None None None
             (Some (mkBathy (BInterpolated [0; 1] [3; 9])%Q true)) (Some (mkRain (UConst (1#2)) None)) (Some (mkEvap (UConst 1) None (Some true))) None in
  exists a, load_schema ex_key None (mkSchema [SReservoir "r" f] [] []) = Ok a /\
    ad_params a = [PInterpolated ("r", "rainfall_area") (UNodePropVolume (whole "r")) [(0, 3); (1, 9)]%Q;
                   PProduct ("r", "rainfall") [UConst (1#2); UParam ("r", "rainfall_area") None];
                   PInterpolated ("r", "evaporation_area") (UConst 1) [(0, 3); (1, 9)]%Q;
                   PProduct ("r", "evaporation") [UConst 1; UParam ("r", "evaporation_area") None]].
Proof. eexists. split; vm_compute; reflexivity. Qed.

(** Losses whose factor varies, of treatment works and of rivers without
    routing: see C40_varying_loss_partial. *)
Theorem C54_varying_loss_partial : forall key step sc a net s x name lf c mn mx sm smc,
  simulated key step sc a net s x -> In (SWtw name (Some lf) c mn mx sm smc) (sc_nodes sc) ->
  is_constant_zero (factor_metric lf) = false -> valid_factor lf (value key s (factor_metric lf)) -> separate a net (sub name "agg") ->
  exists qi qo ql,
    node_metric a net x (SWtw name (Some lf) c mn mx sm smc) AtInflow qi /\
    node_metric a net x (SWtw name (Some lf) c mn mx sm smc) AtOutflow qo /\
    node_metric a net x (SWtw name (Some lf) c mn mx sm smc) AtLoss ql /\
    (qi == qo + ql)%Q /\ loses lf (value key s (factor_metric lf)) qi qo ql.
Proof.
  intros key step sc a net s x name lf c mn mx sm smc H Hin Hnz Hv Hsep.
  destruct (loaded_node _ _ _ _ (sm_load _ _ _ _ _ _ _ H) _ Hin) as (p & Hp & Hpo). cbn [add_node] in Hp. injection Hp as <-.
  assert (Hr : exists r, load_loss key lf = Some r) by (destruct lf as [m|m]; cbn [load_loss factor_metric] in *; rewrite Hnz; eauto).
  destruct Hr as (r & Er). unfold add_wtw in Hpo. rewrite Er in Hpo.
  destruct (loss_varying _ _ _ _ _ _ _ H lf (sub name "net") (sub name "loss") (sub name "agg") c mn mx None r Er Hv) as (i & j & Hi & Hj & Bi & L).
  - apply (po_nodes _ _ Hpo). here.
  - apply (po_nodes _ _ Hpo). here.
  - apply (po_aggs _ _ Hpo). here.
  - exact Hsep.
  - exists (outflow net (edge_flow net x) i + inflow net (edge_flow net x) j)%Q, (outflow net (edge_flow net x) i), (inflow net (edge_flow net x) j).
    split; [eapply metric_is; [reflexivity | apply (value_ins _ _ _ _ _ _ _ H _ [i; j]); two_parts | qs]|].
    split; [eapply metric_is; [reflexivity | apply (value_out _ _ _ _ _ _ _ H _ i); eassumption | qs]|].
    split; [eapply metric_is; [reflexivity | apply (value_in _ _ _ _ _ _ _ H _ j); eassumption | qs]|].
    split; [lra | exact L].
Qed.
Print Assumptions C54_varying_loss_partial.
Theorem C53_varying_loss_partial : forall key step sc a net s x name lf,
  simulated key step sc a net s x -> In (SRiver name (Some lf) None) (sc_nodes sc) ->
  is_constant_zero (factor_metric lf) = false -> valid_factor lf (value key s (factor_metric lf)) -> separate a net (sub name "aggregated_loss_node") ->
  exists qi qo ql,
    node_metric a net x (SRiver name (Some lf) None) AtInflow qi /\
    node_metric a net x (SRiver name (Some lf) None) AtOutflow qo /\
    node_metric a net x (SRiver name (Some lf) None) AtLoss ql /\
    (qi == qo + ql)%Q /\ loses lf (value key s (factor_metric lf)) qi qo ql.
Proof.
  intros key step sc a net s x name lf H Hin Hnz Hv Hsep.
  destruct (loaded_node _ _ _ _ (sm_load _ _ _ _ _ _ _ H) _ Hin) as (p & Hp & Hpo). cbn [add_node] in Hp. injection Hp as <-.
  assert (Hr : exists r, load_loss key lf = Some r) by (destruct lf as [m|m]; cbn [load_loss factor_metric] in *; rewrite Hnz; eauto).
  destruct Hr as (r & Er). unfold add_river, river_loss in Hpo. rewrite Er in Hpo. cbn [is_some] in Hpo.
  destruct (loss_varying _ _ _ _ _ _ _ H lf (sub name "net") (sub name "loss") (sub name "aggregated_loss_node") None None None None r Er Hv) as (i & j & Hi & Hj & Bi & L).
  - apply (po_nodes _ _ Hpo). here.
  - apply (po_nodes _ _ Hpo). here.
  - apply (po_aggs _ _ Hpo). here.
  - exact Hsep.
  - exists (outflow net (edge_flow net x) i + inflow net (edge_flow net x) j)%Q, (outflow net (edge_flow net x) i), (inflow net (edge_flow net x) j).
    split; [eapply metric_is; [reflexivity | apply (value_ins _ _ _ _ _ _ _ H _ [i; j]); two_parts | qs]|].
    split; [eapply metric_is; [reflexivity | apply (value_outs _ _ _ _ _ _ _ H _ [i]); two_parts | qs]|].
    split; [eapply metric_is; [reflexivity | apply (value_in _ _ _ _ _ _ _ H _ j); eassumption | qs]|].
    split; [lra | exact L].
Qed.
Print Assumptions C53_varying_loss_partial.
(** A third of what arrives is lost, the share given by a parameter. *)
Example C54_varying_example :
  let lf := LGross (UParam ("p", "loss") None) in let sc := ex_wtw (Some lf) in let s := rel_state (1#3) 0 in
  simulated ex_key None sc (ex_added sc) (ex_net sc) s (rel_x [5; 1; 6; 3; 5; 1]%Q) /\
  is_constant_zero (factor_metric lf) = false /\ valid_factor lf (value ex_key s (factor_metric lf)) /\
  ex_check sc s (rel_x [5; 1; 6; 2; 5; 1]%Q) = false.
Proof.
  cbv zeta. split; [apply ex_simulated; vm_compute; reflexivity|]. split; [reflexivity|]. split; [vm_compute; split; [discriminate | reflexivity] | vm_compute; reflexivity].
Qed.
