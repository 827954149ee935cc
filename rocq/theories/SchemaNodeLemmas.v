(** The kinds of schema nodes, one by one. *)
From Coq Require Import Lqa.
From Verif Require Import Base Calendar Network NetworkBuild NetworkSpec NetworkBuildLemmas Lp LpSpec LpRowLemmas Props_Network Props_Lp
  Props_LpRel SchemaNodes SchemaMetrics SchemaSpec SchemaLemmas.
Local Open Scope string_scope.
Local Open Scope list_scope.
Local Open Scope nat_scope.

Ltac invF2 := repeat match goal with
  | HF : Forall2 _ (_ :: _) _ |- _ => inversion HF; clear HF; subst
  | HF : Forall2 _ [] _ |- _ => inversion HF; clear HF; subst
  end.

Section Nodes.
Variables (key : umetric -> nat) (step : option Z) (sc : schema) (a : added) (net : network) (s : lp_state) (x : nat -> Q).
Hypothesis H : simulated key step sc a net s x.
Local Notation b := (declaration a).
Let Hb : build_network b = Ok net := sm_build _ _ _ _ _ _ _ H.
Let wf : wf_network net := C37_built_well_formed b net Hb.
Local Notation f := (edge_flow net x).

(** *** Metrics of parts *)
Lemma value_in u i : declared b i u -> flow_value b net f (UNodeInFlow u) = Some (inflow net f i).
Proof. intros Hd. cbn [flow_value]. rewrite (lookup_name _ _ _ _ _ _ _ H i u Hd). reflexivity. Qed.
Lemma value_out u i : declared b i u -> flow_value b net f (UNodeOutFlow u) = Some (outflow net f i).
Proof. intros Hd. cbn [flow_value]. rewrite (lookup_name _ _ _ _ _ _ _ H i u Hd). reflexivity. Qed.
Lemma value_ins us is : Forall2 (fun u i => declared b i u) us is ->
  flow_value b net f (UMultiNodeInFlow us) = Some (qsum (map (inflow net f) is)).
Proof. intros Hd. cbn [flow_value]. rewrite (lookup_names _ _ _ _ _ _ _ H us is Hd). reflexivity. Qed.
Lemma value_outs us is : Forall2 (fun u i => declared b i u) us is ->
  flow_value b net f (UMultiNodeOutFlow us) = Some (qsum (map (outflow net f) is)).
Proof. intros Hd. cbn [flow_value]. rewrite (lookup_names _ _ _ _ _ _ _ H us is Hd). reflexivity. Qed.

Lemma metric_is n t m v q : create_metric n (Some t) = Ok m -> flow_value b net f m = Some v -> (v == q)%Q -> node_metric a net x n t q.
Proof. intros H1 H2 H3. exists m, v. auto. Qed.

(** A part of a given kind. *)
Lemma a_part t u c mn mx : In (flow_node key t u c mn mx) (ad_nodes a) ->
  exists i n, declared b i u /\ nth_error (net_nodes net) i = Some n /\ n_type n = t.
Proof.
  intros Hn. destruct (built_node _ _ _ _ _ _ _ H _ Hn) as (i & n & Hd & En & Hty & _). exists i, n. auto.
Qed.
Lemma a_link u c mn mx : In (link key u c mn mx) (ad_nodes a) ->
  exists i, declared b i u /\ node_flow net f i = outflow net f i /\ (inflow net f i == outflow net f i)%Q.
Proof.
  intros Hn. destruct (a_part _ _ _ _ _ Hn) as (i & n & Hd & En & Et). exists i. split; [exact Hd|].
  exact (flow_link _ _ _ _ _ _ _ H i n En Et).
Qed.
Lemma a_output u c mn mx : In (output key u c mn mx) (ad_nodes a) -> exists i, declared b i u /\ node_flow net f i = inflow net f i.
Proof.
  intros Hn. destruct (a_part _ _ _ _ _ Hn) as (i & n & Hd & En & Et). exists i. split; [exact Hd|].
  exact (flow_output net x i n En Et).
Qed.
Lemma an_input u c mn mx : In (input key u c mn mx) (ad_nodes a) -> exists i, declared b i u /\ node_flow net f i = outflow net f i.
Proof.
  intros Hn. destruct (a_part _ _ _ _ _ Hn) as (i & n & Hd & En & Et). exists i. split; [exact Hd|].
  exact (flow_input net x i n En Et).
Qed.
Lemma part_cost t u c mn mx : In (flow_node key t u c mn mx) (ad_nodes a) -> own_cost a net s u (value_or key s c 0).
Proof.
  intros Hn. destruct (built_node _ _ _ _ _ _ _ H _ Hn) as (i & n & Hd & En & _ & _ & _ & _ & _ & _ & Hc & _).
  exists i, n. eexists. split; [exact Hd|]. split; [exact En|]. split; [exact Hc|].
  destruct c; cbn [nb_cost flow_node to_metrics option_map value_or]; reflexivity.
Qed.
Lemma limits_at u t c mn mx i : In (flow_node key t u c mn mx) (ad_nodes a) -> t <> TStorage -> not_exclusive a net u ->
  (0 < st_days s)%Q -> declared b i u -> limited key s mn mx (node_flow net f i).
Proof.
  intros Hn Ht Hex Hd Hi. destruct (part_limits _ _ _ _ _ _ _ H u t c mn mx Hn Ht Hex Hd) as (j & Hj & Hl).
  rewrite (declared_unique _ _ _ _ _ _ _ H i j u Hi Hj). exact Hl.
Qed.
Ltac same i j u := let E := fresh in assert (E : i = j) by (apply (declared_unique _ _ _ _ _ _ _ H i j u); assumption); subst.

(** *** Losses *)
Lemma constant_metric m q : constant m q -> to_metric key m = MConst q.
Proof. intros [-> | ->]; reflexivity. Qed.
Lemma constant_value m q : constant m q -> value key s m = q.
Proof. intros Hc. unfold value. rewrite (constant_metric m q Hc). reflexivity. Qed.
Lemma zero_constant m q : constant m q -> is_constant_zero m = true -> (q == 0)%Q.
Proof. intros [-> | ->]; cbn [is_constant_zero]; [apply Qeq_bool_eq | discriminate]. Qed.

Lemma loss_constant lf q un ul ua c mn mx lim : constant (factor_metric lf) q -> valid_factor lf q ->
  In (link key un c mn mx) (ad_nodes a) -> In (output key ul None None lim) (ad_nodes a) ->
  (forall r, load_loss key lf = Some r -> In (agg key ua [[un]; [ul]] None None (Some r)) (ad_aggs a)) ->
  (load_loss key lf = None -> lim = Some (UConst 0) /\ not_exclusive a net ul /\ 0 < st_days s)%Q ->
  exists i j, declared b i un /\ declared b j ul /\ (inflow net f i == outflow net f i)%Q /\
    loses lf q (outflow net f i + inflow net f j) (outflow net f i) (inflow net f j).
Proof.
  intros Hc Hv Hn Hl Hag Hz. destruct (a_link _ _ _ _ Hn) as (i & Hi & Fi & Bi). destruct (a_output _ _ _ _ Hl) as (j & Hj & Fj).
  exists i, j. split; [exact Hi|]. split; [exact Hj|]. split; [exact Bi|].
  assert (Hzero : load_loss key lf = None -> (inflow net f j == 0)%Q).
  { intros E. destruct (Hz E) as (-> & Hex & Hd).
    pose proof (limits_at ul TOutput None None _ j Hl ltac:(discriminate) Hex Hd Hj) as [_ Hu].
    rewrite Fj in Hu. cbn [value_or] in Hu. unfold value in Hu. cbn [to_metric metric_value] in Hu.
    pose proof (inflow_non_negative _ _ _ _ _ _ _ H j) as Hp. lra. }
  destruct lf as [m|m]; cbn [load_loss factor_metric loses valid_factor] in *; destruct (is_constant_zero m) eqn:E0.
  - rewrite (Hzero eq_refl), (zero_constant m q Hc E0). ring.
  - rewrite (constant_metric m q Hc) in Hag. destruct (agg_proportion _ _ _ _ _ _ _ H _ _ _ _ _ _ (Hag _ eq_refl) Hv) as (i' & j' & Hi' & Hj' & E).
    same i i' un. same j j' ul. rewrite Fi, Fj in E. exact E.
  - rewrite (Hzero eq_refl), (zero_constant m q Hc E0). ring.
  - rewrite (constant_metric m q Hc) in Hag. destruct (agg_ratio _ _ _ _ _ _ _ H _ _ _ _ _ _ (Hag _ eq_refl) Hv) as (i' & j' & Hi' & Hj' & E).
    same i i' un. same j j' ul. rewrite Fi, Fj in E. exact E.
Qed.

Lemma loss_varying lf un ul ua c mn mx lim r : load_loss key lf = Some r -> valid_factor lf (value key s (factor_metric lf)) ->
  In (link key un c mn mx) (ad_nodes a) -> In (output key ul None None lim) (ad_nodes a) ->
  In (agg key ua [[un]; [ul]] None None (Some r)) (ad_aggs a) -> separate a net ua ->
  exists i j, declared b i un /\ declared b j ul /\ (inflow net f i == outflow net f i)%Q /\
    loses lf (value key s (factor_metric lf)) (outflow net f i + inflow net f j) (outflow net f i) (inflow net f j).
Proof.
  intros Hr Hv Hn Hl Hag Hsep. destruct (a_link _ _ _ _ Hn) as (i & Hi & Fi & Bi). destruct (a_output _ _ _ _ Hl) as (j & Hj & Fj).
  exists i, j. split; [exact Hi|]. split; [exact Hj|]. split; [exact Bi|].
  destruct (built_agg _ _ _ _ _ _ _ H _ Hag) as (k & g & Ek & Eg & HF & _ & _ & Hrel). cbn [ab_nodes ab_rel agg] in HF, Hrel.
  destruct (sm_solved _ _ _ _ _ _ _ H) as (fm & order & ss & Hs). pose proof (Hsep k _ g Ek eq_refl Eg) as Hfs.
  assert (Egs : a_nodes g = [[i]; [j]]).
  { remember (a_nodes g) as gs eqn:Egs. clear Egs. invF2.
    match goal with Hd : declared _ ?k un |- _ => same i k un end. match goal with Hd : declared _ ?k ul |- _ => same j k ul end. reflexivity. }
  destruct lf as [m|m]; cbn [load_loss factor_metric loses valid_factor] in *; destruct (is_constant_zero m); try discriminate;
    injection Hr as <-.
  - assert (Hp : proportions_hold net f (a_nodes g) (map (metric_value (st_env s)) [to_metric key m])).
    { apply (C38_dynamic_proportions_partial net fm order ss s x k g _ wf Hs Eg Hfs Hrel).
      - rewrite Egs. reflexivity.
      - constructor; [exact (proj1 Hv) | constructor].
      - cbn [map qsum fold_right]. destruct Hv as [_ Hv]. unfold value in Hv. lra. }
    rewrite Egs in Hp. cbn [proportions_hold map] in Hp. destruct Hp as [_ Hp]. inversion Hp as [|? ? ? ? Hpp _]; subst.
    unfold group_flow in Hpp. cbn [map qsum fold_right] in Hpp. rewrite Fi, Fj in Hpp. fold (value key s m) in Hpp. lra.
  - assert (Hp : ratios_hold net f (a_nodes g) (map (metric_value (st_env s)) [MConst 1; to_metric key m])).
    { apply (C38_dynamic_ratios_partial net fm order ss s x k g _ wf Hs Eg Hfs Hrel).
      - rewrite Egs. reflexivity.
      - discriminate.
      - constructor; [cbn [metric_value]; lra | constructor; [exact Hv | constructor]]. }
    rewrite Egs in Hp. cbn [ratios_hold map metric_value] in Hp. inversion Hp as [|? ? ? ? Hpp _]; subst.
    unfold group_flow in Hpp. cbn [map qsum fold_right] in Hpp. rewrite Fi, Fj in Hpp. fold (value key s m) in Hpp. lra.
Qed.
End Nodes.
