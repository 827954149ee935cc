(** The flows that references in virtual nodes stand for. *)
From Coq Require Import Lqa.
From Verif Require Import Base Calendar Network NetworkBuild NetworkSpec NetworkBuildLemmas Lp LpSpec LpRowLemmas Props_Network Props_Lp
  Props_LpRel NetState NetStateSpec SchemaNodes SchemaMetrics SchemaSpec SchemaLemmas SchemaNodeLemmas SchemaEdgeLemmas Props_Schema Props_SchemaEdges Props_SchemaMore
  SchemaVirtual SchemaVirtualSpec.
Local Open Scope string_scope.
Local Open Scope list_scope.
Local Open Scope nat_scope.

Section Refs.
Variables (key : umetric -> nat) (step : option Z) (sc : schema) (a : added) (net : network) (s : lp_state) (x : nat -> Q).
Hypothesis H : simulated key step sc a net s x.
Local Notation b := (declaration a).
Local Notation f := (edge_flow net x).
Let Hb : build_network b = Ok net := sm_build _ _ _ _ _ _ _ H.

(** A declared name that belongs to a node is one of the node's parts. *)
Lemma own_part n p u i : In n (sc_nodes sc) -> add_node key n = Ok p -> fst u = snode_name n -> declared b i u ->
  exists nb, In nb (ad_nodes p) /\ nb_name nb = u.
Proof.
  intros Hin Hp Hu Hd. unfold declared in Hd. cbn [b_nodes declaration] in Hd. apply nth_error_In in Hd.
  destruct (load_schema_inv _ _ _ _ (sm_load _ _ _ _ _ _ _ H)) as (Hv & ns & vs & es & Hn & Hvs & He & Ea). rewrite Ea in Hd.
  destruct (vnode_adds _ _ _ _ _ Hvs) as (V1 & _).
  assert (X1 : flat_map ad_nodes es = []).
  { apply flat_map_nil; intros q Hq; destruct (Forall2_In_pair _ _ _ _ He Hq) as (e & _ & E); unfold add_edge in E; apply rbind_Ok in E; destruct E as (ps & _ & E); injection E as <-; reflexivity. }
  rewrite fold_merge_nodes, !flat_map_app, X1, V1, !app_nil_r in Hd. rewrite map_flat_map in Hd. apply in_flat_map in Hd. destruct Hd as (q & Hq & Hd).
  destruct (Forall2_In_pair _ _ _ _ Hn Hq) as (n' & Hin' & E).
  pose proof (proj2 (proj1 (add_node_names key n' q E)) u Hd) as Hn'.
  assert (En : n' = n).
  { assert (F1 : find_node sc (snode_name n) = Ok n) by (apply (find_own _ _ _ _ _ _ _ H); exact Hin).
    assert (F2 : find_node sc (snode_name n') = Ok n') by (apply (find_own _ _ _ _ _ _ _ H); exact Hin').
    rewrite <- Hn', Hu, F1 in F2. injection F2 as <-. reflexivity. }
  subst n'. assert (q = p) by congruence. subst q. apply in_map_iff in Hd. destruct Hd as (nb & E1 & E2). exists nb. auto.
Qed.

(** Flows by type of part. *)
Definition takes_in (nb : node_builder) : Prop := nb_type nb = TLink \/ nb_type nb = TOutput.
Definition gives_out (nb : node_builder) : Prop := nb_type nb = TLink \/ nb_type nb = TInput.
Lemma part_in nb i : In nb (ad_nodes a) -> declared b i (nb_name nb) -> takes_in nb -> (inflow net f i == node_flow net f i)%Q.
Proof.
  intros Hn Hd Ht. destruct (built_node _ _ _ _ _ _ _ H _ Hn) as (j & n & Hj & En & Hty & _).
  rewrite (declared_unique _ _ _ _ _ _ _ H i j _ Hd Hj). destruct Ht as [Ht|Ht]; rewrite Ht in Hty.
  - destruct (flow_link _ _ _ _ _ _ _ H j n En Hty) as [-> E]. exact E.
  - rewrite (flow_output net x j n En Hty). reflexivity.
Qed.
Lemma part_out nb i : In nb (ad_nodes a) -> declared b i (nb_name nb) -> gives_out nb -> (outflow net f i == node_flow net f i)%Q.
Proof.
  intros Hn Hd Ht. destruct (built_node _ _ _ _ _ _ _ H _ Hn) as (j & n & Hj & En & Hty & _).
  rewrite (declared_unique _ _ _ _ _ _ _ H i j _ Hd Hj). destruct Ht as [Ht|Ht]; rewrite Ht in Hty.
  - destruct (flow_link _ _ _ _ _ _ _ H j n En Hty) as [-> E]. reflexivity.
  - rewrite (flow_input net x j n En Hty). reflexivity.
Qed.
Lemma parts_in us is : Forall2 (fun u i => declared b i u) us is ->
  (forall u, In u us -> exists nb, In nb (ad_nodes a) /\ nb_name nb = u /\ takes_in nb) ->
  (qsum (map (inflow net f) is) == group_flow net f is)%Q.
Proof.
  unfold group_flow. intros HF. induction HF as [|u i us is Hd HF IH]; intros Hu; [reflexivity|]. cbn [map]. rewrite !qsum_cons, IH by (intros w Hw; apply Hu; right; exact Hw).
  destruct (Hu u (or_introl eq_refl)) as (nb & Hn & En & Ht). subst u. rewrite (part_in nb i Hn Hd Ht). reflexivity.
Qed.
Lemma parts_out us is : Forall2 (fun u i => declared b i u) us is ->
  (forall u, In u us -> exists nb, In nb (ad_nodes a) /\ nb_name nb = u /\ gives_out nb) ->
  (qsum (map (outflow net f) is) == group_flow net f is)%Q.
Proof.
  unfold group_flow. intros HF. induction HF as [|u i us is Hd HF IH]; intros Hu; [reflexivity|]. cbn [map]. rewrite !qsum_cons, IH by (intros w Hw; apply Hu; right; exact Hw).
  destruct (Hu u (or_introl eq_refl)) as (nb & Hn & En & Ht). subst u. rewrite (part_out nb i Hn Hd Ht). reflexivity.
Qed.

Lemma flow_nodes_named n c us : flow_nodes n c = Ok us -> named (snode_name n) us.
Proof.
  destruct n; cbn [flow_nodes snode_name]; intros E; try discriminate E;
    (destruct c as [[]|]; cbn [component_or] in E; try discriminate E; injection E as <-);
    try apply link_parts_named; try apply split_parts_named; named;
    repeat match goal with |- context [is_some ?o] => destruct (is_some o) end; named.
Qed.

(** Every flow node a reference selects is a part of its node; of which type. *)
Definition typed (n : snode) (c : option component) (nb : node_builder) : Prop :=
  nb_type nb <> TStorage /\ (~ source n c -> takes_in nb) /\ (~ sink n c -> gives_out nb).
Lemma typed_link n c u k mn mx : typed n c (link key u k mn mx).
Proof. split; [discriminate|]. split; intros _; left; reflexivity. Qed.
Lemma typed_input n c u k mn mx : source n c -> typed n c (input key u k mn mx).
Proof. intros Hs. split; [discriminate|]. split; [intros Hn; contradiction | intros _; right; reflexivity]. Qed.
Lemma typed_output n c u k mn mx : sink n c -> typed n c (output key u k mn mx).
Proof. intros Hs. split; [discriminate|]. split; [intros _; right; reflexivity | intros Hn; contradiction]. Qed.

Lemma part_kind n c us p u : In n (sc_nodes sc) -> flow_nodes n c = Ok us -> add_node key n = Ok p -> In u us -> (exists nb, In nb (ad_nodes p) /\ nb_name nb = u) ->
  exists nb, In nb (ad_nodes p) /\ nb_name nb = u /\ typed n c nb.
Proof.
  assert (L : forall u k mn mx, In (link key u k mn mx) (ad_nodes p) -> exists nb, In nb (ad_nodes p) /\ nb_name nb = u /\ typed n c nb)
    by (intros; eexists; split; [eassumption|]; split; [reflexivity | apply typed_link]).
  assert (O : forall u k mn mx, sink n c -> In (output key u k mn mx) (ad_nodes p) -> exists nb, In nb (ad_nodes p) /\ nb_name nb = u /\ typed n c nb)
    by (intros; eexists; split; [eassumption|]; split; [reflexivity | apply typed_output; assumption]).
  assert (I : forall u k mn mx, source n c -> In (input key u k mn mx) (ad_nodes p) -> exists nb, In nb (ad_nodes p) /\ nb_name nb = u /\ typed n c nb)
    by (intros; eexists; split; [eassumption|]; split; [reflexivity | apply typed_input; assumption]).
  intros Hin E Hp Hu Hex. destruct n; cbn [flow_nodes] in E; try discriminate E; cbn [add_node] in Hp; try discriminate Hp.
  - (* input *) injection Hp as <-. destruct c as [[]|]; try discriminate E; injection E as <-; destruct Hu as [<-|[]];
      (eapply I; [exact Logic.I | left; reflexivity]).
  - (* link *) injection Hp as <-. assert (Hl : In u (link_parts name soft_min soft_max)) by (destruct c as [[]|]; try discriminate E; injection E as <-; exact Hu).
    destruct (link_parts_built key name cost min max soft_min soft_max u Hl) as (k & mn & mx & Hi). exact (L _ _ _ _ Hi).
  - (* output *) injection Hp as <-. destruct c as [[]|]; try discriminate E; injection E as <-; destruct Hu as [<-|[]];
      (eapply O; [exact Logic.I | left; reflexivity]).
  - (* catchment *) injection Hp as <-. destruct c as [[]|]; try discriminate E; injection E as <-; destruct Hu as [<-|[]];
      (eapply I; [exact Logic.I | left; reflexivity]).
  - (* gauge *) injection Hp as <-. assert (Hl : In u [sub name "mrf"; sub name "bypass"]) by (destruct c as [[]|]; try discriminate E; injection E as <-; exact Hu).
    destruct Hl as [<-|[<-|[]]]; eapply L; [left | right; left]; reflexivity.
  - (* loss link *) injection Hp as <-. destruct lf as [lf|]; cbn [add_loss_link is_some] in *.
    + assert (Hl : u = sub name "net" \/ (u = sub name "loss" /\ (c = Some CoInflow \/ c = Some CoLoss)))
        by (destruct c as [[]|]; try discriminate E; injection E as <-; cbn [app In] in Hu; intuition).
      destruct Hl as [-> | [-> Hc]]; [eapply L; right; left; reflexivity | eapply O; [exact Hc | left; reflexivity]].
    + assert (Hl : u = sub name "net") by (destruct c as [[]|]; try discriminate E; injection E as <-; cbn [app In] in Hu; intuition).
      subst u. eapply L. left. reflexivity.
  - (* river *) injection Hp as <-. unfold add_river, river_loss, river_routing in *.
    destruct lf as [lf|], rt as [[d q|t w q]|]; cbn [is_some] in *; (try destruct (load_loss key lf));
      destruct c as [[]|]; try discriminate E; cbn [component_or] in E; injection E as <-; cbn [In ad_nodes] in *;
      repeat (destruct Hu as [<-|Hu]); try contradiction;
      first [ eapply L; solve [eauto 6 using in_eq, in_cons]
            | eapply O; [cbn [sink]; solve [auto] | solve [eauto 6 using in_eq, in_cons]]
            | eapply I; [cbn [source]; split; discriminate | solve [eauto 6 using in_eq, in_cons]] ].
  - (* split *) injection Hp as <-. assert (Hl : In u (split_parts name splits)) by (destruct c as [[]|]; try discriminate E; injection E as <-; exact Hu).
    destruct (split_links key name mrf mrf_cost splits u Hl) as (k & mn & mx & Hi). exact (L _ _ _ _ Hi).
  - (* treatment works *) injection Hp as <-. unfold add_wtw in *. destruct lf as [lf|]; cbn [is_some] in *.
    + assert (Hl : u = sub name "net" \/ (u = sub name "loss" /\ (c = Some CoInflow \/ c = Some CoLoss)))
        by (destruct c as [[]|]; try discriminate E; injection E as <-; cbn [app In] in Hu; intuition).
      destruct (load_loss key lf); cbn [ad_nodes app] in *; (destruct Hl as [-> | [-> Hc]]; [eapply L; right; left; reflexivity | eapply O; [exact Hc | left; reflexivity]]).
    + assert (Hl : u = sub name "net" \/ u = sub name "loss") by (destruct c as [[]|]; try discriminate E; injection E as <-; cbn [app In] in Hu; intuition).
      destruct Hl as [-> | ->]; [eapply L; left; reflexivity|]. exfalso. destruct Hex as (nb & Hi & En).
      cbn [ad_nodes app In] in Hi. intuition (subst nb; discriminate En).
  - (* piecewise link *) injection Hp as <-. assert (Hl : In u (map (step_name name) (seq 0 (length steps)))) by (destruct c as [[]|]; try discriminate E; injection E as <-; exact Hu).
    destruct (step_links key name steps u Hl) as (k & mn & mx & Hi). exact (L _ _ _ _ Hi).
  - (* delay *) injection Hp as <-. destruct c as [[]|]; try discriminate E; injection E as <-; destruct Hu as [<-|[]];
      first [ eapply O; [cbn [sink]; left; reflexivity | left; reflexivity] | eapply I; [cbn [source]; split; discriminate | right; left; reflexivity] ].
  - (* turbine *) injection Hp as <-. assert (Hl : In u [whole name]) by (destruct c as [[]|]; try discriminate E; injection E as <-; exact Hu).
    destruct Hl as [<-|[]]. eapply L. left. reflexivity.
  - (* reservoir *) destruct Hex as (nb & Hi & En). exists nb. split; [exact Hi|]. split; [exact En|]. unfold add_reservoir in Hp.
    match type of Hp with (if ?t then _ else _) = _ => destruct t; [discriminate Hp|] end. injection Hp as <-.
    cbn [merge ad_nodes] in Hi. repeat (apply in_app_or in Hi; destruct Hi as [Hi|Hi]).
    + destruct Hi as [<-|[]]. exfalso. destruct c as [[]|]; try discriminate E; injection E as <-; destruct Hu as [<-|[]]; discriminate En.
    + destruct (rv_compensation f); [|contradiction]. destruct Hi as [<-|[]]. apply typed_link.
    + destruct (rv_spill f) as [[]|]; [| |contradiction]; destruct Hi as [<-|[]]; [|apply typed_link].
      exfalso. destruct c as [[]|]; try discriminate E; injection E as <-; destruct Hu as [<-|[]]; discriminate En.
    + destruct (flag (rv_connect f) true && is_some (rv_spill f) && is_some (rv_compensation f)); contradiction.
    + destruct (rv_area f), (rv_rainfall f); try contradiction. destruct Hi as [<-|[]]. apply typed_input.
      destruct c as [[]|]; try discriminate E; injection E as <-; destruct Hu as [<-|[]]; try discriminate En; reflexivity.
    + destruct (rv_area f), (rv_evaporation f) eqn:Ev; try contradiction.
      exfalso. apply (C56_evaporation_never_builds key step sc a name f (sm_load _ _ _ _ _ _ _ H) Hin ltac:(congruence) net Hb).
    + destruct (rv_leakage f); [|contradiction]. destruct Hi as [<-|[]]. apply typed_output.
      destruct c as [[]|]; try discriminate E; injection E as <-; destruct Hu as [<-|[]]; try discriminate En; reflexivity.
  - (* abstraction *) assert (Es : p = mkAdded ((if is_some mrf then [link key (sub name "mrf") mrf_cost None mrf] else []) ++
              [link key (sub name "bypass") None None None; link key (sub name "abstraction") abs_cost abs_min abs_max]) [] [] [] [] []).
    { unfold add_abstraction in Hp. destruct mrf, mrf_cost; try discriminate; injection Hp as <-; reflexivity. }
    assert (Hl : (is_some mrf = true /\ u = sub name "mrf") \/ u = sub name "bypass" \/ u = sub name "abstraction")
      by (destruct c as [[]|]; try discriminate E; injection E as <-; destruct (is_some mrf); cbn [app In] in Hu; intuition).
    rewrite Es in *. cbn [ad_nodes]. destruct Hl as [[Hm ->] | [-> | ->]].
    + rewrite Hm in *. eapply L. left. reflexivity.
    + eapply L. apply in_or_app. right. left. reflexivity.
    + eapply L. apply in_or_app. right. right. left. reflexivity.
Qed.

Lemma group_typed n c us is : In n (sc_nodes sc) -> flow_nodes n c = Ok us -> Forall2 (fun u i => declared b i u) us is ->
  (forall u, In u us -> exists nb, In nb (ad_nodes a) /\ nb_name nb = u /\ typed n c nb) /\
  (~ source n c -> qsum (map (inflow net f) is) == group_flow net f is)%Q /\
  (~ sink n c -> qsum (map (outflow net f) is) == group_flow net f is)%Q.
Proof.
  intros Hin E HF. destruct (loaded_node _ _ _ _ (sm_load _ _ _ _ _ _ _ H) _ Hin) as (p & Hp & Hpo).
  assert (K : forall u, In u us -> exists nb, In nb (ad_nodes a) /\ nb_name nb = u /\ typed n c nb).
  { intros u Hu. destruct (Forall2_In_l _ _ _ _ HF Hu) as (i & _ & Hd).
    pose proof (own_part n p u i Hin Hp (flow_nodes_named n c us E u Hu) Hd) as Hex.
    destruct (part_kind n c us p u Hin E Hp Hu Hex) as (nb & Hnb & En & Ht). exists nb. split; [exact (po_nodes _ _ Hpo _ Hnb)|]. auto. }
  split; [exact K|]. split; intros Hs.
  - apply (parts_in us is HF). intros u Hu. destruct (K u Hu) as (nb & A1 & A2 & _ & A3 & _). exists nb. auto.
  - apply (parts_out us is HF). intros u Hu. destruct (K u Hu) as (nb & A1 & A2 & _ & _ & A3). exists nb. auto.
Qed.

Lemma group_ref n c us is : In n (sc_nodes sc) -> flow_nodes n c = Ok us -> Forall2 (fun u i => declared b i u) us is ->
  node_ref_flow a net x n c (group_flow net f is).
Proof.
  intros Hin E HF. destruct (group_typed n c us is Hin E HF) as (_ & KI & KO).
  assert (VI : ~ source n c -> exists v, flow_value b net f (UMultiNodeInFlow us) = Some v /\ (v == group_flow net f is)%Q)
    by (intros Hs; eexists; split; [exact (value_ins _ _ _ _ _ _ _ H _ _ HF) | exact (KI Hs)]).
  assert (VO : ~ sink n c -> exists v, flow_value b net f (UMultiNodeOutFlow us) = Some v /\ (v == group_flow net f is)%Q)
    by (intros Hs; eexists; split; [exact (value_outs _ _ _ _ _ _ _ H _ _ HF) | exact (KO Hs)]).
  assert (WI : forall u, us = [u] -> ~ source n c -> exists v, flow_value b net f (UNodeInFlow u) = Some v /\ (v == group_flow net f is)%Q).
  { intros u -> Hs. inversion HF as [|? i ? ? Hd HF']; subst. inversion HF'; subst. eexists. split; [exact (value_in _ _ _ _ _ _ _ H _ i Hd)|].
    rewrite <- (KI Hs). cbn [map]. rewrite qsum_cons. cbn [qsum fold_right]. ring. }
  assert (WO : forall u, us = [u] -> ~ sink n c -> exists v, flow_value b net f (UNodeOutFlow u) = Some v /\ (v == group_flow net f is)%Q).
  { intros u -> Hs. inversion HF as [|? i ? ? Hd HF']; subst. inversion HF'; subst. eexists. split; [exact (value_out _ _ _ _ _ _ _ H _ i Hd)|].
    rewrite <- (KO Hs). cbn [map]. rewrite qsum_cons. cbn [qsum fold_right]. ring. }
  assert (Z : us = [] -> exists v, flow_value b net f (UConst 0) = Some v /\ (v == group_flow net f is)%Q).
  { intros ->. inversion HF; subst. exists 0%Q. split; reflexivity. }
  assert (Hrs : forall name fs, n = SReservoir name fs -> forall u, us = [u] -> part_flow a net x u (group_flow net f is)).
  { intros _ _ _ u ->. inversion HF as [|? i ? ? Hd HF']; subst. inversion HF'; subst. exists i. split; [exact Hd|].
    unfold group_flow. cbn [map]. rewrite qsum_cons. cbn [qsum fold_right]. ring. }
  assert (Go : forall t m, create_metric n t = Ok m -> (exists v, flow_value b net f m = Some v /\ (v == group_flow net f is)%Q) ->
    exists m v, create_metric n t = Ok m /\ flow_value b net f m = Some v /\ (v == group_flow net f is)%Q)
    by (intros t m Em (v & Ev & Eq); exists m, v; auto).
  unfold node_ref_flow. destruct n; cbn [flow_nodes] in E; try discriminate E.
  - (* input *) destruct c as [[]|]; try discriminate E; injection E as <-; (eapply Go; [reflexivity|]; apply WO; [reflexivity | intros []]).
  - (* link *) destruct c as [[]|]; try discriminate E; injection E as <-; (eapply Go; [reflexivity|]; first [apply VI; intros [] | apply VO; intros []]).
  - (* output *) destruct c as [[]|]; try discriminate E; injection E as <-; (eapply Go; [reflexivity|]; apply WI; [reflexivity | intros []]).
  - (* catchment *) destruct c as [[]|]; try discriminate E; injection E as <-; (eapply Go; [reflexivity|]; apply WO; [reflexivity | intros []]).
  - (* gauge *) destruct c as [[]|]; try discriminate E; injection E as <-; (eapply Go; [reflexivity|]; first [apply VI; intros [] | apply VO; intros []]).
  - (* loss link *) destruct lf as [lf|]; (destruct c as [[]|]; try discriminate E; injection E as <-);
      (eapply Go; [reflexivity|]; cbn [is_some app]; first [apply VI; intros [] | apply WI; [reflexivity | intros []] | apply WO; [reflexivity | cbn [sink]; intuition discriminate] | apply Z; reflexivity]).
  - (* river *) destruct lf as [lf|], rt as [rt|]; (destruct c as [[]|]; try discriminate E; cbn [component_or is_some] in E; injection E as <-);
      (eapply Go; [reflexivity|]; cbn [is_some]; first [apply VI; cbn [source]; intuition discriminate | apply VO; cbn [sink]; intuition discriminate | apply WI; [reflexivity | cbn [source]; intuition discriminate] | apply Z; reflexivity]).
  - (* split *) destruct c as [[]|]; try discriminate E; injection E as <-; (eapply Go; [reflexivity|]; first [apply VI; intros [] | apply VO; intros []]).
  - (* treatment works *) destruct lf as [lf|]; (destruct c as [[]|]; try discriminate E; injection E as <-);
      try (eapply Go; [reflexivity|]; cbn [is_some app]; first [apply VI; intros [] | apply WI; [reflexivity | intros []] | apply WO; [reflexivity | cbn [sink]; intuition discriminate] | apply Z; reflexivity]).
    exfalso. inversion HF as [|? i ? ? Hd HF']; subst. destruct (loaded_node _ _ _ _ (sm_load _ _ _ _ _ _ _ H) _ Hin) as (p & Hp & _).
    destruct (own_part _ p (_, _) i Hin Hp eq_refl Hd) as (nb & Hi & En). cbn [add_node] in Hp. injection Hp as <-. cbn [add_wtw ad_nodes app In] in Hi.
    intuition (subst nb; discriminate En).
  - (* piecewise link *) destruct c as [[]|]; try discriminate E; injection E as <-; (eapply Go; [reflexivity|]; first [apply VI; intros [] | apply VO; intros []]).
  - (* delay *) destruct c as [[]|]; try discriminate E; injection E as <-;
      (eapply Go; [reflexivity|]; first [apply WI; [reflexivity | cbn [source]; intuition discriminate] | apply WO; [reflexivity | cbn [sink]; intuition discriminate]]).
  - (* turbine *) destruct c as [[]|]; try discriminate E; injection E as <-; (eapply Go; [reflexivity|]; first [apply WI; [reflexivity | intros []] | apply WO; [reflexivity | intros []]]).
  - (* reservoir *) rename f into fr.
    destruct (loaded_node _ _ _ _ (sm_load _ _ _ _ _ _ _ H) _ Hin) as (p & Hp & _).
    assert (Hc : us = [sub name "compensation"] -> rv_compensation fr <> None).
    { intros -> Hn. inversion HF as [|? i ? ? Hd HF']; subst. destruct (own_part _ p (_, _) i Hin Hp eq_refl Hd) as (nb & Hi & En).
      cbn [add_node] in Hp. unfold add_reservoir in Hp. match type of Hp with (if ?t then _ else _) = _ => destruct t; [discriminate Hp|] end. injection Hp as <-.
      rewrite Hn in Hi. cbn [merge ad_nodes] in Hi. repeat (apply in_app_or in Hi; destruct Hi as [Hi|Hi]).
      - destruct Hi as [<-|[]]. discriminate En.
      - contradiction.
      - destruct (rv_spill fr) as [[]|]; try contradiction; destruct Hi as [<-|[]]; discriminate En.
      - destruct (flag (rv_connect fr) true && is_some (rv_spill fr) && is_some None); contradiction.
      - destruct (rv_area fr), (rv_rainfall fr); try contradiction; destruct Hi as [<-|[]]; discriminate En.
      - destruct (rv_area fr), (rv_evaporation fr); try contradiction; destruct Hi as [<-|[]]; discriminate En.
      - destruct (rv_leakage fr); try contradiction; destruct Hi as [<-|[]]; discriminate En. }
    destruct c as [[]|]; try discriminate E; injection E as <-; try (eapply Hrs; reflexivity).
    + destruct (rv_compensation fr) eqn:Ec; [|contradiction (Hc eq_refl); reflexivity].
      eapply Go; [cbn; rewrite Ec; reflexivity|]. apply WI; [reflexivity | discriminate].
    + exfalso. inversion HF as [|? i ? ? Hd HF']; subst. destruct (own_part _ p (_, _) i Hin Hp eq_refl Hd) as (nb & Hi & En).
      assert (Ev : rv_evaporation fr = None) by (destruct (rv_evaporation fr) eqn:Ev; [|reflexivity];
        exfalso; apply (C56_evaporation_never_builds key step sc a name fr (sm_load _ _ _ _ _ _ _ H) Hin ltac:(congruence) net Hb)).
      cbn [add_node] in Hp. unfold add_reservoir in Hp. match type of Hp with (if ?t then _ else _) = _ => destruct t; [discriminate Hp|] end. injection Hp as <-.
      rewrite Ev in Hi. cbn [merge ad_nodes] in Hi. repeat (apply in_app_or in Hi; destruct Hi as [Hi|Hi]).
      * destruct Hi as [<-|[]]. discriminate En.
      * destruct (rv_compensation fr); try contradiction; destruct Hi as [<-|[]]; discriminate En.
      * destruct (rv_spill fr) as [[]|]; try contradiction; destruct Hi as [<-|[]]; discriminate En.
      * destruct (flag (rv_connect fr) true && is_some (rv_spill fr) && is_some (rv_compensation fr)); contradiction.
      * destruct (rv_area fr), (rv_rainfall fr); try contradiction; destruct Hi as [<-|[]]; discriminate En.
      * destruct (rv_area fr); contradiction.
      * destruct (rv_leakage fr); try contradiction; destruct Hi as [<-|[]]; discriminate En.
    + destruct (rv_compensation fr) eqn:Ec; [|contradiction (Hc eq_refl); reflexivity].
      eapply Go; [cbn; rewrite Ec; reflexivity|]. apply WI; [reflexivity | discriminate].
  - (* abstraction *) destruct c as [[]|]; try discriminate E; injection E as <-;
      (eapply Go; [reflexivity|]; first [apply VI; intros [] | apply WO; [reflexivity | intros []]]).
Qed.
End Refs.
