(** Edges of a model file: C44, C58. *)
From Coq Require Import Lqa Permutation.
From Verif Require Import Base Calendar Network NetworkBuild NetworkSpec NetworkBuildLemmas Lp LpSpec LpRowLemmas LpDynLemmas LpRelLemmas
  Props_Network Props_Lp Props_LpRel SchemaNodes SchemaMetrics SchemaSpec SchemaLemmas SchemaNodeLemmas SchemaEdgeLemmas Props_Schema.
Local Open Scope string_scope.
Local Open Scope list_scope.
Local Open Scope nat_scope.

(** [e] of the file joins the connectors [outs] of one node to [ins] of another. *)
Definition joins (sc : schema) (e : sedge) (outs ins : list uname) : Prop :=
  exists from to, In from (sc_nodes sc) /\ snode_name from = se_from e /\ In to (sc_nodes sc) /\ snode_name to = se_to e /\
    output_connectors from (se_from_slot e) = Ok outs /\ input_connectors to (se_to_slot e) = Ok ins.

(** Edge number [k] of the network leads from the part called [o] to the one
    called [i]. *)
Definition leads (a : added) (net : network) (k : nat) (o i : uname) : Prop :=
  exists ne, nth_error (net_edges net) k = Some ne /\ declared (declaration a) (e_from ne) o /\ declared (declaration a) (e_to ne) i.

(** ** C44 *)
Lemma leads_iff a net k o i : build_network (declaration a) = Ok net -> leads a net k o i <-> nth_error (ad_edges a) k = Some (o, i).
Proof.
  intros Hb. pose proof (built_edges _ _ Hb) as HF. cbn [b_edges declaration] in HF. split.
  - intros (ne & En & Ho & Hi). assert (Hlt : k < length (ad_edges a)) by (rewrite (Forall2_length' _ _ _ HF); apply (nth_error_Some_lt _ _ _ En)).
    destruct (nth_error_lt_Some _ _ Hlt) as ([o' i'] & Ee). destruct (Forall2_nth_error _ _ _ _ _ _ HF Ee En) as (Ho' & Hi' & _).
    cbn [fst snd] in *. rewrite (declared_inj _ _ _ _ Ho Ho'), (declared_inj _ _ _ _ Hi Hi'). exact Ee.
  - intros Ee. assert (Hlt : k < length (net_edges net)) by (rewrite <- (Forall2_length' _ _ _ HF); apply (nth_error_Some_lt _ _ _ Ee)).
    destruct (nth_error_lt_Some _ _ Hlt) as (ne & En). destruct (Forall2_nth_error _ _ _ _ _ _ HF Ee En) as (Ho' & Hi' & _). exists ne. auto.
Qed.

(** An edge of the file becomes exactly one network edge for each pair of
    connectors. *)
Theorem C44_every_pair_once : forall key step sc a net e outs ins,
  load_schema key step sc = Ok a -> build_network (declaration a) = Ok net -> In e (sc_edges sc) -> joins sc e outs ins ->
  forall o i, In o outs -> In i ins -> exists k, leads a net k o i /\ forall k', leads a net k' o i -> k' = k.
Proof.
  intros key step sc a net e outs ins Hl Hb He (from & to & Hf & Ef & Ht & Et & Eo & Ei) o i Ho Hi.
  destruct (loaded_edge _ _ _ _ Hl e He) as (ps & Ep & Hin).
  destruct (connection_pairs_Ok _ _ _ Ep) as (from' & to' & outs' & ins' & E1 & E2 & E3 & E4 & ->).
  destruct (load_schema_inv _ _ _ _ Hl) as (Hval & _). destruct (validate_names _ Hval) as (Hnd & _).
  assert (Hu : forall n n', In n (sc_nodes sc) -> In n' (sc_nodes sc) -> snode_name n = snode_name n' -> n = n').
  { clear -Hnd. generalize dependent (sc_nodes sc). intros l Hnd. induction l as [|m l IH]; intros n n' [] [] E; cbn [map] in Hnd; inversion Hnd as [|? ? Hn Hnd']; subst; try reflexivity.
    - exfalso. apply Hn. rewrite E. apply in_map. assumption.
    - exfalso. apply Hn. rewrite <- E. apply in_map. assumption.
    - apply IH; assumption. }
  destruct (find_node_Ok _ _ _ E1) as [Hf' Ef']. destruct (find_node_Ok _ _ _ E2) as [Ht' Et'].
  rewrite (Hu from' from Hf' Hf ltac:(congruence)) in *. rewrite (Hu to' to Ht' Ht ltac:(congruence)) in *.
  assert (outs' = outs) by congruence. assert (ins' = ins) by congruence. subst outs' ins'.
  assert (Hpi : In (o, i) (ad_edges a)) by (apply Hin, in_pairs; auto). destruct (In_nth_error _ _ Hpi) as (k & Ek).
  exists k. split; [apply (leads_iff _ _ _ _ _ Hb); exact Ek|]. intros k' Hk'. apply (leads_iff _ _ _ _ _ Hb) in Hk'.
  pose proof (vd_edges _ (build_valid _ _ Hb)) as Hnde. cbn [b_edges declaration] in Hnde. rewrite NoDup_nth_error in Hnde.
  apply Hnde; [apply (nth_error_Some_lt _ _ _ Hk') | congruence].
Qed.
Print Assumptions C44_every_pair_once.

(** The network has no other edges, except between parts of one node. *)
Theorem C44_no_other_edges : forall key step sc a net k ne,
  load_schema key step sc = Ok a -> build_network (declaration a) = Ok net -> nth_error (net_edges net) k = Some ne ->
  exists o i, leads a net k o i /\
    ((exists e outs ins, In e (sc_edges sc) /\ joins sc e outs ins /\ In o outs /\ In i ins) \/
     (exists n, In n (sc_nodes sc) /\ fst o = snode_name n /\ fst i = snode_name n)).
Proof.
  intros key step sc a net k ne Hl Hb En. pose proof (built_edges _ _ Hb) as HF. cbn [b_edges declaration] in HF.
  assert (Hlt : k < length (ad_edges a)) by (rewrite (Forall2_length' _ _ _ HF); apply (nth_error_Some_lt _ _ _ En)).
  destruct (nth_error_lt_Some _ _ Hlt) as ([o i] & Ee). exists o, i. split; [apply (leads_iff _ _ _ _ _ Hb); exact Ee|].
  destruct (loaded_edges _ _ _ _ Hl) as (ns & es & Hn & He & Ea). apply nth_error_In in Ee. rewrite Ea in Ee. apply in_app_or in Ee. destruct Ee as [Ee|Ee].
  - right. apply in_flat_map in Ee. destruct Ee as (p & Hp & Ee). destruct (Forall2_In_pair _ _ _ _ Hn Hp) as (n & Hin & E).
    exists n. split; [exact Hin|]. exact (add_node_edges _ _ _ E _ Ee).
  - left. apply in_concat in Ee. destruct Ee as (ps & Hps & Ee). destruct (Forall2_In_pair _ _ _ _ He Hps) as (e & Hin & E).
    destruct (connection_pairs_Ok _ _ _ E) as (from & to & outs & ins & E1 & E2 & E3 & E4 & ->). apply in_pairs in Ee. destruct Ee as [Ho Hi].
    destruct (find_node_Ok _ _ _ E1) as [Hf Ef]. destruct (find_node_Ok _ _ _ E2) as [Ht Et].
    exists e, outs, ins. split; [exact Hin|]. split; [exists from, to; auto 7 | auto].
Qed.
Print Assumptions C44_no_other_edges.

(** The edge's flow metric is the total over its network edges. *)
Theorem C44_edge_metric : forall key step sc a net s x e outs ins,
  simulated key step sc a net s x -> In e (sc_edges sc) -> joins sc e outs ins ->
  exists ks, NoDup ks /\ (forall k, In k ks <-> exists o i, leads a net k o i /\ In o outs /\ In i ins) /\
    edge_metric_is sc a net x e (qsum (map (edge_flow net x) ks)).
Proof.
  intros key step sc a net s x e outs ins H He (from & to & Hf & Ef & Ht & Et & Eo & Ei). pose proof (sm_build _ _ _ _ _ _ _ H) as Hb.
  pose proof (vd_edges _ (build_valid _ _ Hb)) as Hnde. cbn [b_edges declaration] in Hnde.
  destruct (edge_facts _ _ _ _ _ _ _ H e He) as (Ec & Hincl & Hm).
  destruct (connection_pairs_Ok _ _ _ Ec) as (from' & to' & outs' & ins' & E1 & E2 & E3 & E4 & Ep).
  pose proof (find_own _ _ _ _ _ _ _ H from Hf) as F1. rewrite Ef, E1 in F1. injection F1 as ->.
  pose proof (find_own _ _ _ _ _ _ _ H to Ht) as F2. rewrite Et, E2 in F2. injection F2 as ->.
  assert (outs' = outs) by congruence. assert (ins' = ins) by congruence. subst outs' ins'.
  assert (Hndp : NoDup (pairs sc e)).
  { destruct (all_edges _ _ _ _ _ _ _ H) as (ns & _ & Ea & _). rewrite Ea in Hnde. apply NoDup_app_r in Hnde. exact (NoDup_flat_map_part _ _ _ Hnde He). }
  assert (G : forall l, incl l (ad_edges a) -> NoDup l -> exists ks, NoDup ks /\ (forall k, In k ks <-> exists p, nth_error (ad_edges a) k = Some p /\ In p l) /\
               map (edge_flow net x) ks = map (edge_val (declaration a) (edge_flow net x)) l).
  { induction l as [|p l IH]; intros Hi Hnd; [exists []; split; [constructor|]; split; [intros k; split; [intros [] | intros (? & _ & [])] | reflexivity]|].
    inversion Hnd as [|? ? Hn Hnd']; subst. destruct IH as (ks & N & Hk & Em); [intros y Hy; apply Hi; right; exact Hy | exact Hnd'|].
    destruct (In_nth_error _ _ (Hi p (or_introl eq_refl))) as (k0 & E0). exists (k0 :: ks). split; [|split].
    - constructor; [|exact N]. intros Hk0. apply Hk in Hk0. destruct Hk0 as (p' & E' & Hp'). assert (p' = p) by congruence. subst p'. contradiction.
    - intros k. cbn [In]. rewrite Hk. split.
      + intros [<-|(p' & E' & Hp')]; [exists p; auto | exists p'; auto].
      + intros (p' & E' & [<-|Hp']); [|right; exists p'; auto]. left. rewrite NoDup_nth_error in Hnde. apply Hnde; [apply (nth_error_Some_lt _ _ _ E0) | congruence].
    - cbn [map]. rewrite Em. f_equal. symmetry. apply (edge_val_nth _ _ Hb). exact E0. }
  destruct (G (pairs sc e) Hincl Hndp) as (ks & N & Hk & Em). exists ks. split; [exact N|]. split; [|rewrite Em; exact Hm].
  intros k. rewrite Hk. split.
  - intros ([o i] & Ek & Hp). exists o, i. rewrite Ep in Hp. apply in_pairs in Hp. split; [apply (leads_iff _ _ _ _ _ Hb); exact Ek | exact Hp].
  - intros (o & i & Hk' & Ho & Hi). exists (o, i). apply (leads_iff _ _ _ _ _ Hb) in Hk'. split; [exact Hk'|]. rewrite Ep. apply in_pairs. auto.
Qed.
Print Assumptions C44_edge_metric.

(** ** C58: what goes in and out of a node is the total of its edges *)
Lemma map_combine_fst {A B} (h : nat -> B) (l : list A) : forall o, map (fun p => h (fst p)) (combine (seq o (length l)) l) = map h (seq o (length l)).
Proof. induction l as [|y l IH]; intros o; [reflexivity|]. cbn [length seq combine map fst]. rewrite IH. reflexivity. Qed.

Lemma sums_balanced key step sc a net s x us is (Hs : simulated key step sc a net s x) :
  Forall2 (fun u i => declared (declaration a) i u) us is ->
  (forall u, In u us -> exists c mn mx, In (link key u c mn mx) (ad_nodes a)) ->
  (qsum (map (inflow net (edge_flow net x)) is) == qsum (map (outflow net (edge_flow net x)) is))%Q.
Proof.
  intros HF. induction HF as [|u i us is Hd HF IH]; intros Hl; [reflexivity|]. cbn [map]. rewrite !qsum_cons, IH by (intros w Hw; apply Hl; right; exact Hw).
  destruct (Hl u (or_introl eq_refl)) as (c & mn & mx & Hi). destruct (a_link _ _ _ _ _ _ _ Hs _ _ _ _ Hi) as (j & Hj & _ & B).
  rewrite (declared_unique _ _ _ _ _ _ _ Hs i j u Hd Hj), B. reflexivity.
Qed.

Ltac nodup_names := unfold whole, sub; repeat (constructor; [cbn [In]; intuition congruence|]); constructor.
Ltac slot_incl := intros slot ins E; cbn [input_connectors] in E; apply no_input_slot_Ok in E; destruct E as [-> _]; apply incl_refl.
Ltac no_own := intros e0 He0; cbv [ad_edges] in He0; repeat (destruct He0 as [<-|He0]); try contradiction; cbn [snd fst In]; unfold whole, sub; intuition congruence.

Lemma link_parts_nodup name sm sx : NoDup (link_parts name sm sx).
Proof. unfold link_parts. destruct (is_some sm), (is_some sx); cbn [app]; nodup_names. Qed.
Lemma link_parts_built key name c mn mx sm sx u : In u (link_parts name sm sx) -> exists c' mn' mx', In (link key u c' mn' mx') (ad_nodes (add_link key name c mn mx sm sx)).
Proof.
  unfold link_parts. destruct sm as [sm|], sx as [sx|]; cbn [is_some app In add_link ad_nodes]; intros Hu;
    repeat (destruct Hu as [<-|Hu]; [do 3 eexists; first [left; reflexivity | right; left; reflexivity | right; right; left; reflexivity]|]); contradiction.
Qed.
Lemma split_names key name mrf mc sp : map nb_name (ad_nodes (add_river_split key name mrf mc sp)) =
  map (split_name name) (seq 0 (length sp)) ++ [sub name "mrf"; sub name "bypass"].
Proof. cbn [add_river_split ad_nodes]. rewrite map_app, map_map. reflexivity. Qed.
Lemma split_perm name sp : Permutation (map (split_name name) (seq 0 (length sp)) ++ [sub name "mrf"; sub name "bypass"]) (split_parts name sp).
Proof. unfold split_parts. apply Permutation_app_comm. Qed.
Lemma split_links key name mrf mc sp u : In u (split_parts name sp) -> exists c mn mx, In (link key u c mn mx) (ad_nodes (add_river_split key name mrf mc sp)).
Proof.
  unfold split_parts. intros Hu. cbn [add_river_split ad_nodes]. apply in_app_or in Hu. destruct Hu as [[<-|[<-|[]]]|Hu].
  - do 3 eexists. apply in_or_app. right. left. reflexivity.
  - do 3 eexists. apply in_or_app. right. right. left. reflexivity.
  - apply in_map_iff in Hu. destruct Hu as (i & <- & Hi). exists None, None, None. apply in_or_app. left. exact (in_map (fun i => link key (split_name name i) None None None) _ _ Hi).
Qed.
Lemma step_names key name steps : map nb_name (ad_nodes (add_piecewise_link key name steps)) = map (step_name name) (seq 0 (length steps)).
Proof. cbn [add_piecewise_link ad_nodes]. rewrite map_map. exact (map_combine_fst (step_name name) steps 0). Qed.
Lemma step_links key name steps u : In u (map (step_name name) (seq 0 (length steps))) -> exists c mn mx, In (link key u c mn mx) (ad_nodes (add_piecewise_link key name steps)).
Proof.
  rewrite <- (step_names key name steps). cbn [add_piecewise_link ad_nodes]. rewrite map_map. intros Hu. apply in_map_iff in Hu. destruct Hu as ([i st] & <- & Hi).
  do 3 eexists. apply in_map_iff. exists (i, st). split; [reflexivity | exact Hi].
Qed.

(** What a node reports as its inflow is the total of what the edges to it
    report, for every kind of node that reports an inflow. *)
Theorem C58_inflow_is_total_of_edges : forall key step sc a net s x n,
  simulated key step sc a net s x -> In n (sc_nodes sc) -> (exists m, create_metric n (Some AtInflow) = Ok m) ->
  exists q qs, node_metric a net x n AtInflow q /\
    Forall2 (edge_metric_is sc a net x) (filter (fun e => String.eqb (se_to e) (snode_name n)) (sc_edges sc)) qs /\ (q == qsum qs)%Q.
Proof.
  intros key step sc a net s x n H Hin (m & Em).
  destruct (loaded_node _ _ _ _ (sm_load _ _ _ _ _ _ _ H) n Hin) as (p & Hp & Hpo).
  assert (Main : forall us is, NoDup us -> named (snode_name n) us -> (forall slot ins, input_connectors n slot = Ok ins -> incl ins us) ->
            (forall e, In e (ad_edges p) -> ~ In (snd e) us) -> Forall2 (fun u i => declared (declaration a) i u) us is ->
            (exists v, flow_value (declaration a) net (edge_flow net x) m = Some v /\ (v == qsum (map (inflow net (edge_flow net x)) is))%Q) ->
            exists q qs, node_metric a net x n AtInflow q /\
              Forall2 (edge_metric_is sc a net x) (filter (fun e => String.eqb (se_to e) (snode_name n)) (sc_edges sc)) qs /\ (q == qsum qs)%Q).
  { intros us is Hnd Hnm Hcon Hown HF (v & Ev & Eq). destruct (inflow_total _ _ _ _ _ _ _ H n p us is Hin Hp Hnd Hnm Hcon Hown HF) as (qs & HFq & E).
    exists (qsum (map (inflow net (edge_flow net x)) is)), qs. split; [exists m, v; auto|]. auto. }
  assert (Parts : forall us, incl us (map nb_name (ad_nodes p)) -> exists is, Forall2 (fun u i => declared (declaration a) i u) us is)
    by (intros us; exact (parts_declared _ _ _ _ _ _ _ H n p us Hin Hp)).
  assert (Nodup := part_names_nodup _ _ _ _ _ _ _ H n p Hin Hp).
  destruct n; cbn [create_metric attribute_or storage_metric] in Em; try discriminate; cbn [add_node snode_name] in *.
  - (* link *) injection Hp as <-. injection Em as <-. pose proof (link_parts_nodup name soft_min soft_max) as Hnd.
    destruct (Parts (link_parts name soft_min soft_max)) as (is & HF).
    { intros u Hu. destruct (link_parts_built key name cost min max _ _ u Hu) as (c' & mn' & mx' & Hl). apply (in_map nb_name) in Hl. exact Hl. }
    apply (Main (link_parts name soft_min soft_max) is Hnd (link_parts_named _ _ _)); [slot_incl | | exact HF |].
    + destruct soft_min, soft_max; intros e [].
    + eexists. split; [exact (value_outs _ _ _ _ _ _ _ H _ _ HF)|]. symmetry. apply (sums_balanced _ _ _ _ _ _ _ _ _ H HF).
      intros u Hu. destruct (link_parts_built key name cost min max _ _ u Hu) as (c' & mn' & mx' & Hl). exists c', mn', mx'. exact (po_nodes _ _ Hpo _ Hl).
  - (* output *) injection Hp as <-. injection Em as <-. destruct (Parts [whole name]) as (is & HF); [apply incl_refl|].
    apply (Main [whole name] is); [nodup_names | named | slot_incl | no_own | exact HF |].
    inversion HF as [|? i ? ? Hd HF']; subst. inversion HF'; subst. eexists. split; [exact (value_in _ _ _ _ _ _ _ H _ i Hd) | qs].
  - (* gauge *) injection Hp as <-. injection Em as <-. destruct (Parts [sub name "mrf"; sub name "bypass"]) as (is & HF); [apply incl_refl|].
    apply (Main [sub name "mrf"; sub name "bypass"] is); [nodup_names | named | slot_incl | no_own | exact HF |].
    eexists. split; [exact (value_ins _ _ _ _ _ _ _ H _ _ HF) | reflexivity].
  - (* loss link *) injection Hp as <-. destruct lf as [lf|]; injection Em as <-.
    + destruct (Parts [sub name "net"; sub name "loss"]) as (is & HF); [intros u [<-|[<-|[]]]; cbn [add_loss_link ad_nodes map In]; tauto|].
      apply (Main [sub name "net"; sub name "loss"] is); [nodup_names | named | slot_incl | no_own | exact HF |].
      eexists. split; [exact (value_ins _ _ _ _ _ _ _ H _ _ HF) | reflexivity].
    + destruct (Parts [sub name "net"]) as (is & HF); [apply incl_refl|].
      apply (Main [sub name "net"] is); [nodup_names | named | slot_incl | no_own | exact HF |].
      inversion HF as [|? i ? ? Hd HF']; subst. inversion HF'; subst. eexists. split; [exact (value_in _ _ _ _ _ _ _ H _ i Hd) | qs].
  - (* river *) injection Hp as <-. cbn [flow_nodes component_or rbind] in Em. injection Em as <-.
    set (us := match is_some lf, is_some rt with false, false => [sub name "net"] | true, false => [sub name "net"; sub name "loss"] | _, _ => [sub name "inflow"] end) in *.
    destruct (Parts us) as (is & HF).
    { subst us. unfold add_river, river_loss, river_routing. destruct lf as [lf|]; [destruct (load_loss key lf)|]; (destruct rt as [[]|]); cbn [is_some ad_nodes map In]; intros u Hu; cbn in *; tauto. }
    apply (Main us is); [| | slot_incl | | exact HF |].
    + subst us. destruct (is_some lf), (is_some rt); nodup_names.
    + subst us. destruct (is_some lf), (is_some rt); named.
    + subst us. unfold add_river. destruct (river_loss key name lf) as [l0 la], (river_routing key name rt) as [[r0 ra] ps]. destruct (is_some lf), (is_some rt); no_own.
    + eexists. split; [exact (value_ins _ _ _ _ _ _ _ H _ _ HF) | reflexivity].
  - (* river split *) injection Hp as <-. injection Em as <-. rewrite split_names in *.
    destruct (Parts (split_parts name splits)) as (is & HF); [intros u Hu; exact (Permutation_in _ (Permutation_sym (split_perm name splits)) Hu)|].
    apply (Main (split_parts name splits) is); [exact (Permutation_NoDup (split_perm name splits) Nodup) | apply split_parts_named | slot_incl | intros e [] | exact HF |].
    eexists. split; [exact (value_ins _ _ _ _ _ _ _ H _ _ HF) | reflexivity].
  - (* treatment works *) injection Hp as <-. destruct lf as [lf|]; injection Em as <-.
    + destruct (Parts [sub name "net"; sub name "loss"]) as (is & HF); [unfold add_wtw; destruct (load_loss key lf); intros u [<-|[<-|[]]]; cbn [ad_nodes map In app]; tauto|].
      apply (Main [sub name "net"; sub name "loss"] is); [nodup_names | named | slot_incl | | exact HF |].
      * unfold add_wtw. destruct (load_loss key lf); no_own.
      * eexists. split; [exact (value_ins _ _ _ _ _ _ _ H _ _ HF) | reflexivity].
    + destruct (Parts [sub name "net"]) as (is & HF); [intros u [<-|[]]; left; reflexivity|].
      apply (Main [sub name "net"] is); [nodup_names | named | slot_incl | no_own | exact HF |].
      inversion HF as [|? i ? ? Hd HF']; subst. inversion HF'; subst. eexists. split; [exact (value_in _ _ _ _ _ _ _ H _ i Hd) | qs].
  - (* piecewise link *) injection Hp as <-. injection Em as <-. rewrite step_names in *. destruct (Parts (map (step_name name) (seq 0 (length steps)))) as (is & HF); [apply incl_refl|].
    apply (Main (map (step_name name) (seq 0 (length steps))) is); [exact Nodup | apply named_map; reflexivity | slot_incl | intros e [] | exact HF |].
    eexists. split; [exact (value_ins _ _ _ _ _ _ _ H _ _ HF) | reflexivity].
  - (* delay *) injection Hp as <-. injection Em as <-. destruct (Parts [sub name "inflow"]) as (is & HF); [intros u [<-|[]]; left; reflexivity|].
    apply (Main [sub name "inflow"] is); [nodup_names | named | slot_incl | no_own | exact HF |].
    inversion HF as [|? i ? ? Hd HF']; subst. inversion HF'; subst. eexists. split; [exact (value_in _ _ _ _ _ _ _ H _ i Hd) | qs].
  - (* turbine *) injection Hp as <-. injection Em as <-. destruct (Parts [whole name]) as (is & HF); [apply incl_refl|].
    apply (Main [whole name] is); [nodup_names | named | slot_incl | no_own | exact HF |].
    inversion HF as [|? i ? ? Hd HF']; subst. inversion HF'; subst. eexists. split; [exact (value_in _ _ _ _ _ _ _ H _ i Hd) | qs].
  - (* abstraction *) cbn [flow_nodes component_or rbind] in Em. injection Em as <-.
    assert (Es : p = mkAdded ((if is_some mrf then [link key (sub name "mrf") mrf_cost None mrf] else []) ++
              [link key (sub name "bypass") None None None; link key (sub name "abstraction") abs_cost abs_min abs_max]) [] [] [] [] []).
    { unfold add_abstraction in Hp. destruct mrf, mrf_cost; try discriminate; injection Hp as <-; reflexivity. }
    set (us := (if is_some mrf then [sub name "mrf"] else []) ++ [sub name "bypass"; sub name "abstraction"]).
    destruct (Parts us) as (is & HF); [rewrite Es; subst us; destruct (is_some mrf); apply incl_refl|].
    apply (Main us is); [| | | rewrite Es; intros e [] | exact HF |].
    + subst us. destruct (is_some mrf); cbn [app]; nodup_names.
    + subst us. named.
    + intros slot ins E. cbn [input_connectors] in E. apply no_input_slot_Ok in E. destruct E as [-> _]. subst us. intros u Hu.
      destruct (is_some mrf); cbn [app In] in *; tauto.
    + eexists. split; [exact (value_ins _ _ _ _ _ _ _ H _ _ HF) | reflexivity].
Qed.
Print Assumptions C58_inflow_is_total_of_edges.

(** Edges from an abstraction's own slot are not part of what it passes on down
    the river. *)
Definition from_abstraction (n : snode) (e : sedge) : bool :=
  match n, se_from_slot e with SAbstraction _ _ _ _ _ _, Some SlAbstraction => true | _, _ => false end.
Definition edges_from (sc : schema) (n : snode) (sel : sedge -> bool) : list sedge :=
  filter (fun e => String.eqb (se_from e) (snode_name n) && sel e) (sc_edges sc).
(** Rivers with a loss and routing. *)
Definition loses_routed (n : snode) : Prop := match n with SRiver _ (Some _) (Some _) => True | _ => False end.

Ltac out_incl := intros e0 outs E; cbn [output_connectors] in E; apply no_output_slot_Ok in E; destruct E as [-> _]; apply incl_refl.
Ltac no_own_from := intros e0 He0; cbv [ad_edges] in He0; repeat (destruct He0 as [<-|He0]); try contradiction; cbn [snd fst In]; unfold whole, sub; intuition congruence.
Lemma split_out_incl name mrf mc sp : forall slot outs, output_connectors (SRiverSplit name mrf mc sp) slot = Ok outs -> incl outs (split_parts name sp).
Proof.
  assert (G : forall i, i < length sp -> incl [split_name name i] (split_parts name sp)).
  { intros i Hi u [<-|[]]. unfold split_parts. apply in_or_app. right. apply in_map, in_seq. lia. }
  intros slot outs E. cbn [output_connectors] in E. destruct slot as [[]|]; try discriminate; try (injection E as <-; apply incl_refl).
  - match type of E with context [?i <? _] => destruct (Nat.ltb_spec i (length sp)) as [Hi|Hi] end; [|discriminate]. injection E as <-. exact (G _ Hi).
  - match type of E with context [position ?g sp] => destruct (position g sp) as [i|] eqn:Ep end; [|discriminate]. injection E as <-.
    apply G. apply position_Some in Ep. destruct Ep as (y & Ey & _). exact (nth_error_Some_lt _ _ _ Ey).
Qed.

Theorem C58_outflow_is_total_of_edges : forall key step sc a net s x n,
  simulated key step sc a net s x -> In n (sc_nodes sc) -> (exists m, create_metric n (Some AtOutflow) = Ok m) -> ~ loses_routed n ->
  exists q qs, node_metric a net x n AtOutflow q /\
    Forall2 (edge_metric_is sc a net x) (edges_from sc n (fun e => negb (from_abstraction n e))) qs /\ (q == qsum qs)%Q.
Proof.
  intros key step sc a net s x n H Hin (m & Em) Hlr.
  destruct (loaded_node _ _ _ _ (sm_load _ _ _ _ _ _ _ H) n Hin) as (p & Hp & Hpo).
  assert (Main : forall us is, NoDup us -> named (snode_name n) us ->
            (forall e outs, output_connectors n (se_from_slot e) = Ok outs -> if negb (from_abstraction n e) then incl outs us else forall u, In u outs -> ~ In u us) ->
            (forall e, In e (ad_edges p) -> ~ In (fst e) us) -> Forall2 (fun u i => declared (declaration a) i u) us is ->
            (exists v, flow_value (declaration a) net (edge_flow net x) m = Some v /\ (v == qsum (map (outflow net (edge_flow net x)) is))%Q) ->
            exists q qs, node_metric a net x n AtOutflow q /\
              Forall2 (edge_metric_is sc a net x) (edges_from sc n (fun e => negb (from_abstraction n e))) qs /\ (q == qsum qs)%Q).
  { intros us is Hnd Hnm Hcon Hown HF (v & Ev & Eq). destruct (outflow_total _ _ _ _ _ _ _ H n p us is (fun e => negb (from_abstraction n e)) Hin Hp Hnd Hnm Hcon Hown HF) as (qs & HFq & E).
    exists (qsum (map (outflow net (edge_flow net x)) is)), qs. split; [exists m, v; auto|]. auto. }
  assert (Parts : forall us, incl us (map nb_name (ad_nodes p)) -> exists is, Forall2 (fun u i => declared (declaration a) i u) us is)
    by (intros us; exact (parts_declared _ _ _ _ _ _ _ H n p us Hin Hp)).
  assert (Nodup := part_names_nodup _ _ _ _ _ _ _ H n p Hin Hp).
  assert (One : forall u is, Forall2 (fun u i => declared (declaration a) i u) [u] is -> flow_value (declaration a) net (edge_flow net x) (UNodeOutFlow u) = Some (qsum (map (outflow net (edge_flow net x)) is)) \/
                  exists v, flow_value (declaration a) net (edge_flow net x) (UNodeOutFlow u) = Some v /\ (v == qsum (map (outflow net (edge_flow net x)) is))%Q).
  { intros u is HF. inversion HF as [|? i ? ? Hd HF']; subst. inversion HF'; subst. right. eexists. split; [exact (value_out _ _ _ _ _ _ _ H _ i Hd) | qs]. }
  assert (One' : forall u is, Forall2 (fun u i => declared (declaration a) i u) [u] is ->
                  exists v, flow_value (declaration a) net (edge_flow net x) (UNodeOutFlow u) = Some v /\ (v == qsum (map (outflow net (edge_flow net x)) is))%Q).
  { intros u is HF. destruct (One u is HF) as [E|E]; [eexists; split; [exact E | reflexivity] | exact E]. }
  clear One. pose proof Hp as Hp0.
  destruct n; cbn [create_metric attribute_or storage_metric] in Em; try discriminate; cbn [add_node snode_name from_abstraction negb] in *.
  - (* input *) injection Hp as <-. injection Em as <-. destruct (Parts [whole name]) as (is & HF); [apply incl_refl|].
    apply (Main [whole name] is); [nodup_names | named | out_incl | no_own_from | exact HF | exact (One' _ _ HF)].
  - (* link *) injection Hp as <-. injection Em as <-. pose proof (link_parts_nodup name soft_min soft_max) as Hnd.
    destruct (Parts (link_parts name soft_min soft_max)) as (is & HF).
    { intros u Hu. destruct (link_parts_built key name cost min max _ _ u Hu) as (c' & mn' & mx' & Hl). apply (in_map nb_name) in Hl. exact Hl. }
    apply (Main (link_parts name soft_min soft_max) is Hnd (link_parts_named _ _ _)); [out_incl | | exact HF |].
    + destruct soft_min, soft_max; intros e [].
    + eexists. split; [exact (value_ins _ _ _ _ _ _ _ H _ _ HF)|]. apply (sums_balanced _ _ _ _ _ _ _ _ _ H HF).
      intros u Hu. destruct (link_parts_built key name cost min max _ _ u Hu) as (c' & mn' & mx' & Hl). exists c', mn', mx'. exact (po_nodes _ _ Hpo _ Hl).
  - (* catchment *) injection Hp as <-. injection Em as <-. destruct (Parts [whole name]) as (is & HF); [apply incl_refl|].
    apply (Main [whole name] is); [nodup_names | named | out_incl | no_own_from | exact HF | exact (One' _ _ HF)].
  - (* gauge *) injection Hp as <-. injection Em as <-. destruct (Parts [sub name "mrf"; sub name "bypass"]) as (is & HF); [apply incl_refl|].
    apply (Main [sub name "mrf"; sub name "bypass"] is); [nodup_names | named | out_incl | no_own_from | exact HF |].
    eexists. split; [exact (value_outs _ _ _ _ _ _ _ H _ _ HF) | reflexivity].
  - (* loss link *) injection Hp as <-. injection Em as <-. destruct (Parts [sub name "net"]) as (is & HF).
    { unfold add_loss_link. destruct lf; intros u [<-|[]]; cbn [ad_nodes map In]; tauto. }
    apply (Main [sub name "net"] is); [nodup_names | named | out_incl | destruct lf; no_own_from | exact HF | exact (One' _ _ HF)].
  - (* river *) injection Hp as <-. cbn [flow_nodes component_or rbind] in Em. injection Em as <-.
    assert (Hr : is_some lf = true -> is_some rt = true -> False) by (destruct lf, rt; try discriminate; intros _ _; apply Hlr; exact I).
    set (us := if is_some rt then [sub name "outflow"] else [sub name "net"]) in *. destruct (Parts us) as (is & HF).
    { subst us. unfold add_river, river_loss, river_routing. destruct lf as [lf|]; [destruct (load_loss key lf)|]; (destruct rt as [[]|]); cbn [is_some ad_nodes map In]; intros u Hu; cbn in *; tauto. }
    apply (Main us is); [| | | | exact HF |].
    + subst us. destruct (is_some rt); nodup_names.
    + subst us. destruct (is_some rt); named.
    + intros e0 outs E. cbn [output_connectors] in E. apply no_output_slot_Ok in E. destruct E as [-> _]. subst us.
      destruct (is_some lf), (is_some rt); try apply incl_refl. destruct (Hr eq_refl eq_refl).
    + subst us. unfold add_river. destruct (river_loss key name lf) as [l0 la], (river_routing key name rt) as [[r0 ra] ps].
      destruct (is_some lf), (is_some rt); try (destruct (Hr eq_refl eq_refl)); no_own_from.
    + eexists. split; [exact (value_outs _ _ _ _ _ _ _ H _ _ HF) | reflexivity].
  - (* river split *) injection Hp as <-. injection Em as <-. rewrite split_names in *.
    destruct (Parts (split_parts name splits)) as (is & HF); [intros u Hu; exact (Permutation_in _ (Permutation_sym (split_perm name splits)) Hu)|].
    apply (Main (split_parts name splits) is); [exact (Permutation_NoDup (split_perm name splits) Nodup) | apply split_parts_named | | intros e [] | exact HF |].
    + intros e outs E. exact (split_out_incl _ _ _ _ _ _ E).
    + eexists. split; [exact (value_outs _ _ _ _ _ _ _ H _ _ HF) | reflexivity].
  - (* treatment works *) injection Hp as <-. injection Em as <-.
    assert (Hi : incl [sub name "net_soft_min_flow"; sub name "net_above_soft_min_flow"] (map nb_name (ad_nodes (add_wtw key name lf cost min max soft_min soft_min_cost)))).
    { unfold add_wtw. destruct lf as [lf|]; [destruct (load_loss key lf)|]; intros u [<-|[<-|[]]]; cbn [ad_nodes map In app nb_name link flow_node]; tauto. }
    destruct (Parts _ Hi) as (is & HF).
    apply (Main [sub name "net_soft_min_flow"; sub name "net_above_soft_min_flow"] is); [nodup_names | named | out_incl | | exact HF |].
    { unfold add_wtw. destruct lf as [lf|]; [destruct (load_loss key lf)|]; no_own_from. }
    assert (Hn : In (link key (sub name "net") cost min max) (ad_nodes a) /\ In (link key (sub name "net_soft_min_flow") soft_min_cost None soft_min) (ad_nodes a) /\
                 In (link key (sub name "net_above_soft_min_flow") None None None) (ad_nodes a)).
    { repeat split; apply (po_nodes _ _ Hpo); unfold add_wtw; destruct lf as [lf|]; [destruct (load_loss key lf)| | destruct (load_loss key lf)| |destruct (load_loss key lf)|]; cbn [ad_nodes In app]; tauto. }
    destruct Hn as (Hn & Hs & Ha). destruct (a_link _ _ _ _ _ _ _ H _ _ _ _ Hn) as (i & Di & _ & Bi).
    destruct (a_link _ _ _ _ _ _ _ H _ _ _ _ Hs) as (j & Dj & _ & Bj). destruct (a_link _ _ _ _ _ _ _ H _ _ _ _ Ha) as (k & Dk & _ & Bk).
    eexists. split; [exact (value_out _ _ _ _ _ _ _ H _ i Di)|].
    inversion HF as [|? j' ? ? Dj' HF']; subst. inversion HF' as [|? k' ? ? Dk' HF'']; subst. inversion HF''; subst.
    rewrite (declared_unique _ _ _ _ _ _ _ H j' j _ Dj' Dj), (declared_unique _ _ _ _ _ _ _ H k' k _ Dk' Dk). cbn [map]. rewrite !qsum_cons, <- Bj, <- Bk. cbn [map].
    assert (Ee : ad_edges (add_wtw key name lf cost min max soft_min soft_min_cost) = [(sub name "net", sub name "net_soft_min_flow"); (sub name "net", sub name "net_above_soft_min_flow")]).
    { unfold add_wtw. destruct lf as [lf|]; [destruct (load_loss key lf)|]; reflexivity. }
    assert (Eo := own_outflow _ _ _ _ _ _ _ H _ _ (sub name "net") i Hin Hp0 eq_refl Di). rewrite Eo.
    2:{ intros slot outs E. cbn [output_connectors] in E. apply no_output_slot_Ok in E. destruct E as [-> _]. unfold sub. cbn [In]. intuition congruence. }
    assert (Ej := own_inflow _ _ _ _ _ _ _ H _ _ (sub name "net_soft_min_flow") j Hin Hp0 eq_refl Dj). rewrite Ej.
    2:{ intros slot outs E. cbn [input_connectors] in E. apply no_input_slot_Ok in E. destruct E as [-> _]. destruct (is_some lf); unfold sub; cbn [In app]; intuition congruence. }
    assert (Ek := own_inflow _ _ _ _ _ _ _ H _ _ (sub name "net_above_soft_min_flow") k Hin Hp0 eq_refl Dk). rewrite Ek.
    2:{ intros slot outs E. cbn [input_connectors] in E. apply no_input_slot_Ok in E. destruct E as [-> _]. destruct (is_some lf); unfold sub; cbn [In app]; intuition congruence. }
    rewrite Ee. clear. unfold into, out_of. cbn [filter fst snd]. unfold uname_eqb, sub. cbn [fst snd]. rewrite !String.eqb_refl. cbn. ring.
  - (* piecewise link *) injection Hp as <-. injection Em as <-. rewrite step_names in *. destruct (Parts (map (step_name name) (seq 0 (length steps)))) as (is & HF); [apply incl_refl|].
    apply (Main (map (step_name name) (seq 0 (length steps))) is); [exact Nodup | apply named_map; reflexivity | out_incl | intros e [] | exact HF |].
    eexists. split; [exact (value_outs _ _ _ _ _ _ _ H _ _ HF) | reflexivity].
  - (* delay *) injection Hp as <-. injection Em as <-. destruct (Parts [sub name "outflow"]) as (is & HF); [intros u [<-|[]]; right; left; reflexivity|].
    apply (Main [sub name "outflow"] is); [nodup_names | named | out_incl | no_own_from | exact HF | exact (One' _ _ HF)].
  - (* turbine *) injection Hp as <-. injection Em as <-. destruct (Parts [whole name]) as (is & HF); [apply incl_refl|].
    apply (Main [whole name] is); [nodup_names | named | out_incl | no_own_from | exact HF | exact (One' _ _ HF)].
  - (* abstraction *) cbn [flow_nodes component_or rbind] in Em. injection Em as <-.
    assert (Es : p = mkAdded ((if is_some mrf then [link key (sub name "mrf") mrf_cost None mrf] else []) ++
              [link key (sub name "bypass") None None None; link key (sub name "abstraction") abs_cost abs_min abs_max]) [] [] [] [] []).
    { unfold add_abstraction in Hp. destruct mrf, mrf_cost; try discriminate; injection Hp as <-; reflexivity. }
    set (us := (if is_some mrf then [sub name "mrf"] else []) ++ [sub name "bypass"]).
    destruct (Parts us) as (is & HF).
    { rewrite Es; subst us; destruct (is_some mrf); cbn [app ad_nodes map]; intros u Hu; cbn [In] in Hu |- *; unfold link, flow_node; cbn [nb_name]; tauto. }
    apply (Main us is); [| | | rewrite Es; intros e [] | exact HF |].
    + subst us. destruct (is_some mrf); cbn [app]; nodup_names.
    + subst us. named.
    + intros e0 outs E. subst us. cbn [output_connectors] in E. destruct (se_from_slot e0) as [[]|]; try discriminate; cbn [negb]; injection E as <-; try apply incl_refl.
      intros u [<-|[]]. destruct (is_some mrf); unfold sub; cbn [In app]; intuition congruence.
    + eexists. split; [exact (value_ins _ _ _ _ _ _ _ H _ _ HF)|]. apply (sums_balanced _ _ _ _ _ _ _ _ _ H HF).
      intros u Hu. subst us. rewrite Es in Hpo. destruct (is_some mrf); cbn [app In] in Hu; repeat (destruct Hu as [<-|Hu]); try contradiction; do 3 eexists; apply (po_nodes _ _ Hpo); cbn [ad_nodes app In]; auto.
Qed.
Print Assumptions C58_outflow_is_total_of_edges.

(** *** Examples *)
Definition ex_joined : schema :=
  mkSchema [SInput "in" None None (Some (UConst 10)); SRiverGauge "g" (Some (UConst 5)) None None; SLossLink "ll" (Some (LGross (UConst (1#5)))) None None None;
            SOutput "out" None None None] [] [ex_edge "in" "g"; ex_edge "g" "ll"; ex_edge "ll" "out"].
(* in-mrf, in-bypass; mrf-net, mrf-loss, bypass-net, bypass-loss (by output connector); net-out *)
Definition ex_joined_x : nat -> Q :=
  rel_x [4; 6; 3; 1; 5; 1; 8]%Q.
Example C44_example :
  simulated ex_key None ex_joined (ex_added ex_joined) (ex_net ex_joined) ex_state ex_joined_x /\
  In (ex_edge "g" "ll") (sc_edges ex_joined) /\
  joins ex_joined (ex_edge "g" "ll") [sub "g" "mrf"; sub "g" "bypass"] [sub "ll" "net"; sub "ll" "loss"] /\
  edge_metric_is ex_joined (ex_added ex_joined) (ex_net ex_joined) ex_joined_x (ex_edge "g" "ll") 10.
Proof.
  split; [apply ex_simulated; vm_compute; reflexivity|]. split; [cbn [sc_edges ex_joined In]; tauto|]. split.
  - exists (SRiverGauge "g" (Some (UConst 5)) None None), (SLossLink "ll" (Some (LGross (UConst (1#5)))) None None None). cbn [sc_nodes ex_joined In]. split; [tauto|].
    split; [reflexivity|]. split; [tauto|]. split; [reflexivity|]. split; reflexivity.
  - eexists. eexists. split; [vm_compute; reflexivity|]. split; vm_compute; reflexivity.
Qed.
Example C58_example :
  node_metric (ex_added ex_joined) (ex_net ex_joined) ex_joined_x (SLossLink "ll" (Some (LGross (UConst (1#5)))) None None None) AtInflow 10 /\
  node_metric (ex_added ex_joined) (ex_net ex_joined) ex_joined_x (SLossLink "ll" (Some (LGross (UConst (1#5)))) None None None) AtOutflow 8 /\
  edge_metric_is ex_joined (ex_added ex_joined) (ex_net ex_joined) ex_joined_x (ex_edge "ll" "out") 8.
Proof.
  split; [eexists; eexists; split; [reflexivity|]; split; vm_compute; reflexivity|].
  split; [eexists; eexists; split; [reflexivity|]; split; vm_compute; reflexivity|].
  eexists; eexists; split; [vm_compute; reflexivity|]; split; vm_compute; reflexivity.
Qed.

(** The outflow reported by a river with a loss and routing still includes the
    loss. *)
Theorem C53_routed_loss : forall key step sc a net s x name lf rt,
  simulated key step sc a net s x -> In (SRiver name (Some lf) (Some rt)) (sc_nodes sc) ->
  exists qo ql qs, node_metric a net x (SRiver name (Some lf) (Some rt)) AtOutflow qo /\
    node_metric a net x (SRiver name (Some lf) (Some rt)) AtLoss ql /\
    Forall2 (edge_metric_is sc a net x) (edges_from sc (SRiver name (Some lf) (Some rt)) (fun _ => true)) qs /\
    (qo == qsum qs + ql)%Q /\
    (forall q, constant (factor_metric lf) q -> valid_factor lf q ->
       (q == 0 -> not_exclusive a net (sub name "loss") /\ 0 < st_days s)%Q -> loses lf q qo (qsum qs) ql).
Proof.
  intros key step sc a net s x name lf rt H Hin. destruct (loaded_node _ _ _ _ (sm_load _ _ _ _ _ _ _ H) _ Hin) as (p & Hp & Hpo).
  pose proof Hp as Hp0. cbn [add_node] in Hp. injection Hp as <-.
  destruct (river_routing key name (Some rt)) as [[ro ra] ps] eqn:Er. destruct (river_loss key name (Some lf)) as [lo la] eqn:El.
  assert (Ea : add_river key name (Some lf) (Some rt) =
    mkAdded [link key (sub name "net") None None None; lo; output key (sub name "inflow") None None None; ro]
       [(sub name "outflow", sub name "net"); (sub name "outflow", sub name "loss")] (la ++ ra) [] [] ps).
  { unfold add_river. rewrite Er, El. reflexivity. }
  rewrite Ea in Hpo.
  assert (Hro : exists mn mx, ro = input key (sub name "outflow") None mn mx).
  { destruct rt; cbn [river_routing] in Er; injection Er as <- _ _; eexists; eexists; reflexivity. }
  assert (Hlo : lo = output key (sub name "loss") None None (match load_loss key lf with Some _ => None | None => Some (UConst 0) end)).
  { cbn [river_loss] in El. destruct (load_loss key lf); injection El as <- _; reflexivity. }
  destruct Hro as (mn & mx & ->).
  destruct (a_link _ _ _ _ _ _ _ H (sub name "net") None None None) as (i & Hi & _ & Bi); [apply (po_nodes _ _ Hpo); left; reflexivity|].
  destruct (a_output _ _ _ _ _ _ _ H (sub name "loss") None None (match load_loss key lf with Some _ => None | None => Some (UConst 0) end)) as (j & Hj & _);
    [apply (po_nodes _ _ Hpo); right; left; exact Hlo|].
  destruct (an_input _ _ _ _ _ _ _ H (sub name "outflow") None mn mx) as (k & Hk & _); [apply (po_nodes _ _ Hpo); right; right; right; left; reflexivity|].
  assert (Ek := own_outflow _ _ _ _ _ _ _ H _ _ (sub name "outflow") k Hin Hp0 eq_refl Hk).
  assert (Ei := own_inflow _ _ _ _ _ _ _ H _ _ (sub name "net") i Hin Hp0 eq_refl Hi).
  assert (Ej := own_inflow _ _ _ _ _ _ _ H _ _ (sub name "loss") j Hin Hp0 eq_refl Hj).
  assert (Esum : (outflow net (edge_flow net x) k == outflow net (edge_flow net x) i + inflow net (edge_flow net x) j)%Q).
  { rewrite <- Bi, Ek, Ei, Ej.
    - rewrite Ea. unfold into, out_of. cbn [ad_edges filter fst snd]. unfold uname_eqb, sub. cbn [fst snd]. rewrite !String.eqb_refl. cbn. ring.
    - intros slot ins E. cbn [input_connectors] in E. apply no_input_slot_Ok in E. destruct E as [-> _]. unfold sub. cbn [In is_some]. intuition congruence.
    - intros slot ins E. cbn [input_connectors] in E. apply no_input_slot_Ok in E. destruct E as [-> _]. unfold sub. cbn [In is_some]. intuition congruence.
    - intros slot ins E. cbn [output_connectors] in E. apply no_output_slot_Ok in E. destruct E as [-> _]. unfold sub. cbn [In is_some]. intuition congruence. }
  destruct (outflow_total _ _ _ _ _ _ _ H (SRiver name (Some lf) (Some rt)) _ [sub name "net"] [i] (fun _ => true) Hin Hp0) as (qs & HF & Eq).
  { nodup_names. } { named. }
  { intros e outs E. cbn [output_connectors] in E. apply no_output_slot_Ok in E. destruct E as [-> _]. apply incl_refl. }
  { cbn [add_node] in Hp0. rewrite Ea. intros e [<-|[<-|[]]]; cbn [fst In]; unfold sub; intuition congruence. }
  { constructor; [exact Hi | constructor]. }
  cbn [map] in Eq. rewrite qsum_cons in Eq. cbn [map] in Eq.
  assert (Eq' : (outflow net (edge_flow net x) i == qsum qs)%Q) by (rewrite <- Eq; unfold qsum; cbn [fold_right]; ring). clear Eq.
  exists (outflow net (edge_flow net x) k), (inflow net (edge_flow net x) j), qs.
  split; [eapply metric_is; [reflexivity | apply (value_outs _ _ _ _ _ _ _ H _ [k]); two_parts | qs]|].
  split; [eapply metric_is; [reflexivity | apply (value_in _ _ _ _ _ _ _ H _ j); eassumption | qs]|].
  split; [exact HF|]. split; [rewrite Esum, Eq'; reflexivity|].
  intros q Hc Hv Hz.
  destruct (loss_constant _ _ _ _ _ _ _ H lf q (sub name "net") (sub name "loss") (sub name "aggregated_loss_node") None None None
              (match load_loss key lf with Some _ => None | None => Some (UConst 0) end) Hc Hv) as (i' & j' & Hi' & Hj' & _ & L).
  - apply (po_nodes _ _ Hpo). left. reflexivity.
  - apply (po_nodes _ _ Hpo). right. left. exact Hlo.
  - intros r Elr. apply (po_aggs _ _ Hpo). cbn [ad_aggs]. apply in_or_app. left. cbn [river_loss] in El. rewrite Elr in El. injection El as _ <-. left. reflexivity.
  - intros E. rewrite E. split; [reflexivity|]. apply Hz. apply (zero_constant (factor_metric lf) q Hc).
    destruct lf as [m|m]; cbn [load_loss factor_metric] in *; destruct (is_constant_zero m); congruence.
  - rewrite (declared_unique _ _ _ _ _ _ _ H i' i _ Hi' Hi), (declared_unique _ _ _ _ _ _ _ H j' j _ Hj' Hj) in L.
    destruct lf; cbn [loses] in *; rewrite ?Esum, <- ?Eq'; exact L.
Qed.
Print Assumptions C53_routed_loss.

Definition ex_routed : schema :=
  mkSchema [SInput "in" None None None; SRiver "r" (Some (LGross (UConst (1#4)))) (Some (RtDelay 1 4)); SOutput "out" None None None] []
           [ex_edge "in" "r"; ex_edge "r" "out"].
Theorem C58_routed_loss_refuted : exists sc s x n e q q',
  simulated ex_key None sc (ex_added sc) (ex_net sc) s x /\ In n (sc_nodes sc) /\ edges_from sc n (fun _ => true) = [e] /\
  node_metric (ex_added sc) (ex_net sc) x n AtOutflow q /\ edge_metric_is sc (ex_added sc) (ex_net sc) x e q' /\ ~ (q == q')%Q.
Proof.
  exists ex_routed, (rel_state 4 0), (rel_x [3; 1; 7; 3]%Q), (SRiver "r" (Some (LGross (UConst (1#4)))) (Some (RtDelay 1 4))), (ex_edge "r" "out"), 4%Q, 3%Q.
  split; [apply ex_simulated; vm_compute; reflexivity|]. split; [cbn [sc_nodes ex_routed In]; tauto|]. split; [vm_compute; reflexivity|].
  split; [eexists; eexists; split; [reflexivity|]; split; vm_compute; reflexivity|].
  split; [eexists; eexists; split; [vm_compute; reflexivity|]; split; vm_compute; reflexivity|]. discriminate.
Qed.
Print Assumptions C58_routed_loss_refuted.
Definition ex_river_loss (lf : option loss_factor) : schema :=
  mkSchema [SInput "in" None None None; SRiver "r" lf None; SOutput "out" None None None] [] [ex_edge "in" "r"; ex_edge "r" "out"].
Example C53_example :
  let sc := ex_river_loss (Some (LNet (UConst (1#4)))) in
  simulated ex_key None sc (ex_added sc) (ex_net sc) ex_state (rel_x [4; 1; 4]%Q) /\
  ex_check sc ex_state (rel_x [4; 2; 4]%Q) = false /\
  let sc' := ex_river_loss None in
  simulated ex_key None sc' (ex_added sc') (ex_net sc') ex_state (rel_x [4; 4]%Q) /\
  simulated ex_key None ex_routed (ex_added ex_routed) (ex_net ex_routed) (rel_state 4 0) (rel_x [3; 1; 7; 3]%Q) /\
  ex_check ex_routed (rel_state 4 0) (rel_x [2; 2; 7; 2]%Q) = false.
Proof.
  cbv zeta. split; [apply ex_simulated; vm_compute; reflexivity|]. split; [vm_compute; reflexivity|].
  split; [apply ex_simulated; vm_compute; reflexivity|]. split; [apply ex_simulated; vm_compute; reflexivity | vm_compute; reflexivity].
Qed.
