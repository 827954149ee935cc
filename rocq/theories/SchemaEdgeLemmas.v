(** Edges of the model file and edges of the network. *)
From Coq Require Import Lqa Permutation.
From Verif Require Import Base Calendar Network NetworkBuild NetworkSpec NetworkBuildLemmas Lp LpSpec LpRowLemmas LpDynLemmas Props_Network Props_Lp
  Props_LpRel SchemaNodes SchemaMetrics SchemaSpec SchemaLemmas SchemaNodeLemmas.
Local Open Scope string_scope.
Local Open Scope list_scope.
Local Open Scope nat_scope.

(** *** Names *)
Lemma no_repeat_NoDup l : no_repeat l = true -> NoDup l.
Proof.
  induction l as [|u l IH]; [constructor|]. cbn [no_repeat]. intros E. apply andb_prop in E. destruct E as [E1 E2]. constructor; [|exact (IH E2)].
  intros Hin. apply negb_true_iff in E1. assert (existsb (String.eqb u) l = true) by (apply existsb_exists; exists u; split; [exact Hin | apply String.eqb_refl]).
  congruence.
Qed.
Lemma find_node_Ok sc name n : find_node sc name = Ok n -> In n (sc_nodes sc) /\ snode_name n = name.
Proof.
  unfold find_node, get_node_by_name. destruct (find _ (sc_nodes sc)) as [n'|] eqn:E; [|discriminate]. intros E'. injection E' as <-.
  apply find_some in E. destruct E as [Hin E]. apply String.eqb_eq in E. auto.
Qed.
Lemma validate_names sc : validate sc = true -> NoDup (map snode_name (sc_nodes sc)) /\ NoDup (map vnode_name (sc_vnodes sc)) /\
  (forall u, In u (map snode_name (sc_nodes sc)) -> ~ In u (map vnode_name (sc_vnodes sc))).
Proof.
  unfold validate. intros E. apply no_repeat_NoDup in E. split; [|split].
  - apply (NoDup_app_l _ _ E).
  - apply (NoDup_app_r _ _ E).
  - intros u H1. exact (NoDup_app_disj _ _ u E H1).
Qed.

Lemma no_input_slot_Ok {A} s (l l' : list A) : no_input_slot s l = Ok l' -> l' = l /\ s = None.
Proof. destruct s; [discriminate|]. intros E. injection E as <-. auto. Qed.
Lemma no_output_slot_Ok {A} s (l l' : list A) : no_output_slot s l = Ok l' -> l' = l /\ s = None.
Proof. destruct s; [discriminate|]. intros E. injection E as <-. auto. Qed.

Definition named (name : string) (l : list uname) : Prop := forall u, In u l -> fst u = name.
Lemma named_app n l l' : named n l -> named n l' -> named n (l ++ l').
Proof. intros H H' u Hu. apply in_app_or in Hu. destruct Hu; auto. Qed.
Lemma named_map n (g : nat -> uname) l : (forall i, fst (g i) = n) -> named n (map g l).
Proof. intros Hg u Hu. apply in_map_iff in Hu. destruct Hu as (i & <- & _). apply Hg. Qed.
Lemma named_nil n : named n [].
Proof. intros u []. Qed.
Lemma named_cons n u l : fst u = n -> named n l -> named n (u :: l).
Proof. intros E Hl v [<-|Hv]; auto. Qed.
Ltac named := repeat (first [apply named_nil | apply named_app | apply named_map; reflexivity | apply named_cons; [reflexivity|]
  | match goal with |- named _ (if ?c then _ else _) => destruct c end
  | match goal with |- named _ (match ?c with _ => _ end) => destruct c end]).

Lemma split_parts_named name sp : named name (split_parts name sp).
Proof. unfold split_parts. named. Qed.
Lemma link_parts_named name sm sx : named name (link_parts name sm sx).
Proof. unfold link_parts. named. Qed.

Lemma input_connectors_named n s us : input_connectors n s = Ok us -> named (snode_name n) us.
Proof.
  destruct n; cbn [input_connectors snode_name]; intros E;
    try (apply no_input_slot_Ok in E; destruct E as [-> _]; try apply split_parts_named; try apply link_parts_named; named).
  injection E as <-. named.
Qed.
Lemma output_connectors_named n s us : output_connectors n s = Ok us -> named (snode_name n) us.
Proof.
  destruct n; cbn [output_connectors snode_name]; intros E;
    try (apply no_output_slot_Ok in E; destruct E as [-> _]; try apply split_parts_named; try apply link_parts_named; named).
  - destruct s as [[]|]; try discriminate.
    + injection E as <-. apply split_parts_named.
    + match type of E with (if ?c then _ else _) = _ => destruct c; [|discriminate] end. injection E as <-. named.
    + match type of E with match ?c with _ => _ end = _ => destruct c; [|discriminate] end. injection E as <-. named.
    + injection E as <-. apply split_parts_named.
  - destruct s as [[]|]; try discriminate; try (injection E as <-; named).
    destruct (rv_spill f) as [[]|]; try discriminate. injection E as <-. named.
  - injection E as <-. named.
  - destruct s as [[]|]; try discriminate; try (injection E as <-; named).
Qed.

(** Edges that a node adds join its own parts. *)
Definition own_edges (name : string) (l : list (uname * uname)) : Prop := forall e, In e l -> fst (fst e) = name /\ fst (snd e) = name.
Lemma own_nil n : own_edges n [].
Proof. intros e []. Qed.
Lemma own_app n l l' : own_edges n l -> own_edges n l' -> own_edges n (l ++ l').
Proof. intros H H' e He. apply in_app_or in He. destruct He; auto. Qed.
Lemma own_cons n e l : fst (fst e) = n -> fst (snd e) = n -> own_edges n l -> own_edges n (e :: l).
Proof. intros H1 H2 Hl e' [<-|He]; auto. Qed.
Ltac own := repeat (first [apply own_nil | apply own_app | apply own_cons; [reflexivity | reflexivity |]
  | match goal with |- own_edges _ (ad_edges (if ?c then _ else _)) => destruct c; cbn [ad_edges nothing] end
  | match goal with |- own_edges _ (ad_edges (match ?c with _ => _ end)) => destruct c; cbn [ad_edges nothing] end]).

Lemma add_node_edges key n p : add_node key n = Ok p -> own_edges (snode_name n) (ad_edges p).
Proof.
  destruct n; cbn [add_node snode_name]; intros E; try (injection E as <-; cbn [ad_edges]; own).
  - destruct soft_min, soft_max; cbn [add_link ad_edges]; own.
  - destruct lf; cbn [add_loss_link ad_edges]; own.
  - unfold add_river. destruct (river_loss key name lf) as [l0 la]. destruct (river_routing key name rt) as [[r0 ra] ps].
    destruct (is_some lf), (is_some rt); cbn [ad_edges]; own.
  - unfold add_wtw. destruct lf as [lf|]; [destruct (load_loss key lf)|]; cbn [ad_edges]; own.
  - unfold add_piecewise_storage. cbn [ad_edges]. intros e He. apply in_flat_map in He. destruct He as (i & _ & [<-|[<-|[]]]); auto.
  - unfold add_reservoir in E.
    match type of E with (if ?c then _ else _) = _ => destruct c; [discriminate|] end.
    injection E as <-. cbn [merge ad_edges]. own.
  - discriminate.
  - unfold add_abstraction in E. destruct mrf, mrf_cost; try discriminate; injection E as <-; cbn [ad_edges]; own.
Qed.
Lemma add_vnode_edges key sc step v p : add_vnode key sc step v = Ok p -> ad_edges p = [].
Proof.
  destruct v; cbn [add_vnode]; intros E.
  - apply rbind_Ok in E. destruct E as (gs & _ & E). injection E as <-. reflexivity.
  - apply rbind_Ok in E. destruct E as (gs & _ & E). injection E as <-. reflexivity.
  - apply rbind_Ok in E. destruct E as (gs & _ & E). apply rbind_Ok in E. destruct E as (w & _ & E). injection E as <-. reflexivity.
Qed.

Lemma connection_pairs_Ok sc e ps : connection_pairs sc e = Ok ps ->
  exists from to outs ins, find_node sc (se_from e) = Ok from /\ find_node sc (se_to e) = Ok to /\
    output_connectors from (se_from_slot e) = Ok outs /\ input_connectors to (se_to_slot e) = Ok ins /\
    ps = flat_map (fun f => map (fun t => (f, t)) ins) outs.
Proof.
  unfold connection_pairs. intros E. apply rbind_Ok in E. destruct E as (from & E1 & E). apply rbind_Ok in E. destruct E as (to & E2 & E).
  apply rbind_Ok in E. destruct E as (outs & E3 & E). apply rbind_Ok in E. destruct E as (ins & E4 & E). injection E as <-.
  exists from, to, outs, ins. auto.
Qed.
Lemma in_pairs (outs ins : list uname) p : In p (flat_map (fun f => map (fun t => (f, t)) ins) outs) <-> In (fst p) outs /\ In (snd p) ins.
Proof.
  rewrite in_flat_map. split.
  - intros (o & Ho & Hp). apply in_map_iff in Hp. destruct Hp as (i & <- & Hi). auto.
  - intros [Ho Hi]. exists (fst p). split; [exact Ho|]. apply in_map_iff. exists (snd p). split; [destruct p; reflexivity | exact Hi].
Qed.

Lemma loaded_edges key step sc a : load_schema key step sc = Ok a ->
  exists ns es, Forall2 (fun n p => add_node key n = Ok p) (sc_nodes sc) ns /\
    Forall2 (fun e ps => connection_pairs sc e = Ok ps) (sc_edges sc) es /\ ad_edges a = flat_map ad_edges ns ++ concat es.
Proof.
  intros Hl. destruct (load_schema_inv _ _ _ _ Hl) as (_ & ns & vs & es & Hn & Hv & He & ->). exists ns, (map ad_edges es).
  split; [exact Hn|]. split.
  - clear -He. induction He as [|e p l l' E HF IH]; [constructor|]. cbn [map]. constructor; [|exact IH].
    unfold add_edge in E. apply rbind_Ok in E. destruct E as (ps & E & Ep). injection Ep as <-. exact E.
  - rewrite fold_merge_edges, !flat_map_app, <- flat_map_concat_map. f_equal. rewrite <- app_nil_l. f_equal.
    clear -Hv. induction Hv as [|v p l l' E HF IH]; [reflexivity|]. cbn [flat_map]. rewrite IH, (add_vnode_edges _ _ _ _ _ E). reflexivity.
Qed.

(** *** Flows by edge names *)
Lemma position_uedge b e k : NoDup (b_edges b) -> nth_error (b_edges b) k = Some e -> get_edge_index_by_name b e = Some k.
Proof.
  intros Hnd He. unfold get_edge_index_by_name. destruct (position (uedge_eqb e) (b_edges b)) as [j|] eqn:E.
  - apply position_Some in E. destruct E as (y & Hy & Ey & _). apply uedge_eqb_eq in Ey. subst y. f_equal.
    rewrite NoDup_nth_error in Hnd. apply Hnd; [apply (nth_error_Some_lt _ _ _ Hy) | congruence].
  - exfalso. rewrite position_None in E. specialize (E e (nth_error_In _ _ He)). assert (uedge_eqb e e = true) by (apply uedge_eqb_eq; reflexivity). congruence.
Qed.

Definition edge_val (b : net_builder) (f : nat -> Q) (e : uname * uname) : Q :=
  match get_edge_index_by_name b e with Some k => f k | None => 0%Q end.

Lemma filter_indexed {A} (v : A -> Q) (f : nat -> Q) (P : A -> bool) (R : nat -> bool) : forall l o,
  (forall k p, nth_error l k = Some p -> v p = f (o + k)) -> (forall k p, nth_error l k = Some p -> R (o + k) = P p) ->
  map v (filter P l) = map f (filter R (seq o (length l))).
Proof.
  induction l as [|p l IH]; intros o Hv HR; [reflexivity|]. cbn [filter length seq].
  pose proof (Hv 0 p eq_refl) as V0. pose proof (HR 0 p eq_refl) as R0. rewrite Nat.add_0_r in V0, R0. rewrite R0.
  assert (E : map v (filter P l) = map f (filter R (seq (S o) (length l)))).
  { apply IH; intros k q Hk; [rewrite (Hv (S k) q Hk) | rewrite <- (HR (S k) q Hk)]; f_equal; lia. }
  destruct (P p); cbn [map]; rewrite E; congruence.
Qed.

Section Edges.
Variables (b : net_builder) (net : network).
Hypothesis Hb : build_network b = Ok net.
Variable f : nat -> Q.

Let Hnd : NoDup (b_edges b) := vd_edges b (build_valid b net Hb).
Let Hnn : NoDup (map nb_name (b_nodes b)) := vd_names b (build_valid b net Hb).

Lemma edge_val_nth k e : nth_error (b_edges b) k = Some e -> edge_val b f e = f k.
Proof. intros He. unfold edge_val. rewrite (position_uedge b e k Hnd He). reflexivity. Qed.

Lemma inflow_named i u : declared b i u ->
  inflow net f i = qsum (map (edge_val b f) (filter (fun e => uname_eqb (snd e) u) (b_edges b))).
Proof.
  intros Hi. unfold inflow, in_edges, edge_ids. pose proof (built_edges b net Hb) as HF. rewrite <- (Forall2_length' _ _ _ HF).
  f_equal. symmetry. apply filter_indexed; [intros k e He; exact (edge_val_nth k e He)|].
  intros k e He. cbn. unfold ends_at. assert (Hlt : k < length (net_edges net)) by (rewrite <- (Forall2_length' _ _ _ HF); apply (nth_error_Some_lt _ _ _ He)).
  destruct (nth_error_lt_Some _ _ Hlt) as (ne & Ene). rewrite Ene. destruct (Forall2_nth_error _ _ _ _ _ _ HF He Ene) as (_ & Ht & _).
  destruct (uname_eqb (snd e) u) eqn:E.
  - apply uname_eqb_eq in E. rewrite E in Ht. apply Nat.eqb_eq. exact (declared_fun b _ _ u Hnn Ht Hi).
  - apply Nat.eqb_neq. intros Ei. rewrite Ei in Ht. pose proof (declared_inj b _ _ _ Ht Hi) as Eu.
    assert (uname_eqb (snd e) u = true) by (apply uname_eqb_eq; exact Eu). congruence.
Qed.
Lemma outflow_named i u : declared b i u ->
  outflow net f i = qsum (map (edge_val b f) (filter (fun e => uname_eqb (fst e) u) (b_edges b))).
Proof.
  intros Hi. unfold outflow, out_edges, edge_ids. pose proof (built_edges b net Hb) as HF. rewrite <- (Forall2_length' _ _ _ HF).
  f_equal. symmetry. apply filter_indexed; [intros k e He; exact (edge_val_nth k e He)|].
  intros k e He. cbn. unfold starts_at. assert (Hlt : k < length (net_edges net)) by (rewrite <- (Forall2_length' _ _ _ HF); apply (nth_error_Some_lt _ _ _ He)).
  destruct (nth_error_lt_Some _ _ Hlt) as (ne & Ene). rewrite Ene. destruct (Forall2_nth_error _ _ _ _ _ _ HF He Ene) as (Ht & _).
  destruct (uname_eqb (fst e) u) eqn:E.
  - apply uname_eqb_eq in E. rewrite E in Ht. apply Nat.eqb_eq. exact (declared_fun b _ _ u Hnn Ht Hi).
  - apply Nat.eqb_neq. intros Ei. rewrite Ei in Ht. pose proof (declared_inj b _ _ _ Ht Hi) as Eu.
    assert (uname_eqb (fst e) u = true) by (apply uname_eqb_eq; exact Eu). congruence.
Qed.

(** The metric of a list of edges that exist. *)
Lemma edges_value es : incl es (b_edges b) -> flow_value b net f (UMultiEdgeFlow es) = Some (qsum (map (edge_val b f) es)).
Proof.
  intros Hi. cbn [flow_value].
  enough (G : exists ks, all_some (map (get_edge_index_by_name b) es) = Some ks /\ map f ks = map (edge_val b f) es).
  { destruct G as (ks & -> & E). cbn [option_map]. rewrite E. reflexivity. }
  induction es as [|e es IH]; [exists []; auto|].
  destruct IH as (ks & E1 & E2); [intros y Hy; apply Hi; right; exact Hy|].
  destruct (In_nth_error _ _ (Hi e (or_introl eq_refl))) as (k & Hk).
  exists (k :: ks). cbn [map all_some]. rewrite (position_uedge b e k Hnd Hk), E1, E2, (edge_val_nth k e Hk). auto.
Qed.
End Edges.

(** Sums over parts of a list of edges. *)
Definition into (v : uname * uname -> Q) (u : uname) (l : list (uname * uname)) : Q :=
  qsum (map v (filter (fun e => uname_eqb (snd e) u) l)).
Lemma into_app v u l l' : (into v u (l ++ l') == into v u l + into v u l')%Q.
Proof. unfold into. rewrite filter_app, map_app. apply qsum_app. Qed.
Lemma into_none v u l : (forall e, In e l -> snd e <> u) -> (into v u l == 0)%Q.
Proof.
  intros Hl. unfold into. induction l as [|e l IH]; [reflexivity|]. cbn [filter].
  destruct (uname_eqb (snd e) u) eqn:E; [apply uname_eqb_eq in E; exfalso; exact (Hl e (or_introl eq_refl) E)|].
  apply IH. intros e' He. apply Hl. right. exact He.
Qed.
Lemma into_concat v u ls : (into v u (concat ls) == qsum (map (into v u) ls))%Q.
Proof. induction ls as [|l ls IH]; [reflexivity|]. cbn [concat map]. rewrite into_app, qsum_cons, IH. reflexivity. Qed.
Definition out_of (v : uname * uname -> Q) (u : uname) (l : list (uname * uname)) : Q :=
  qsum (map v (filter (fun e => uname_eqb (fst e) u) l)).
Lemma out_of_app v u l l' : (out_of v u (l ++ l') == out_of v u l + out_of v u l')%Q.
Proof. unfold out_of. rewrite filter_app, map_app. apply qsum_app. Qed.
Lemma out_of_none v u l : (forall e, In e l -> fst e <> u) -> (out_of v u l == 0)%Q.
Proof.
  intros Hl. unfold out_of. induction l as [|e l IH]; [reflexivity|]. cbn [filter].
  destruct (uname_eqb (fst e) u) eqn:E; [apply uname_eqb_eq in E; exfalso; exact (Hl e (or_introl eq_refl) E)|].
  apply IH. intros e' He. apply Hl. right. exact He.
Qed.
Lemma out_of_concat v u ls : (out_of v u (concat ls) == qsum (map (out_of v u) ls))%Q.
Proof. induction ls as [|l ls IH]; [reflexivity|]. cbn [concat map]. rewrite out_of_app, qsum_cons, IH. reflexivity. Qed.

(** A list of edges that all end in distinct parts [us]: the parts' totals add
    up to the total of the edges. *)
Lemma into_parts v us l : NoDup us -> (forall e, In e l -> In (snd e) us) -> (qsum (map (fun u => into v u l) us) == qsum (map v l))%Q.
Proof.
  intros Hnd. induction l as [|e l IH]; intros Hl.
  - cbn [map]. rewrite (qsum_ext _ (fun _ => 0%Q)); [|reflexivity]. clear. induction us as [|u us IH]; [reflexivity|]. cbn [map]. rewrite qsum_cons, IH. reflexivity.
  - cbn [map]. rewrite qsum_cons, <- IH; [|intros e' He; apply Hl; right; exact He].
    rewrite (qsum_ext _ (fun u => (if uname_eqb (snd e) u then v e else 0) + into v u l)%Q).
    2:{ intros u _. unfold into. cbn [filter]. destruct (uname_eqb (snd e) u); cbn [map]; [rewrite qsum_cons; reflexivity | ring]. }
    clear IH. specialize (Hl e (or_introl eq_refl)). revert Hnd Hl. induction us as [|u us IH]; intros Hnd [].
    + subst u. cbn [map]. rewrite !qsum_cons. assert (E : uname_eqb (snd e) (snd e) = true) by (apply uname_eqb_eq; reflexivity). rewrite E.
      inversion Hnd as [|? ? Hn _]. rewrite (qsum_ext _ (fun u => into v u l)) by
        (intros u Hu; destruct (uname_eqb (snd e) u) eqn:E'; [apply uname_eqb_eq in E'; subst u; contradiction | ring]). ring.
    + cbn [map]. rewrite !qsum_cons, IH; [|inversion Hnd; assumption | assumption].
      destruct (uname_eqb (snd e) u) eqn:E; [apply uname_eqb_eq in E; subst u; inversion Hnd; contradiction | ring].
Qed.
Lemma out_of_parts v us l : NoDup us -> (forall e, In e l -> In (fst e) us) -> (qsum (map (fun u => out_of v u l) us) == qsum (map v l))%Q.
Proof.
  intros Hnd. induction l as [|e l IH]; intros Hl.
  - cbn [map]. rewrite (qsum_ext _ (fun _ => 0%Q)); [|reflexivity]. clear. induction us as [|u us IH]; [reflexivity|]. cbn [map]. rewrite qsum_cons, IH. reflexivity.
  - cbn [map]. rewrite qsum_cons, <- IH; [|intros e' He; apply Hl; right; exact He].
    rewrite (qsum_ext _ (fun u => (if uname_eqb (fst e) u then v e else 0) + out_of v u l)%Q).
    2:{ intros u _. unfold out_of. cbn [filter]. destruct (uname_eqb (fst e) u); cbn [map]; [rewrite qsum_cons; reflexivity | ring]. }
    clear IH. specialize (Hl e (or_introl eq_refl)). revert Hnd Hl. induction us as [|u us IH]; intros Hnd [].
    + subst u. cbn [map]. rewrite !qsum_cons. assert (E : uname_eqb (fst e) (fst e) = true) by (apply uname_eqb_eq; reflexivity). rewrite E.
      inversion Hnd as [|? ? Hn _]. rewrite (qsum_ext _ (fun u => out_of v u l)) by
        (intros u Hu; destruct (uname_eqb (fst e) u) eqn:E'; [apply uname_eqb_eq in E'; subst u; contradiction | ring]). ring.
    + cbn [map]. rewrite !qsum_cons, IH; [|inversion Hnd; assumption | assumption].
      destruct (uname_eqb (fst e) u) eqn:E; [apply uname_eqb_eq in E; subst u; inversion Hnd; contradiction | ring].
Qed.

(** *** The flows of a node's parts, by edges of the file *)
Lemma NoDup_flat_map_part {A B} (g : A -> list B) l p : NoDup (flat_map g l) -> In p l -> NoDup (g p).
Proof.
  induction l as [|q l IH]; intros Hnd []; cbn [flat_map] in Hnd.
  - subst q. exact (NoDup_app_l _ _ Hnd).
  - apply IH; [exact (NoDup_app_r _ _ Hnd) | assumption].
Qed.
Lemma map_flat_map {A B C} (h : B -> C) (g : A -> list B) l : map h (flat_map g l) = flat_map (fun p => map h (g p)) l.
Proof. induction l as [|p l IH]; [reflexivity|]. cbn [flat_map]. rewrite map_app, IH. reflexivity. Qed.

Lemma Forall2_In_pair {A B} (P : A -> B -> Prop) l1 l2 y : Forall2 P l1 l2 -> In y l2 -> exists z, In z l1 /\ P z y.
Proof. intros HF. induction HF as [|z y' l l' Hp HF IH]; intros []; [subst; exists z; split; [left; reflexivity | assumption]|]. destruct (IH H) as (w & Hw & Hp'). exists w. split; [right; exact Hw | exact Hp']. Qed.

Section NodeEdges.
Variables (key : umetric -> nat) (step : option Z) (sc : schema) (a : added) (net : network) (s : lp_state) (x : nat -> Q).
Hypothesis H : simulated key step sc a net s x.
Local Notation b := (declaration a).
Local Notation f := (edge_flow net x).
Let Hb : build_network b = Ok net := sm_build _ _ _ _ _ _ _ H.
Let v : uname * uname -> Q := edge_val b f.

(** The connection pairs of an edge that loads. *)
Definition pairs (e : sedge) : list (uname * uname) := match connection_pairs sc e with Ok ps => ps | _ => [] end.

Lemma pairs_ends e p : In e (sc_edges sc) -> In p (pairs e) -> fst (fst p) = se_from e /\ fst (snd p) = se_to e.
Proof.
  intros He Hp. unfold pairs in Hp. destruct (connection_pairs sc e) as [ps| |] eqn:E; try contradiction.
  destruct (connection_pairs_Ok _ _ _ E) as (from & to & outs & ins & E1 & E2 & E3 & E4 & ->). apply in_pairs in Hp. destruct Hp as [Ho Hi].
  destruct (find_node_Ok _ _ _ E1) as [_ <-]. destruct (find_node_Ok _ _ _ E2) as [_ <-].
  split; [exact (output_connectors_named _ _ _ E3 _ Ho) | exact (input_connectors_named _ _ _ E4 _ Hi)].
Qed.

Lemma all_edges : exists ns, Forall2 (fun n p => add_node key n = Ok p) (sc_nodes sc) ns /\
  ad_edges a = flat_map ad_edges ns ++ flat_map pairs (sc_edges sc) /\
  Forall (fun e => connection_pairs sc e = Ok (pairs e)) (sc_edges sc).
Proof.
  destruct (loaded_edges _ _ _ _ (sm_load _ _ _ _ _ _ _ H)) as (ns & es & Hn & He & ->). exists ns. split; [exact Hn|].
  assert (G : concat es = flat_map pairs (sc_edges sc) /\ Forall (fun e => connection_pairs sc e = Ok (pairs e)) (sc_edges sc)).
  { clear Hn. revert He. generalize (sc_edges sc) as l. intros l He. induction He as [|e ps l es E HF IH]; [split; [reflexivity | constructor]|].
    destruct IH as [IH1 IH2]. assert (Ep : pairs e = ps) by (unfold pairs; rewrite E; reflexivity).
    split; [cbn [concat flat_map]; rewrite IH1, Ep; reflexivity | constructor; [rewrite Ep; exact E | exact IH2]]. }
  destruct G as [-> G]. auto.
Qed.

Lemma edges_of_node n p u : In n (sc_nodes sc) -> add_node key n = Ok p -> fst u = snode_name n ->
  forall ns, Forall2 (fun n p => add_node key n = Ok p) (sc_nodes sc) ns ->
  (into v u (flat_map ad_edges ns) == into v u (ad_edges p))%Q /\ (out_of v u (flat_map ad_edges ns) == out_of v u (ad_edges p))%Q.
Proof.
  intros Hin Hp Hu. destruct (load_schema_inv _ _ _ _ (sm_load _ _ _ _ _ _ _ H)) as (Hval & _).
  destruct (validate_names _ Hval) as (Hnd & _). revert Hin Hnd. generalize (sc_nodes sc) as l. intros l Hin Hnd ns HF.
  assert (Hother : forall n' p', add_node key n' = Ok p' -> snode_name n' <> snode_name n ->
            (into v u (ad_edges p') == 0)%Q /\ (out_of v u (ad_edges p') == 0)%Q).
  { intros n' p' E Hne. pose proof (add_node_edges _ _ _ E) as Ho. split; [apply into_none | apply out_of_none]; intros e He Ee;
      destruct (Ho e He) as [E1 E2]; apply Hne; [rewrite <- E2, Ee | rewrite <- E1, Ee]; exact Hu. }
  assert (Hnone : forall l ns, Forall2 (fun n p => add_node key n = Ok p) l ns -> ~ In (snode_name n) (map snode_name l) ->
            (into v u (flat_map ad_edges ns) == 0)%Q /\ (out_of v u (flat_map ad_edges ns) == 0)%Q).
  { clear -Hother. intros l ns HF. induction HF as [|n' p' l ns E HF IH]; intros Hn; [split; reflexivity|].
    cbn [flat_map map] in *. rewrite into_app, out_of_app. destruct (Hother n' p' E) as [-> ->]; [intros E'; apply Hn; left; exact E'|].
    destruct IH as [-> ->]; [intros Hi; apply Hn; right; exact Hi|]. split; reflexivity. }
  induction HF as [|n' p' l ns E HF IH]; [contradiction|]. cbn [map] in Hnd. inversion Hnd as [|? ? Hn Hnd']; subst.
  cbn [flat_map]. rewrite into_app, out_of_app. destruct Hin as [<-|Hin].
  - assert (p' = p) by congruence. subst p'. destruct (Hnone l ns HF Hn) as [-> ->]. split; ring.
  - destruct (Hother n' p' E) as [-> ->]; [intros E'; apply Hn; rewrite E'; apply in_map; exact Hin|].
    destruct (IH Hin Hnd') as [-> ->]. split; ring.
Qed.

Lemma inflow_split n p u i : In n (sc_nodes sc) -> add_node key n = Ok p -> fst u = snode_name n -> declared b i u ->
  (inflow net f i == into v u (ad_edges p) + qsum (map (fun e => into v u (pairs e)) (sc_edges sc)))%Q.
Proof.
  intros Hin Hp Hu Hi. rewrite (inflow_named b net Hb f i u Hi). cbn [b_edges declaration].
  destruct all_edges as (ns & HF & -> & _). fold v.
  change (into v u (flat_map ad_edges ns ++ flat_map pairs (sc_edges sc)) == into v u (ad_edges p) + qsum (map (fun e => into v u (pairs e)) (sc_edges sc)))%Q.
  rewrite into_app. destruct (edges_of_node n p u Hin Hp Hu ns HF) as [-> _]. rewrite flat_map_concat_map, into_concat, map_map. reflexivity.
Qed.
Lemma outflow_split n p u i : In n (sc_nodes sc) -> add_node key n = Ok p -> fst u = snode_name n -> declared b i u ->
  (outflow net f i == out_of v u (ad_edges p) + qsum (map (fun e => out_of v u (pairs e)) (sc_edges sc)))%Q.
Proof.
  intros Hin Hp Hu Hi. rewrite (outflow_named b net Hb f i u Hi). cbn [b_edges declaration].
  destruct all_edges as (ns & HF & -> & _). fold v.
  change (out_of v u (flat_map ad_edges ns ++ flat_map pairs (sc_edges sc)) == out_of v u (ad_edges p) + qsum (map (fun e => out_of v u (pairs e)) (sc_edges sc)))%Q.
  rewrite out_of_app. destruct (edges_of_node n p u Hin Hp Hu ns HF) as [_ ->]. rewrite flat_map_concat_map, out_of_concat, map_map. reflexivity.
Qed.

Lemma find_own n : In n (sc_nodes sc) -> find_node sc (snode_name n) = Ok n.
Proof.
  intros Hin. destruct (load_schema_inv _ _ _ _ (sm_load _ _ _ _ _ _ _ H)) as (Hval & _). destruct (validate_names _ Hval) as (Hnd & _).
  unfold find_node, get_node_by_name. destruct (find (fun n0 => String.eqb (snode_name n0) (snode_name n)) (sc_nodes sc)) as [n'|] eqn:E.
  - apply find_some in E. destruct E as [Hin' E]. apply String.eqb_eq in E. f_equal.
    revert Hin Hin' Hnd. generalize (sc_nodes sc) as l. induction l as [|m l IH]; intros [] [] Hnd; cbn [map] in Hnd; inversion Hnd as [|? ? Hn Hnd']; subst; try reflexivity.
    + exfalso. apply Hn. rewrite <- E. apply in_map. assumption.
    + exfalso. apply Hn. rewrite E. apply in_map. assumption.
    + apply IH; assumption.
  - exfalso. pose proof (find_none _ _ E n Hin) as E'. cbn in E'. rewrite String.eqb_refl in E'. discriminate.
Qed.

(** Edges of the file: connectors and metric. *)
Lemma edge_facts e : In e (sc_edges sc) -> connection_pairs sc e = Ok (pairs e) /\ incl (pairs e) (ad_edges a) /\
  edge_metric_is sc a net x e (qsum (map v (pairs e))).
Proof.
  intros He. destruct all_edges as (ns & _ & Ea & HF). rewrite Forall_forall in HF. specialize (HF e He).
  assert (Hi : incl (pairs e) (ad_edges a)) by (intros p Hp; rewrite Ea; apply in_or_app; right; apply in_flat_map; exists e; auto).
  split; [exact HF|]. split; [exact Hi|]. eexists. eexists. split; [unfold edge_metric; rewrite HF; reflexivity|].
  split; [apply (edges_value b net Hb); exact Hi | reflexivity].
Qed.

(** Parts [us] of node [n] at which every edge to [n] ends, and no edge within
    [n] does: their inflow is the total of the edges to [n]. *)
Lemma inflow_total n p us is : In n (sc_nodes sc) -> add_node key n = Ok p -> NoDup us -> named (snode_name n) us ->
  (forall slot ins, input_connectors n slot = Ok ins -> incl ins us) -> (forall e, In e (ad_edges p) -> ~ In (snd e) us) ->
  Forall2 (fun u i => declared b i u) us is ->
  exists qs, Forall2 (edge_metric_is sc a net x) (filter (fun e => String.eqb (se_to e) (snode_name n)) (sc_edges sc)) qs /\
    (qsum (map (inflow net f) is) == qsum qs)%Q.
Proof.
  intros Hin Hp Hnd Hnm Hcon Hown HF.
  set (es := filter (fun e => String.eqb (se_to e) (snode_name n)) (sc_edges sc)).
  exists (map (fun e => qsum (map v (pairs e))) es). split.
  - assert (G : forall e, In e es -> In e (sc_edges sc)) by (intros e He; apply filter_In in He; tauto).
    clear -G H Hb v. induction es as [|e es IH]; [constructor|]. cbn [map]. constructor.
    + exact (proj2 (proj2 (edge_facts e (G e (or_introl eq_refl))))).
    + apply IH. intros e' He. apply G. right. exact He.
  - assert (E1 : (qsum (map (inflow net f) is) == qsum (map (fun u => qsum (map (fun e => into v u (pairs e)) (sc_edges sc))) us))%Q).
    { clear Hnd Hcon. induction HF as [|u i us is Hd HF IH]; [reflexivity|]. cbn [map]. rewrite !qsum_cons, IH;
        [| intros w Hw; apply Hnm; right; exact Hw | intros e He Hi; apply (Hown e He); right; exact Hi].
      rewrite (inflow_split n p u i Hin Hp (Hnm u (or_introl eq_refl)) Hd), (into_none v u (ad_edges p)); [ring|].
      intros e He Ee. apply (Hown e He). rewrite Ee. left. reflexivity. }
    rewrite E1. clear E1 HF is.
    assert (E2 : forall l, incl l (sc_edges sc) -> (qsum (map (fun u => qsum (map (fun e => into v u (pairs e)) l)) us) ==
                 qsum (map (fun e => qsum (map v (pairs e))) (filter (fun e => String.eqb (se_to e) (snode_name n)) l)))%Q).
    { induction l as [|e l IH]; intros Hl.
      - cbn [map filter]. clear. induction us as [|u us IH]; [reflexivity|]. cbn [map]. rewrite qsum_cons, IH. reflexivity.
      - assert (E3 : (qsum (map (fun u => qsum (map (fun e => into v u (pairs e)) (e :: l))) us) ==
                      qsum (map (fun u => into v u (pairs e)) us) + qsum (map (fun u => qsum (map (fun e => into v u (pairs e)) l)) us))%Q).
        { clear. induction us as [|u us IH]; [reflexivity|]. cbn [map]. rewrite !qsum_cons. cbn [map] in IH. rewrite IH. ring. }
        rewrite E3, IH by (intros y Hy; apply Hl; right; exact Hy). clear E3 IH. cbn [filter].
        assert (He : In e (sc_edges sc)) by (apply Hl; left; reflexivity).
        destruct (String.eqb (se_to e) (snode_name n)) eqn:Ee.
        + apply String.eqb_eq in Ee. cbn [map]. rewrite qsum_cons, into_parts; [reflexivity | exact Hnd |].
          intros q Hq. destruct (edge_facts e He) as (Ec & _). destruct (connection_pairs_Ok _ _ _ Ec) as (from & to & outs & ins & _ & E2 & _ & E4 & Ep).
          rewrite Ep in Hq. apply in_pairs in Hq. rewrite Ee, (find_own n Hin) in E2. injection E2 as <-. exact (Hcon _ _ E4 _ (proj2 Hq)).
        + rewrite (qsum_ext _ (fun _ => 0%Q)).
          * assert (Z : forall l : list uname, (qsum (map (fun _ => 0) l) == 0)%Q) by (clear; induction l as [|u l IH]; [reflexivity|]; cbn [map]; rewrite qsum_cons, IH; reflexivity).
            rewrite Z. ring.
          * intros u Hu. apply into_none. intros q Hq Eq. destruct (pairs_ends e q He Hq) as [_ E4]. apply String.eqb_neq in Ee. apply Ee.
            rewrite <- E4, Eq. exact (Hnm u Hu). }
    exact (E2 (sc_edges sc) (incl_refl _)).
Qed.

(** The same for edges from [n]; [sel] picks those that start at [us]. *)
Lemma outflow_total n p us is (sel : sedge -> bool) : In n (sc_nodes sc) -> add_node key n = Ok p -> NoDup us -> named (snode_name n) us ->
  (forall e outs, output_connectors n (se_from_slot e) = Ok outs ->
     if sel e then incl outs us else forall u, In u outs -> ~ In u us) -> (forall e, In e (ad_edges p) -> ~ In (fst e) us) ->
  Forall2 (fun u i => declared b i u) us is ->
  exists qs, Forall2 (edge_metric_is sc a net x) (filter (fun e => String.eqb (se_from e) (snode_name n) && sel e) (sc_edges sc)) qs /\
    (qsum (map (outflow net f) is) == qsum qs)%Q.
Proof.
  intros Hin Hp Hnd Hnm Hcon Hown HF.
  set (es := filter (fun e => String.eqb (se_from e) (snode_name n) && sel e) (sc_edges sc)).
  exists (map (fun e => qsum (map v (pairs e))) es). split.
  - assert (G : forall e, In e es -> In e (sc_edges sc)) by (intros e He; apply filter_In in He; tauto).
    clear -G H Hb v. induction es as [|e es IH]; [constructor|]. cbn [map]. constructor.
    + exact (proj2 (proj2 (edge_facts e (G e (or_introl eq_refl))))).
    + apply IH. intros e' He. apply G. right. exact He.
  - assert (E1 : (qsum (map (outflow net f) is) == qsum (map (fun u => qsum (map (fun e => out_of v u (pairs e)) (sc_edges sc))) us))%Q).
    { clear Hnd Hcon. induction HF as [|u i us is Hd HF IH]; [reflexivity|]. cbn [map]. rewrite !qsum_cons, IH;
        [| intros w Hw; apply Hnm; right; exact Hw | intros e He Hi; apply (Hown e He); right; exact Hi].
      rewrite (outflow_split n p u i Hin Hp (Hnm u (or_introl eq_refl)) Hd), (out_of_none v u (ad_edges p)); [ring|].
      intros e He Ee. apply (Hown e He). rewrite Ee. left. reflexivity. }
    rewrite E1. clear E1 HF is.
    assert (Z : forall l : list uname, (qsum (map (fun _ => 0) l) == 0)%Q) by (clear; induction l as [|u l IH]; [reflexivity|]; cbn [map]; rewrite qsum_cons, IH; reflexivity).
    assert (E2 : forall l, incl l (sc_edges sc) -> (qsum (map (fun u => qsum (map (fun e => out_of v u (pairs e)) l)) us) ==
                 qsum (map (fun e => qsum (map v (pairs e))) (filter (fun e => String.eqb (se_from e) (snode_name n) && sel e) l)))%Q).
    { induction l as [|e l IH]; intros Hl.
      - cbn [map filter]. exact (Z us).
      - assert (E3 : (qsum (map (fun u => qsum (map (fun e => out_of v u (pairs e)) (e :: l))) us) ==
                      qsum (map (fun u => out_of v u (pairs e)) us) + qsum (map (fun u => qsum (map (fun e => out_of v u (pairs e)) l)) us))%Q).
        { clear. induction us as [|u us IH]; [reflexivity|]. cbn [map]. rewrite !qsum_cons. cbn [map] in IH. rewrite IH. ring. }
        rewrite E3, IH by (intros y Hy; apply Hl; right; exact Hy). clear E3 IH. cbn [filter].
        assert (He : In e (sc_edges sc)) by (apply Hl; left; reflexivity).
        destruct (edge_facts e He) as (Ec & _). destruct (connection_pairs_Ok _ _ _ Ec) as (from & to & outs & ins & E1 & _ & E3 & _ & Ep).
        destruct (String.eqb (se_from e) (snode_name n)) eqn:Ee; [destruct (sel e) eqn:Es|]; cbn [andb].
        + apply String.eqb_eq in Ee. cbn [map]. rewrite qsum_cons, out_of_parts; [reflexivity | exact Hnd |].
          intros q Hq. rewrite Ep in Hq. apply in_pairs in Hq. rewrite Ee, (find_own n Hin) in E1. injection E1 as <-.
          specialize (Hcon e outs E3). rewrite Es in Hcon. exact (Hcon _ (proj1 Hq)).
        + apply String.eqb_eq in Ee. rewrite (qsum_ext _ (fun _ => 0%Q)); [rewrite Z; ring|].
          intros u Hu. apply out_of_none. intros q Hq Eq. rewrite Ep in Hq. apply in_pairs in Hq. rewrite Ee, (find_own n Hin) in E1. injection E1 as <-.
          specialize (Hcon e outs E3). rewrite Es in Hcon. apply (Hcon (fst q) (proj1 Hq)). rewrite Eq. exact Hu.
        + rewrite (qsum_ext _ (fun _ => 0%Q)); [rewrite Z; ring|].
          intros u Hu. apply out_of_none. intros q Hq Eq. destruct (pairs_ends e q He Hq) as [E4 _]. apply String.eqb_neq in Ee. apply Ee.
          rewrite <- E4, Eq. exact (Hnm u Hu). }
    exact (E2 (sc_edges sc) (incl_refl _)).
Qed.

(** The parts a node declares have different names. *)
Lemma part_names_nodup n p : In n (sc_nodes sc) -> add_node key n = Ok p -> NoDup (map nb_name (ad_nodes p)).
Proof.
  intros Hin Hp. pose proof (vd_names b (build_valid b net Hb)) as Hnd. cbn [b_nodes declaration] in Hnd.
  destruct (load_schema_inv _ _ _ _ (sm_load _ _ _ _ _ _ _ H)) as (_ & ns & vs & es & HF & _ & _ & Ea).
  rewrite Ea, fold_merge_nodes, flat_map_app, map_app in Hnd. apply NoDup_app_l in Hnd. rewrite map_flat_map in Hnd.
  destruct (Forall2_In_l _ _ _ _ HF Hin) as (p' & Hp' & E). assert (p' = p) by congruence. subst p'.
  exact (NoDup_flat_map_part _ _ _ Hnd Hp').
Qed.
Lemma part_declared n p u : In n (sc_nodes sc) -> add_node key n = Ok p -> In u (map nb_name (ad_nodes p)) -> exists i, declared b i u.
Proof.
  intros Hin Hp Hu. destruct (loaded_node _ _ _ _ (sm_load _ _ _ _ _ _ _ H) n Hin) as (p' & Hp' & Hpo). assert (p' = p) by congruence. subst p'.
  apply in_map_iff in Hu. destruct Hu as (nb & <- & Hnb). destruct (built_node _ _ _ _ _ _ _ H nb (po_nodes _ _ Hpo _ Hnb)) as (i & _ & Hi & _).
  exists i. exact Hi.
Qed.
Lemma parts_declared n p us : In n (sc_nodes sc) -> add_node key n = Ok p -> incl us (map nb_name (ad_nodes p)) ->
  exists is, Forall2 (fun u i => declared b i u) us is.
Proof.
  intros Hin Hp Hi. induction us as [|u us IH]; [exists []; constructor|].
  destruct IH as (is & HF); [intros y Hy; apply Hi; right; exact Hy|].
  destruct (part_declared n p u Hin Hp (Hi u (or_introl eq_refl))) as (i & Hd). exists (i :: is). constructor; assumption.
Qed.

(** A part at which no edge to [n] ends (from which none starts) only has the
    edges within [n]. *)
Lemma qsum_none {A} (g : A -> Q) l : (forall e, In e l -> (g e == 0)%Q) -> (qsum (map g l) == 0)%Q.
Proof. induction l as [|e l IH]; intros Hl; [reflexivity|]. cbn [map]. rewrite qsum_cons, IH, (Hl e (or_introl eq_refl)); [reflexivity|]. intros e' He. apply Hl. right. exact He. Qed.
Lemma own_inflow n p u i : In n (sc_nodes sc) -> add_node key n = Ok p -> fst u = snode_name n -> declared b i u ->
  (forall slot ins, input_connectors n slot = Ok ins -> ~ In u ins) -> (inflow net f i == into v u (ad_edges p))%Q.
Proof.
  intros Hin Hp Hu Hi Hc. rewrite (inflow_split n p u i Hin Hp Hu Hi), qsum_none; [ring|].
  intros e He. apply into_none. intros q Hq Eq. destruct (edge_facts e He) as (Ec & _).
  destruct (connection_pairs_Ok _ _ _ Ec) as (from & to & outs & ins & _ & E2 & _ & E4 & Ep).
  destruct (pairs_ends e q He Hq) as [_ Ee]. rewrite Eq, Hu in Ee. rewrite <- Ee, (find_own n Hin) in E2. injection E2 as <-.
  rewrite Ep in Hq. apply in_pairs in Hq. apply (Hc _ _ E4). rewrite <- Eq. tauto.
Qed.
Lemma own_outflow n p u i : In n (sc_nodes sc) -> add_node key n = Ok p -> fst u = snode_name n -> declared b i u ->
  (forall slot outs, output_connectors n slot = Ok outs -> ~ In u outs) -> (outflow net f i == out_of v u (ad_edges p))%Q.
Proof.
  intros Hin Hp Hu Hi Hc. rewrite (outflow_split n p u i Hin Hp Hu Hi), qsum_none; [ring|].
  intros e He. apply out_of_none. intros q Hq Eq. destruct (edge_facts e He) as (Ec & _).
  destruct (connection_pairs_Ok _ _ _ Ec) as (from & to & outs & ins & E1 & _ & E3 & _ & Ep).
  destruct (pairs_ends e q He Hq) as [Ee _]. rewrite Eq, Hu in Ee. rewrite <- Ee, (find_own n Hin) in E1. injection E1 as <-.
  rewrite Ep in Hq. apply in_pairs in Hq. apply (Hc _ _ E3). rewrite <- Eq. tauto.
Qed.
End NodeEdges.
