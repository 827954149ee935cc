(** Proofs about whole time-steps and runs. *)
From Verif Require Import Base Calendar Timestep Network NetworkBuild NetworkSpec NetworkBuildLemmas Lp LpSpec
  LpRowLemmas LpUpdateLemmas NetState NetStateSpec NetStateLemmas Props_Lp.
Open Scope nat_scope.

Definition is_storage_node (n : node) (s : node_state) : Prop := n_type n = TStorage <-> exists x, s = NsStorage x.

Section Step.
Context (net : network) (wf : wf_network net).

(** ** Writing flows *)
Lemma state_nodes_length st : state_of net st -> length (ns_nodes st) = length (net_nodes net).
Proof. intros H. symmetry. exact (Forall2_length' _ _ _ (so_nodes net st H)). Qed.
Lemma state_vss_length st : state_of net st -> length (ns_vss st) = length (net_vss net).
Proof. intros H. symmetry. exact (Forall2_length' _ _ _ (so_vss net st H)). Qed.

Lemma write_flows_succeeds t f st : state_of net st -> exists st1, write_flows net t f st = Ok st1.
Proof.
  intros H. unfold write_flows. apply add_flows_succeeds.
  - intros ed Hed. cbn [state_reset ns_nodes]. rewrite map_length, (state_nodes_length st H).
    destruct (wf_edges net wf ed Hed) as (A & B & _). split; assumption.
  - cbn [state_reset ns_edges]. rewrite map_length, (so_edges net st H). lia.
Qed.

Lemma write_flows_Ok t f st st1 : state_of net st -> write_flows net t f st = Ok st1 ->
  length (ns_edges st1) = length (net_edges net) /\ length (ns_nodes st1) = length (net_nodes net) /\
  ns_vss st1 = map vss_reset (ns_vss st) /\
  (forall k, k < length (net_edges net) -> exists q, nth_error (ns_edges st1) k = Some q /\ (q == f k)%Q) /\
  (forall i s, nth_error (ns_nodes st) i = Some s -> exists s1, nth_error (ns_nodes st1) i = Some s1 /\
     moved (ts_days t) (inflow net f i) (outflow net f i) (ns_reset s) s1).
Proof.
  intros Hst H. unfold write_flows in H. apply add_flows_Ok in H. destruct H as (A1 & A2 & A3 & A4 & A5).
  cbn [state_reset ns_vss ns_nodes ns_edges] in *. rewrite map_length in A2, A3.
  split; [rewrite A3; exact (so_edges net st Hst)|]. split; [rewrite A2; exact (state_nodes_length st Hst)|].
  split; [exact A1|]. split.
  - intros k Hk. destruct (A4 k 0%Q) as (b & Hb & Eb).
    + rewrite nth_error_map. destruct (nth_error (ns_edges st) k) eqn:E; [reflexivity|]. apply nth_error_None in E. rewrite (so_edges net st Hst) in E. lia.
    + exists b. split; [exact Hb|]. rewrite Eb. replace ((0 <=? k) && (k <? 0 + length (net_edges net))) with true by lia. ring.
  - intros i s Hs. destruct (A5 i (ns_reset s)) as (s1 & H1 & M); [rewrite nth_error_map, Hs; reflexivity|].
    exists s1. split; [exact H1|]. apply (moved_ext _ _ _ _ _ _ _ (Qeq_sym _ _ (inflow_sum net f i)) (Qeq_sym _ _ (outflow_sum net f i)) M).
Qed.

Lemma moved_reset_flows days qi qo s s1 : moved days qi qo (ns_reset s) s1 -> (ns_in s1 == qi)%Q /\ (ns_out s1 == qo)%Q.
Proof.
  destruct s, s1; cbn; try tauto.
  - intros [H1 H2]. rewrite H1, H2. split; ring.
  - intros ((H1 & H2 & _) & _). rewrite H1, H2. split; ring.
Qed.

(** ** Completing a time-step *)
Definition finalise_node (e : env) (n : node) (s : node_state) : sres node_state :=
  match n_type n with
  | TStorage => ns_finalise (get_min e (n_minv n)) (get_max e (n_maxv n)) s
  | _ => Ok s
  end.
Definition finalise_vs (e : env) (v : vs_node) (s : vs_state) : sres vs_state :=
  vss_finalise (get_min e (v_minv v)) (get_max e (v_maxv v)) s.

Lemma finalise_node_flows e n s s' : finalise_node e n s = Ok s' -> ns_in s' = ns_in s /\ ns_out s' = ns_out s /\
  ((exists x, s = NsStorage x) <-> exists x, s' = NsStorage x).
Proof.
  unfold finalise_node, ns_finalise. destruct (n_type n); try (intros H; injection H as <-; tauto).
  destruct s as [f|x]; [intros H; injection H as <-; tauto|]. intros H. apply rbind_Ok in H. destruct H as (x' & Hx & H). injection H as <-.
  apply finalise_Ok in Hx. destruct Hx as (_ & _ & Hf & _). cbn [ns_in ns_out]. rewrite Hf.
  split; [reflexivity|]. split; [reflexivity|]. split; intros _; eexists; reflexivity.
Qed.

Lemma update_vss_Ok t st : forall states vs states', length states = length vs -> update_vss net t st states vs = Ok states' ->
  length states' = length states /\
  (forall k v s, nth_error vs k = Some v -> nth_error states k = Some s -> exists s', nth_error states' k = Some s' /\
     (if vs_is_active (v_period v) (ts_day t) then exists q, vs_flow net st v = Ok q /\ s' = vss_add_out q (ts_days t) s else s' = s)).
Proof.
  induction states as [|s states IH]; intros [|v vs] states' Hl H; cbn [update_vss length] in *; try lia.
  - injection H as <-. split; [reflexivity | intros [|k] ? ? H'; discriminate].
  - apply rbind_Ok in H. destruct H as (s1 & H1 & H). apply rbind_Ok in H. destruct H as (r & Hr & H). injection H as <-.
    destruct (IH vs r ltac:(lia) Hr) as (L & IH'). split; [cbn [length]; lia|]. intros [|k] v' s' Hv Hs; cbn [nth_error] in *.
    + injection Hv as <-. injection Hs as <-. exists s1. split; [reflexivity|]. destruct (vs_is_active (v_period v) (ts_day t)).
      * apply rbind_Ok in H1. destruct H1 as (q & Hq & H1). injection H1 as <-. exists q. auto.
      * injection H1 as <-. reflexivity.
    + exact (IH' k v' s' Hv Hs).
Qed.
Lemma update_vss_succeeds t st : forall states vs,
  (forall v, In v vs -> vs_is_active (v_period v) (ts_day t) = true -> exists q, vs_flow net st v = Ok q) ->
  exists states', update_vss net t st states vs = Ok states'.
Proof.
  induction states as [|s states IH]; intros [|v vs] H; cbn [update_vss]; try (eexists; reflexivity).
  destruct (IH vs) as (r & Hr); [intros v' Hv'; apply H; right; exact Hv'|].
  destruct (vs_is_active (v_period v) (ts_day t)) eqn:E.
  - destruct (H v (or_introl eq_refl) E) as (q & Hq). rewrite Hq. cbn [rbind]. rewrite Hr. cbn [rbind]. eexists. reflexivity.
  - cbn [rbind]. rewrite Hr. cbn [rbind]. eexists. reflexivity.
Qed.

Lemma complete_Ok e t st st2 : state_of net st -> complete net e t st = Ok st2 ->
  ns_edges st2 = ns_edges st /\ length (ns_nodes st2) = length (ns_nodes st) /\ length (ns_vss st2) = length (ns_vss st) /\
  (forall i n s, nth_error (net_nodes net) i = Some n -> nth_error (ns_nodes st) i = Some s ->
     exists s2, nth_error (ns_nodes st2) i = Some s2 /\ finalise_node e n s = Ok s2) /\
  (forall k v s, nth_error (net_vss net) k = Some v -> nth_error (ns_vss st) k = Some s ->
     exists s1 s2, nth_error (ns_vss st2) k = Some s2 /\ finalise_vs e v s1 = Ok s2 /\
       (if vs_is_active (v_period v) (ts_day t)
        then exists q, vs_flow net (mkNs (ns_nodes st2) (ns_edges st) (ns_vss st)) v = Ok q /\ s1 = vss_add_out q (ts_days t) s
        else s1 = s)).
Proof.
  intros Hst H. unfold complete in H. apply rbind_Ok in H. destruct H as (nodes & Hn & H). cbn zeta in H. cbn [ns_vss] in H.
  apply rbind_Ok in H. destruct H as (vss & Hv & H). apply rbind_Ok in H. destruct H as (vss' & Hv' & H). injection H as <-.
  cbn [ns_edges ns_nodes ns_vss]. fold (finalise_node e) in Hn. fold (finalise_vs e) in Hv'.
  destruct (each_Ok _ _ _ _ _ _ Hn) as (Ln & _). destruct (each_Ok _ _ _ _ _ _ Hv') as (Lv' & _).
  destruct (update_vss_Ok t _ _ _ _ (state_vss_length st Hst) Hv) as (Lv & Hvk).
  split; [reflexivity|]. split; [exact Ln|]. split; [congruence|]. split.
  - intros i n s Hi Hs. destruct (each_Ok0 _ _ _ _ _ i n Hn Hi) as (a & a' & Ha & Ha' & Hf). rewrite Hs in Ha. injection Ha as <-.
    exists a'. split; [exact Ha' | exact Hf].
  - intros k v s Hk Hs. destruct (Hvk k v s Hk Hs) as (s1 & Hs1 & Hq).
    destruct (each_Ok0 _ _ _ _ _ k v Hv' Hk) as (a & a' & Ha & Ha' & Hf). rewrite Hs1 in Ha. injection Ha as <-.
    exists s1, a'. split; [exact Ha'|]. split; [exact Hf | exact Hq].
Qed.

(** The charge of a virtual storage, from the reported node flows. *)
Lemma vs_flow_value f st v q : balanced net f -> In v (net_vss net) ->
  (forall i s, nth_error (ns_nodes st) i = Some s -> (ns_in s == inflow net f i)%Q /\ (ns_out s == outflow net f i)%Q) ->
  vs_flow net st v = Ok q -> (q == vs_use net f v)%Q.
Proof.
  intros Hb Hv Hf H. unfold vs_flow in H. apply rbind_Ok in H. destruct H as (qs & Hqs & H). injection H as <-.
  apply rmap_Ok_Forall2 in Hqs. unfold vs_use. induction Hqs as [|[i g] q ts qs Hq _ IH]; [reflexivity|].
  cbn [map]. rewrite !qsum_cons, IH. apply Qplus_inj_r. cbn [fst snd] in *. unfold node_flow.
  destruct (nth_error (ns_nodes st) i) as [s|] eqn:Es; [|discriminate]. destruct (Hf i s Es) as (Fi & Fo).
  destruct (nth_error (net_nodes net) i) as [n|] eqn:En; [|discriminate].
  destruct (n_type n) eqn:Et; try discriminate; injection Hq as <-.
  - rewrite Fo. reflexivity.
  - rewrite Fi. reflexivity.
  - rewrite Fi, (Hb i n En Et). reflexivity.
Qed.
Lemma vs_flow_succeeds st v : vs_on_flow_nodes net -> In v (net_vss net) -> length (ns_nodes st) = length (net_nodes net) ->
  exists q, vs_flow net st v = Ok q.
Proof.
  intros Hfn Hv Hl. unfold vs_flow.
  match goal with |- exists q, rbind (rmap ?g ?l) _ = _ => assert (Hr : exists qs, rmap g l = Ok qs) end.
  { assert (Hin : forall i g, In (i, g) (vs_terms v) -> In i (v_nodes v)) by (intros i g Hi; exact (in_combine_l _ _ _ _ Hi)).
    induction (vs_terms v) as [|[i g] l IH]; [eexists; reflexivity|]. cbn [rmap fst snd].
    destruct IH as (qs & Hqs); [intros i' g' Hi'; apply (Hin i' g'); right; exact Hi'|].
    pose proof (Hin i g (or_introl eq_refl)) as Hi. pose proof (wf_vss net wf v i Hv Hi) as Hlt.
    destruct (nth_error (ns_nodes st) i) as [s|] eqn:Es; [|apply nth_error_None in Es; lia].
    destruct (nth_error (net_nodes net) i) as [n|] eqn:En; [|apply nth_error_None in En; lia].
    pose proof (Hfn v i n Hv Hi En) as Ht. destruct (n_type n); [| | |congruence]; rewrite Hqs; eexists; reflexivity. }
  destruct Hr as (qs & ->). eexists. reflexivity.
Qed.

(** ** A whole write-back, for any flows *)
Lemma written_state t f st st1 : state_of net st -> write_flows net t f st = Ok st1 -> state_of net st1.
Proof.
  intros Hst H. destruct (write_flows_Ok t f st st1 Hst H) as (W1 & W2 & W3 & _ & W5). constructor.
  - apply Forall2_nth_intro; [congruence|]. intros i n s1 Hi Hs1.
    assert (Hs : exists s, nth_error (ns_nodes st) i = Some s).
    { destruct (nth_error (ns_nodes st) i) eqn:E; [eexists; reflexivity|]. apply nth_error_None in E. rewrite (state_nodes_length st Hst) in E.
      apply nth_error_Some_lt in Hi. lia. }
    destruct Hs as (s & Hs). pose proof (Forall2_nth_error _ _ _ i n s (so_nodes net st Hst) Hi Hs) as Hk. cbn in Hk. rewrite Hk.
    destruct (W5 i s Hs) as (s1' & Hs1' & M). rewrite Hs1 in Hs1'. injection Hs1' as <-.
    destruct s, s1; cbn in M; try contradiction; split; intros (x & Hx); try discriminate; eexists; reflexivity.
  - exact W1.
  - rewrite W3. pose proof (so_vss net st Hst) as Hv. clear - Hv. induction Hv as [|v s vs ss Hvs _ IH]; cbn [map]; constructor; [exact Hvs | exact IH].
Qed.

Lemma completed_state e t st st2 : state_of net st -> complete net e t st = Ok st2 -> state_of net st2.
Proof.
  intros Hst H. destruct (complete_Ok e t st st2 Hst H) as (C1 & C2 & C3 & C4 & C5). constructor.
  - apply Forall2_nth_intro; [rewrite C2; symmetry; exact (state_nodes_length st Hst)|]. intros i n s2 Hi Hs2.
    assert (Hs : exists s, nth_error (ns_nodes st) i = Some s).
    { destruct (nth_error (ns_nodes st) i) eqn:E; [eexists; reflexivity|]. apply nth_error_None in E. rewrite (state_nodes_length st Hst) in E.
      apply nth_error_Some_lt in Hi. lia. }
    destruct Hs as (s & Hs). pose proof (Forall2_nth_error _ _ _ i n s (so_nodes net st Hst) Hi Hs) as Hk. cbn in Hk. rewrite Hk.
    destruct (C4 i n s Hi Hs) as (s2' & Hs2' & Hf). rewrite Hs2 in Hs2'. injection Hs2' as <-.
    apply (finalise_node_flows e n s s2 Hf).
  - rewrite C1. exact (so_edges net st Hst).
  - apply Forall2_nth_intro; [rewrite C3; symmetry; exact (state_vss_length st Hst)|]. intros k v s2 Hk Hs2.
    assert (Hs : exists s, nth_error (ns_vss st) k = Some s).
    { destruct (nth_error (ns_vss st) k) eqn:E; [eexists; reflexivity|]. apply nth_error_None in E. rewrite (state_vss_length st Hst) in E.
      apply nth_error_Some_lt in Hk. lia. }
    destruct Hs as (s & Hs). pose proof (Forall2_nth_error _ _ _ k v s (so_vss net st Hst) Hk Hs) as Hw. cbn in Hw.
    destruct (C5 k v s Hk Hs) as (s1 & s2' & Hs2' & Hf & Hq). rewrite Hs2 in Hs2'. injection Hs2' as <-.
    unfold finalise_vs, vss_finalise in Hf. apply rbind_Ok in Hf. destruct Hf as (x & _ & Hf). injection Hf as <-. cbn [vss_history].
    rewrite <- Hw. destruct (vs_is_active (v_period v) (ts_day t)).
    + destruct Hq as (q & _ & ->). cbn [vss_add_out vss_history]. destruct (vss_history s); reflexivity.
    + rewrite Hq. reflexivity.
Qed.

Lemma after_solve_state e t f st st2 : state_of net st -> after_solve net e t f st = Ok st2 -> state_of net st2.
Proof.
  intros Hst H. unfold after_solve in H. apply rbind_Ok in H. destruct H as (st1 & H1 & H2).
  apply (completed_state e t st1 st2); [|exact H2]. apply (written_state t f st st1 Hst H1).
Qed.

(** Edges and nodes after a write-back. *)
Lemma after_solve_edges e t f st st2 k : state_of net st -> after_solve net e t f st = Ok st2 -> k < length (net_edges net) ->
  reports (get_edge_flow st2 k) (f k).
Proof.
  intros Hst H Hk. unfold after_solve in H. apply rbind_Ok in H. destruct H as (st1 & H1 & H2).
  destruct (complete_Ok e t st1 st2 (written_state t f st st1 Hst H1) H2) as (C1 & _).
  destruct (write_flows_Ok t f st st1 Hst H1) as (_ & _ & _ & W4 & _). destruct (W4 k Hk) as (q & Hq & Eq).
  exists q. unfold get_edge_flow. rewrite C1, Hq. split; [reflexivity | exact Eq].
Qed.

Lemma node_lookup st i : state_of net st -> i < length (net_nodes net) -> exists s, nth_error (ns_nodes st) i = Some s.
Proof.
  intros Hst Hi. destruct (nth_error (ns_nodes st) i) eqn:E; [eexists; reflexivity|].
  apply nth_error_None in E. rewrite (state_nodes_length st Hst) in E. lia.
Qed.
Lemma vss_lookup st k v : state_of net st -> nth_error (net_vss net) k = Some v -> exists s, nth_error (ns_vss st) k = Some s.
Proof.
  intros Hst Hk. apply nth_error_Some_lt in Hk. destruct (nth_error (ns_vss st) k) eqn:E; [eexists; reflexivity|].
  apply nth_error_None in E. rewrite (state_vss_length st Hst) in E. lia.
Qed.

Lemma after_solve_nodes e t f st st2 i n s : state_of net st -> after_solve net e t f st = Ok st2 ->
  nth_error (net_nodes net) i = Some n -> nth_error (ns_nodes st) i = Some s ->
  exists s1 s2, nth_error (ns_nodes st2) i = Some s2 /\ moved (ts_days t) (inflow net f i) (outflow net f i) (ns_reset s) s1 /\
    finalise_node e n s1 = Ok s2.
Proof.
  intros Hst H Hn Hs. unfold after_solve in H. apply rbind_Ok in H. destruct H as (st1 & H1 & H2).
  destruct (write_flows_Ok t f st st1 Hst H1) as (_ & _ & _ & _ & W5). destruct (W5 i s Hs) as (s1 & Hs1 & M).
  destruct (complete_Ok e t st1 st2 (written_state t f st st1 Hst H1) H2) as (_ & _ & _ & C4 & _).
  destruct (C4 i n s1 Hn Hs1) as (s2 & Hs2 & Hf). exists s1, s2. auto.
Qed.

Lemma after_solve_flows e t f st st2 i : state_of net st -> after_solve net e t f st = Ok st2 -> i < length (net_nodes net) ->
  reports (get_in_flow st2 i) (inflow net f i) /\ reports (get_out_flow st2 i) (outflow net f i).
Proof.
  intros Hst H Hi. destruct (node_lookup st i Hst Hi) as (s & Hs).
  destruct (nth_error (net_nodes net) i) as [n|] eqn:Hn; [|apply nth_error_None in Hn; lia].
  destruct (after_solve_nodes e t f st st2 i n s Hst H Hn Hs) as (s1 & s2 & Hs2 & M & Hf).
  destruct (finalise_node_flows e n s1 s2 Hf) as (F1 & F2 & _). destruct (moved_reset_flows _ _ _ _ _ M) as (M1 & M2).
  unfold reports, get_in_flow, get_out_flow. rewrite Hs2.
  split; eexists; (split; [reflexivity|]); [rewrite F1; exact M1 | rewrite F2; exact M2].
Qed.

(** Volumes after a write-back of any flows. *)
Lemma after_solve_volume e t f st st2 i n : state_of net st -> after_solve net e t f st = Ok st2 ->
  nth_error (net_nodes net) i = Some n -> n_type n = TStorage ->
  exists v v2 raw, get_node_volume st i = Ok v /\ get_node_volume st2 i = Ok v2 /\ get_node_max_volume st2 i = Ok (get_max e (n_maxv n)) /\
    (raw == v + ts_days t * (inflow net f i - outflow net f i))%Q /\
    (get_min e (n_minv n) <= v2 <= get_max e (n_maxv n))%Q /\ (Qabs (v2 - raw) <= TOLERANCE)%Q /\
    ((get_min e (n_minv n) <= raw <= get_max e (n_maxv n))%Q -> v2 = raw).
Proof.
  intros Hst H Hn Ht. pose proof (nth_error_Some_lt _ _ _ Hn) as Hlt. destruct (node_lookup st i Hst Hlt) as (s & Hs).
  destruct (after_solve_nodes e t f st st2 i n s Hst H Hn Hs) as (s1 & s2 & Hs2 & M & Hf).
  pose proof (Forall2_nth_error _ _ _ i n s (so_nodes net st Hst) Hn Hs) as Hk. cbn in Hk. destruct (proj1 Hk Ht) as (x & ->).
  destruct s1 as [?|x1]; [contradiction|]. unfold finalise_node in Hf. rewrite Ht in Hf. cbn [ns_finalise] in Hf.
  apply rbind_Ok in Hf. destruct Hf as (x2 & Hx2 & Hf). injection Hf as <-. apply finalise_Ok in Hx2. destruct Hx2 as (B & Hm & _ & Htol & Heq).
  cbn [ns_reset moved] in M. destruct M as ((_ & _ & Mv) & _). cbn [storage_reset s_volume] in Mv.
  exists (s_volume x), (s_volume x2), (s_volume x1). unfold get_node_volume, get_node_max_volume. rewrite Hs, Hs2, Hm.
  repeat (split; [first [reflexivity | assumption]|]). exact Heq.
Qed.

(** Virtual storages after a write-back of balanced flows. *)
Lemma after_solve_vs e t f st st2 k v : state_of net st -> balanced net f -> after_solve net e t f st = Ok st2 ->
  nth_error (net_vss net) k = Some v ->
  exists s s2 raw q, nth_error (ns_vss st) k = Some s /\ nth_error (ns_vss st2) k = Some s2 /\
    (q == vs_use net f v)%Q /\
    (if vs_is_active (v_period v) (ts_day t)
     then raw = (s_volume (vss_storage s) - q * ts_days t)%Q /\ vss_history s2 = option_map (history_add q) (vss_history s)
     else raw = s_volume (vss_storage s) /\ vss_history s2 = vss_history s) /\
    vss_last s2 = vss_last s /\ s_max (vss_storage s2) = get_max e (v_maxv v) /\
    (get_min e (v_minv v) <= s_volume (vss_storage s2) <= get_max e (v_maxv v))%Q /\
    (Qabs (s_volume (vss_storage s2) - raw) <= TOLERANCE)%Q /\
    ((get_min e (v_minv v) <= raw <= get_max e (v_maxv v))%Q -> s_volume (vss_storage s2) = raw).
Proof.
  intros Hst Hb H Hk. pose proof H as Hall. unfold after_solve in H. apply rbind_Ok in H. destruct H as (st1 & H1 & H2).
  pose proof (written_state t f st st1 Hst H1) as Hst1. destruct (vss_lookup st k v Hst Hk) as (s & Hs).
  destruct (write_flows_Ok t f st st1 Hst H1) as (_ & _ & W3 & _ & _).
  destruct (complete_Ok e t st1 st2 Hst1 H2) as (_ & _ & _ & _ & C5).
  destruct (C5 k v (vss_reset s) Hk) as (s1 & s2 & Hs2 & Hf & Hq); [rewrite W3, nth_error_map, Hs; reflexivity|].
  unfold finalise_vs, vss_finalise in Hf. apply rbind_Ok in Hf. destruct Hf as (x2 & Hx2 & Hf). injection Hf as <-.
  apply finalise_Ok in Hx2. destruct Hx2 as (B & Hm & _ & Htol & Heq).
  assert (Hv : In v (net_vss net)) by (apply (nth_error_In _ k); exact Hk).
  destruct (vs_is_active (v_period v) (ts_day t)) eqn:Ea.
  - destruct Hq as (q & Hq & ->). exists s, (mkVss (vss_last (vss_add_out q (ts_days t) (vss_reset s))) x2 (vss_history (vss_add_out q (ts_days t) (vss_reset s)))), (s_volume (vss_storage s) - q * ts_days t)%Q, q.
    split; [exact Hs|]. split; [exact Hs2|]. split.
    { apply (vs_flow_value f (mkNs (ns_nodes st2) (ns_edges st1) (ns_vss st1)) v q Hb Hv); [|exact Hq]. cbn [ns_nodes]. intros i s' Hs'.
      assert (Hi : i < length (net_nodes net)).
      { apply nth_error_Some_lt in Hs'. rewrite (state_nodes_length st2 (after_solve_state e t f st st2 Hst Hall)) in Hs'. exact Hs'. }
      destruct (after_solve_flows e t f st st2 i Hst Hall Hi) as ((qi & Ei & Qi) & (qo & Eo & Qo)).
      unfold get_in_flow in Ei. unfold get_out_flow in Eo. rewrite Hs' in Ei, Eo. injection Ei as <-. injection Eo as <-. split; assumption. }
    split; [split; reflexivity|]. cbn [vss_last vss_storage]. split; [reflexivity|]. split; [exact Hm|]. split; [exact B|]. split; [exact Htol | exact Heq].
  - subst s1. exists s, (mkVss (vss_last (vss_reset s)) x2 (vss_history (vss_reset s))), (s_volume (vss_storage s)), (vs_use net f v).
    split; [exact Hs|]. split; [exact Hs2|]. split; [reflexivity|]. split; [split; reflexivity|]. cbn [vss_last vss_storage].
    split; [reflexivity|]. split; [exact Hm|]. split; [exact B|]. split; [exact Htol | exact Heq].
Qed.
End Step.
