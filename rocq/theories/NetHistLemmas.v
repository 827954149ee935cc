(** Proofs about the before phase and about runs of any length. *)
From Verif Require Import Base Calendar Timestep Network NetworkBuild NetworkSpec NetworkBuildLemmas Lp LpSpec
  LpRowLemmas LpUpdateLemmas NetState NetStateSpec NetStateLemmas NetRunLemmas Props_Lp.
Open Scope nat_scope.

Lemma fmax_Qmax a b : (fmax a b == Qmax a b)%Q.
Proof.
  unfold fmax. destruct (Qle_bool a b) eqn:E.
  - apply Qle_bool_iff in E. symmetry. apply Q.max_r. exact E.
  - symmetry. apply Q.max_l. assert (~ (a <= b)%Q) by (rewrite <- Qle_bool_iff; congruence). lra.
Qed.
Lemma fmin_Qmin a b : (fmin a b == Qmin a b)%Q.
Proof.
  unfold fmin. destruct (Qle_bool a b) eqn:E.
  - apply Qle_bool_iff in E. symmetry. apply Q.min_l. exact E.
  - symmetry. apply Q.min_r. assert (~ (a <= b)%Q) by (rewrite <- Qle_bool_iff; congruence). lra.
Qed.
Lemma initial_volume_spec e maxv iv : (absolute_initial_volume e (get_max e maxv) iv == starting_volume e maxv iv)%Q.
Proof.
  assert (Hm : get_max e maxv = upper_volume e maxv) by reflexivity.
  destruct iv; cbn [absolute_initial_volume starting_volume]; rewrite ?Hm; try reflexivity;
    rewrite fmin_Qmin; apply Q.min_compat; try reflexivity; apply fmax_Qmax.
Qed.

Section Runs.
Context (net : network) (wf : wf_network net).

Lemma initial_state_of : state_of net (initial_state net).
Proof.
  constructor; cbn [initial_state ns_nodes ns_edges ns_vss].
  - apply Forall2_nth_intro; [rewrite map_length; reflexivity|]. intros i n s Hi Hs. rewrite nth_error_map, Hi in Hs. injection Hs as <-.
    unfold node_default_state. destruct (n_type n); split; intros H; try discriminate; try (destruct H; discriminate); eauto.
  - apply map_length.
  - apply Forall2_nth_intro; [rewrite map_length; reflexivity|]. intros i v s Hi Hs. rewrite nth_error_map, Hi in Hs. injection Hs as <-.
    unfold vss_new. cbn [vss_history]. destruct (v_window v); reflexivity.
Qed.

(** ** The before phase *)
Lemma node_before_Ok e t n s : is_storage_node n s -> exists s', node_before e t n s = Ok s' /\ is_storage_node n s' /\
  s' = (if is_first t then match s with
        | NsStorage x => NsStorage (storage_set_volume (absolute_initial_volume e (get_max e (n_maxv n)) (n_init n)) (get_max e (n_maxv n)) x)
        | NsFlow f => NsFlow f end else s).
Proof.
  unfold is_storage_node, node_before. intros H. destruct (n_type n) eqn:E.
  1-3: exists s; split; [reflexivity|]; split; [exact H|]; destruct (is_first t); [|reflexivity]; destruct s as [f|x]; [reflexivity|];
       exfalso; assert (E' : exists y, NsStorage x = NsStorage y) by eauto; apply H in E'; discriminate.
  destruct (is_first t); [|exists s; split; [reflexivity|]; split; [exact H | reflexivity]].
  destruct (proj1 H eq_refl) as (x & ->). eexists. split; [reflexivity|]. split; [|reflexivity]. split; [intros _; eexists; reflexivity | reflexivity].
Qed.

Lemma vs_before_size e t v s : option_map h_size (vss_history (vs_before e t v s)) = option_map h_size (vss_history s).
Proof.
  assert (Hrec : forall q s, option_map h_size (vss_history (vss_recover q s)) = option_map h_size (vss_history s)).
  { intros q [l st [h|]]; unfold vss_recover; cbn [vss_history]; [|reflexivity]. unfold history_pop.
    destruct (h_size h <=? length (h_flows h)); [|reflexivity]. destruct (h_flows h); reflexivity. }
  unfold vs_before. destruct (vs_do_reset t v s), (v_window v); rewrite ?Hrec; try reflexivity.
  cbn [vss_reset_history vss_history vss_reset_volume]. destruct (vss_history s); reflexivity.
Qed.

Lemma before_phase_Ok e t st : state_of net st -> exists st1, before_phase net e t st = Ok st1 /\ state_of net st1 /\
  ns_edges st1 = ns_edges st /\
  (forall i n s, nth_error (net_nodes net) i = Some n -> nth_error (ns_nodes st) i = Some s ->
     exists s1, nth_error (ns_nodes st1) i = Some s1 /\ node_before e t n s = Ok s1) /\
  (forall k v s, nth_error (net_vss net) k = Some v -> nth_error (ns_vss st) k = Some s ->
     nth_error (ns_vss st1) k = Some (vs_before e t v s)).
Proof.
  intros Hst.
  destruct (each_succeeds NodeIndexNotFound (node_before e t) (net_nodes net) 0 (ns_nodes st)) as (nodes & Hn).
  { rewrite (state_nodes_length net st Hst). lia. }
  { intros i n s Hi Hs. cbn in Hs. destruct (node_before_Ok e t n s) as (s' & Hs' & _); [|eauto].
    exact (Forall2_nth_error _ _ _ i n s (so_nodes net st Hst) Hi Hs). }
  destruct (each_succeeds VirtualStorageIndexNotFound (fun v s => Ok (vs_before e t v s)) (net_vss net) 0 (ns_vss st)) as (vss & Hv).
  { rewrite (state_vss_length net st Hst). lia. }
  { intros; eexists; reflexivity. }
  exists (mkNs nodes (ns_edges st) vss). unfold before_phase. rewrite Hn. cbn [rbind]. rewrite Hv. cbn [rbind]. split; [reflexivity|].
  destruct (each_Ok _ _ _ _ _ _ Hn) as (Ln & _). destruct (each_Ok _ _ _ _ _ _ Hv) as (Lv & _).
  assert (Hnode : forall i n s, nth_error (net_nodes net) i = Some n -> nth_error (ns_nodes st) i = Some s ->
     exists s1, nth_error nodes i = Some s1 /\ node_before e t n s = Ok s1).
  { intros i n s Hi Hs. destruct (each_Ok0 _ _ _ _ _ i n Hn Hi) as (a & a' & Ha & Ha' & Hf). rewrite Hs in Ha. injection Ha as <-. eauto. }
  assert (Hvs : forall k v s, nth_error (net_vss net) k = Some v -> nth_error (ns_vss st) k = Some s ->
     nth_error vss k = Some (vs_before e t v s)).
  { intros k v s Hk Hs. destruct (each_Ok0 _ _ _ _ _ k v Hv Hk) as (a & a' & Ha & Ha' & Hf). rewrite Hs in Ha. injection Ha as <-. injection Hf as <-. exact Ha'. }
  split; [|split; [reflexivity | split; [exact Hnode | exact Hvs]]]. constructor; cbn [ns_nodes ns_edges ns_vss].
  - apply Forall2_nth_intro; [rewrite Ln; symmetry; apply (state_nodes_length net st Hst)|]. intros i n s1 Hi Hs1.
    destruct (node_lookup net st i Hst (nth_error_Some_lt _ _ _ Hi)) as (s & Hs).
    destruct (Hnode i n s Hi Hs) as (s1' & E1 & E2). rewrite Hs1 in E1. injection E1 as <-.
    destruct (node_before_Ok e t n s) as (s' & E3 & E4 & _); [exact (Forall2_nth_error _ _ _ i n s (so_nodes net st Hst) Hi Hs)|].
    rewrite E2 in E3. injection E3 as <-. exact E4.
  - exact (so_edges net st Hst).
  - apply Forall2_nth_intro; [rewrite Lv; symmetry; apply (state_vss_length net st Hst)|]. intros k v s1 Hk Hs1.
    destruct (vss_lookup net st k v Hst Hk) as (s & Hs). rewrite (Hvs k v s Hk Hs) in Hs1. injection Hs1 as <-.
    rewrite vs_before_size. exact (Forall2_nth_error _ _ _ k v s (so_vss net st Hst) Hk Hs).
Qed.

Lemma before_volume e t st st1 i n : state_of net st -> before_phase net e t st = Ok st1 ->
  nth_error (net_nodes net) i = Some n -> n_type n = TStorage ->
  exists v v1, get_node_volume st i = Ok v /\ get_node_volume st1 i = Ok v1 /\
    if is_first t then (v1 == starting_volume e (n_maxv n) (n_init n))%Q else v1 = v.
Proof.
  intros Hst H Hn Ht. destruct (before_phase_Ok e t st Hst) as (st1' & H' & _ & _ & Hnode & _). rewrite H in H'. injection H' as <-.
  destruct (node_lookup net st i Hst (nth_error_Some_lt _ _ _ Hn)) as (s & Hs).
  pose proof (Forall2_nth_error _ _ _ i n s (so_nodes net st Hst) Hn Hs) as Hk. cbn in Hk.
  destruct (Hnode i n s Hn Hs) as (s1 & Hs1 & E1). destruct (node_before_Ok e t n s Hk) as (s1' & E2 & _ & E3). rewrite E1 in E2. injection E2 as <-.
  destruct (proj1 Hk Ht) as (x & ->). unfold get_node_volume. rewrite Hs, Hs1, E3.
  destruct (is_first t); (eexists; eexists; split; [reflexivity|]; split; [reflexivity|]); [|reflexivity].
  cbn [storage_set_volume s_volume]. apply initial_volume_spec.
Qed.

(** ** A solved time-step *)
Section Solved.
Context (fm : Q) (order : list (list nat)) (ss : list lp_state) (e : env) (t : timestep) (st : net_state) (x : nat -> Q).
Context (Hst : state_of net st) (Hx : solved net fm order ss (lp_state_of st e t) x) (Hd : (0 < ts_days t)%Q).
Notation f := (edge_flow net x).

Lemma solved_volume i n v : nth_error (net_nodes net) i = Some n -> n_type n = TStorage -> ~ in_exclusive_set net i ->
  get_node_volume st i = Ok v ->
  (get_min e (n_minv n) <= v + ts_days t * (inflow net f i - outflow net f i) <= get_max e (n_maxv n))%Q.
Proof.
  intros Hn Ht He Hv. pose proof (C11_node_limits net fm order ss (lp_state_of st e t) x i n wf Hd Hx Hn He) as H.
  unfold node_ok in H. rewrite Ht in H. unfold within_limits, end_volume in H. cbn [lp_state_of st_volume st_env st_days] in H.
  rewrite Hv in H. cbn [volume_or_zero] in H. unfold get_min, get_max. destruct (n_minv n), (n_maxv n); exact H.
Qed.

Lemma solved_vs_volume k v q : nth_error (net_vss net) k = Some v -> get_vs_volume st k = Ok q ->
  vs_is_active (v_period v) (ts_day t) = true -> (get_min e (v_minv v) <= q <= get_max e (v_maxv v))%Q ->
  (get_min e (v_minv v) <= q - ts_days t * vs_use net f v <= get_max e (v_maxv v))%Q.
Proof.
  intros Hk Hq Ha [H1 H2]. pose proof (C11_virtual_storage_limits net fm order ss (lp_state_of st e t) x k v wf Hd Hx Hk Ha) as H.
  unfold vs_end_volume, vs_lower, vs_upper in H. cbn [lp_state_of st_vs_volume st_env st_days] in H. rewrite Hq in H. cbn [volume_or_zero] in H.
  change (match v_minv v with Some m => metric_value e m | None => 0%Q end) with (get_min e (v_minv v)) in H.
  change (match v_maxv v with Some m => metric_value e m | None => F64_MAX end) with (get_max e (v_maxv v)) in H.
  rewrite Q.min_r in H by exact H1. rewrite Q.max_r in H by exact H2. exact H.
Qed.

Lemma solved_never_panics : storages_not_exclusive net -> vs_on_flow_nodes net -> vss_within net e st ->
  exists st2, after_solve net e t f st = Ok st2.
Proof.
  intros Hse Hfn Hvw. destruct (write_flows_succeeds net wf t f st Hst) as (st1 & H1).
  destruct (write_flows_Ok net t f st st1 Hst H1) as (W1 & W2 & W3 & _ & W5).
  pose proof (written_state net t f st st1 Hst H1) as Hst1.
  unfold after_solve. rewrite H1. cbn [rbind]. unfold complete. fold (finalise_node e). fold (finalise_vs e).
  destruct (each_succeeds NodeIndexNotFound (finalise_node e) (net_nodes net) 0 (ns_nodes st1)) as (nodes & Hn).
  { rewrite W2. lia. }
  { intros i n s1 Hi Hs1. cbn in Hs1. unfold finalise_node. destruct (n_type n) eqn:Et; try (eexists; reflexivity).
    destruct (node_lookup net st i Hst (nth_error_Some_lt _ _ _ Hi)) as (s & Hs).
    destruct (proj1 (Forall2_nth_error _ _ _ i n s (so_nodes net st Hst) Hi Hs) Et) as (y & ->).
    destruct (W5 i _ Hs) as (s1' & E & M). rewrite Hs1 in E. injection E as <-. destruct s1 as [?|y1]; [contradiction|].
    cbn [ns_reset moved storage_reset s_volume] in M. destruct M as ((_ & _ & Mv) & _).
    cbn [ns_finalise]. rewrite finalise_within; [eexists; reflexivity|]. rewrite Mv.
    apply (solved_volume i n _ Hi Et (Hse i n Hi Et)). unfold get_node_volume. rewrite Hs. reflexivity. }
  rewrite Hn. cbn [rbind]. cbn zeta. cbn [ns_vss].
  destruct (each_Ok _ _ _ _ _ _ Hn) as (Ln & _).
  destruct (update_vss_succeeds net t (mkNs nodes (ns_edges st1) (ns_vss st1)) (ns_vss st1) (net_vss net)) as (vss & Hv).
  { intros v Hin _. apply (vs_flow_succeeds net wf _ v Hfn Hin). cbn [ns_nodes]. congruence. }
  rewrite Hv. cbn [rbind]. destruct (update_vss_Ok net t _ _ _ _ (state_vss_length net st1 Hst1) Hv) as (Lv & Hvk).
  destruct (each_succeeds VirtualStorageIndexNotFound (finalise_vs e) (net_vss net) 0 vss) as (vss' & Hv').
  { rewrite Lv, (state_vss_length net st1 Hst1). lia. }
  { intros k v s1 Hk Hs1. cbn in Hs1. destruct (vss_lookup net st k v Hst Hk) as (s & Hs).
    destruct (Hvk k v (vss_reset s) Hk) as (s1' & E & Hq); [rewrite W3, nth_error_map, Hs; reflexivity|]. rewrite Hs1 in E. injection E as <-.
    destruct (Hvw k v Hk) as (q0 & Hq0 & B). assert (q0 = s_volume (vss_storage s)) as ->.
    { unfold get_vs_volume in Hq0. rewrite Hs in Hq0. injection Hq0 as <-. reflexivity. }
    change (lower_volume e (v_minv v)) with (get_min e (v_minv v)) in B. change (upper_volume e (v_maxv v)) with (get_max e (v_maxv v)) in B.
    unfold finalise_vs, vss_finalise. destruct (vs_is_active (v_period v) (ts_day t)) eqn:Ea.
    - destruct Hq as (q & Hq & ->). rewrite finalise_within; [eexists; reflexivity|]. cbn [vss_add_out vss_reset vss_storage storage_add_out storage_reset s_volume].
      assert (Eq : (q == vs_use net f v)%Q).
      { apply (vs_flow_value net f (mkNs nodes (ns_edges st1) (ns_vss st1)) v q).
        - exact (C09_link_mass_balance net fm order ss _ x wf Hx).
        - apply (nth_error_In _ k). exact Hk.
        - cbn [ns_nodes]. intros i s' Hs'. assert (Hi : i < length (net_nodes net)) by (apply nth_error_Some_lt in Hs'; congruence).
          destruct (node_lookup net st i Hst Hi) as (s0 & Hs0). destruct (W5 i s0 Hs0) as (s01 & Hs01 & M).
          destruct (nth_error (net_nodes net) i) as [n|] eqn:En; [|apply nth_error_None in En; lia].
          destruct (each_Ok0 _ _ _ _ _ i n Hn En) as (a & a' & Ha & Ha' & Hf). rewrite Hs01 in Ha. injection Ha as <-. rewrite Hs' in Ha'. injection Ha' as <-.
          destruct (finalise_node_flows e n s01 s' Hf) as (F1 & F2 & _). destruct (moved_reset_flows _ _ _ _ _ M) as (M1 & M2). rewrite F1, F2. split; assumption.
        - exact Hq. }
      rewrite Eq, (Qmult_comm (vs_use net f v)). apply (solved_vs_volume k v _ Hk); [|exact Ea | exact B]. unfold get_vs_volume. rewrite Hs. reflexivity.
    - subst s1. rewrite finalise_within; [eexists; reflexivity|]. cbn [vss_reset vss_storage storage_reset s_volume]. exact B. }
  rewrite Hv'. cbn [rbind]. eexists. reflexivity.
Qed.

Lemma solved_step_volume st2 i n : after_solve net e t f st = Ok st2 -> nth_error (net_nodes net) i = Some n -> n_type n = TStorage ->
  ~ in_exclusive_set net i ->
  exists v v2, get_node_volume st i = Ok v /\ get_node_volume st2 i = Ok v2 /\
    (v2 == v + ts_days t * (inflow net f i - outflow net f i))%Q /\ (lower_volume e (n_minv n) <= v2 <= upper_volume e (n_maxv n))%Q.
Proof.
  intros H Hn Ht He. destruct (after_solve_volume net e t f st st2 i n Hst H Hn Ht) as (v & v2 & raw & V1 & V2 & _ & Er & B & _ & Heq).
  exists v, v2. split; [exact V1|]. split; [exact V2|]. split; [|exact B].
  rewrite Heq; [exact Er|]. rewrite Er. exact (solved_volume i n v Hn Ht He V1).
Qed.

Lemma solved_step_vs st2 k v q : after_solve net e t f st = Ok st2 -> nth_error (net_vss net) k = Some v ->
  get_vs_volume st k = Ok q -> (lower_volume e (v_minv v) <= q <= upper_volume e (v_maxv v))%Q ->
  exists q2, get_vs_volume st2 k = Ok q2 /\ (lower_volume e (v_minv v) <= q2 <= upper_volume e (v_maxv v))%Q /\
    if vs_is_active (v_period v) (ts_day t) then (q2 == q - ts_days t * vs_use net f v)%Q else q2 = q.
Proof.
  intros H Hk Hq B. destruct (after_solve_vs net e t f st st2 k v Hst (C09_link_mass_balance net fm order ss _ x wf Hx) H Hk)
    as (s & s2 & raw & u & Hs & Hs2 & Hu & Hraw & _ & _ & B2 & _ & Heq).
  exists (s_volume (vss_storage s2)). unfold get_vs_volume in *. rewrite Hs in Hq. injection Hq as <-. rewrite Hs2. split; [reflexivity|].
  split; [exact B2|]. destruct (vs_is_active (v_period v) (ts_day t)) eqn:Ea; destruct Hraw as [-> _].
  - rewrite Heq; [rewrite Hu; ring|]. rewrite Hu, (Qmult_comm (vs_use net f v)). apply (solved_vs_volume k v _ Hk); [|exact Ea | exact B].
    unfold get_vs_volume. rewrite Hs. reflexivity.
  - apply Heq. exact B.
Qed.
End Solved.

(** ** Runs *)
Lemma run_states fm order steps : run net fm order steps ->
  state_of net (end_state net steps) /\ Forall (fun p => state_of net (sim_start p) /\ state_of net (sim_end p)) steps.
Proof.
  induction 1 as [|steps p Hr [IH1 IH2] Hb Hs Ha].
  - split; [apply initial_state_of | constructor].
  - destruct (before_phase_Ok (sim_env p) (sim_t p) _ IH1) as (st1 & Hb' & Hst1 & _). rewrite Hb in Hb'. injection Hb' as <-.
    pose proof (after_solve_state net _ _ _ _ _ Hst1 Ha) as Hst2. split.
    + unfold end_state. rewrite map_app. cbn [map]. rewrite last_last. exact Hst2.
    + apply Forall_app. split; [exact IH2|]. constructor; [split; assumption | constructor].
Qed.

(** Each step of a run, with the steps before it. *)
Lemma run_nth fm order steps : run net fm order steps -> forall k p, nth_error steps k = Some p ->
  before_phase net (sim_env p) (sim_t p) (end_state net (firstn k steps)) = Ok (sim_start p) /\
  solved net fm order (map sim_lp (firstn k steps)) (sim_lp p) (sim_x p) /\
  after_solve net (sim_env p) (sim_t p) (sim_flows net p) (sim_start p) = Ok (sim_end p) /\
  run net fm order (firstn k steps).
Proof.
  induction 1 as [|steps p Hr IH Hb Hs Ha]; intros k q Hk; [destruct k; discriminate|].
  destruct (Nat.lt_trichotomy k (length steps)) as [Hlt | [-> | Hgt]].
  - rewrite nth_error_app1 in Hk by exact Hlt. rewrite firstn_app. replace (k - length steps) with 0 by lia. rewrite app_nil_r. exact (IH k q Hk).
  - rewrite nth_error_app2, Nat.sub_diag in Hk by lia. injection Hk as <-.
    rewrite firstn_app, Nat.sub_diag, firstn_all, app_nil_r. auto.
  - apply nth_error_Some_lt in Hk. rewrite app_length in Hk. cbn in Hk. lia.
Qed.

Lemma end_state_firstn steps k p : nth_error steps k = Some p -> end_state net (firstn (S k) steps) = sim_end p.
Proof.
  intros Hk. unfold end_state. assert (E : firstn (S k) steps = firstn k steps ++ [p]).
  { clear - Hk. revert k Hk. induction steps as [|a steps IH]; intros [|k] Hk; try discriminate; cbn in Hk.
    - injection Hk as ->. reflexivity.
    - change (firstn (S (S k)) (a :: steps)) with (a :: firstn (S k) steps). rewrite (IH k Hk). reflexivity. }
  rewrite E, map_app. cbn [map]. apply last_last.
Qed.
Lemma firstn_snoc {A} (l : list A) k p : nth_error l k = Some p -> firstn (S k) l = firstn k l ++ [p].
Proof.
  revert k. induction l as [|a l IH]; intros [|k] Hk; try discriminate; cbn in Hk.
  - injection Hk as ->. reflexivity.
  - change (firstn (S (S k)) (a :: l)) with (a :: firstn (S k) l). rewrite (IH k Hk). reflexivity.
Qed.

Lemma is_first_iff t k : ts_index t = Z.of_nat k -> is_first t = (k =? 0).
Proof. intros H. unfold is_first. rewrite H. lia. Qed.

Lemma run_volume fm order steps i n : run net fm order steps -> numbered steps ->
  nth_error (net_nodes net) i = Some n -> n_type n = TStorage -> ~ in_exclusive_set net i ->
  match steps with
  | [] => True
  | p0 :: _ => exists v, get_node_volume (end_state net steps) i = Ok v /\
      (v == starting_volume (sim_env p0) (n_maxv n) (n_init n) + qsum (map (net_gain net i) steps))%Q /\
      match nth_error steps (length steps - 1) with
      | Some p => (lower_volume (sim_env p) (n_minv n) <= v <= upper_volume (sim_env p) (n_maxv n))%Q
      | None => True
      end
  end.
Proof.
  intros Hr Hnum Hn Ht He. induction Hr as [|steps p Hr IH Hb Hs Ha]; [exact I|].
  assert (Hnum' : numbered steps).
  { intros k q Hk. apply Hnum. rewrite nth_error_app1; [exact Hk | apply nth_error_Some_lt in Hk; exact Hk]. }
  specialize (IH Hnum'). destruct (run_states _ _ _ Hr) as (Hst & _).
  destruct (before_phase_Ok (sim_env p) (sim_t p) _ Hst) as (st1 & Hb' & Hst1 & _). rewrite Hb in Hb'. injection Hb' as <-.
  destruct (Hnum (length steps) p) as (Hidx & Hd); [rewrite nth_error_app2, Nat.sub_diag by lia; reflexivity|].
  destruct (before_volume (sim_env p) (sim_t p) _ _ i n Hst Hb Hn Ht) as (v0 & v1 & V0 & V1 & E1). rewrite (is_first_iff _ _ Hidx) in E1.
  destruct (solved_step_volume fm order _ (sim_env p) (sim_t p) (sim_start p) (sim_x p) Hst1 Hs Hd (sim_end p) i n Ha Hn Ht He) as (v1' & v2 & V1' & V2 & E2 & B).
  rewrite V1 in V1'. injection V1' as <-.
  assert (Hend : end_state net (steps ++ [p]) = sim_end p) by (unfold end_state; rewrite map_app; cbn [map]; apply last_last).
  rewrite Hend. assert (Hlast : nth_error (steps ++ [p]) (length (steps ++ [p]) - 1) = Some p).
  { rewrite app_length. cbn [length]. replace (length steps + 1 - 1) with (length steps) by lia. rewrite nth_error_app2, Nat.sub_diag by lia. reflexivity. }
  rewrite Hlast. destruct steps as [|p0 steps]; cbn [app length] in *.
  - exists v2. split; [exact V2|]. split; [|exact B]. rewrite Nat.eqb_refl in E1. cbn [map]. rewrite qsum_cons, E2, E1. unfold net_gain, qsum, sim_flows. cbn [fold_right]. ring.
  - destruct IH as (v & V & E & _). rewrite V in V0. injection V0 as <-. change (S (length steps) =? 0) with false in E1. cbv iota in E1. subst v1.
    exists v2. split; [exact V2|]. split; [|exact B]. rewrite E2, E. change (p0 :: steps ++ [p]) with ((p0 :: steps) ++ [p]). rewrite map_app, qsum_app.
    assert (Es : (qsum (map (net_gain net i) [p]) == net_gain net i p)%Q) by (unfold qsum; cbn [map fold_right]; ring).
    rewrite Es. change (net_gain net i p) with (ts_days (sim_t p) * (inflow net (edge_flow net (sim_x p)) i - outflow net (edge_flow net (sim_x p)) i))%Q. ring.
Qed.
End Runs.
