(** The phases of a time-step, put together. *)
From Coq Require Import QArith Lia Permutation.
From Verif Require Import Base Calendar Timestep Network AggFuncs ControlCurves Formulas ParamsTemporal Profiles SchemaNodes SchemaVirtual MetricSets SchemaParams ParamBuild ParamBuildSpec ParamEval ParamEvalSpec ParamTiers ParamTiersLemmas ParamTiersMain.
From Verif Require Import NetworkBuildLemmas ParamBuildLemmas ParamEvalLemmas ParamOrderLemmas.
From Verif Require Import Network NetworkBuild Lp LpSpec NetState NetStateSpec NetStateLemmas WholeRun WholeRunSpec.
Local Open Scope list_scope.
Local Open Scope nat_scope.

(** *** Values of metrics *)

Lemma env_of_In ks f : forall k, In k ks -> env_of ks (map f ks) k = f k.
Proof.
  unfold env_of. induction ks as [|k0 ks IH]; intros k H; [destruct H|]. cbn [map combine assoc].
  destruct (Nat.eqb_spec k k0) as [->|Hne]; [reflexivity|]. apply IH. destruct H as [H|H]; [congruence|exact H].
Qed.
Lemma env_of_seq qs : forall b k q, nth_error qs k = Some q -> env_of (seq b (length qs)) qs (b + k) = q.
Proof.
  unfold env_of. induction qs as [|q0 qs IH]; intros b k q H; [destruct k; discriminate|]. cbn [length seq combine assoc].
  destruct k as [|k]; cbn [nth_error] in H.
  - rewrite Nat.add_0_r, Nat.eqb_refl. congruence.
  - destruct (Nat.eqb_spec (b + S k) b) as [E|_]; [lia|]. replace (b + S k) with (S b + k) by lia. apply IH. exact H.
Qed.

(** *** The preparation of nodes reads the volume metrics only *)

Section Ext.
Variables (net : Network.network) (e e' : env).
Hypothesis He : forall k, In k (volume_keys net) -> e k = e' k.

Lemma metric_ext m : (forall k, In k (key_of m) -> e k = e' k) -> metric_value e m = metric_value e' m.
Proof. destruct m; cbn; intros H; [reflexivity|]. apply H. left. reflexivity. Qed.
Lemma get_max_ext m : (forall k, In k (keys_of m) -> e k = e' k) -> get_max e m = get_max e' m.
Proof. destruct m as [m|]; cbn [get_max]; intros H; [apply metric_ext; exact H|reflexivity]. Qed.
Lemma initial_ext mx i : (forall k, In k (init_keys i) -> e k = e' k) -> absolute_initial_volume e mx i = absolute_initial_volume e' mx i.
Proof.
  destruct i; cbn [absolute_initial_volume init_keys]; intros H; try reflexivity.
  - rewrite (metric_ext _ H). reflexivity.
  - rewrite !metric_ext; [reflexivity| |]; intros k Hk; apply H; rewrite in_app_iff; auto.
Qed.
Lemma each_ext {A B} missing (f g : B -> A -> NetState.sres A) : forall items k l,
  (forall b x, In b items -> f b x = g b x) -> each missing f k items l = each missing g k items l.
Proof.
  induction items as [|b items IH]; intros k l H; [reflexivity|]. cbn [each]. destruct (nth_error l k) as [x|]; [|reflexivity].
  rewrite (H b x (or_introl eq_refl)). destruct (g b x); cbn [rbind]; try reflexivity. apply IH. intros b' x' Hb. apply H. right. exact Hb.
Qed.

Lemma before_ext t st : before_phase net e t st = before_phase net e' t st.
Proof.
  assert (HV : forall v k, In v (net_vss net) -> In k (keys_of (v_maxv v)) \/ In k (init_keys (v_init v)) -> e k = e' k).
  { intros v k Hv Hk. apply He. unfold volume_keys. rewrite in_app_iff. right. apply in_flat_map. exists v. rewrite !in_app_iff. tauto. }
  assert (HN : forall n k, In n (net_nodes net) -> In k (keys_of (n_maxv n)) \/ In k (init_keys (n_init n)) -> e k = e' k).
  { intros n k Hn Hk. apply He. unfold volume_keys. rewrite in_app_iff. left. apply in_flat_map. exists n. rewrite !in_app_iff. tauto. }
  unfold before_phase. rewrite (each_ext _ _ (node_before e' t)).
  2:{ intros n s Hn. unfold node_before. destruct (n_type n); try reflexivity. destruct (is_first t); [|reflexivity].
      rewrite (get_max_ext (n_maxv n)), (initial_ext _ (n_init n)); [reflexivity| |]; intros k Hk; apply (HN n); auto. }
  rewrite (each_ext _ (fun v s => Ok (vs_before e t v s)) (fun v s => Ok (vs_before e' t v s))).
  2:{ intros v s Hv. unfold vs_before. rewrite (get_max_ext (v_maxv v)), (initial_ext _ (v_init v)); [reflexivity| |]; intros k Hk; apply (HV v); auto. }
  reflexivity.
Qed.
End Ext.

Lemma updates_snoc net s : forall ss b b1 b2, updates net b ss = Ok b1 -> update net b1 s = Ok b2 -> updates net b (ss ++ [s]) = Ok b2.
Proof.
  induction ss as [|s0 ss IH]; intros b b1 b2 H1 H2; cbn [updates app] in *.
  - injection H1 as ->. rewrite H2. reflexivity.
  - destruct (update net b s0) as [b'|e|]; cbn [rbind] in *; try discriminate. eapply IH; eassumption.
Qed.

Lemma in_state_Ok {A} (r : NetState.sres A) v : in_state r = Ok v -> r = Ok v.
Proof. destruct r; cbn; congruence. Qed.

Lemma number_read_Ok {X} (r : res run_error (pvalue X)) q : number_read r = Ok q -> r = Ok (PvF q).
Proof. destruct r as [[v|z|x]| |]; cbn; congruence. Qed.

(** *** What the network refers to *)

Lemma resolved_solve mp nd nw u : resolve_network mp nd = Ok nw -> In u (nd_solve nd) ->
  match u with UF64 _ RVAfter | UU64 _ RVAfter => False | _ => True end.
Proof.
  unfold resolve_network, resolve_all. intros H Hu. apply rbind_Ok in H. destruct H as (mf & _ & H). apply rbind_Ok in H. destruct H as (si & _ & H).
  apply rbind_Ok in H. destruct H as (so & H & _). apply rmap_Ok_Forall2 in H. apply (Forall2_In_l _ _ _ _ H) in Hu. destruct Hu as (mt & _ & Hr).
  destruct u as [n rv|n rv| | | |]; try exact I; (destruct rv; try exact I); cbn [ParamBuild.resolve] in Hr.
  - destruct (lookup (mp_f64 mp) n) as [i|]; [|destruct (lookup (mp_u64 mp) n) as [i|]; [|discriminate Hr]]; destruct i; cbn in Hr; discriminate Hr.
  - destruct (lookup (mp_u64 mp) n) as [i|]; [|discriminate Hr]. destruct i; cbn in Hr; discriminate Hr.
Qed.
Lemma resolved_simple mp nd nw u : resolve_network mp nd = Ok nw -> In u (nd_simple nd) ->
  match u with ParamBuild.UOther _ => False | _ => True end.
Proof.
  unfold resolve_network, resolve_all. intros H Hu. apply rbind_Ok in H. destruct H as (mf & _ & H). apply rbind_Ok in H. destruct H as (si & H & _).
  apply rmap_Ok_Forall2 in H. apply (Forall2_In_l _ _ _ _ H) in Hu. destruct Hu as (mt & _ & Hr).
  destruct u as [| | | | |k]; try exact I. apply rbind_Ok in Hr. destruct Hr as (m & Hr & Hs). cbn [ParamBuild.resolve] in Hr.
  destruct (existsb (Nat.eqb k) (mp_other mp)); [|discriminate]. injection Hr as <-. discriminate.
Qed.

Section Run.
Context {X : Type}.
Variables (a : added) (net : Network.network) (solver : list lp_state -> lp -> option (nat -> Q)).
Variables (fm : Q) (order : list (list nat)) (b0 : built).
Hypothesis Hcreate : create fm order net = Ok b0.
Hypothesis Horder : valid_order net order.
Hypothesis Hsolver : forall ss l x, solver ss l = Some x -> feasible l x.
Variables (cd : coding) (sm : sem (pvalue X) (pint X) timestep whole run_error).
Hypothesis Hdr : drives a net solver cd b0 sm.
Variables (ms : list lmetric) (nd : network_def) (mp : maps) (nw : ParamEval.network).
Hypothesis Hms : network_metrics net cd ms nd.
Hypothesis Hnw : resolve_network mp nd = Ok nw.
Variables (bs : list pbuilder) (ts : list timestep).
Variable st : nat -> nstore (pvalue X) (pint X) whole.
Variable net1 : nat -> whole.
Hypothesis Hnet0 : nv_net (st 0) = sm_net0 sm.
Hypothesis Hbefore : forall t e, nth_error ts t = Some e ->
  sm_nodes_before sm e (map (read_named sm bs (nv_val (st (S t))) (nv_after (st t)) (nv_net (st t))) (nd_simple nd)) (nv_net (st t)) = Ok (net1 t).
Hypothesis Hsolve : forall t e, nth_error ts t = Some e ->
  sm_solve sm e (map (read_named sm bs (nv_val (st (S t))) (nv_after (st t)) (net1 t)) (nd_solve nd)) (net1 t) = Ok (nv_net (st (S t))).

(** One time-step. *)
Lemma one_step t e : nth_error ts t = Some e -> exists p,
  sim_t p = e /\ sim_start p = w_state (net1 t) /\ sim_end p = w_state (nv_net (st (S t))) /\
  before_phase net (sim_env p) e (w_state (nv_net (st t))) = Ok (sim_start p) /\
  after_solve net (sim_env p) e (sim_flows net p) (sim_start p) = Ok (sim_end p) /\
  w_seen (nv_net (st (S t))) = w_seen (nv_net (st t)) ++ [sim_lp p] /\
  (exists b, update net (w_built (nv_net (st t))) (sim_lp p) = Ok b /\ w_built (nv_net (st (S t))) = b /\ feasible (bt_lp b) (sim_x p)) /\
  (forall k m, nth_error ms k = Some m -> reads sm bs st net1 Before t (uref_f cd m) = Ok (PvF (sim_env p k))).
Proof.
  intros He. destruct Hms as (M1 & M2 & M3).
  pose proof (Hbefore t e He) as HB. pose proof (Hsolve t e He) as HS.
  rewrite (dr_before _ _ _ _ _ _ Hdr) in HB. rewrite (dr_solve _ _ _ _ _ _ Hdr) in HS. unfold prepare in HB. unfold solve_step in HS.
  apply rbind_Ok in HB. destruct HB as (qb & HB1 & HB). apply rbind_Ok in HB. destruct HB as (sb & HB2 & HB). apply in_state_Ok in HB2.
  injection HB as HB. apply rbind_Ok in HS. destruct HS as (qs & HS1 & HS). cbv zeta in HS.
  set (ee := env_of (seq 0 (length qs)) qs) in *. set (s := lp_state_of (w_state (net1 t)) ee e) in *.
  destruct (update net (w_built (net1 t)) s) as [b|eb|] eqn:Eu; try discriminate.
  destruct (solver (w_seen (net1 t)) (bt_lp b)) as [x|] eqn:Ex; try discriminate.
  apply rbind_Ok in HS. destruct HS as (sa & HS2 & HS). apply in_state_Ok in HS2. injection HS as HS.
  assert (Hval : forall k m, nth_error ms k = Some m -> reads sm bs st net1 Before t (uref_f cd m) = Ok (PvF (ee k))).
  { intros k m Hk. apply rmap_Ok_Forall2 in HS1. rewrite M1, map_map in HS1.
    assert (E : nth_error (map (fun m => read_named sm bs (nv_val (st (S t))) (nv_after (st t)) (net1 t) (uref_f cd m)) ms) k =
      Some (reads sm bs st net1 Before t (uref_f cd m))) by (rewrite nth_error_map, Hk; reflexivity).
    assert (L : k < length qs).
    { rewrite <- (Forall2_length' _ _ _ HS1), map_length. apply nth_error_Some. congruence. }
    destruct (nth_error_lt_Some qs k L) as [q Hq]. pose proof (Forall2_nth_error _ _ _ _ _ _ HS1 E Hq) as Hr. cbv beta in Hr.
    apply number_read_Ok in Hr. rewrite Hr. unfold ee. pose proof (env_of_seq qs 0 k q Hq) as E'. cbn [Nat.add] in E'. rewrite E'. reflexivity. }
  exists (mkStep e ee (w_state (net1 t)) x sa). cbn [sim_t sim_start sim_end sim_env sim_x].
  assert (E1 : w_state (net1 t) = sb /\ w_built (net1 t) = w_built (nv_net (st t)) /\ w_seen (net1 t) = w_seen (nv_net (st t)))
    by (rewrite <- HB; cbn; auto).
  destruct E1 as (E1 & E2 & E3).
  split; [reflexivity|]. split; [reflexivity|]. split; [rewrite <- HS; reflexivity|]. split; [|split; [|split; [|split]]].
  - rewrite E1. rewrite <- HB2. apply before_ext. intros k Hk.
    assert (F : qb = map (fun k => ee k) (volume_keys net)).
    { apply rmap_Ok_Forall2 in HB1. rewrite M2, map_map in HB1.
      assert (G : forall u, In u (nd_simple nd) -> read_named sm bs (nv_val (st (S t))) (nv_after (st t)) (nv_net (st t)) u = reads sm bs st net1 Before t u).
      { intros u Hu. pose proof (resolved_simple _ _ _ _ Hnw Hu) as Hk'. destruct u; try reflexivity. destruct Hk'. }
      rewrite M2 in G. clear - HB1 Hval M3 G. revert M3 G. revert qb HB1. generalize (volume_keys net) as ks.
      induction ks as [|k ks IH]; intros qb H M3 G; cbn [map] in H; inversion H; subst; [reflexivity|]. cbn [map]. f_equal.
      - assert (L : k < length ms) by (apply M3; left; reflexivity). destruct (nth_error_lt_Some ms k L) as [m Hm].
        rewrite (nth_error_nth _ _ _ Hm) in *. rewrite (G (uref_f cd m)) in H2. 2:{ cbn [map]. left. rewrite (nth_error_nth _ _ _ Hm). reflexivity. }
        rewrite (Hval k m Hm) in H2. cbn in H2. congruence.
      - apply IH; [assumption|intros k' Hk'; apply M3; right; exact Hk'|intros u Hu; apply G; right; exact Hu]. }
    rewrite F. rewrite (env_of_In _ (fun k => ee k) k Hk). reflexivity.
  - exact HS2.
  - rewrite <- HS. cbn [w_seen]. rewrite E3. reflexivity.
  - exists b. rewrite <- E2. split; [exact Eu|]. split; [rewrite <- HS; reflexivity|]. apply (Hsolver _ _ _ Ex).
  - exact Hval.
Qed.

(** All of them. *)
Lemma all_steps n : n <= length ts -> exists steps,
  run net fm order steps /\ map sim_t steps = firstn n ts /\
  end_state net steps = w_state (nv_net (st n)) /\ w_seen (nv_net (st n)) = map sim_lp steps /\
  updates net b0 (map sim_lp steps) = Ok (w_built (nv_net (st n))) /\
  (forall t p, nth_error steps t = Some p -> sim_start p = w_state (net1 t) /\ sim_end p = w_state (nv_net (st (S t))) /\
    forall k m, nth_error ms k = Some m -> reads sm bs st net1 Before t (uref_f cd m) = Ok (PvF (sim_env p k))).
Proof.
  induction n as [|n IH]; intros Hn.
  - exists []. rewrite Hnet0, (dr_net0 _ _ _ _ _ _ Hdr). cbn. repeat split; try reflexivity; try constructor;
      try (intros t p H; destruct t; discriminate); destruct t; discriminate.
  - destruct IH as (steps & R & Ht & He & Hs & Hu & Hp); [lia|]. destruct (nth_error_lt_Some ts n) as [e Hen]; [lia|].
    destruct (one_step n e Hen) as (p & P1 & P2 & P3 & P4 & P5 & P6 & (b & P7 & P8 & P9) & P10).
    assert (L : length steps = n) by (apply (f_equal (@length _)) in Ht; rewrite map_length, firstn_length in Ht; lia).
    exists (steps ++ [p]). split; [|split; [|split; [|split; [|split]]]].
    + constructor; [exact R|rewrite He, P1; exact P4| |rewrite P1; exact P5].
      split; [exact Horder|]. exists b0, b. split; [exact Hcreate|]. split; [|exact P9]. eapply updates_snoc; eassumption.
    + rewrite map_app, Ht. cbn [map]. rewrite P1. clear - Hen. revert n Hen. induction ts as [|t0 l IH]; intros [|n] H; cbn in *; try discriminate.
      * congruence.
      * f_equal. apply IH. exact H.
    + unfold end_state. rewrite map_app. cbn [map]. rewrite last_last. exact P3.
    + rewrite P6, Hs, map_app. reflexivity.
    + rewrite map_app. cbn [map]. rewrite P8. eapply updates_snoc; eassumption.
    + intros t q H. destruct (Nat.lt_ge_cases t (length steps)) as [Hlt|Hge].
      * rewrite nth_error_app1 in H by exact Hlt. apply Hp. exact H.
      * rewrite nth_error_app2 in H by exact Hge. destruct (t - length steps) as [|j] eqn:Ej; cbn [nth_error] in H; [|destruct j; discriminate].
        injection H as <-. assert (t = n) as -> by lia. auto.
Qed.
End Run.
