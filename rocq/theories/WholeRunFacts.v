(** What follows for flows, limits and volumes. *)
From Coq Require Import QArith Lia.
From Coq Require Import String.
From Verif Require Import Base Calendar Timestep SchemaNodes SchemaVirtual MetricSets SchemaParams.
From Verif Require Import Network NetworkBuild NetworkSpec NetworkBuildLemmas Lp LpSpec LpRelLemmas SchemaMetrics NetState NetStateSpec NetStateLemmas NetRunLemmas NetHistLemmas Props_Network Props_Lp
  WholeRun WholeRunSpec.
Local Open Scope string_scope.
Local Open Scope list_scope.
Local Open Scope nat_scope.

Lemma all_some_Some {A} : forall (l : list (option A)) r, all_some l = Some r -> l = map Some r.
Proof.
  induction l as [|o l IH]; intros r H; cbn [all_some] in H; [injection H as <-; reflexivity|].
  destruct o as [x|]; [|discriminate]. destruct (all_some l) as [r0|]; [|discriminate]. injection H as <-. cbn. rewrite (IH r0 eq_refl). reflexivity.
Qed.
Lemma rmap_reports {A} (g : A -> NetState.sres Q) (h : A -> Q) : forall l, (forall x, In x l -> reports (g x) (h x)) ->
  exists qs, rmap g l = Ok qs /\ (qsum qs == qsum (map h l))%Q.
Proof.
  induction l as [|x l IH]; intros H; [exists []; split; reflexivity|].
  destruct (H x (or_introl eq_refl)) as (q & Hq & Eq). destruct IH as (qs & Hqs & Eqs); [intros y Hy; apply H; right; exact Hy|].
  exists (q :: qs). cbn [rmap]. rewrite Hq, Hqs. split; [reflexivity|]. cbn [map qsum fold_right]. apply Qplus_comp; assumption.
Qed.

Section Facts.
Variables (a : added) (net : Network.network) (fm : Q) (order : list (list nat)) (ms : list lmetric) (V : valuation)
  (other_f : moment -> nat -> lmetric -> Q) (ts : list timestep) (steps : list sim_step).
Hypothesis Hbuild : build_network (declaration a) = Ok net.
Hypothesis wr : whole_run a net fm order ms V other_f ts steps.
Hypothesis Hts : regular ts.

Let wf : wf_network net := C37_built_well_formed _ _ Hbuild.

Lemma step_at t : t < length ts -> exists p, nth_error steps t = Some p /\ nth_error ts t = Some (sim_t p).
Proof.
  intros Ht. pose proof (wr_times _ _ _ _ _ _ _ _ _ wr) as E. rewrite <- E, map_length in Ht. destruct (nth_error_lt_Some steps t Ht) as [p Hp].
  exists p. split; [exact Hp|]. rewrite <- E, nth_error_map, Hp. reflexivity.
Qed.
Lemma steps_states p : In p steps -> state_of net (sim_start p) /\ state_of net (sim_end p).
Proof.
  destruct (run_states net fm order steps (wr_run _ _ _ _ _ _ _ _ _ wr)) as (_ & H). rewrite Forall_forall in H. exact (H p).
Qed.
Lemma node_number_lt u i : node_number a u = Some i -> i < length (net_nodes net).
Proof.
  intros H. apply (lookup_declared _ _ u i Hbuild) in H. unfold declared in H. apply nth_error_Some_lt in H. rewrite map_length in H.
  rewrite (proj1 (built_nodes _ _ Hbuild)). exact H.
Qed.
Lemma edge_number_lt e k : get_edge_index_by_name (declaration a) e = Some k -> k < length (net_edges net).
Proof.
  intros H. unfold get_edge_index_by_name in H. apply position_Some in H. destruct H as (x & H & _). apply nth_error_Some_lt in H.
  rewrite <- (Forall2_length' _ _ _ (built_edges _ _ Hbuild)). exact H.
Qed.

(** *** Flows *)

(** A state that reports the flows [f] of edges. *)
Definition reporting (st : net_state) (f : nat -> Q) : Prop :=
  (forall i, i < length (net_nodes net) -> reports (get_in_flow st i) (inflow net f i) /\ reports (get_out_flow st i) (outflow net f i)) /\
  (forall k, k < length (net_edges net) -> reports (get_edge_flow st k) (f k)).

Lemma sums {A} (num : A -> option nat) (g : nat -> NetState.sres Q) (h : nat -> Q) (n : nat) l is :
  (forall x i, num x = Some i -> i < n) -> (forall i, i < n -> reports (g i) (h i)) -> all_some (map num l) = Some is ->
  exists q, resolved (Some (rbind (rmap g is) (fun qs => Ok (qsum qs)))) = Ok q /\ (q == qsum (map h is))%Q.
Proof.
  intros Hn Hg Hl. apply all_some_Some in Hl. destruct (rmap_reports g h is) as (qs & E1 & E2).
  { intros i Hi. apply Hg. apply (in_map Some) in Hi. rewrite <- Hl in Hi. apply in_map_iff in Hi. destruct Hi as (x & Hx & _). exact (Hn x i Hx). }
  exists (qsum qs). rewrite E1. split; [reflexivity|exact E2].
Qed.

Lemma observe_flows st f m q : reporting st f -> is_flow m = true -> flow_value (declaration a) net f m = Some q ->
  exists q', observe_node a st m = Ok q' /\ (q' == q)%Q.
Proof.
  intros (R1 & R2) Hm. destruct m; try discriminate; cbn [flow_value observe_node]; intros H.
  - unfold node_number. destruct (get_node_index_by_name (declaration a) u) as [i|] eqn:E; [|discriminate]. injection H as <-.
    destruct (proj1 (R1 i (node_number_lt u i E))) as (q & Hq & Eq). exists q. cbn. rewrite Hq. auto.
  - unfold node_number. destruct (get_node_index_by_name (declaration a) u) as [i|] eqn:E; [|discriminate]. injection H as <-.
    destruct (proj2 (R1 i (node_number_lt u i E))) as (q & Hq & Eq). exists q. cbn. rewrite Hq. auto.
  - fold (node_number a) in H. change (get_node_index_by_name (declaration a)) with (node_number a) in H.
    destruct (all_some (map (node_number a) us)) as [is|] eqn:E; [|discriminate]. injection H as <-.
    exact (sums (node_number a) _ _ (length (net_nodes net)) us is node_number_lt (fun i Hi => proj1 (R1 i Hi)) E).
  - change (get_node_index_by_name (declaration a)) with (node_number a) in H.
    destruct (all_some (map (node_number a) us)) as [is|] eqn:E; [|discriminate]. injection H as <-.
    exact (sums (node_number a) _ _ (length (net_nodes net)) us is node_number_lt (fun i Hi => proj2 (R1 i Hi)) E).
  - destruct (all_some (map (get_edge_index_by_name (declaration a)) es)) as [ks|] eqn:E; [|discriminate]. injection H as <-.
    exact (sums (get_edge_index_by_name (declaration a)) _ _ (length (net_edges net)) es ks edge_number_lt R2 E).
Qed.

Lemma reporting_end p : In p steps -> reporting (sim_end p) (sim_flows net p).
Proof.
  intros Hp. destruct (steps_states p Hp) as (H1 & _). apply In_nth_error in Hp. destruct Hp as [t Ht].
  destruct (run_nth net fm order steps (wr_run _ _ _ _ _ _ _ _ _ wr) t p Ht) as (_ & _ & H3 & _). split.
  - intros i Hi. exact (after_solve_flows net _ _ _ _ _ i H1 H3 Hi).
  - intros k Hk. exact (after_solve_edges net _ _ _ _ _ k H1 H3 Hk).
Qed.

Lemma before_reporting e t st st1 f : state_of net st -> before_phase net e t st = Ok st1 -> reporting st f -> reporting st1 f.
Proof.
  intros Hst H (R1 & R2). destruct (before_phase_Ok net e t st Hst) as (st1' & H' & _ & He & Hn & _). rewrite H in H'. injection H' as <-. split.
  - intros i Hi. destruct (nth_error_lt_Some (net_nodes net) i Hi) as [n Hni]. destruct (node_lookup net st i Hst Hi) as (s & Hs).
    destruct (Hn i n s Hni Hs) as (s1 & Hs1 & E). specialize (R1 i Hi). unfold get_in_flow, get_out_flow in *. rewrite Hs1. rewrite Hs in R1.
    assert (F : ns_in s1 = ns_in s /\ ns_out s1 = ns_out s).
    { unfold node_before in E. destruct (n_type n); try (injection E as <-; auto). destruct (is_first t); [|injection E as <-; auto].
      destruct s as [fl|x]; [discriminate|]. injection E as <-. auto. }
    destruct F as [-> ->]. exact R1.
  - intros k Hk. specialize (R2 k Hk). unfold get_edge_flow in *. rewrite He. exact R2.
Qed.

Lemma qsum_zeros {A} (l : list A) : (qsum (map (fun _ => 0) l) == 0)%Q.
Proof. induction l as [|x l IH]; [reflexivity|]. exact (Qeq_trans _ _ _ (Qplus_0_l _) IH). Qed.

Lemma reporting_initial : reporting (NetState.initial_state net) (fun _ => 0%Q).
Proof.
  split.
  - intros i Hi. destruct (nth_error_lt_Some (net_nodes net) i Hi) as [n Hn]. unfold get_in_flow, get_out_flow, NetState.initial_state. cbn [ns_nodes].
    rewrite nth_error_map, Hn. cbn [option_map]. unfold inflow, outflow, node_default_state.
    split; (eexists; split; [reflexivity|]; rewrite qsum_zeros; destruct (n_type n); reflexivity).
  - intros k Hk. destruct (nth_error_lt_Some (net_edges net) k Hk) as [e He]. unfold get_edge_flow, NetState.initial_state. cbn [ns_edges].
    rewrite nth_error_map, He. cbn [option_map]. eexists. split; reflexivity.
Qed.

(** What a flow metric reads after the solve, and before it. *)
Lemma flows_after t p m q : nth_error steps t = Some p -> is_flow m = true -> flow_value (declaration a) net (sim_flows net p) m = Some q ->
  (forall l, other_f After t (LmNode m) == q /\ other_f After t (LmEdge m l) == q)%Q.
Proof.
  intros Hp Hm Hq l. destruct (observe_flows _ _ m q (reporting_end p (nth_error_In _ _ Hp)) Hm Hq) as (q' & O & E). rewrite <- E.
  pose proof (wr_after _ _ _ _ _ _ _ _ _ wr t p) as W. split; [rewrite (W (LmNode m) q' Hp eq_refl O)|rewrite (W (LmEdge m l) q' Hp eq_refl O)]; reflexivity.
Qed.
Lemma start_of t p : nth_error steps t = Some p ->
  before_phase net (sim_env p) (sim_t p) (match t with 0 => NetState.initial_state net | S j => match nth_error steps j with Some p' => sim_end p' | None => NetState.initial_state net end end) = Ok (sim_start p).
Proof.
  intros Hp. destruct (run_nth net fm order steps (wr_run _ _ _ _ _ _ _ _ _ wr) t p Hp) as (H & _). destruct t as [|j]; [exact H|].
  destruct (nth_error_lt_Some steps j) as [p' Hp']; [apply nth_error_Some_lt in Hp; lia|]. rewrite Hp'.
  rewrite (end_state_firstn net steps j p' Hp') in H. exact H.
Qed.
Lemma flows_before t p f m q : nth_error steps t = Some p -> is_flow m = true ->
  f = (match t with 0 => fun _ => 0%Q | S j => match nth_error steps j with Some p' => sim_flows net p' | None => fun _ => 0%Q end end) ->
  flow_value (declaration a) net f m = Some q ->
  (forall l, other_f Before t (LmNode m) == q /\ other_f Before t (LmEdge m l) == q)%Q.
Proof.
  intros Hp Hm -> Hq l. pose proof (start_of t p Hp) as HB. destruct t as [|j].
  - pose proof (before_reporting _ _ _ _ _ (initial_state_of net) HB reporting_initial) as R.
    destruct (observe_flows _ _ m q R Hm Hq) as (q' & O & E). rewrite <- E.
    pose proof (wr_before _ _ _ _ _ _ _ _ _ wr 0 p) as W. split; [rewrite (W (LmNode m) q' Hp eq_refl O)|rewrite (W (LmEdge m l) q' Hp eq_refl O)]; reflexivity.
  - destruct (nth_error_lt_Some steps j) as [p' Hp']; [apply nth_error_Some_lt in Hp; lia|]. rewrite Hp' in *.
    pose proof (before_reporting _ _ _ _ _ (proj2 (steps_states p' (nth_error_In _ _ Hp'))) HB (reporting_end p' (nth_error_In _ _ Hp'))) as R.
    destruct (observe_flows _ _ m q R Hm Hq) as (q' & O & E). rewrite <- E.
    pose proof (wr_before _ _ _ _ _ _ _ _ _ wr (S j) p) as W. split; [rewrite (W (LmNode m) q' Hp eq_refl O)|rewrite (W (LmEdge m l) q' Hp eq_refl O)]; reflexivity.
Qed.

(** *** Limits *)

Lemma given_value t p m : nth_error steps t = Some p -> numbered_metric ms (Some m) -> metric_value (sim_env p) m = given V other_f ms t m.
Proof.
  intros Hp Hm. destruct m as [q|k]; [reflexivity|]. cbn in *. destruct (nth_error_lt_Some ms k Hm) as [x Hx].
  rewrite (nth_error_nth _ _ _ Hx). exact (wr_values _ _ _ _ _ _ _ _ _ wr t p k x Hp Hx).
Qed.
Lemma within_between t p lo up q : nth_error steps t = Some p -> numbered_metric ms lo -> numbered_metric ms up ->
  within_limits (sim_env p) lo up q -> between V other_f ms t lo up q.
Proof.
  intros Hp Hl Hu (H1 & H2). split; [destruct lo as [m|]|destruct up as [m|]]; rewrite <- ?(given_value t p m Hp); assumption.
Qed.

Lemma flow_limits t p i n u : nth_error steps t = Some p -> nth_error (net_nodes net) i = Some n -> declared (declaration a) i u ->
  n_type n <> TStorage -> ~ in_exclusive_set net i -> numbered_metric ms (n_min n) -> numbered_metric ms (n_max n) ->
  between V other_f ms t (n_min n) (n_max n) (other_f After t (flow_metric (n_type n) u)).
Proof.
  intros Hp Hn Hu Ht Hex Hmin Hmax. destruct (run_nth net fm order steps (wr_run _ _ _ _ _ _ _ _ _ wr) t p Hp) as (_ & HS & _).
  assert (Hd : (0 < st_days (sim_lp p))%Q).
  { cbn. assert (E : nth_error ts t = Some (sim_t p)) by (rewrite <- (wr_times _ _ _ _ _ _ _ _ _ wr), nth_error_map, Hp; reflexivity).
    exact (proj2 (Hts t _ E)). }
  pose proof (C11_node_limits net fm order _ _ _ i n wf Hd HS Hn Hex) as H. unfold node_ok in H.
  assert (HW : within_limits (sim_env p) (n_min n) (n_max n) (node_flow net (sim_flows net p) i)) by (destruct (n_type n); try exact H; congruence).
  assert (HL : node_number a u = Some i) by (apply (lookup_declared _ _ u i Hbuild); exact Hu).
  assert (HE : (other_f After t (flow_metric (n_type n) u) == node_flow net (sim_flows net p) i)%Q).
  { unfold node_flow. rewrite Hn. unfold flow_metric. unfold node_number in HL.
    destruct (n_type n) eqn:E; try congruence;
      [refine (proj1 (flows_after t p (UNodeOutFlow u) _ Hp eq_refl _ ""))|refine (proj1 (flows_after t p (UNodeInFlow u) _ Hp eq_refl _ ""))
      |refine (proj1 (flows_after t p (UNodeOutFlow u) _ Hp eq_refl _ ""))]; cbn [flow_value]; rewrite HL; reflexivity. }
  apply (within_between t p) in HW; [|exact Hp|exact Hmin|exact Hmax]. unfold between in *.
  destruct HW as (H1 & H2). split; [destruct (n_min n)|destruct (n_max n)]; rewrite HE; assumption.
Qed.

(** *** Volumes *)

Definition volume (mo : moment) (t : nat) (u : uname) : Q := other_f mo t (LmNode (UNodeVolume u)).

Lemma volumes t p i n u : nth_error steps t = Some p -> nth_error (net_nodes net) i = Some n -> declared (declaration a) i u ->
  n_type n = TStorage -> get_node_volume (sim_start p) i = Ok (volume Before t u) /\ get_node_volume (sim_end p) i = Ok (volume After t u).
Proof.
  intros Hp Hn Hu Ht. destruct (steps_states p (nth_error_In _ _ Hp)) as (S1 & S2).
  assert (HL : get_node_index_by_name (declaration a) u = Some i) by (apply (lookup_declared _ _ u i Hbuild); exact Hu).
  assert (HV : forall st, state_of net st -> exists q, get_node_volume st i = Ok q /\ observe a net st (LmNode (UNodeVolume u)) = Ok q).
  { intros st Hst. destruct (node_lookup net st i Hst (nth_error_Some_lt _ _ _ Hn)) as (s & Hs).
    pose proof (Forall2_nth_error _ _ _ i n s (so_nodes net st Hst) Hn Hs) as Hk. cbn in Hk. destruct (proj1 Hk Ht) as (x & ->).
    exists (s_volume x). cbn [observe observe_node volume_value]. rewrite HL. cbn. unfold get_node_volume. rewrite Hs. split; reflexivity. }
  destruct (HV _ S1) as (q1 & G1 & O1), (HV _ S2) as (q2 & G2 & O2). unfold volume.
  rewrite (wr_before _ _ _ _ _ _ _ _ _ wr t p (LmNode (UNodeVolume u)) q1 Hp eq_refl O1), (wr_after _ _ _ _ _ _ _ _ _ wr t p (LmNode (UNodeVolume u)) q2 Hp eq_refl O2). auto.
Qed.

Lemma storage_volumes t p i n u : nth_error steps t = Some p -> nth_error (net_nodes net) i = Some n -> declared (declaration a) i u ->
  n_type n = TStorage -> ~ in_exclusive_set net i -> numbered_metric ms (n_minv n) -> numbered_metric ms (n_maxv n) ->
  (volume After t u == volume Before t u + ts_days (sim_t p) * (other_f After t (LmNode (UNodeInFlow u)) - other_f After t (LmNode (UNodeOutFlow u))))%Q /\
  between V other_f ms t (n_minv n) (n_maxv n) (volume After t u).
Proof.
  intros Hp Hn Hu Ht Hex Hmin Hmax. destruct (volumes t p i n u Hp Hn Hu Ht) as (G1 & G2).
  destruct (run_nth net fm order steps (wr_run _ _ _ _ _ _ _ _ _ wr) t p Hp) as (_ & HS & HA & _).
  assert (E : nth_error ts t = Some (sim_t p)) by (rewrite <- (wr_times _ _ _ _ _ _ _ _ _ wr), nth_error_map, Hp; reflexivity).
  destruct (solved_step_volume net wf fm order _ (sim_env p) (sim_t p) (sim_start p) (sim_x p) (proj1 (steps_states p (nth_error_In _ _ Hp))) HS
    (proj2 (Hts t _ E)) (sim_end p) i n HA Hn Ht Hex) as (v & v2 & V1 & V2 & B & L).
  rewrite G1 in V1. rewrite G2 in V2. injection V1 as <-. injection V2 as <-.
  assert (HL : get_node_index_by_name (declaration a) u = Some i) by (apply (lookup_declared _ _ u i Hbuild); exact Hu).
  assert (F1 : (other_f After t (LmNode (UNodeInFlow u)) == inflow net (sim_flows net p) i)%Q).
  { refine (proj1 (flows_after t p (UNodeInFlow u) _ Hp eq_refl _ "")). cbn [flow_value]. rewrite HL. reflexivity. }
  assert (F2 : (other_f After t (LmNode (UNodeOutFlow u)) == outflow net (sim_flows net p) i)%Q).
  { refine (proj1 (flows_after t p (UNodeOutFlow u) _ Hp eq_refl _ "")). cbn [flow_value]. rewrite HL. reflexivity. }
  split; [rewrite F1, F2; exact B|].
  apply (within_between t p); [exact Hp|exact Hmin|exact Hmax|]. unfold within_limits, lower_volume, upper_volume in *.
  destruct L as (L1 & L2). split; [destruct (n_minv n)|destruct (n_maxv n)]; assumption.
Qed.

Lemma volume_kept t i n u : S t < length ts -> nth_error (net_nodes net) i = Some n -> declared (declaration a) i u ->
  n_type n = TStorage -> volume Before (S t) u = volume After t u.
Proof.
  intros Hlt Hn Hu Ht. destruct (step_at (S t) Hlt) as (p & Hp & Hpt). destruct (step_at t) as (p' & Hp' & _); [lia|].
  destruct (volumes (S t) p i n u Hp Hn Hu Ht) as (G1 & _). destruct (volumes t p' i n u Hp' Hn Hu Ht) as (_ & G2).
  pose proof (start_of (S t) p Hp) as HB. cbv beta iota in HB. rewrite Hp' in HB.
  destruct (before_volume net _ _ _ _ i n (proj2 (steps_states p' (nth_error_In _ _ Hp'))) HB Hn Ht) as (v & v1 & V1 & V2 & E).
  rewrite (is_first_iff _ (S t) (proj1 (Hts (S t) _ Hpt))) in E. cbn in E. subst v1. congruence.
Qed.

Definition values (t : nat) : env := fun k => given V other_f ms t (MDyn k).

Lemma starting_ext e e' maxv iv : (forall k, In k (keys_of maxv ++ init_keys iv) -> e k = e' k) -> starting_volume e maxv iv = starting_volume e' maxv iv.
Proof.
  intros H. assert (M : forall m, (forall k, In k (key_of m) -> e k = e' k) -> metric_value e m = metric_value e' m).
  { intros [q|k] Hm; [reflexivity|]. apply Hm. left. reflexivity. }
  assert (U : upper_volume e maxv = upper_volume e' maxv).
  { destruct maxv as [m|]; [|reflexivity]. apply M. intros k Hk. apply H. rewrite in_app_iff. left. exact Hk. }
  unfold starting_volume. rewrite U. destruct iv as [q|q|q m|m1 q m2]; try reflexivity.
  - rewrite (M m); [reflexivity|]. intros k Hk. apply H. rewrite in_app_iff. right. exact Hk.
  - rewrite (M m1), (M m2); [reflexivity| |]; intros k Hk; apply H; rewrite in_app_iff; right; cbn [init_keys]; rewrite in_app_iff; auto.
Qed.

Lemma volume_starts i n u : 0 < length ts -> nth_error (net_nodes net) i = Some n -> declared (declaration a) i u ->
  n_type n = TStorage -> (forall k, In k (volume_keys net) -> k < length ms) ->
  (volume Before 0 u == starting_volume (values 0) (n_maxv n) (n_init n))%Q.
Proof.
  intros Hlt Hn Hu Ht Hk. destruct (step_at 0 Hlt) as (p & Hp & Hpt). destruct (volumes 0 p i n u Hp Hn Hu Ht) as (G1 & _).
  pose proof (start_of 0 p Hp) as HB. destruct (before_volume net _ _ _ _ i n (initial_state_of net) HB Hn Ht) as (v & v1 & V1 & V2 & E).
  rewrite (is_first_iff _ 0 (proj1 (Hts 0 _ Hpt))) in E. cbn [Nat.eqb] in E. rewrite G1 in V2. injection V2 as <-. rewrite E.
  rewrite (starting_ext (sim_env p) (values 0)); [reflexivity|]. intros k Hi. apply (given_value 0 p (MDyn k) Hp). cbn. apply Hk.
  unfold volume_keys. rewrite in_app_iff. left. apply in_flat_map. exists n. split; [exact (nth_error_In _ _ Hn)|]. rewrite in_app_iff. right. exact Hi.
Qed.
End Facts.
