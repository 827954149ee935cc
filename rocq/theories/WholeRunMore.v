(** Proportional volumes, aggregated nodes and virtual storages in a whole run. *)
From Coq Require Import QArith Lia.
From Coq Require Import String.
From Verif Require Import Base Calendar Timestep SchemaNodes SchemaVirtual MetricSets SchemaParams.
From Verif Require Import Network NetworkBuild NetworkSpec NetworkBuildLemmas Lp LpSpec LpRelLemmas SchemaMetrics NetState NetStateSpec NetStateLemmas NetRunLemmas NetHistLemmas VsLemmas Props_Network Props_Lp
  WholeRun WholeRunSpec WholeRunFacts.
Local Open Scope string_scope.
Local Open Scope list_scope.
Local Open Scope nat_scope.

Section More.
Variables (a : added) (net : Network.network) (fm : Q) (order : list (list nat)) (ms : list lmetric) (V : valuation)
  (other_f : moment -> nat -> lmetric -> Q) (ts : list timestep) (steps : list sim_step).
Hypothesis Hbuild : build_network (declaration a) = Ok net.
Hypothesis wr : whole_run a net fm order ms V other_f ts steps.
Hypothesis Hts : regular ts.

Let wf : wf_network net := C37_built_well_formed _ _ Hbuild.
Let values (t : nat) : env := fun k => given V other_f ms t (MDyn k).
Let volume := WholeRunFacts.volume other_f.

Lemma upper_values t p m : nth_error steps t = Some p -> numbered_metric ms m -> upper_volume (sim_env p) m = upper_volume (values t) m.
Proof.
  intros Hp Hm. destruct m as [m|]; [|reflexivity]. cbn. rewrite (given_value _ _ _ _ _ _ _ _ _ wr t p m Hp Hm). destruct m; reflexivity.
Qed.

(** ** Proportional volumes *)

Lemma proportion_state st i v m : get_node_volume st i = Ok v -> get_node_max_volume st i = Ok m ->
  get_node_proportional_volume st i = Ok (proportion v m).
Proof.
  unfold get_node_volume, get_node_max_volume, get_node_proportional_volume. destruct (nth_error (ns_nodes st) i) as [[f|s]|]; try discriminate.
  intros H1 H2. injection H1 as <-. injection H2 as <-. reflexivity.
Qed.

Section Node.
Variables (i : nat) (n : node) (u : uname).
Hypothesis Hn : nth_error (net_nodes net) i = Some n.
Hypothesis Hu : declared (declaration a) i u.
Hypothesis Ht : n_type n = TStorage.
Hypothesis Hm : numbered_metric ms (n_maxv n).

Let HL : get_node_index_by_name (declaration a) u = Some i.
Proof. apply (lookup_declared _ _ u i Hbuild). exact Hu. Qed.

Lemma prop_of mo t p q : nth_error steps t = Some p ->
  get_node_proportional_volume (match mo with Before => sim_start p | After => sim_end p end) i = Ok q ->
  other_f mo t (LmNode (UNodePropVolume u)) = q.
Proof.
  intros Hp Hq. assert (O : forall st, get_node_proportional_volume st i = Ok q -> observe a net st (LmNode (UNodePropVolume u)) = Ok q).
  { intros st E. cbn [observe observe_node]. unfold node_number. rewrite HL. cbn. rewrite E. reflexivity. }
  destruct mo; [apply (wr_before _ _ _ _ _ _ _ _ _ wr t p)|apply (wr_after _ _ _ _ _ _ _ _ _ wr t p)]; auto.
Qed.
Lemma max_of mo t p q : nth_error steps t = Some p ->
  get_node_max_volume (match mo with Before => sim_start p | After => sim_end p end) i = Ok q ->
  other_f mo t (LmNode (UNodeMaxVolume u)) = q.
Proof.
  intros Hp Hq. assert (O : forall st, get_node_max_volume st i = Ok q -> observe a net st (LmNode (UNodeMaxVolume u)) = Ok q).
  { intros st E. cbn [observe observe_node volume_value]. rewrite HL. cbn. rewrite E. reflexivity. }
  destruct mo; [apply (wr_before _ _ _ _ _ _ _ _ _ wr t p)|apply (wr_after _ _ _ _ _ _ _ _ _ wr t p)]; auto.
Qed.

Lemma max_after t : t < length ts -> other_f After t (LmNode (UNodeMaxVolume u)) = upper_volume (values t) (n_maxv n) /\
  other_f After t (LmNode (UNodePropVolume u)) = proportion (volume After t u) (upper_volume (values t) (n_maxv n)).
Proof.
  intros Hlt. destruct (step_at _ _ _ _ _ _ _ _ _ wr t Hlt) as (p & Hp & _).
  destruct (run_nth net fm order steps (wr_run _ _ _ _ _ _ _ _ _ wr) t p Hp) as (_ & _ & HA & _).
  destruct (after_solve_volume net _ _ _ _ _ i n (proj1 (steps_states _ _ _ _ _ _ _ _ _ wr p (nth_error_In _ _ Hp))) HA Hn Ht) as (v & v2 & raw & _ & G2 & M & _).
  change (get_max (sim_env p) (n_maxv n)) with (upper_volume (sim_env p) (n_maxv n)) in M. rewrite (upper_values t p _ Hp Hm) in M.
  rewrite (proj2 (volumes _ _ _ _ _ _ _ _ _ Hbuild wr t p i n u Hp Hn Hu Ht)) in G2. injection G2 as <-.
  split; [exact (max_of After t p _ Hp M)|]. apply (prop_of After t p _ Hp).
  apply proportion_state; [exact (proj2 (volumes _ _ _ _ _ _ _ _ _ Hbuild wr t p i n u Hp Hn Hu Ht))|exact M].
Qed.

Lemma before_node t p st s : nth_error steps t = Some p -> state_of net st -> before_phase net (sim_env p) (sim_t p) st = Ok (sim_start p) ->
  nth_error (ns_nodes st) i = Some s -> exists s1, nth_error (ns_nodes (sim_start p)) i = Some s1 /\
  if Nat.eqb t 0 then exists x, s1 = NsStorage x /\ s_max x = upper_volume (sim_env p) (n_maxv n) else s1 = s.
Proof.
  intros Hp Hst HB Hs. destruct (before_phase_Ok net (sim_env p) (sim_t p) st Hst) as (st1 & E & _ & _ & Hnode & _). rewrite HB in E. injection E as <-.
  destruct (Hnode i n s Hn Hs) as (s1 & Hs1 & E1). exists s1. split; [exact Hs1|].
  pose proof (Forall2_nth_error _ _ _ i n s (so_nodes net st Hst) Hn Hs) as Hk. cbn in Hk. destruct (proj1 Hk Ht) as (x & ->).
  destruct (node_before_Ok (sim_env p) (sim_t p) n _ Hk) as (s1' & E2 & _ & E3). rewrite E1 in E2. injection E2 as <-.
  assert (Et : nth_error ts t = Some (sim_t p)) by (rewrite <- (wr_times _ _ _ _ _ _ _ _ _ wr), nth_error_map, Hp; reflexivity).
  rewrite (is_first_iff _ t (proj1 (Hts t _ Et))) in E3. destruct (Nat.eqb t 0); [|exact E3]. subst s1. eexists. split; reflexivity.
Qed.

Lemma max_first : 0 < length ts -> other_f Before 0 (LmNode (UNodeMaxVolume u)) = upper_volume (values 0) (n_maxv n) /\
  other_f Before 0 (LmNode (UNodePropVolume u)) = proportion (volume Before 0 u) (upper_volume (values 0) (n_maxv n)).
Proof.
  intros Hlt. destruct (step_at _ _ _ _ _ _ _ _ _ wr 0 Hlt) as (p & Hp & _). pose proof (start_of _ _ _ _ _ _ _ _ _ wr 0 p Hp) as HB.
  destruct (node_lookup net _ i (initial_state_of net) (nth_error_Some_lt _ _ _ Hn)) as (s & Hs).
  destruct (before_node 0 p _ s Hp (initial_state_of net) HB Hs) as (s1 & Hs1 & x & -> & Hx). rewrite (upper_values 0 p _ Hp Hm) in Hx.
  assert (M : get_node_max_volume (sim_start p) i = Ok (upper_volume (values 0) (n_maxv n))) by (unfold get_node_max_volume; rewrite Hs1, <- Hx; reflexivity).
  split; [exact (max_of Before 0 p _ Hp M)|]. apply (prop_of Before 0 p _ Hp).
  apply proportion_state; [exact (proj1 (volumes _ _ _ _ _ _ _ _ _ Hbuild wr 0 p i n u Hp Hn Hu Ht))|exact M].
Qed.

Lemma max_kept t : S t < length ts -> other_f Before (S t) (LmNode (UNodeMaxVolume u)) = other_f After t (LmNode (UNodeMaxVolume u)) /\
  other_f Before (S t) (LmNode (UNodePropVolume u)) = other_f After t (LmNode (UNodePropVolume u)).
Proof.
  intros Hlt. destruct (step_at _ _ _ _ _ _ _ _ _ wr (S t) Hlt) as (p & Hp & _). destruct (step_at _ _ _ _ _ _ _ _ _ wr t) as (p' & Hp' & _); [lia|].
  pose proof (start_of _ _ _ _ _ _ _ _ _ wr (S t) p Hp) as HB. cbv beta iota in HB. rewrite Hp' in HB.
  pose proof (proj2 (steps_states _ _ _ _ _ _ _ _ _ wr p' (nth_error_In _ _ Hp'))) as Hst.
  destruct (node_lookup net _ i Hst (nth_error_Some_lt _ _ _ Hn)) as (s & Hs).
  destruct (before_node (S t) p _ s Hp Hst HB Hs) as (s1 & Hs1 & E). cbn in E. subst s1.
  pose proof (Forall2_nth_error _ _ _ i n s (so_nodes net _ Hst) Hn Hs) as Hk. cbn in Hk. destruct (proj1 Hk Ht) as (x & ->).
  split.
  - rewrite (max_of Before (S t) p (s_max x) Hp), (max_of After t p' (s_max x) Hp'); [reflexivity| |]; unfold get_node_max_volume; [rewrite Hs|rewrite Hs1]; reflexivity.
  - rewrite (prop_of Before (S t) p (proportional_volume x) Hp), (prop_of After t p' (proportional_volume x) Hp'); [reflexivity| |];
      unfold get_node_proportional_volume; [rewrite Hs|rewrite Hs1]; reflexivity.
Qed.
End Node.

(** ** Aggregated nodes *)

Lemma observe_agg st f m q : reporting net st f -> vflow_value a net f m = Some q -> exists q', observe a net st (LmVirtual m) = Ok q' /\ (q' == q)%Q.
Proof.
  intros (R1 & _) H. cbn [observe]. destruct m as [u|u|u|u|u|u]; try discriminate; cbn [vflow_value] in H; cbn [observe_virtual];
    destruct (agg_index a u) as [k|]; try discriminate; destruct (nth_error (net_aggs net) k) as [ag|] eqn:Ek; try discriminate; injection H as <-; cbn.
  - destruct (rmap_reports (get_in_flow st) (inflow net f) (concat (a_nodes ag))) as (qs & E1 & E2).
    { intros i Hi. apply in_concat in Hi. destruct Hi as (l & Hl & Hi). exact (proj1 (R1 i (wf_aggs _ wf ag l i (nth_error_In _ _ Ek) Hl Hi))). }
    unfold agg_node_in_flow. rewrite E1. cbn. exists (qsum qs). split; [reflexivity|exact E2].
  - destruct (rmap_reports (get_out_flow st) (outflow net f) (concat (a_nodes ag))) as (qs & E1 & E2).
    { intros i Hi. apply in_concat in Hi. destruct Hi as (l & Hl & Hi). exact (proj2 (R1 i (wf_aggs _ wf ag l i (nth_error_In _ _ Ek) Hl Hi))). }
    unfold agg_node_out_flow. rewrite E1. cbn. exists (qsum qs). split; [reflexivity|exact E2].
Qed.

(** In each moment of each time-step the state reports some flows. *)
Lemma reports_at mo t : t < length ts -> exists p f, nth_error steps t = Some p /\
  reporting net (match mo with Before => sim_start p | After => sim_end p end) f.
Proof.
  intros Hlt. destruct (step_at _ _ _ _ _ _ _ _ _ wr t Hlt) as (p & Hp & _). destruct mo.
  - pose proof (start_of _ _ _ _ _ _ _ _ _ wr t p Hp) as HB. destruct t as [|j].
    + exists p, (fun _ => 0%Q). split; [exact Hp|]. exact (before_reporting net _ _ _ _ _ (initial_state_of net) HB (reporting_initial net)).
    + destruct (nth_error_lt_Some steps j) as [p' Hp']; [apply nth_error_Some_lt in Hp; lia|]. rewrite Hp' in HB. exists p, (sim_flows net p'). split; [exact Hp|].
      exact (before_reporting net _ _ _ _ _ (proj2 (steps_states _ _ _ _ _ _ _ _ _ wr p' (nth_error_In _ _ Hp'))) HB
        (reporting_end _ _ _ _ _ _ _ _ _ wr p' (nth_error_In _ _ Hp'))).
  - exists p, (sim_flows net p). split; [exact Hp|]. exact (reporting_end _ _ _ _ _ _ _ _ _ wr p (nth_error_In _ _ Hp)).
Qed.

Lemma agg_flows mo t u k ag us : t < length ts -> agg_index a u = Some k -> nth_error (net_aggs net) k = Some ag ->
  Forall2 (declared (declaration a)) (concat (a_nodes ag)) us ->
  (other_f mo t (LmVirtual (VmAggInFlow u)) == qsum (map (fun u => other_f mo t (LmNode (UNodeInFlow u))) us))%Q /\
  (other_f mo t (LmVirtual (VmAggOutFlow u)) == qsum (map (fun u => other_f mo t (LmNode (UNodeOutFlow u))) us))%Q.
Proof.
  intros Hlt Hk Hag Hus. destruct (reports_at mo t Hlt) as (p & f & Hp & R).
  assert (W : forall m q, of_network m = true -> observe a net (match mo with Before => sim_start p | After => sim_end p end) m = Ok q -> other_f mo t m = q).
  { intros m q Hm Hq. destruct mo; [exact (wr_before _ _ _ _ _ _ _ _ _ wr t p m q Hp Hm Hq)|exact (wr_after _ _ _ _ _ _ _ _ _ wr t p m q Hp Hm Hq)]. }
  assert (N : forall i x, declared (declaration a) i x -> (other_f mo t (LmNode (UNodeInFlow x)) == inflow net f i)%Q /\ (other_f mo t (LmNode (UNodeOutFlow x)) == outflow net f i)%Q).
  { intros i x Hx. assert (HL : get_node_index_by_name (declaration a) x = Some i) by (apply (lookup_declared _ _ x i Hbuild); exact Hx). split.
    - destruct (observe_flows a net Hbuild _ f (UNodeInFlow x) (inflow net f i) R eq_refl) as (q' & O & E); [cbn [flow_value]; rewrite HL; reflexivity|].
      rewrite (W (LmNode (UNodeInFlow x)) q' eq_refl O). exact E.
    - destruct (observe_flows a net Hbuild _ f (UNodeOutFlow x) (outflow net f i) R eq_refl) as (q' & O & E); [cbn [flow_value]; rewrite HL; reflexivity|].
      rewrite (W (LmNode (UNodeOutFlow x)) q' eq_refl O). exact E. }
  split.
  - destruct (observe_agg _ f (VmAggInFlow u) (qsum (map (inflow net f) (concat (a_nodes ag)))) R) as (q' & O & E); [cbn [vflow_value]; rewrite Hk, Hag; reflexivity|].
    rewrite (W (LmVirtual (VmAggInFlow u)) q' eq_refl O), E. clear - N Hus.
    induction Hus as [|i x is us Hx Hus IH]; [reflexivity|]. cbn [map qsum fold_right]. apply Qplus_comp; [symmetry; exact (proj1 (N i x Hx))|exact IH].
  - destruct (observe_agg _ f (VmAggOutFlow u) (qsum (map (outflow net f) (concat (a_nodes ag)))) R) as (q' & O & E); [cbn [vflow_value]; rewrite Hk, Hag; reflexivity|].
    rewrite (W (LmVirtual (VmAggOutFlow u)) q' eq_refl O), E. clear - N Hus.
    induction Hus as [|i x is us Hx Hus IH]; [reflexivity|]. cbn [map qsum fold_right]. apply Qplus_comp; [symmetry; exact (proj2 (N i x Hx))|exact IH].
Qed.

(** ** Virtual storages *)

Section Licence.
Variables (k : nat) (v : vs_node) (u : uname).
Hypothesis Hv : nth_error (net_vss net) k = Some v.
Hypothesis Hi : vs_index a u = Some k.
Let licence mo t := other_f mo t (LmVirtual (VmVsVolume u)).

Lemma licence_of mo t p : nth_error steps t = Some p ->
  get_vs_volume (match mo with Before => sim_start p | After => sim_end p end) k = Ok (licence mo t).
Proof.
  intros Hp. destruct (steps_states _ _ _ _ _ _ _ _ _ wr p (nth_error_In _ _ Hp)) as (S1 & S2).
  assert (HV : forall st, state_of net st -> exists q, get_vs_volume st k = Ok q /\ observe a net st (LmVirtual (VmVsVolume u)) = Ok q).
  { intros st Hst. destruct (nth_error_lt_Some (ns_vss st) k) as [s Hs].
    { rewrite <- (Forall2_length' _ _ _ (so_vss net st Hst)). exact (nth_error_Some_lt _ _ _ Hv). }
    exists (s_volume (vss_storage s)). cbn [observe observe_virtual vvolume_value]. rewrite Hi. cbn. unfold get_vs_volume. rewrite Hs. split; reflexivity. }
  unfold licence. destruct mo; [destruct (HV _ S1) as (q & G & O)|destruct (HV _ S2) as (q & G & O)]; rewrite G; f_equal; symmetry;
    [exact (wr_before _ _ _ _ _ _ _ _ _ wr t p (LmVirtual (VmVsVolume u)) q Hp eq_refl O)|exact (wr_after _ _ _ _ _ _ _ _ _ wr t p (LmVirtual (VmVsVolume u)) q Hp eq_refl O)].
Qed.

Lemma recorded_flow_node t p i : nth_error steps t = Some p -> i < length (net_nodes net) ->
  (recorded_flow a net other_f t i == node_flow net (sim_flows net p) i)%Q.
Proof.
  intros Hp Hlt. unfold recorded_flow, node_flow. destruct (nth_error_lt_Some (net_nodes net) i Hlt) as [n Hn]. rewrite Hn.
  destruct (C37_nodes_as_declared _ _ Hbuild) as (_ & HC & _).
  destruct (nth_error_lt_Some (map nb_name (ad_nodes a)) i) as [x Hx].
  { rewrite map_length. cbn in HC. rewrite <- HC. exact Hlt. }
  rewrite Hx. assert (HL : get_node_index_by_name (declaration a) x = Some i) by (apply (lookup_declared _ _ x i Hbuild); exact Hx).
  assert (F1 : (other_f After t (LmNode (UNodeInFlow x)) == inflow net (sim_flows net p) i)%Q).
  { refine (proj1 (flows_after _ _ _ _ _ _ _ _ _ Hbuild wr t p (UNodeInFlow x) _ Hp eq_refl _ "")). cbn [flow_value]. rewrite HL. reflexivity. }
  assert (F2 : (other_f After t (LmNode (UNodeOutFlow x)) == outflow net (sim_flows net p) i)%Q).
  { refine (proj1 (flows_after _ _ _ _ _ _ _ _ _ Hbuild wr t p (UNodeOutFlow x) _ Hp eq_refl _ "")). cbn [flow_value]. rewrite HL. reflexivity. }
  destruct (n_type n); rewrite ?F1, ?F2; reflexivity.
Qed.

Lemma licence_step t e : nth_error ts t = Some e -> numbered_metric ms (v_minv v) -> numbered_metric ms (v_maxv v) ->
  between V other_f ms t (v_minv v) (v_maxv v) (licence Before t) ->
  between V other_f ms t (v_minv v) (v_maxv v) (licence After t) /\
  if vs_is_active (v_period v) (ts_day e)
  then (licence After t == licence Before t - ts_days e * qsum (map (fun x => snd x * recorded_flow a net other_f t (fst x)) (vs_terms v)))%Q
  else licence After t = licence Before t.
Proof.
  intros He H1 H2 B. assert (Hlt : t < length ts) by exact (nth_error_Some_lt _ _ _ He).
  destruct (step_at _ _ _ _ _ _ _ _ _ wr t Hlt) as (p & Hp & Hpt). rewrite He in Hpt. injection Hpt as ->.
  destruct (run_nth net fm order steps (wr_run _ _ _ _ _ _ _ _ _ wr) t p Hp) as (_ & HS & HA & _).
  assert (B' : (lower_volume (sim_env p) (v_minv v) <= licence Before t <= upper_volume (sim_env p) (v_maxv v))%Q).
  { destruct B as (B1 & B2). split; [destruct (v_minv v) as [m|]|destruct (v_maxv v) as [m|]]; cbn; try assumption;
      rewrite (given_value _ _ _ _ _ _ _ _ _ wr t p m Hp); assumption. }
  destruct (solved_step_vs net wf fm order _ (sim_env p) (sim_t p) (sim_start p) (sim_x p) (proj1 (steps_states _ _ _ _ _ _ _ _ _ wr p (nth_error_In _ _ Hp))) HS
    (proj2 (Hts t _ He)) (sim_end p) k v _ HA Hv (licence_of Before t p Hp) B') as (q2 & G & L & E).
  rewrite (licence_of After t p Hp) in G. injection G as <-. split.
  - apply (within_between _ _ _ _ _ _ _ _ _ wr t p); [exact Hp|exact H1|exact H2|]. unfold within_limits, lower_volume, upper_volume in *.
    destruct L as (L1 & L2). split; [destruct (v_minv v)|destruct (v_maxv v)]; assumption.
  - destruct (vs_is_active (v_period v) (ts_day (sim_t p))); [|exact E]. rewrite E. apply Qplus_comp; [reflexivity|]. apply Qopp_comp, Qmult_comp; [reflexivity|].
    unfold vs_use. assert (HI : forall x, In x (vs_terms v) -> fst x < length (net_nodes net)).
    { intros [i q] Hx. unfold vs_terms in Hx. apply in_combine_l in Hx. exact (wf_vss _ wf v i (nth_error_In _ _ Hv) Hx). }
    revert HI. generalize (vs_terms v). induction l as [|x l IH]; intros HI; [reflexivity|]. cbn [map qsum fold_right]. apply Qplus_comp.
    + apply Qmult_comp; [reflexivity|]. symmetry. apply recorded_flow_node; [exact Hp|apply HI; left; reflexivity].
    + apply IH. intros y Hy. apply HI. right. exact Hy.
Qed.

Lemma licence_resets R : v_window v = None -> reset_rule v steps R -> (forall j, In j (volume_keys net) -> j < length ms) ->
  forall t, t < length ts -> (R t -> (licence Before t == reset_target (values t) v)%Q) /\
    (forall j, t = S j -> ~ R t -> licence Before t = licence After j).
Proof.
  intros Hw HR Hk t Hlt. destruct (step_at _ _ _ _ _ _ _ _ _ wr t Hlt) as (p & Hp & _).
  assert (Hnum : numbered steps).
  { intros j q Hq. apply (Hts j). rewrite <- (wr_times _ _ _ _ _ _ _ _ _ wr), nth_error_map, Hq. reflexivity. }
  destruct (reset_volumes net wf fm order steps (wr_run _ _ _ _ _ _ _ _ _ wr) Hnum k v Hv R HR t p Hp Hw) as (q & G & Y & N).
  pose proof (licence_of Before t p Hp) as G'. cbv iota in G'. rewrite G in G'. injection G' as ->. split.
  - intros Hr. rewrite (Y Hr). assert (E : forall j, In j (keys_of (v_maxv v) ++ init_keys (v_init v)) -> sim_env p j = values t j).
    { intros j Hj. apply (given_value _ _ _ _ _ _ _ _ _ wr t p (MDyn j) Hp). cbn. apply Hk. unfold volume_keys. rewrite in_app_iff. right.
      apply in_flat_map. exists v. split; [exact (nth_error_In _ _ Hv)|]. rewrite in_app_iff. right. exact Hj. }
    unfold reset_target. destruct (v_reset_volume v).
    + rewrite (starting_ext (sim_env p) (values t)); [reflexivity|exact E].
    + unfold upper_volume. destruct (v_maxv v) as [[q|j]|]; try reflexivity. cbn. rewrite (E j); [reflexivity|]. left. reflexivity.
  - intros j -> Hr. specialize (N Hr). destruct (step_at _ _ _ _ _ _ _ _ _ wr j) as (p' & Hp' & _); [lia|].
    rewrite (end_state_firstn net steps j p' Hp') in N. pose proof (licence_of After j p' Hp') as G2. cbv iota in G2. rewrite N in G2. injection G2 as ->. reflexivity.
Qed.
End Licence.
End More.
