(** Concrete cases of C67, and where it fails. *)
From Coq Require Import Lqa.
From Verif Require Import Base Calendar Timestep Network NetworkBuild NetworkSpec NetworkBuildLemmas Lp LpSpec LpRelLemmas LpRowLemmas Props_Network Props_Lp
  Props_LpRel NetState NetStateSpec NetRunLemmas NetHistLemmas VsLemmas Props_NetState SchemaNodes SchemaMetrics SchemaSpec SchemaLemmas Props_Schema SchemaRunCheck
  SchemaVirtual SchemaVirtualSpec Props_SchemaVirtual Props_SchemaLicence.
Local Open Scope string_scope.
Local Open Scope list_scope.
Local Open Scope nat_scope.

(** A source that feeds an output through a link and a piecewise link of two
    steps. *)
Definition ex_virtual (lo : option umetric) (v : vnode) : schema :=
  mkSchema [SInput "in" None None None; SLink "a" None lo (Some (UConst 8)) None None;
            SPiecewiseLink "b" [mkLinkStep None lo (Some (UConst 3)); mkLinkStep None lo None]; SOutput "out" None None None]
    [v] [ex_edge "in" "a"; ex_edge "in" "b"; ex_edge "a" "out"; ex_edge "b" "out"].
Definition ex_ref (s : string) : node_ref := mkRef s None.
Definition ex_agg (rel : option srelationship) : vnode := VAggregated "agg" [ex_ref "a"; ex_ref "b"] None (Some (UConst 10)) rel.
Definition ex_agg_file rel : schema := ex_virtual None (ex_agg rel).

(** At most 10 in total; a flow of 5 through the link and of 3 + 3 through the
    other is refused. *)
Example C67_limits_example : let sc := ex_agg_file None in let x := rel_x [4; 3; 3]%Q in
  simulated ex_key None sc (ex_added sc) (ex_net sc) ex_state x /\ ex_check sc ex_state (rel_x [5; 3; 3]%Q) = false.
Proof. split; [apply ex_simulated; vm_compute; reflexivity | vm_compute; reflexivity]. Qed.
(** Three quarters through the piecewise link. *)
Example C67_proportions_example : let fs := [UConst (3#4)] in let sc := ex_agg_file (Some (SrProportion fs)) in let x := rel_x [2; 3; 3]%Q in
  simulated ex_key None sc (ex_added sc) (ex_net sc) ex_state x /\
  Forall (fun m => exists q, constant m q) fs /\ Forall (fun m => 0 <= value ex_key ex_state m)%Q fs /\ (qsum (map (value ex_key ex_state) fs) < 1)%Q /\
  ex_check sc ex_state (rel_x [3; 3; 3]%Q) = false.
Proof.
  split; [apply ex_simulated; vm_compute; reflexivity|]. split; [repeat constructor; eexists; left; reflexivity|]. split; [repeat constructor; vm_compute; discriminate|].
  split; vm_compute; reflexivity.
Qed.
(** The same with a share that varies. *)
Example C67_varying_proportions_example : let fs := [UParam ("share", "") None] in let sc := ex_agg_file (Some (SrProportion fs)) in let x := rel_x [2; 3; 3]%Q in
  simulated ex_key None sc (ex_added sc) (ex_net sc) (rel_state (3#4) 0) x /\ separate (ex_added sc) (ex_net sc) (whole "agg") /\
  Forall (fun m => 0 <= value ex_key (rel_state (3#4) 0) m)%Q fs /\ (qsum (map (value ex_key (rel_state (3#4) 0)) fs) < 1)%Q /\
  ex_check sc (rel_state (1#4) 0) x = false.
Proof.
  split; [apply ex_simulated; vm_compute; reflexivity|]. split; [apply separate_check_sound; vm_compute; reflexivity|]. split; [repeat constructor; vm_compute; discriminate|].
  split; vm_compute; reflexivity.
Qed.
Example C67_ratios_example : let fs := [UConst 1; UConst 3] in let sc := ex_agg_file (Some (SrRatio fs)) in let x := rel_x [2; 3; 3]%Q in
  simulated ex_key None sc (ex_added sc) (ex_net sc) ex_state x /\
  Forall (fun m => exists q, constant m q) fs /\ Forall (fun m => 0 <= value ex_key ex_state m)%Q fs /\
  ex_check sc ex_state (rel_x [3; 3; 3]%Q) = false.
Proof.
  split; [apply ex_simulated; vm_compute; reflexivity|]. split; [repeat constructor; eexists; left; reflexivity|]. split; [repeat constructor; vm_compute; discriminate|].
  vm_compute; reflexivity.
Qed.
(** Twice the link's flow and the other one's make 10. *)
Example C67_coefficients_example : let sc := ex_agg_file (Some (SrCoefficients [UConst 2; UConst 1] (Some (UConst 10)))) in let x := rel_x [2; 3; 3]%Q in
  simulated ex_key None sc (ex_added sc) (ex_net sc) ex_state x /\ ex_check sc ex_state (rel_x [3; 3; 3]%Q) = false.
Proof. split; [apply ex_simulated; vm_compute; reflexivity | vm_compute; reflexivity]. Qed.

(** One of the two, and only one: parts that carry at least 1 if any. *)
Definition ex_exclusive : schema := ex_virtual (Some (UConst 1)) (ex_agg (Some (SrExclusive (Some 1) None))).
Lemma valid_order_check net order : (forall a, In a (net_aggs net) -> has_exclusivity a = true -> incl (a_nodes a) order) -> NoDup order ->
  (forall s, In s order -> exclusive_set net s) -> valid_order net order.
Proof. intros H1 H2 H3. split; [exact H2|]. intros s. split; [apply H3|]. intros (a & Ha & He & Hs). exact (H1 a Ha He s Hs). Qed.
Example C67_exclusive_example : let sc := ex_exclusive in let x := rel_x [0; 3; 3; 0; 1]%Q in
  simulated ex_key None sc (ex_added sc) (ex_net sc) ex_state x /\
  parts_limited (ex_added sc) (ex_net sc) (whole "agg") (fun _ _ => True) /\
  parts_limited (ex_added sc) (ex_net sc) (whole "agg") (fun l _ => ~ (l == 0)%Q) /\
  (forall r, In r [ex_ref "a"; ex_ref "b"] -> ref_nodes sc r <> Ok []) /\
  solved_check (ex_net sc) F64_MAX [[1]; [2; 3]] [] ex_state (rel_x [1; 3; 3; 1; 1]%Q) = false.
Proof.
  cbv zeta.
  assert (HP : forall lims : Q -> Q -> Prop, (forall h, lims 1%Q h) -> parts_limited (ex_added ex_exclusive) (ex_net ex_exclusive) (whole "agg") lims).
  { intros lims Hl [|[|[|k]]] ab g Hk Hu Hg; vm_compute in Hk, Hg; try discriminate Hk; try discriminate Hg; injection Hk as <-; injection Hg as <-; try discriminate Hu.
    cbn [a_nodes]. intros ns i Hns Hi. destruct Hns as [<-|[<-|[]]]; [destruct Hi as [<-|[]] | destruct Hi as [<-|[<-|[]]]].
    all: eexists; eexists; eexists; split; [vm_compute; reflexivity|]; cbn; split; [discriminate|]; split; [left; reflexivity|]; split; [try (left; reflexivity); right; split; reflexivity | apply Hl]. }
  split; [|split; [apply HP; exact (fun _ => I)|]; split; [apply HP; intros h E; vm_compute in E; discriminate|]; split; [intros r [<-|[<-|[]]]; vm_compute; discriminate | vm_compute; reflexivity]].
  constructor; [vm_compute; reflexivity | vm_compute; reflexivity|]. exists F64_MAX, [[1]; [2; 3]], []. apply solved_check_sound; [|vm_compute; reflexivity].
  apply valid_order_check.
  - intros g Hg He. vm_compute in Hg. destruct Hg as [<-|[]]. cbn [a_nodes]. apply incl_refl.
  - repeat constructor; cbn; intuition discriminate.
  - intros s Hs. eexists. split; [vm_compute; left; reflexivity|]. split; [reflexivity | exact Hs].
Qed.

(** Reported flows: the example has neither sources nor sinks; over two outputs
    the outflow, which is also what is reported by default, is always 0. *)
Example C67_reported_example : let sc := ex_agg_file None in let x := rel_x [4; 3; 3]%Q in
  vnode_flow_is (ex_added sc) (ex_net sc) x (ex_agg None) None 10 /\ vnode_flow_is (ex_added sc) (ex_net sc) x (ex_agg None) (Some AtInflow) 10.
Proof. split; eexists; eexists; (split; [reflexivity|]); (split; [vm_compute; reflexivity|]); vm_compute; reflexivity. Qed.
Definition ex_demands : schema :=
  mkSchema [SInput "in" None None None; SOutput "d1" None None None; SOutput "d2" None None None]
    [VAggregated "demand" [ex_ref "d1"; ex_ref "d2"] None None None] [ex_edge "in" "d1"; ex_edge "in" "d2"].
Theorem C67_reported_outflow_refuted : exists sc x name refs qs,
  simulated ex_key None sc (ex_added sc) (ex_net sc) ex_state x /\ In (VAggregated name refs None None None) (sc_vnodes sc) /\
  Forall2 (ref_flow sc (ex_added sc) (ex_net sc) x) refs qs /\ (qsum qs == 7)%Q /\
  vnode_flow_is (ex_added sc) (ex_net sc) x (VAggregated name refs None None None) None 0.
Proof.
  exists ex_demands, (rel_x [3; 4]%Q), "demand", [ex_ref "d1"; ex_ref "d2"], [3; 4]%Q.
  split; [apply ex_simulated; vm_compute; reflexivity|]. split; [left; reflexivity|]. split.
  - constructor; [|constructor; [|constructor]].
    + exists (SOutput "d1" None None None). split; [right; left; reflexivity|]. split; [reflexivity|]. eexists. eexists. split; [reflexivity|]. split; vm_compute; reflexivity.
    + exists (SOutput "d2" None None None). split; [right; right; left; reflexivity|]. split; [reflexivity|]. eexists. eexists. split; [reflexivity|]. split; vm_compute; reflexivity.
  - split; [vm_compute; reflexivity|]. eexists. eexists. split; [reflexivity|]. split; vm_compute; reflexivity.
Qed.
Print Assumptions C67_reported_outflow_refuted.

(** *** Virtual storages *)
Definition ex_licence (refs : list node_ref) (fs : option (list Q)) (r : option sreset) (w : option swindow) : vnode :=
  VStorage "licence" refs fs None None (Some (UConst 100)) (SIAbsolute 60) r None w.
Definition ex_licence_file (v : vnode) : schema := ex_virtual None v.
Definition ex_steps (sc : schema) (inputs : list (timestep * list Q)) : list sim_step :=
  match simulate (ex_net sc) F64_MAX [] [] (initial_state (ex_net sc)) (map (fun p => (fst p, fun _ => 0%Q, rel_x (snd p))) inputs) with
  | Some l => l | None => [] end.
Lemma ex_run sc inputs : forallb (fun a => negb (has_exclusivity a)) (net_aggs (ex_net sc)) = true -> run (ex_net sc) F64_MAX [] (ex_steps sc inputs).
Proof.
  intros Hv. unfold ex_steps. destruct (simulate _ _ _ _ _ _) eqn:E; [|apply run_start].
  eapply (simulate_runs (ex_net sc) F64_MAX [] _ ltac:(apply valid_order_nil; exact Hv) []); [apply run_start | exact E].
Qed.
Lemma ex_numbered sc inputs : forallb (fun kt => (ts_index (snd kt) =? Z.of_nat (fst kt))%Z && negb (Qle_bool (ts_days (snd kt)) 0)) (indexed (map sim_t (ex_steps sc inputs))) = true ->
  numbered (ex_steps sc inputs).
Proof.
  intros H k p Hk. apply (map_nth_error sim_t) in Hk. rewrite forallb_forall in H. specialize (H _ (indexed_nth _ _ _ Hk)). cbn [fst snd] in H.
  apply andb_prop in H. destruct H as [H1 H2]. apply Z.eqb_eq in H1. split; [exact H1|]. apply negb_true_iff in H2.
  destruct (Qlt_le_dec 0 (ts_days (sim_t p))) as [L|L]; [exact L|]. apply Qle_bool_iff in L. congruence.
Qed.

(** A licence on the link, counted twice, and on the output, from 1 April to 30
    September.  On 30 September and 1 October: 60 - (2 * 4 + 10), and then reset
    and not charged. *)
Definition ex_seasonal : vnode := ex_licence [ex_ref "a"; ex_ref "out"] (Some [2; 1]%Q) (Some (RsSeasonal 1 4 30 9)) None.
Definition ex_days : list (timestep * list Q) := [(C14_day 2020 9 30 0 1, [4; 3; 3]%Q); (C14_day 2020 10 1 1 1, [4; 3; 3]%Q)].
Definition ex_volumes (sc : schema) (inputs : list (timestep * list Q)) (f : sim_step -> net_state) : list Q :=
  map (fun p => volume_or_zero (get_vs_volume (f p) 0)) (ex_steps sc inputs).
Example C67_storage_example : let sc := ex_licence_file ex_seasonal in
  load_schema ex_key None sc = Ok (ex_added sc) /\ build_network (declaration (ex_added sc)) = Ok (ex_net sc) /\
  run (ex_net sc) F64_MAX [] (ex_steps sc ex_days) /\ numbered (ex_steps sc ex_days) /\ length (ex_steps sc ex_days) = 2 /\
  Forall (one_part sc) [ex_ref "a"; ex_ref "out"] /\
  in_season (Some (RsSeasonal 1 4 30 9)) (Date 2020 9 30) /\ ~ in_season (Some (RsSeasonal 1 4 30 9)) (Date 2020 10 1) /\
  Forall2 Qeq (ex_volumes sc ex_days sim_start) [60; 60]%Q /\ Forall2 Qeq (ex_volumes sc ex_days sim_end) [42; 60]%Q.
Proof.
  cbv zeta. split; [vm_compute; reflexivity|]. split; [vm_compute; reflexivity|]. split; [apply ex_run; vm_compute; reflexivity|]. split; [apply ex_numbered; vm_compute; reflexivity|].
  split; [vm_compute; reflexivity|]. split; [repeat constructor; eexists; vm_compute; reflexivity|]. split; [apply season_active; vm_compute; reflexivity|].
  split; [intros N; apply season_active in N; vm_compute in N; discriminate N|]. split; vm_compute; repeat constructor.
Qed.
(** Every model file has its reset times. *)
Example C67_reset_times : exists R, file_reset (Some (RsSeasonal 1 4 30 9)) (ex_steps (ex_licence_file ex_seasonal) ex_days) R /\ R 0 /\ R 1.
Proof.
  exists (fun _ => True). split; [|split; exact I]. intros k p Hk. cbv zeta. split; [intros _|intros _; exact I].
  assert (Et : map sim_t (ex_steps (ex_licence_file ex_seasonal) ex_days) = map fst ex_days) by (vm_compute; reflexivity).
  apply (map_nth_error sim_t) in Hk. rewrite Et in Hk. destruct k as [|[|k]]; [left; reflexivity| |destruct k; discriminate Hk].
  right. left. assert (Ek : C14_day 2020 10 1 1 1 = sim_t p) by (change (Some (C14_day 2020 10 1 1 1) = Some (sim_t p)) in Hk; congruence). rewrite <- Ek. intros N. apply season_active in N. vm_compute in N. discriminate N.
Qed.

(** A window of seven days of daily time-steps, and of 15 days of weekly ones. *)
Example C67_window_example : window_steps (Some NS_DAY) (SwDays 7) 7 /\ window_steps (Some (7 * NS_DAY)%Z) (SwDays 15) 2 /\
  forall v, v = ex_licence [ex_ref "a"] None None (Some (SwDays 15)) ->
    (exists a, load_schema ex_key (Some (7 * NS_DAY)%Z) (ex_licence_file v) = Ok a /\ map vb_window (ad_vss a) = [Some 2]) /\
    load_schema ex_key (Some (16 * NS_DAY)%Z) (ex_licence_file v) = Err (InvalidRollingWindow "licence") /\
    load_schema ex_key None (ex_licence_file v) = Err (InvalidRollingWindow "licence").
Proof.
  split; [exists 1; repeat split; lia|]. split; [exists 7; repeat split; lia|]. intros v ->.
  split; [eexists; split; vm_compute; reflexivity|]. split; vm_compute; reflexivity.
Qed.
(** A rolling window of one day from 60 of 100: the missing 40 are given back
    with the first day's use of 4 outstanding; then the second day's. *)
Definition ex_rolling : vnode := ex_licence [ex_ref "a"] None None (Some (SwTimesteps 1)).
Definition ex_rolling_days : list (timestep * list Q) := [(C14_day 2020 9 30 0 1, [4; 3; 3]%Q); (C14_day 2020 10 1 1 1, [5; 3; 3]%Q)].
Example C67_rolling_example : let sc := ex_licence_file ex_rolling in
  run (ex_net sc) F64_MAX [] (ex_steps sc ex_rolling_days) /\ numbered (ex_steps sc ex_rolling_days) /\
  Forall2 Qeq (ex_volumes sc ex_rolling_days sim_end) [96; 95]%Q /\
  Forall (fun p => vss_within (ex_net sc) (sim_env p) (sim_start p)) (ex_steps sc ex_rolling_days).
Proof.
  cbv zeta. split; [apply ex_run; vm_compute; reflexivity|]. split; [apply ex_numbered; vm_compute; reflexivity|]. split; [vm_compute; repeat constructor|].
  set (sc := ex_licence_file ex_rolling).
  assert (H : forall p, In p (ex_steps sc ex_rolling_days) -> (match get_vs_volume (sim_start p) 0 with Ok q => Qle_bool 0 q && Qle_bool q 100 | _ => false end) = true).
  { apply forallb_forall. vm_compute. reflexivity. }
  assert (Ev : exists v, net_vss (ex_net sc) = [v] /\ v_minv v = None /\ v_maxv v = Some (MConst 100)) by (eexists; split; [vm_compute; reflexivity | split; reflexivity]).
  destruct Ev as (v0 & Ev & E1 & E2).
  apply Forall_forall. intros p Hp k v Hk. specialize (H p Hp). clear Hp. rewrite Ev in Hk. destruct k as [|k]; [|destruct k; discriminate]. injection Hk as <-. rewrite E1, E2.
  destruct (get_vs_volume (sim_start p) 0) as [q| |]; try discriminate H. exists q. split; [reflexivity|]. apply andb_prop in H.
  destruct H as [H1 H2]. apply Qle_bool_iff in H1, H2. split; assumption.
Qed.

(** A licence that counts the piecewise link, of two parts, twice and the link
    once: one factor for each reference, but they are matched with the parts.
    The link is not charged at all: 60 - (2 * 3 + 1) is left, not 60 - (2 * 4 +
    5). *)
Theorem C67_factors_refuted : exists sc x st2 refs fs qs q2,
  let v := VStorage "licence" refs (Some fs) None None (Some (UConst 100)) (SIAbsolute 60) None None None in
  let t := C14_day 2020 6 1 0 1 in let e := fun _ : nat => 0%Q in
  exists st,
  load_schema ex_key None sc = Ok (ex_added sc) /\ build_network (declaration (ex_added sc)) = Ok (ex_net sc) /\ state_of (ex_net sc) st /\
  solved (ex_net sc) F64_MAX [] [] (lp_state_of st e t) x /\ after_solve (ex_net sc) e t (edge_flow (ex_net sc) x) st = Ok st2 /\
  In v (sc_vnodes sc) /\ length fs = length refs /\ vnode_volume_is (ex_added sc) st v (Some AtVolume) 60 /\
  Forall2 (ref_flow sc (ex_added sc) (ex_net sc) x) refs qs /\ vnode_volume_is (ex_added sc) st2 v (Some AtVolume) q2 /\
  (q2 == 53)%Q /\ (60 - ts_days t * dot (ref_factors refs (Some fs)) qs == 47)%Q.
Proof.
  set (v := ex_licence [ex_ref "b"; ex_ref "a"] (Some [2; 1]%Q) None None). set (sc := ex_licence_file v). set (x := rel_x [5; 3; 1]%Q).
  set (steps := ex_steps sc [(C14_day 2020 6 1 0 1, [5; 3; 1]%Q)]).
  assert (Hr : run (ex_net sc) F64_MAX [] steps) by (apply ex_run; vm_compute; reflexivity).
  assert (Hn : map sim_t steps = [C14_day 2020 6 1 0 1]) by (vm_compute; reflexivity).
  assert (Hp : exists p, steps = [p]) by (destruct steps as [|p [|? ?]]; [discriminate Hn | exists p; reflexivity | discriminate Hn]). destruct Hp as (p & Ep).
  assert (Hi : nth_error steps 0 = Some p) by (rewrite Ep; reflexivity). destruct (run_nth _ _ _ _ Hr 0 p Hi) as (_ & Hs & Ha & _). cbn [firstn map] in Hs.
  destruct (run_states _ _ _ _ Hr) as (_ & HF). rewrite Ep in HF. inversion HF as [|? ? (S1 & _) _]; subst.
  assert (Et : sim_t p = C14_day 2020 6 1 0 1) by (rewrite Ep in Hn; injection Hn as Hn; exact Hn).
  assert (Ex : sim_x p = x /\ sim_env p = (fun _ => 0%Q)).
  { assert (G : map (fun p => (sim_x p, sim_env p)) steps = [(x, fun _ => 0%Q)]) by reflexivity. rewrite Ep in G. injection G as G1 G2. split; assumption. }
  assert (Ev : map (fun p => (get_vs_volume (sim_start p) 0)) steps = [Ok 60%Q]) by (vm_compute; reflexivity).
  assert (Ev2 : match map (fun p => (get_vs_volume (sim_end p) 0)) steps with [Ok q] => Qeq_bool q 53 | _ => false end = true) by (vm_compute; reflexivity).
  destruct Ex as [Ex Ee]. unfold sim_lp in Hs. unfold sim_flows in Ha. rewrite Ex, Ee, Et in Ha. rewrite Ex, Ee, Et in Hs.
  rewrite Ep in Ev, Ev2. cbn [map] in Ev, Ev2. injection Ev as Ev. destruct (get_vs_volume (sim_end p) 0) as [q2| |] eqn:Eq2; try discriminate Ev2. apply Qeq_bool_iff in Ev2.
  clear Hr Hn Hi HF Ep. exists sc, x, (sim_end p), [ex_ref "b"; ex_ref "a"], [2; 1]%Q, [4; 5]%Q, q2. cbv zeta. exists (sim_start p).
  assert (Ei : vs_index (ex_added sc) (whole "licence") = Some 0) by (vm_compute; reflexivity).
  split; [vm_compute; reflexivity|]. split; [vm_compute; reflexivity|]. split; [exact S1|]. split; [exact Hs|]. split; [exact Ha|]. split; [left; reflexivity|]. split; [reflexivity|].
  split; [exists (VmVsVolume (whole "licence")), (Ok 60%Q); split; [reflexivity|]; cbn [vvolume_value]; rewrite Ei; cbn [option_map]; rewrite Ev; split; [reflexivity | exists 60%Q; split; reflexivity]|].
  split.
  { constructor; [|constructor; [|constructor]].
    - eexists. split; [right; right; left; reflexivity|]. split; [reflexivity|]. eexists. eexists. split; [reflexivity|]. split; vm_compute; reflexivity.
    - eexists. split; [right; left; reflexivity|]. split; [reflexivity|]. eexists. eexists. split; [reflexivity|]. split; vm_compute; reflexivity. }
  split; [exists (VmVsVolume (whole "licence")), (Ok q2); split; [reflexivity|]; cbn [vvolume_value]; rewrite Ei; cbn [option_map]; rewrite Eq2; split; [reflexivity | exists q2; split; reflexivity]|].
  split; [exact Ev2 | vm_compute; reflexivity].
Qed.
Print Assumptions C67_factors_refuted.

(** *** Aggregated storages *)
(** A reservoir that holds 10 of 20 and a piecewise storage that holds 30 of 80. *)
Definition ex_stores : schema :=
  mkSchema [SInput "in" None None None; SStorage "s" (SchemaNodes.mkStorage None None (Some (UConst 20)) (SIAbsolute 10));
            SPiecewiseStorage "p" (UConst 80) None None [mkStore (UConst (1#2)) None] (SIAbsolute 30); SOutput "out" None None None]
    [VAggStorage "both" [ex_ref "s"; ex_ref "p"]] [ex_edge "in" "s"; ex_edge "in" "p"; ex_edge "s" "out"; ex_edge "p" "out"].
Example C67_stores_example : let a := ex_added ex_stores in let st := initial_state (ex_net ex_stores) in
  load_schema ex_key None ex_stores = Ok a /\ build_network (declaration a) = Ok (ex_net ex_stores) /\ state_of (ex_net ex_stores) st /\
  agg_stores a (whole "both") = Some [1; 2; 3] /\ In (VAggStorage "both" [ex_ref "s"; ex_ref "p"]) (sc_vnodes ex_stores).
Proof.
  cbv zeta. split; [vm_compute; reflexivity|]. split; [vm_compute; reflexivity|]. split; [apply initial_state_of|]. split; [vm_compute; reflexivity | left; reflexivity].
Qed.
