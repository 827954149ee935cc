(** Properties C14-C18 and C50: volumes, reported flows, virtual storages and
    aggregated storages over simulated time-steps. *)
From Verif Require Import Base Calendar Timestep TimestepLemmas Network NetworkBuild NetworkSpec NetworkBuildLemmas Lp LpSpec
  LpRowLemmas LpUpdateLemmas LpRelLemmas NetState NetStateSpec NetStateLemmas NetRunLemmas NetHistLemmas VsLemmas Props_Network Props_Lp.
Open Scope nat_scope.

(** ** C14: storages keep their balance and their limits *)

(** Over one solved time-step. *)
Theorem C14_storage_balance : forall net fm order ss e t st x st2 i n,
  wf_network net -> state_of net st -> solved net fm order ss (lp_state_of st e t) x -> (0 < ts_days t)%Q ->
  after_solve net e t (edge_flow net x) st = Ok st2 ->
  nth_error (net_nodes net) i = Some n -> n_type n = TStorage -> ~ in_exclusive_set net i ->
  exists v v2, get_node_volume st i = Ok v /\ get_node_volume st2 i = Ok v2 /\
    (v2 == v + ts_days t * (inflow net (edge_flow net x) i - outflow net (edge_flow net x) i))%Q /\
    (lower_volume e (n_minv n) <= v2 <= upper_volume e (n_maxv n))%Q.
Proof. intros net fm order ss e t st x st2 i n wf Hst Hx Hd H Hn Ht He. exact (solved_step_volume net wf fm order ss e t st x Hst Hx Hd st2 i n H Hn Ht He). Qed.
Print Assumptions C14_storage_balance.

(** The check at the end of the time-step does not panic. *)
Theorem C14_never_panics : forall net fm order ss e t st x,
  wf_network net -> state_of net st -> solved net fm order ss (lp_state_of st e t) x -> (0 < ts_days t)%Q ->
  storages_not_exclusive net -> vs_on_flow_nodes net -> vss_within net e st ->
  exists st2, after_solve net e t (edge_flow net x) st = Ok st2.
Proof. intros net fm order ss e t st x wf Hst Hx Hd H1 H2 H3. exact (solved_never_panics net wf fm order ss e t st x Hst Hx Hd H1 H2 H3). Qed.
Print Assumptions C14_never_panics.

(** Over a simulation of any length: the declared initial volume plus all net
    inflows. *)
Theorem C14_volume_history : forall net fm order p0 steps i n,
  wf_network net -> run net fm order (p0 :: steps) -> numbered (p0 :: steps) ->
  nth_error (net_nodes net) i = Some n -> n_type n = TStorage -> ~ in_exclusive_set net i ->
  exists v, get_node_volume (end_state net (p0 :: steps)) i = Ok v /\
    (v == starting_volume (sim_env p0) (n_maxv n) (n_init n) + qsum (map (net_gain net i) (p0 :: steps)))%Q /\
    let p := last (p0 :: steps) p0 in
    (lower_volume (sim_env p) (n_minv n) <= v <= upper_volume (sim_env p) (n_maxv n))%Q.
Proof.
  intros net fm order p0 steps i n wf Hr Hnum Hn Ht He. destruct (run_volume net wf fm order (p0 :: steps) i n Hr Hnum Hn Ht He) as (v & V & E & B).
  exists v. split; [exact V|]. split; [exact E|]. cbn zeta.
  assert (Hl : nth_error (p0 :: steps) (length (p0 :: steps) - 1) = Some (last (p0 :: steps) p0)).
  { clear. cbn [length]. replace (S (length steps) - 1) with (length steps) by lia.
    assert (G : forall (l : list sim_step) x d, nth_error (x :: l) (length l) = Some (last (x :: l) d)).
    { induction l as [|y l IH]; intros x d; [reflexivity|]. cbn [length nth_error]. rewrite (IH y d). reflexivity. }
    apply G. }
  rewrite Hl in B. exact B.
Qed.
Print Assumptions C14_volume_history.

(** ** C15: the state reports the solution *)
Theorem C15_edge_flows : forall net e t f st st2 k,
  state_of net st -> after_solve net e t f st = Ok st2 -> k < length (net_edges net) -> reports (get_edge_flow st2 k) (f k).
Proof. intros. eapply after_solve_edges; eassumption. Qed.
Print Assumptions C15_edge_flows.
Theorem C15_node_flows : forall net e t f st st2 i,
  state_of net st -> after_solve net e t f st = Ok st2 -> i < length (net_nodes net) ->
  reports (get_in_flow st2 i) (inflow net f i) /\ reports (get_out_flow st2 i) (outflow net f i).
Proof. intros. eapply after_solve_flows; eassumption. Qed.
Print Assumptions C15_node_flows.
Theorem C15_network_balance : forall net fm order ss e t st x st2,
  wf_network net -> state_of net st -> solved net fm order ss (lp_state_of st e t) x -> (0 < ts_days t)%Q ->
  storages_not_exclusive net -> after_solve net e t (edge_flow net x) st = Ok st2 ->
  let f := edge_flow net x in
  (total_stored st2 == total_stored st + ts_days t * (over_type net TInput (outflow net f) - over_type net TOutput (inflow net f)))%Q.
Proof. intros net fm order ss e t st x st2 wf. exact (solved_total net wf fm order ss e t st x st2). Qed.
Print Assumptions C15_network_balance.
(** For any allocation balanced at links, before volumes are cut to their limits. *)
Theorem C15_network_balance_written : forall net t f st st1,
  wf_network net -> state_of net st -> balanced net f -> write_flows net t f st = Ok st1 ->
  (total_stored st1 == total_stored st + ts_days t * (over_type net TInput (outflow net f) - over_type net TOutput (inflow net f)))%Q.
Proof. intros net t f st st1 wf Hst Hb H. rewrite <- (storage_gain net wf f Hb). exact (stored_after net f t st st1 Hst H). Qed.
Print Assumptions C15_network_balance_written.
(** Any flows can be written to any state of the network. *)
Theorem C15_write_back_succeeds : forall net t f st, wf_network net -> state_of net st -> exists st1, write_flows net t f st = Ok st1.
Proof. intros net t f st wf Hst. exact (write_flows_succeeds net wf t f st Hst). Qed.
Print Assumptions C15_write_back_succeeds.

(** ** C16: virtual storages are charged with the flows of their nodes *)
Theorem C16_virtual_storage_use : forall net fm order ss e t st x st2 k v q,
  wf_network net -> state_of net st -> solved net fm order ss (lp_state_of st e t) x -> (0 < ts_days t)%Q ->
  after_solve net e t (edge_flow net x) st = Ok st2 -> nth_error (net_vss net) k = Some v ->
  get_vs_volume st k = Ok q -> (lower_volume e (v_minv v) <= q <= upper_volume e (v_maxv v))%Q ->
  exists q2, get_vs_volume st2 k = Ok q2 /\ (lower_volume e (v_minv v) <= q2 <= upper_volume e (v_maxv v))%Q /\
    if vs_is_active (v_period v) (ts_day t) then (q2 == q - ts_days t * vs_use net (edge_flow net x) v)%Q else q2 = q.
Proof. intros net fm order ss e t st x st2 k v q wf Hst Hx Hd H Hk Hq B. exact (solved_step_vs net wf fm order ss e t st x Hst Hx Hd st2 k v q H Hk Hq B). Qed.
Print Assumptions C16_virtual_storage_use.
(** For any flows balanced at links, feasible or not, if the time-step does not
    panic: the limits hold and the charge is right up to the tolerance. *)
Theorem C16_any_flows : forall net e t f st st2 k v,
  state_of net st -> balanced net f -> after_solve net e t f st = Ok st2 -> nth_error (net_vss net) k = Some v ->
  exists q q2, get_vs_volume st k = Ok q /\ get_vs_volume st2 k = Ok q2 /\
    (lower_volume e (v_minv v) <= q2 <= upper_volume e (v_maxv v))%Q /\
    let use := if vs_is_active (v_period v) (ts_day t) then vs_use net f v else 0%Q in
    (Qabs (q2 - (q - ts_days t * use)) <= 1 # 1000000)%Q.
Proof.
  intros net e t f st st2 k v Hst Hb H Hk. destruct (after_solve_vs net e t f st st2 k v Hst Hb H Hk) as (s & s2 & raw & q & Hs & Hs2 & Hq & Hraw & _ & _ & B & Htol & _).
  unfold get_vs_volume. rewrite Hs, Hs2. eexists _, _. split; [reflexivity|]. split; [reflexivity|]. split; [exact B|]. cbn zeta.
  assert (E : (raw == s_volume (vss_storage s) - ts_days t * (if vs_is_active (v_period v) (ts_day t) then vs_use net f v else 0))%Q).
  { destruct (vs_is_active (v_period v) (ts_day t)); destruct Hraw as [-> _]; [rewrite Hq|]; ring. }
  rewrite <- E. exact Htol.
Qed.
Print Assumptions C16_any_flows.

(** ** C17: resets *)
Theorem C17_resets : forall net fm order steps k v R,
  wf_network net -> run net fm order steps -> numbered steps -> nth_error (net_vss net) k = Some v -> v_window v = None ->
  reset_rule v steps R ->
  forall j p, nth_error steps j = Some p ->
  exists q, get_vs_volume (sim_start p) k = Ok q /\
    (R j -> (q == reset_target (sim_env p) v)%Q) /\
    (~ R j -> get_vs_volume (end_state net (firstn j steps)) k = Ok q).
Proof. intros net fm order steps k v R wf Hr Hnum Hk Hw HR j p Hj. exact (reset_volumes net wf fm order steps Hr Hnum k v Hk R HR j p Hj Hw). Qed.
Print Assumptions C17_resets.
(** Every sequence of time-steps has a set of reset times, and only one. *)
Theorem C17_reset_times_exist : forall v steps, exists R, reset_rule v steps R.
Proof. exact reset_rule_exists. Qed.
Print Assumptions C17_reset_times_exist.
Theorem C17_reset_times_unique : forall v steps R R', reset_rule v steps R -> reset_rule v steps R' ->
  forall j, j < length steps -> (R j <-> R' j).
Proof.
  intros v steps R R' H H'. induction j as [j IH] using lt_wf_ind. intros Hj. destruct (nth_error_lt_Some _ _ Hj) as (p & Hp).
  rewrite (H j p Hp), (H' j p Hp). destruct (v_reset v) as [|d m|n]; [tauto | tauto|].
  split; (intros [?|[?|(i & pi & Hi & Hpi & HRi & Hb & Hle)]]; [left; assumption | right; left; assumption|]; right; right; exists i, pi; split; [exact Hi|]; split; [exact Hpi|];
    split; [apply IH; [exact Hi | lia | exact HRi]|]; split; [|exact Hle]; intros l Hl HRl; apply (Hb l Hl), IH; [lia | lia | exact HRl]).
Qed.
Print Assumptions C17_reset_times_unique.

(** ** C18: rolling windows *)
(** Proved for time-steps of one length [d], from a reset at step [r] up to
    step [j], with the volume within its limits when each time-step is solved.
    [m] is the number of time-steps since the reset.  Missing: time-steps of
    varying length, for which the property fails (below).  The use deemed to
    have been made before the reset is (max - initial) over the window, spread
    evenly; it is returned as a daily rate, that is [d] times (see below). *)
Theorem C18_rolling_window_partial : forall net fm order steps k v n R d r pr j,
  wf_network net -> run net fm order steps -> numbered steps -> nth_error (net_vss net) k = Some v ->
  0 < n -> v_window v = Some n -> reset_rule v steps R ->
  nth_error steps r = Some pr -> R r -> r <= j -> j < length steps -> (forall i, r < i <= j -> ~ R i) ->
  (forall i p, r <= i <= j -> nth_error steps i = Some p ->
    vs_is_active (v_period v) (ts_day (sim_t p)) = true /\ (ts_days (sim_t p) == d)%Q /\ vss_within net (sim_env p) (sim_start p)) ->
  let m := S j - r in
  exists q, get_vs_volume (end_state net (firstn (S j) steps)) k = Ok q /\
    (q == reset_target (sim_env pr) v
          + d * (inject_Z (Z.of_nat (Nat.min m n)) / inject_Z (Z.of_nat n))
              * (upper_volume (sim_env pr) (v_maxv v) - starting_volume (sim_env pr) (v_maxv v) (v_init v))
          - d * charges net v (skipn (S j - Nat.min m n) (firstn (S j) steps)))%Q.
Proof.
  intros net fm order steps k v n R d r pr j wf Hr Hnum Hk Hn Hw HR Hpr HRr Hrj Hj Hno Hset.
  exact (rolling_volume net wf fm order steps Hr Hnum k v Hk n Hn Hw R HR d r pr Hpr HRr j Hrj Hj Hset Hno).
Qed.
Print Assumptions C18_rolling_window_partial.

(** ** C50: aggregated storages *)
Theorem C50_proportional_volume : forall st stores vs ms,
  rmap (get_node_volume st) stores = Ok vs -> rmap (get_node_max_volume st) stores = Ok ms ->
  exists q, agg_storage_proportional st stores = Ok q /\
    (qsum ms == 0 -> q == 1)%Q /\ (~ qsum ms == 0 -> q == qsum vs / qsum ms)%Q.
Proof.
  intros st stores vs ms H1 H2. rewrite (agg_proportional st stores vs ms H1 H2). destruct (Qeq_bool (qsum ms) 0) eqn:E.
  - apply Qeq_bool_iff in E. eexists. split; [reflexivity|]. split; [reflexivity | intros H; contradiction].
  - apply Qeq_bool_neq in E. eexists. split; [reflexivity|]. split; [intros H; contradiction | reflexivity].
Qed.
Print Assumptions C50_proportional_volume.
Theorem C50_between_zero_and_one : forall st stores vs ms q,
  rmap (get_node_volume st) stores = Ok vs -> rmap (get_node_max_volume st) stores = Ok ms ->
  Forall2 (fun v m => 0 <= v <= m)%Q vs ms -> agg_storage_proportional st stores = Ok q -> (0 <= q <= 1)%Q.
Proof.
  intros st stores vs ms q H1 H2 HF H. rewrite (agg_proportional st stores vs ms H1 H2) in H. injection H as <-.
  destruct (sums_ordered _ _ HF) as [S1 S2]. destruct (Qeq_bool (qsum ms) 0) eqn:E; [split; discriminate|]. apply Qeq_bool_neq in E.
  assert (Hp : (0 < qsum ms)%Q) by (destruct (Qlt_le_dec 0 (qsum ms)) as [L|L]; [exact L | exfalso; apply E; lra]).
  split; [apply Qle_shift_div_l | apply Qle_shift_div_r]; try exact Hp; lra.
Qed.
Print Assumptions C50_between_zero_and_one.
(** One store: the store's own proportional volume. *)
Theorem C50_single_store : forall st i q, get_node_proportional_volume st i = Ok q -> reports (agg_storage_proportional st [i]) q.
Proof.
  intros st i q H. unfold agg_storage_proportional, get_node_proportional_volume, get_node_volume, get_node_max_volume in *. cbn [rmap].
  destruct (nth_error (ns_nodes st) i) as [[a|a]|]; try discriminate. cbn [rbind]. injection H as <-. unfold proportional_volume.
  assert (E : forall z, (qsum [z] == z)%Q) by (intros z; unfold qsum; cbn [fold_right]; ring).
  unfold reports. destruct (Qeq_bool (qsum [s_max a]) 0) eqn:E1.
  - apply Qeq_bool_iff in E1. rewrite E in E1. apply Qeq_bool_iff in E1. rewrite E1. eexists. split; reflexivity.
  - apply Qeq_bool_neq in E1. rewrite E in E1. destruct (Qeq_bool (s_max a) 0) eqn:E2; [apply Qeq_bool_iff in E2; contradiction|].
    eexists. split; [reflexivity|]. rewrite !E. reflexivity.
Qed.
Print Assumptions C50_single_store.
(** After a time-step a store's proportional volume is its volume over the
    maximum volume of that time-step. *)
Theorem C50_store_proportional : forall net e t f st st2 i n,
  state_of net st -> after_solve net e t f st = Ok st2 -> nth_error (net_nodes net) i = Some n -> n_type n = TStorage ->
  exists v, get_node_volume st2 i = Ok v /\
    ((upper_volume e (n_maxv n) == 0)%Q -> get_node_proportional_volume st2 i = Ok 1%Q) /\
    (~ (upper_volume e (n_maxv n) == 0)%Q -> reports (get_node_proportional_volume st2 i) (v / upper_volume e (n_maxv n))).
Proof.
  intros net e t f st st2 i n Hst H Hn Ht. destruct (after_solve_volume net e t f st st2 i n Hst H Hn Ht) as (v & v2 & raw & _ & V2 & M2 & _).
  exists v2. split; [exact V2|]. unfold get_node_proportional_volume, get_node_volume, get_node_max_volume in *.
  destruct (nth_error (ns_nodes st2) i) as [[a|a]|]; try discriminate V2. injection V2 as <-. injection M2 as M2.
  change (get_max e (n_maxv n)) with (upper_volume e (n_maxv n)) in M2. unfold proportional_volume. rewrite M2. split; intros Hz.
  - apply Qeq_bool_iff in Hz. rewrite Hz. reflexivity.
  - destruct (Qeq_bool (upper_volume e (n_maxv n)) 0) eqn:E; [apply Qeq_bool_iff in E; contradiction|]. eexists. split; reflexivity.
Qed.
Print Assumptions C50_store_proportional.
Theorem C50_virtual_storage_proportional : forall net e t f st st2 k v,
  state_of net st -> balanced net f -> after_solve net e t f st = Ok st2 -> nth_error (net_vss net) k = Some v ->
  exists q, get_vs_volume st2 k = Ok q /\
    ((upper_volume e (v_maxv v) == 0)%Q -> get_vs_proportional_volume st2 k = Ok 1%Q) /\
    (~ (upper_volume e (v_maxv v) == 0)%Q -> reports (get_vs_proportional_volume st2 k) (q / upper_volume e (v_maxv v))).
Proof.
  intros net e t f st st2 k v Hst Hb H Hk. destruct (after_solve_vs net e t f st st2 k v Hst Hb H Hk) as (s & s2 & raw & q & _ & Hs2 & _ & _ & _ & M2 & _).
  unfold get_vs_proportional_volume, get_vs_volume. rewrite Hs2. eexists. split; [reflexivity|].
  change (get_max e (v_maxv v)) with (upper_volume e (v_maxv v)) in M2. unfold proportional_volume. rewrite M2. split; intros Hz.
  - apply Qeq_bool_iff in Hz. rewrite Hz. reflexivity.
  - destruct (Qeq_bool (upper_volume e (v_maxv v)) 0) eqn:E; [apply Qeq_bool_iff in E; contradiction|]. eexists. split; reflexivity.
Qed.
Print Assumptions C50_virtual_storage_proportional.
Theorem C50_volume_is_total : forall st stores vs, rmap (get_node_volume st) stores = Ok vs -> reports (agg_storage_volume st stores) (qsum vs).
Proof. intros st stores vs H. unfold reports, agg_storage_volume. rewrite H. eexists. split; reflexivity. Qed.
Print Assumptions C50_volume_is_total.

(** ** Concrete cases *)
(** The network of C09 with a licence of the given rules on the demand. *)
Definition C14_builder (init maxv : Q) (reset : vs_reset) (window : option nat) : net_builder :=
  mkNetB (b_nodes C37_builder) (b_edges C37_builder) (b_aggs C37_builder)
    [mkVb (nm "licence") [nm "demand"] None (IVAbsolute init) None (Some (MConst maxv)) reset ResetInitial window AlwaysActive None].
Definition C14_net init maxv reset window : network :=
  match build_network (C14_builder init maxv reset window) with Ok n => n | _ => mkNet [] [] [] [] end.
Definition C14_day (y m d : Z) (k days : Z) : timestep := Timestep (DateTime (Date y m d) 0) k (days * NS_PER_DAY).
(** Inflow, and what reaches the river and the demand. *)
Definition C14_input (t : timestep) (i riv dem : Q) : timestep * env * (nat -> Q) :=
  (t, fun _ => i, fun c => nth c [i; riv; dem]%Q 0%Q).

Definition C14_licence := C14_net 50 50 (ResetMonths 1) None.
Definition C14_steps : list sim_step :=
  match simulate C14_licence F64_MAX [] [] (initial_state C14_licence)
    [C14_input (C14_day 2020 2 28 0 1) 7 2 4; C14_input (C14_day 2020 2 29 1 1) 3 2 3; C14_input (C14_day 2020 3 1 2 1) 0 2 4] with
  | Some l => l | None => [] end.
Example C14_wf : wf_network C14_licence.
Proof. apply (C37_built_well_formed (C14_builder 50 50 (ResetMonths 1) None)). vm_compute. reflexivity. Qed.
Example C14_run : run C14_licence F64_MAX [] C14_steps /\ length C14_steps = 3.
Proof.
  split; [|vm_compute; reflexivity]. unfold C14_steps. destruct (simulate _ _ _ _ _ _) eqn:E; [|apply run_start].
  eapply (simulate_runs C14_licence F64_MAX [] _ ltac:(apply valid_order_nil; vm_compute; reflexivity) []); [apply run_start | exact E].
Qed.
Lemma C14_times : map sim_t C14_steps = [C14_day 2020 2 28 0 1; C14_day 2020 2 29 1 1; C14_day 2020 3 1 2 1].
Proof. vm_compute. reflexivity. Qed.
Example C14_numbered : numbered C14_steps.
Proof.
  intros k p H. apply (map_nth_error sim_t) in H. rewrite C14_times in H. destruct p as [t ? ? ? ?]. cbn [sim_t] in *.
  destruct k as [|[|[|[|k]]]]; try discriminate H; apply Some_inj in H; subst t; split; vm_compute; reflexivity.
Qed.
Example C14_no_sets : storages_not_exclusive C14_licence /\ vs_on_flow_nodes C14_licence.
Proof.
  split.
  - intros i n _ _ (a & ns & [<- | []] & (mn & mx & Hr) & _). discriminate.
  - intros v i n [<- | []] [<- | []] Hn. vm_compute in Hn. injection Hn as <-. discriminate.
Qed.
(** The reservoir: 50 + (7-6) + (3-5) + (0-6); the licence: 50-4, -3, reset, -4. *)
Example C14_volumes :
  Forall2 (fun p ab => volume_or_zero (get_node_volume (sim_end p) 1) == fst ab /\ volume_or_zero (get_vs_volume (sim_end p) 0) == snd ab)%Q
    C14_steps [(51, 46); (49, 43); (43, 46)]%Q.
Proof. vm_compute. repeat constructor. Qed.
Example C17_rule : reset_rule {| v_nodes := [3]; v_factors := [1%Q]; v_init := IVAbsolute 50; v_minv := None; v_maxv := Some (MConst 50); v_reset := ResetMonths 1;
    v_reset_volume := ResetInitial; v_window := None; v_period := AlwaysActive; v_cost := None |} C14_steps (fun j => j = 0 \/ j = 2).
Proof.
  intros k p H. cbv zeta. cbn [v_period v_reset]. set (d := ts_day (sim_t p)). pose proof (map_nth_error sim_t _ _ H) as Ht. rewrite C14_times in Ht. clear H.
  destruct k as [|[|[|[|k]]]]; try discriminate Ht; apply Some_inj in Ht.
  - split; intros _; left; reflexivity.
  - split; [intros [?|?]; discriminate|]. intros [?|[?|(j & pj & Hj & Hpj & _ & _ & Hle)]]; try discriminate.
    destruct j; [|lia]. apply (map_nth_error sim_t) in Hpj. rewrite C14_times in Hpj. apply Some_inj in Hpj. unfold d in Hle. rewrite <- Ht, <- Hpj in Hle.
    vm_compute in Hle. exfalso. apply Hle. reflexivity.
  - split; [|intros _; right; reflexivity]. intros _. right. right. destruct (nth_error C14_steps 0) as [p0|] eqn:E0.
    + exists 0, p0. split; [lia|]. split; [exact E0|]. split; [left; reflexivity|]. split; [intros i Hi; lia|].
      apply (map_nth_error sim_t) in E0. rewrite C14_times in E0. apply Some_inj in E0. unfold d. rewrite <- Ht, <- E0. vm_compute. discriminate.
    + apply nth_error_None in E0. pose proof (proj2 C14_run) as L. rewrite L in E0. lia.
Qed.
Example C17_licence : nth_error (net_vss C14_licence) 0 = Some {| v_nodes := [3]; v_factors := [1%Q]; v_init := IVAbsolute 50; v_minv := None; v_maxv := Some (MConst 50);
    v_reset := ResetMonths 1; v_reset_volume := ResetInitial; v_window := None; v_period := AlwaysActive; v_cost := None |}.
Proof. vm_compute. reflexivity. Qed.

(** A window of two days, starting with 40 of 50: five are returned on each of
    the first two days, the first day's use on the third. *)
Definition C18_licence := C14_net 40 50 ResetNever (Some 2).
Definition C18_steps : list sim_step :=
  match simulate C18_licence F64_MAX [] [] (initial_state C18_licence)
    [C14_input (C14_day 2020 2 28 0 1) 7 2 4; C14_input (C14_day 2020 2 29 1 1) 3 2 3; C14_input (C14_day 2020 3 1 2 1) 0 2 2] with
  | Some l => l | None => [] end.
Example C18_run : run C18_licence F64_MAX [] C18_steps /\
  Forall2 (fun p q => volume_or_zero (get_vs_volume (sim_end p) 0) == q)%Q C18_steps [41; 43; 45]%Q /\
  Forall (fun p => vss_within C18_licence (sim_env p) (sim_start p)) C18_steps.
Proof.
  split; [|split; [vm_compute; repeat constructor|]].
  - unfold C18_steps. destruct (simulate _ _ _ _ _ _) eqn:E; [|apply run_start].
    eapply (simulate_runs C18_licence F64_MAX [] _ ltac:(apply valid_order_nil; vm_compute; reflexivity) []); [apply run_start | exact E].
  - assert (H : forall p, In p C18_steps -> (match get_vs_volume (sim_start p) 0 with Ok q => Qle_bool 0 q && Qle_bool q 50 | _ => false end) = true).
    { apply forallb_forall. vm_compute. reflexivity. }
    apply Forall_forall. intros p Hp k v Hk. specialize (H p Hp). clear Hp. destruct k as [|k]; [|destruct k; discriminate]. injection Hk as <-.
    destruct (get_vs_volume (sim_start p) 0) as [q| |]; try discriminate H. exists q. split; [reflexivity|]. apply andb_prop in H.
    destruct H as [H1 H2]. apply Qle_bool_iff in H1, H2. split; assumption.
Qed.
Example C50_example : exists st, reports (get_node_proportional_volume st 1) (1#2)%Q /\ rmap (get_node_volume st) [1; 0] = Ok [50; 10]%Q /\
  rmap (get_node_max_volume st) [1; 0] = Ok [100; 20]%Q /\ reports (agg_storage_proportional st [1; 0]) (1#2)%Q.
Proof.
  exists (mkNs [NsStorage (mkStorage 10 20 flow_new); NsStorage (mkStorage 50 100 flow_new)] [] []).
  split; [|split; [|split]]; try (vm_compute; reflexivity); eexists; (split; [reflexivity|]); vm_compute; reflexivity.
Qed.

(** ** Where the properties fail *)

(** C17: a reset "on 1 April" does not happen when no time-step starts on that
    day.  Weekly time-steps from 30 March: the second starts on 6 April, the
    licence used in the first is not restored. *)
Definition C17_weekly := C14_net 50 50 (ResetDayOfYear 1 4) None.
Definition C17_weekly_steps : list sim_step :=
  match simulate C17_weekly F64_MAX [] [] (initial_state C17_weekly)
    [C14_input (C14_day 2020 3 30 0 7) 7 2 4; C14_input (C14_day 2020 4 6 1 7) 7 2 2] with
  | Some l => l | None => [] end.
Theorem C17_day_of_year_missed_refuted : exists net steps v p q,
  run net F64_MAX [] steps /\ nth_error (net_vss net) 0 = Some v /\ v_reset v = ResetDayOfYear 1 4 /\ v_window v = None /\
  map (fun p => ts_day (sim_t p)) steps = [Date 2020 3 30; Date 2020 4 6] /\
  nth_error steps 1 = Some p /\ get_vs_volume (sim_start p) 0 = Ok q /\ ~ (q == reset_target (sim_env p) v)%Q.
Proof.
  assert (H : match nth_error (net_vss C17_weekly) 0, nth_error C17_weekly_steps 1 with
              | Some v, Some p => match get_vs_volume (sim_start p) 0 with Ok q => negb (Qeq_bool q (reset_target (sim_env p) v)) | _ => false end
              | _, _ => false end = true) by (vm_compute; reflexivity).
  assert (Hv : match nth_error (net_vss C17_weekly) 0 with Some v => (v_reset v, v_window v) | None => (ResetNever, None) end = (ResetDayOfYear 1 4, None)) by (vm_compute; reflexivity).
  destruct (nth_error (net_vss C17_weekly) 0) as [v|] eqn:Ev; [|discriminate H].
  destruct (nth_error C17_weekly_steps 1) as [p|] eqn:Ep; [|discriminate H].
  destruct (get_vs_volume (sim_start p) 0) as [q| |] eqn:Eq; [|discriminate H|discriminate H]. injection Hv as H1 H2.
  exists C17_weekly, C17_weekly_steps, v, p, q. split; [|split; [exact Ev|split; [exact H1|split; [exact H2|split; [vm_compute; reflexivity|split; [exact Ep|split; [exact Eq|]]]]]]].
  - clear. unfold C17_weekly_steps. destruct (simulate _ _ _ _ _ _) eqn:E; [|apply run_start].
    eapply (simulate_runs C17_weekly F64_MAX [] _ ltac:(apply valid_order_nil; vm_compute; reflexivity) []); [apply run_start | exact E].
  - intros E. apply Qeq_bool_iff in E. rewrite E in H. discriminate H.
Qed.
Print Assumptions C17_day_of_year_missed_refuted.

(** C18: time-steps of different lengths.  A window of one time-step: at the
    start of the second, what the first took (31 days of flow 1) should be back
    and the volume 100 again; 29 days' worth is returned. *)
Definition C18_monthly := C14_net 100 100 ResetNever (Some 1).
Definition C18_monthly_steps : list sim_step :=
  match simulate C18_monthly F64_MAX [] [] (initial_state C18_monthly)
    [C14_input (C14_day 2020 1 1 0 31) 3 2 1; C14_input (C14_day 2020 2 1 1 29) 3 2 1] with
  | Some l => l | None => [] end.
Theorem C18_varying_steps_refuted : exists net steps v p q,
  run net F64_MAX [] steps /\ nth_error (net_vss net) 0 = Some v /\ v_window v = Some 1 /\ v_reset v = ResetNever /\
  (upper_volume (sim_env p) (v_maxv v) == starting_volume (sim_env p) (v_maxv v) (v_init v))%Q /\
  nth_error steps 1 = Some p /\ get_vs_volume (sim_end p) 0 = Ok q /\
  ~ (q == starting_volume (sim_env p) (v_maxv v) (v_init v) - ts_days (sim_t p) * charges net v [p])%Q.
Proof.
  assert (H : match nth_error (net_vss C18_monthly) 0, nth_error C18_monthly_steps 1 with
              | Some v, Some p => match get_vs_volume (sim_end p) 0 with
                  | Ok q => negb (Qeq_bool q (starting_volume (sim_env p) (v_maxv v) (v_init v) - ts_days (sim_t p) * charges C18_monthly v [p]))
                            && Qeq_bool (upper_volume (sim_env p) (v_maxv v)) (starting_volume (sim_env p) (v_maxv v) (v_init v))
                  | _ => false end
              | _, _ => false end = true) by (vm_compute; reflexivity).
  assert (Hv : match nth_error (net_vss C18_monthly) 0 with Some v => (v_reset v, v_window v) | None => (ResetNever, None) end = (ResetNever, Some 1)) by (vm_compute; reflexivity).
  destruct (nth_error (net_vss C18_monthly) 0) as [v|] eqn:Ev; [|discriminate H].
  destruct (nth_error C18_monthly_steps 1) as [p|] eqn:Ep; [|discriminate H].
  destruct (get_vs_volume (sim_end p) 0) as [q| |] eqn:Eq; [|discriminate H|discriminate H]. injection Hv as H1 H2. apply andb_prop in H. destruct H as [H H3].
  exists C18_monthly, C18_monthly_steps, v, p, q. split; [|split; [exact Ev|split; [exact H2|split; [exact H1|split; [apply Qeq_bool_iff; exact H3|split; [exact Ep|split; [exact Eq|]]]]]]].
  - clear. unfold C18_monthly_steps. destruct (simulate _ _ _ _ _ _) eqn:E; [|apply run_start].
    eapply (simulate_runs C18_monthly F64_MAX [] _ ltac:(apply valid_order_nil; vm_compute; reflexivity) []); [apply run_start | exact E].
  - intros E. apply Qeq_bool_iff in E. rewrite E in H. discriminate H.
Qed.
Print Assumptions C18_varying_steps_refuted.

(** C18, C16: the use deemed to have been made before the start is a volume but
    is returned as a daily rate.  Weekly time-steps, a window of two: 40 of 50
    becomes 40 + 7 * 5 before the first solve.  The programme has a solution,
    and writing it back panics. *)
Theorem C18_weekly_initial_use_panics_refuted : exists net e t st1 x,
  wf_network net /\ before_phase net e t (initial_state net) = Ok st1 /\ ts_index t = 0%Z /\ (ts_days t == 7)%Q /\
  solved net F64_MAX [] [] (lp_state_of st1 e t) x /\ after_solve net e t (edge_flow net x) st1 = Panic.
Proof.
  set (net := C14_net 40 50 ResetNever (Some 2)). set (e := fun _ : nat => 7%Q). set (t := C14_day 2020 3 30 0 7). set (x := fun c => nth c [7; 2; 0]%Q 0%Q).
  assert (H : match before_phase net e t (initial_state net) with
              | Ok st1 => solved_check net F64_MAX [] [] (lp_state_of st1 e t) x && match after_solve net e t (edge_flow net x) st1 with Panic => true | _ => false end
              | _ => false end = true) by (vm_compute; reflexivity).
  destruct (before_phase net e t (initial_state net)) as [st1| |] eqn:Eb; [|discriminate H|discriminate H]. apply andb_prop in H. destruct H as [H1 H2].
  exists net, e, t, st1, x. split; [apply (C37_built_well_formed (C14_builder 40 50 ResetNever (Some 2))); vm_compute; reflexivity|].
  split; [exact Eb|]. split; [reflexivity|]. split; [vm_compute; reflexivity|]. split.
  - apply solved_check_sound; [apply valid_order_nil; vm_compute; reflexivity | exact H1].
  - destruct (after_solve net e t (edge_flow net x) st1) as [| |] eqn:E; try discriminate H2. reflexivity.
Qed.
Print Assumptions C18_weekly_initial_use_panics_refuted.
