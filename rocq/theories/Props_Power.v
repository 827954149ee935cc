(** C46: hydropower targets and turbines. *)
From Coq Require Import Lqa Qminmax.
From Verif Require Import Base Calendar Network NetworkBuild NetworkSpec NetworkBuildLemmas Lp LpSpec LpRowLemmas LpUpdateLemmas LpRelLemmas NetHistLemmas
  Props_Network Props_Lp Formulas SchemaNodes SchemaMetrics SchemaSpec SchemaLemmas SchemaNodeLemmas Props_Schema SchemaRun SchemaRunCheck PowerSpec.
Local Open Scope string_scope.
Local Open Scope list_scope.
Local Open Scope nat_scope.

Lemma head_is h w head : working_head h w head -> exists hd, hydro_head h (option_map Ok w) = Ok hd /\ (hd == head)%Q.
Proof.
  unfold working_head, hydro_head. destruct w as [w|]; cbn [option_map rbind]; intros E; eexists; (split; [reflexivity|]); rewrite E; apply fmax_Qmax.
Qed.
Lemma above_true a b : (a < b)%Q -> Qle_bool b a = false.
Proof. intros H. destruct (Qle_bool b a) eqn:E; [|reflexivity]. apply Qle_bool_iff in E. lra. Qed.

(** The power reported for a flow is the power that flow produces at the
    working head. *)
Theorem C46_power : forall h flow w head, working_head h w head -> (hy_min_head h < head)%Q ->
  exists p, hydropower_after h (Some (Ok flow)) (option_map Ok w) = Ok p /\ produces h flow head p.
Proof.
  intros h flow w head Hw Hm. destruct (head_is h w head Hw) as (hd & E & Eh). unfold hydropower_after. cbn [rbind]. rewrite E. cbn [rbind].
  rewrite above_true by (rewrite Eh; exact Hm). eexists. split; [reflexivity|]. unfold produces, hydropower_calculation. rewrite Eh. ring.
Qed.
Print Assumptions C46_power.

(** The flow computed for a target produces exactly the target. *)
Theorem C46_target : forall h P w head, proper h -> working_head h w head -> (hy_min_head h < head)%Q -> (0 <= P)%Q ->
  exists q, hydropower_before h (Some (Ok P)) (option_map Ok w) None None = Ok q /\ (0 <= q)%Q /\ produces h q head P /\
    exists p, hydropower_after h (Some (Ok q)) (option_map Ok w) = Ok p /\ (p == P)%Q.
Proof.
  intros h P w head (P1 & P2 & P3 & P4 & P5) Hw Hm HP. destruct (head_is h w head Hw) as (hd & E & Eh).
  set (c := (hy_energy_conversion h * hy_density h * (981 # 100) * hd * hy_efficiency h * hy_flow_conversion h)%Q).
  assert (Hc : (0 < c)%Q).
  { unfold c. assert (0 < hd)%Q by (rewrite Eh; lra). assert (G : forall u v : Q, (0 < u -> 0 < v -> 0 < u * v)%Q) by (intros; apply Qmult_lt_0_compat; assumption).
    repeat apply G; try assumption. reflexivity. }
  assert (Hq : (0 <= P / c)%Q) by (apply Qle_shift_div_l; [exact Hc | lra]).
  exists (P / c)%Q. split.
  { unfold hydropower_before. rewrite E. cbn [rbind]. rewrite above_true by (rewrite Eh; exact Hm). cbn [rbind]. unfold inverse_hydropower_calculation. fold c.
    replace (Qle_bool 0 (P / c)) with true by (symmetry; apply Qle_bool_iff; exact Hq). reflexivity. }
  assert (Hp : produces h (P / c) head P).
  { unfold produces. rewrite <- Eh. setoid_replace P with (P / c * c)%Q at 1 by (field; lra). unfold c at 2. ring. }
  split; [exact Hq|]. split; [exact Hp|].
  destruct (C46_power h (P / c) w head Hw Hm) as (p & Ep & Hpp). exists p. split; [exact Ep|]. unfold produces in *. rewrite Hpp. symmetry. exact Hp.
Qed.
Print Assumptions C46_target.

(** A negative target is an error. *)
Theorem C46_negative_target : forall h P w head, proper h -> working_head h w head -> (hy_min_head h < head)%Q -> (P < 0)%Q ->
  hydropower_before h (Some (Ok P)) (option_map Ok w) None None = Err NegativeFlow.
Proof.
  intros h P w head (P1 & P2 & P3 & P4 & P5) Hw Hm HP. destruct (head_is h w head Hw) as (hd & E & Eh).
  set (c := (hy_energy_conversion h * hy_density h * (981 # 100) * hd * hy_efficiency h * hy_flow_conversion h)%Q).
  assert (Hc : (0 < c)%Q).
  { unfold c. assert (0 < hd)%Q by (rewrite Eh; lra). assert (G : forall u v : Q, (0 < u -> 0 < v -> 0 < u * v)%Q) by (intros; apply Qmult_lt_0_compat; assumption).
    repeat apply G; try assumption. reflexivity. }
  assert (Hq : (P / c < 0)%Q) by (apply Qlt_shift_div_r; [exact Hc | lra]).
  unfold hydropower_before. rewrite E. cbn [rbind]. rewrite above_true by (rewrite Eh; exact Hm). cbn [rbind]. unfold inverse_hydropower_calculation. fold c.
  rewrite above_true by exact Hq. reflexivity.
Qed.
Print Assumptions C46_negative_target.

(** At or below the minimum head there is no flow and no power, whatever the
    target, the limits and the actual flow; the target is not even read. *)
Theorem C46_minimum_head : forall h w head target mx mn flow, working_head h w head -> (head <= hy_min_head h)%Q ->
  hydropower_before h (Some target) (option_map Ok w) mx mn = Ok 0%Q /\
  hydropower_after h (Some (Ok flow)) (option_map Ok w) = Ok 0%Q.
Proof.
  intros h w head target mx mn flow Hw Hm. destruct (head_is h w head Hw) as (hd & E & Eh).
  assert (Hle : Qle_bool hd (hy_min_head h) = true) by (apply Qle_bool_iff; rewrite Eh; exact Hm).
  unfold hydropower_before, hydropower_after. cbn [rbind]. rewrite E. cbn [rbind]. rewrite Hle. auto.
Qed.
Print Assumptions C46_minimum_head.

(** Above it the flow respects the limits and is the flow the target needs if
    that lies within them. *)
Theorem C46_limits : forall h P w head mx mn q, proper h -> working_head h w head -> (hy_min_head h < head)%Q ->
  hydropower_before h (Some (Ok P)) (option_map Ok w) (option_map Ok mx) (option_map Ok mn) = Ok q ->
  (forall n, mn = Some n -> (n <= q)%Q) /\
  (forall m, mx = Some m -> (forall n, mn = Some n -> (n <= m)%Q) -> (q <= m)%Q) /\
  (forall needed, produces h needed head P -> (forall n, mn = Some n -> (n <= needed)%Q) -> (forall m, mx = Some m -> (needed <= m)%Q) -> (q == needed)%Q).
Proof.
  intros h P w head mx mn q (P1 & P2 & P3 & P4 & P5) Hw Hm Hq. destruct (head_is h w head Hw) as (hd & E & Eh).
  set (c := (hy_energy_conversion h * hy_density h * (981 # 100) * hd * hy_efficiency h * hy_flow_conversion h)%Q).
  assert (Hc : (0 < c)%Q).
  { unfold c. assert (0 < hd)%Q by (rewrite Eh; lra). assert (G : forall u v : Q, (0 < u -> 0 < v -> 0 < u * v)%Q) by (intros; apply Qmult_lt_0_compat; assumption).
    repeat apply G; try assumption. reflexivity. }
  unfold hydropower_before in Hq. rewrite E in Hq. cbn [rbind] in Hq. rewrite above_true in Hq by (rewrite Eh; exact Hm). cbn [rbind] in Hq.
  unfold inverse_hydropower_calculation in Hq. fold c in Hq.
  assert (Hneed : forall needed, produces h needed head P -> (P / c == needed)%Q).
  { intros needed Hn. unfold produces in Hn. setoid_replace P with (needed * c)%Q by (rewrite Hn; unfold c; rewrite Eh; ring). field. lra. }
  set (z := (P / c)%Q) in *.
  assert (Ez : q = match mn with
                   | Some n => fmax (match mx with Some m => fmin z m | None => z end) n
                   | None => match mx with Some m => fmin z m | None => z end end).
  { destruct mx as [m|], mn as [n|]; cbn [option_map rbind] in Hq; revert Hq; destruct (Qle_bool 0 _); cbn [negb]; congruence. }
  clear Hq. subst q. split; [|split].
  - intros n ->. destruct mx as [m|]; rewrite fmax_Qmax; apply Q.le_max_r.
  - intros m -> Hn. destruct mn as [n|]; [specialize (Hn n eq_refl); rewrite fmax_Qmax; apply Q.max_lub; [|exact Hn]|];
      rewrite fmin_Qmin; apply Q.le_min_r.
  - intros needed Hn L U. rewrite <- (Hneed needed Hn). pose proof (Hneed needed Hn) as Ez. clear Hneed Hn.
    destruct mx as [m|], mn as [n|].
    + specialize (L n eq_refl). specialize (U m eq_refl). rewrite fmax_Qmax, fmin_Qmin. rewrite Q.min_l by lra. rewrite Q.max_l by lra. reflexivity.
    + specialize (U m eq_refl). rewrite fmin_Qmin. rewrite Q.min_l by lra. reflexivity.
    + specialize (L n eq_refl). rewrite fmax_Qmax. rewrite Q.max_l by lra. reflexivity.
    + reflexivity.
Qed.
Print Assumptions C46_limits.

(** The minimum flow is not respected at or below the minimum head, and the
    maximum is not when the minimum exceeds it. *)
Definition ex_hydro := mkHydro 2 10 (9 # 10) 1000 1 (1 # 1000000).
Theorem C46_limits_always_refuted :
  (exists h P w n q, proper h /\ hydropower_before h (Some (Ok P)) (Some (Ok w)) None (Some (Ok n)) = Ok q /\ (q < n)%Q) /\
  (exists h P w m n q, proper h /\ hydropower_before h (Some (Ok P)) (Some (Ok w)) (Some (Ok m)) (Some (Ok n)) = Ok q /\ (m < q)%Q).
Proof.
  split.
  - exists ex_hydro, 1%Q, 11%Q, 5%Q, 0%Q. split; [repeat split; vm_compute; try reflexivity; discriminate|]. split; [vm_compute; reflexivity | reflexivity].
  - exists ex_hydro, 1%Q, 40%Q, 1%Q, 5%Q. eexists. split; [repeat split; vm_compute; try reflexivity; discriminate|]. split; [vm_compute; reflexivity | reflexivity].
Qed.
Print Assumptions C46_limits_always_refuted.

Example C46_example :
  proper ex_hydro /\ working_head ex_hydro (Some 40%Q) 30 /\ (hy_min_head ex_hydro < 30)%Q /\
  match hydropower_before ex_hydro (Some (Ok 1%Q)) (Some (Ok 40%Q)) None None with Ok q => Qeq_bool q (1000000 # 264870) | _ => false end = true.
Proof. split; [repeat split; vm_compute; try reflexivity; discriminate|]. split; [reflexivity|]. split; vm_compute; reflexivity. Qed.

(** ** Turbines in runs of a model file *)
(** The turbine's target, depending on its type, is an upper limit, a lower
    limit or both for the power it produces, if the water level that is read
    after the solve is the one read before. *)
Definition meets (tgt : option target_type) (power target : Q) : Prop :=
  match tgt with
  | None | Some TgMax => (power <= target)%Q
  | Some TgMin => (target <= power)%Q
  | Some TgBoth => (power == target)%Q
  end.

Theorem C46_turbine : forall key step sc a net tr t name c target el tgt h head,
  file_run key step sc a net tr -> In t tr -> In (STurbine name c (Some target) el tgt h) (sc_nodes sc) ->
  not_exclusive a net (whole name) -> (0 < st_days (rs_state t))%Q -> proper h ->
  (forall m, el = Some m -> rs_after t m == before key t m)%Q ->
  working_head h (option_map (before key t) el) head -> (hy_min_head h < head)%Q ->
  exists flow power, node_metric a net (rs_x t) (STurbine name c (Some target) el tgt h) AtInflow flow /\
    node_metric a net (rs_x t) (STurbine name c (Some target) el tgt h) AtOutflow flow /\
    create_metric (STurbine name c (Some target) el tgt h) (Some AtPower) = Ok (UParamAfter (name, "power")) /\
    (rs_after t (UParamAfter (name, "power")) == power)%Q /\
    produces h flow head power /\ meets tgt power (before key t target).
Proof.
  intros key step sc a net tr t name c target el tgt h head Hr Ht Hin Hex Hd Hh Hel Hw Hm.
  pose proof (fr_steps _ _ _ _ _ _ Hr t Ht) as H. loaded H Hin Hpo.
  assert (Hp : In (PHydropower (name, "power") (UNodeInFlow (whole name)) (Some target) el h) (ad_params a)) by (apply (po_params _ _ Hpo); left; reflexivity).
  pose proof (fr_params _ _ _ _ _ _ Hr _ Hp t Ht) as (Hb & (p & Ea & Ep)). destruct (Hb ltac:(discriminate)) as (q & Eb & Eq). clear Hb.
  assert (Hn : exists mn mx, In (link key (whole name) c mn mx) (ad_nodes a) /\
    match tgt with
    | None | Some TgMax => mx = Some (UParam (name, "power") None)
    | Some TgMin => mn = Some (UParam (name, "power") None)
    | Some TgBoth => mn = Some (UParam (name, "power") None) /\ mx = Some (UParam (name, "power") None)
    end).
  { destruct tgt as [[| |]|]; eexists; eexists; (split; [apply (po_nodes _ _ Hpo); left; reflexivity|]); cbn; auto. }
  destruct Hn as (mn & mx & Hn & Hlim). destruct (a_link _ _ _ _ _ _ _ H _ _ _ _ Hn) as (i & Hi & Fi & Bi).
  pose proof (limits_at _ _ _ _ _ _ _ H _ TLink _ _ _ i Hn ltac:(discriminate) Hex Hd Hi) as (L1 & L2). rewrite Fi in L1, L2.
  assert (Ef : (rs_after t (UNodeInFlow (whole name)) == inflow net (edge_flow net (rs_x t)) i)%Q)
    by (apply (fr_after _ _ _ _ _ _ Hr t _ _ Ht), (value_in _ _ _ _ _ _ _ H _ _ Hi)).
  (* the power *)
  assert (Hw' : working_head h (option_map (rs_after t) el) head).
  { unfold working_head in *. destruct el as [m|]; cbn [option_map] in *; [rewrite (Hel m eq_refl)|]; exact Hw. }
  destruct (C46_power h (rs_after t (UNodeInFlow (whole name))) _ head Hw' Hm) as (p' & Ea' & Hpp).
  assert (Eaa : afters t el = option_map Ok (option_map (rs_after t) el)) by (destruct el; reflexivity).
  rewrite Eaa, Ea' in Ea. injection Ea as ->.
  (* the flow for the target *)
  assert (Ebb : befores key t el = option_map Ok (option_map (before key t) el)) by (destruct el; reflexivity).
  rewrite Ebb in Eb. cbn [befores option_map] in Eb.
  destruct (Qlt_le_dec (before key t target) 0) as [Hneg|Hpos]; [rewrite (C46_negative_target h _ _ head Hh Hw Hm Hneg) in Eb; discriminate|].
  destruct (C46_target h (before key t target) _ head Hh Hw Hm Hpos) as (q' & Eb' & _ & Hq & _). rewrite Eb' in Eb. injection Eb as ->.
  exists (inflow net (edge_flow net (rs_x t)) i), p.
  split; [eapply metric_is; [reflexivity | apply (value_in _ _ _ _ _ _ _ H _ i Hi) | reflexivity]|].
  split; [eapply metric_is; [reflexivity | apply (value_out _ _ _ _ _ _ _ H _ i Hi) | rewrite Bi; reflexivity]|].
  split; [reflexivity|]. split; [exact Ep|].
  assert (Hpf : produces h (inflow net (edge_flow net (rs_x t)) i) head p) by (unfold produces in *; rewrite Hpp, Ef; reflexivity).
  split; [exact Hpf|].
  unfold produces in Hpf, Hq. destruct Hh as (P1 & P2 & P3 & P4 & P5). rewrite Bi in Hpf.
  set (o := outflow net (edge_flow net (rs_x t)) i) in *.
  assert (Hk : (0 <= hy_density h * (981 # 100) * head * hy_flow_conversion h * hy_efficiency h * hy_energy_conversion h)%Q).
  { assert (0 <= head)%Q by lra. repeat apply Qmult_le_0_compat; try lra. }
  set (k := (hy_density h * (981 # 100) * head * hy_flow_conversion h * hy_efficiency h * hy_energy_conversion h)%Q) in *.
  assert (E1 : (p == k * o)%Q) by (rewrite Hpf; unfold k; ring).
  assert (E2 : (before key t target == k * q)%Q) by (rewrite Hq; unfold k; ring).
  unfold before in Eq.
  assert (Hmax : mx = Some (UParam (name, "power") None) -> (p <= before key t target)%Q).
  { intros ->. cbn [value_or] in L2. rewrite E1, E2. rewrite Eq in L2. nra. }
  assert (Hmin : mn = Some (UParam (name, "power") None) -> (before key t target <= p)%Q).
  { intros ->. cbn [value_or] in L1. rewrite E1, E2. rewrite Eq in L1. nra. }
  destruct tgt as [[| |]|]; cbn [meets]; [apply Hmax, Hlim | apply Hmin, Hlim | | apply Hmax, Hlim].
  destruct Hlim as [Hl1 Hl2]. apply Qle_antisym; [apply Hmax, Hl2 | apply Hmin, Hl1].
Qed.
Print Assumptions C46_turbine.

(** At or below its minimum head a turbine with a target lets no water through
    (unless the target is only a lower limit) and produces nothing. *)
Theorem C46_turbine_without_head : forall key step sc a net tr t name c target el tgt h head,
  file_run key step sc a net tr -> In t tr -> In (STurbine name c (Some target) el tgt h) (sc_nodes sc) ->
  not_exclusive a net (whole name) -> (0 < st_days (rs_state t))%Q ->
  (forall m, el = Some m -> rs_after t m == before key t m)%Q ->
  working_head h (option_map (before key t) el) head -> (head <= hy_min_head h)%Q ->
  (rs_after t (UParamAfter (name, "power")) == 0)%Q /\
  (tgt <> Some TgMin -> node_metric a net (rs_x t) (STurbine name c (Some target) el tgt h) AtOutflow 0).
Proof.
  intros key step sc a net tr t name c target el tgt h head Hr Ht Hin Hex Hd Hel Hw Hm.
  pose proof (fr_steps _ _ _ _ _ _ Hr t Ht) as H. loaded H Hin Hpo.
  assert (Hp : In (PHydropower (name, "power") (UNodeInFlow (whole name)) (Some target) el h) (ad_params a)) by (apply (po_params _ _ Hpo); left; reflexivity).
  pose proof (fr_params _ _ _ _ _ _ Hr _ Hp t Ht) as (Hb & (p & Ea & Ep)). destruct (Hb ltac:(discriminate)) as (q & Eb & Eq). clear Hb.
  assert (Hw' : working_head h (option_map (rs_after t) el) head).
  { unfold working_head in *. destruct el as [m|]; cbn [option_map] in *; [rewrite (Hel m eq_refl)|]; exact Hw. }
  assert (Eaa : afters t el = option_map Ok (option_map (rs_after t) el)) by (destruct el; reflexivity).
  assert (Ebb : befores key t el = option_map Ok (option_map (before key t) el)) by (destruct el; reflexivity).
  rewrite Eaa, (proj2 (C46_minimum_head h _ head (Ok 0%Q) None None _ Hw' Hm)) in Ea. injection Ea as <-.
  rewrite Ebb in Eb. cbn [befores option_map] in Eb.
  rewrite (proj1 (C46_minimum_head h _ head _ None None 0%Q Hw Hm)) in Eb. injection Eb as <-.
  split; [exact Ep|]. intros Htg.
  assert (Hn : exists mn, In (link key (whole name) c mn (Some (UParam (name, "power") None))) (ad_nodes a)).
  { destruct tgt as [[| |]|]; try congruence; eexists; apply (po_nodes _ _ Hpo); left; reflexivity. }
  destruct Hn as (mn & Hn). destruct (a_link _ _ _ _ _ _ _ H _ _ _ _ Hn) as (i & Hi & Fi & Bi).
  pose proof (limits_at _ _ _ _ _ _ _ H _ TLink _ _ _ i Hn ltac:(discriminate) Hex Hd Hi) as (_ & L2). rewrite Fi in L2. cbn [value_or] in L2.
  pose proof (outflow_non_negative _ _ _ _ _ _ _ H i) as Hnn. unfold before in Eq.
  eapply metric_is; [reflexivity | apply (value_out _ _ _ _ _ _ _ H _ i Hi) | lra].
Qed.
Print Assumptions C46_turbine_without_head.

(** A turbine at elevation 10 under water at 40 with a target of 26.487: 100
    units of flow are needed. *)
Definition ex_turbine (w : Q) : schema :=
  mkSchema [SInput "in" None None None;
            STurbine "t" None (Some (UConst (26487#1000))) (Some (UConst w)) (Some TgBoth) (mkHydro 2 10 (9#10) 1000 1 (1#1000000));
            SOutput "out" None None None] [] [ex_edge "in" "t"; ex_edge "t" "out"].
Definition ex_turbine_run (limit flow power : Q) : list (list Q * list Q * (umetric -> Q)) :=
  [([0; 0; 0; 0; limit], [flow; flow], fun m => match m with UParamAfter _ => power | UConst q => q | _ => 0 end)]%Q.
Definition ex_turbine_key (m : umetric) : nat := 4.
Example C46_turbine_example :
  let sc := ex_turbine 40 in
  let tr := ex_steps ex_turbine_key sc (ex_turbine_run 100 100 (26487#1000)) in
  file_run ex_turbine_key None sc (ex_run_added ex_turbine_key sc) (ex_run_net ex_turbine_key sc) tr /\
  not_exclusive (ex_run_added ex_turbine_key sc) (ex_run_net ex_turbine_key sc) (whole "t") /\
  (forall t, In t tr -> (0 < st_days (rs_state t))%Q /\ (rs_after t (UConst 40) == before ex_turbine_key t (UConst 40))%Q /\
     working_head ex_hydro (Some (before ex_turbine_key t (UConst 40))) 30) /\
  ex_run_check ex_turbine_key sc (ex_turbine_run 100 90 (26487#1000)) = false /\
  ex_run_check ex_turbine_key (ex_turbine 12) (ex_turbine_run 0 0 0) = true /\
  ex_run_check ex_turbine_key (ex_turbine 12) (ex_turbine_run 100 100 (26487#1000)) = false.
Proof.
  cbv zeta. split; [apply ex_file_run; vm_compute; reflexivity|]. split; [apply ex_run_not_exclusive; vm_compute; reflexivity|].
  split; [intros t Ht; cbn in Ht; destruct Ht as [<-|[]]; split; [reflexivity | split; vm_compute; reflexivity]|].
  split; [vm_compute; reflexivity|]. split; vm_compute; reflexivity.
Qed.
