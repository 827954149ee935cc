(** C72: the scenarios and time-steps of a model file, new or converted from v1. *)
From Verif Require Import Base Calendar Timestep TimestepLemmas Scenario ScenarioSpec ScenarioLemmas Props_Scenario Props_Timestep NetworkBuildLemmas.
From Verif Require Import SchemaDomain SchemaDomainSpec.
From Coq Require Import Sorted.
Open Scope string_scope. Open Scope list_scope. Open Scope nat_scope.

(** *** Lemmas *)
Definition builder_for (g : file_group) : group_builder :=
  GroupBuilder (fg_name g) (fg_size g)
    (match fg_subset g with
     | Some (FSlice start stop) => Some (BSlice start stop)
     | Some (FIndices l) => Some (BIndices l)
     | Some (FLabels l) => Some (BLabels l)
     | None => None
     end) (fg_labels g).
Lemma group_name b g : build_group b = Ok g -> g_name g = b_name b /\ g_size g = b_size b /\ g_labels g = b_labels b /\ (b_subset b = None -> g_subset g = None).
Proof.
  unfold build_group. destruct (build_subset b) as [s| |] eqn:E; try discriminate.
  assert (Hs : b_subset b = None -> s = None) by (intros Hn; unfold build_subset in E; rewrite Hn in E; injection E as <-; reflexivity).
  destruct (b_labels b) as [ls|] eqn:El; [destruct (length ls =? b_size b); [|discriminate]|]; intros H; injection H as <-; cbn; rewrite <- ?El; auto.
Qed.
Lemma add_groups_spec : forall gs d d', add_groups d gs = Ok d' <->
  exists gs', Forall2 (fun g g' => build_group (builder_for g) = Ok g') gs gs' /\ d' = DomainBuilder (d_groups d ++ gs') (d_combinations d) /\
    (forall g, In g gs -> ~ In (fg_name g) (map g_name (d_groups d))) /\ NoDup (map fg_name gs).
Proof.
  induction gs as [|g gs IH]; intros d d'; cbn [add_groups].
  - split.
    + intros H. injection H as <-. exists []. rewrite app_nil_r. split; [constructor|]. split; [destruct d; reflexivity|]. split; [intros g [] | constructor].
    + intros (gs' & H & -> & _). inversion H. rewrite app_nil_r. destruct d; reflexivity.
  - split.
    + intros H. apply rbind_Ok in H. destruct H as (g' & Hg & H). apply rbind_Ok in H. destruct H as (d1 & Hd & H). apply IH in H. destruct H as (gs' & H1 & -> & H2 & H3).
      unfold with_group in Hd. destruct (existsb _ _) eqn:E; [discriminate Hd|]. injection Hd as <-. cbn [d_groups d_combinations] in *.
      destruct (group_name _ _ Hg) as [Hn _]. cbn [builder_for b_name] in Hn.
      assert (Hni : ~ In (fg_name g) (map g_name (d_groups d))).
      { intros Hin. apply in_map_iff in Hin. destruct Hin as (g0 & H0 & Hin).
        assert (existsb (fun g0 => String.eqb (g_name g0) (g_name g')) (d_groups d) = true); [|congruence].
        apply existsb_exists. exists g0. split; [exact Hin | apply String.eqb_eq; congruence]. }
      exists (g' :: gs'). split; [constructor; [exact Hg | exact H1]|]. split; [rewrite <- app_assoc; reflexivity|]. split.
      * intros g1 [<-|Hg1]; [exact Hni|]. intros Hin. apply (H2 g1 Hg1). rewrite map_app, in_app_iff. left. exact Hin.
      * cbn [map]. constructor; [|exact H3]. intros Hin. apply in_map_iff in Hin. destruct Hin as (g1 & E1 & Hg1).
        apply (H2 g1 Hg1). rewrite map_app, in_app_iff. right. left. congruence.
    + intros (gs' & H1 & -> & H2 & H3). inversion H1 as [|? g' ? gs1 Hg Hgs]; subst. change (group_of_file g) with (build_group (builder_for g)). rewrite Hg. cbn [rbind].
      destruct (group_name _ _ Hg) as [Hn _]. cbn [builder_for b_name] in Hn. cbn [map] in H3. apply NoDup_cons_iff in H3. destruct H3 as [Hni Hnd].
      unfold with_group. destruct (existsb _ _) eqn:E.
      * exfalso. apply existsb_exists in E. destruct E as (g0 & Hin & E0). apply String.eqb_eq in E0. apply (H2 g (or_introl eq_refl)).
        rewrite <- Hn, <- E0. apply in_map. exact Hin.
      * cbn [rbind]. apply IH. cbn [d_groups d_combinations]. exists gs1. split; [exact Hgs|]. split; [rewrite <- app_assoc; reflexivity|]. split; [|exact Hnd].
        intros g1 Hg1 Hin. rewrite map_app, in_app_iff in Hin. destruct Hin as [Hin|[Hin|[]]]; [apply (H2 g1 (or_intror Hg1) Hin)|].
        apply Hni. rewrite <- Hn, Hin. apply in_map. exact Hg1.
Qed.
Lemma file_asks_builder g i : file_asks g i <-> i < b_size (builder_for g) /\ asked_for (builder_for g) i.
Proof. unfold file_asks, asked_for, builder_for. cbn. destruct (fg_subset g) as [[| |]|]; reflexivity. Qed.
Lemma file_ok_builder g : file_group_ok g <-> acceptable (builder_for g).
Proof. unfold file_group_ok, acceptable, builder_for. cbn. destruct (fg_subset g) as [[| |]|]; cbn; tauto. Qed.
Lemma of_scenario_Ok {A} (r : res scenario_error A) a : of_scenario r = Ok a <-> r = Ok a.
Proof. destruct r; cbn; split; intros H; try discriminate H; congruence. Qed.
Lemma of_time_Ok {A} (r : res time_error A) a : of_time r = Ok a <-> r = Ok a.
Proof. destruct r; cbn; split; intros H; try discriminate H; congruence. Qed.
Lemma domain_Ok fuel t gs combs m : domain_of_file fuel t (Some (FileScenarios gs combs)) = Ok m <->
  exists gs', Forall2 (fun g g' => build_group (builder_for g) = Ok g') gs gs' /\ NoDup (map fg_name gs) /\
    build_time fuel (ft_start t) (ft_end t) (ft_step t) = Ok (md_time m) /\ build_domain (DomainBuilder gs' combs) = Ok (md_scenarios m).
Proof.
  unfold domain_of_file, builder_of_file. cbn [fs_groups fs_combinations]. split.
  - intros H. apply rbind_Ok in H. destruct H as (d & Hd & H). apply rbind_Ok in H. destruct H as (ts & Ht & H). apply rbind_Ok in H. destruct H as (sc & Hs & H). injection H as <-.
    apply of_scenario_Ok, rbind_Ok in Hd. destruct Hd as (d0 & Hd0 & Hd). injection Hd as <-. apply of_time_Ok in Ht. apply of_scenario_Ok in Hs.
    apply add_groups_spec in Hd0. destruct Hd0 as (gs' & H1 & -> & _ & H3). exists gs'. split; [exact H1|]. split; [exact H3|]. split; [exact Ht|].
    destruct combs; exact Hs.
  - intros (gs' & H1 & H2 & Ht & Hs). assert (Ha : add_groups (DomainBuilder [] None) gs = Ok (DomainBuilder gs' None)).
    { apply add_groups_spec. exists gs'. split; [exact H1|]. split; [reflexivity|]. split; [intros g _ []|exact H2]. }
    rewrite Ha. cbn [rbind of_scenario]. rewrite Ht. cbn [rbind of_time].
    assert (E : (match combs with Some c => with_combinations (DomainBuilder gs' None) c | None => DomainBuilder gs' None end) = DomainBuilder gs' combs) by (destruct combs; reflexivity).
    rewrite E, Hs. cbn. destruct m; reflexivity.
Qed.

(** *** Files *)

(** Without combinations: every scenario of the file, once, in order. *)
Theorem C72_scenarios_of_file : forall fuel t gs m, gs <> [] -> domain_of_file fuel t (Some (FileScenarios gs None)) = Ok m ->
  StronglySorted lex_lt (map members (dom_indices (md_scenarios m))) /\
  NoDup (map members (dom_indices (md_scenarios m))) /\
  (forall c, In c (map members (dom_indices (md_scenarios m))) <-> Forall2 file_asks gs c) /\
  map simulation_id (dom_indices (md_scenarios m)) = seq 0 (length (dom_indices (md_scenarios m))).
Proof.
  intros fuel t gs m Hne H. apply domain_Ok in H. destruct H as (gs' & H1 & _ & _ & Hd).
  assert (Hb : Forall2 (fun b g => build_group b = Ok g) (map builder_for gs) gs').
  { clear - H1. induction H1; cbn [map]; constructor; assumption. }
  destruct (C02_subset_as_asked (map builder_for gs) gs') as (d & E & Hs & Hn & Hc & Hi); [destruct gs; [contradiction | discriminate] | exact Hb |].
  rewrite Hd in E. injection E as <-. split; [exact Hs|]. split; [exact Hn|]. split; [|exact Hi]. intros c. rewrite Hc. clear.
  split; intros H.
  - remember (map builder_for gs) as bs eqn:Eb. revert gs Eb. induction H as [|b i bs c Hb H IH]; intros [|g gs] Eb; try discriminate Eb; constructor; injection Eb as -> Eb; [apply file_asks_builder; exact Hb | apply IH; exact Eb].
  - induction H; cbn [map]; constructor; [apply file_asks_builder; assumption | assumption].
Qed.
Print Assumptions C72_scenarios_of_file.

(** A file is accepted exactly if its groups have no mistake and different names. *)
Theorem C72_file_accepted : forall fuel t gs ts, gs <> [] -> build_time fuel (ft_start t) (ft_end t) (ft_step t) = Ok ts ->
  ((exists m, domain_of_file fuel t (Some (FileScenarios gs None)) = Ok m) <-> NoDup (map fg_name gs) /\ Forall file_group_ok gs).
Proof.
  intros fuel t gs ts Hne Ht. split.
  - intros (m & H). apply domain_Ok in H. destruct H as (gs' & H1 & H2 & _). split; [exact H2|]. clear - H1.
    induction H1 as [|g g' gs gs' Hg _ IH]; constructor; [|exact IH]. apply file_ok_builder, C02_builder_accepts. exists g'. exact Hg.
  - intros [Hn Hok]. assert (Hg : exists gs', Forall2 (fun g g' => build_group (builder_for g) = Ok g') gs gs').
    { clear - Hok. induction Hok as [|g gs Hg _ (gs' & IH)]; [exists []; constructor|]. apply file_ok_builder, C02_builder_accepts in Hg.
      destruct Hg as (g' & Hg). exists (g' :: gs'). constructor; assumption. }
    destruct Hg as (gs' & Hg).
    assert (Hb : Forall2 (fun b g => build_group b = Ok g) (map builder_for gs) gs') by (clear - Hg; induction Hg; cbn [map]; constructor; assumption).
    destruct (C02_subset_as_asked (map builder_for gs) gs') as (d & E & _); [destruct gs; [contradiction | discriminate] | exact Hb |].
    exists (ModelDomain ts d). apply domain_Ok. exists gs'. cbn. auto.
Qed.
Print Assumptions C72_file_accepted.

(** With combinations: those listed, in the order listed. *)
Theorem C72_combinations_of_file : forall fuel t gs raw combs ts, gs <> [] -> raw <> [] ->
  build_time fuel (ft_start t) (ft_end t) (ft_step t) = Ok ts -> NoDup (map fg_name gs) -> Forall file_group_ok gs ->
  Forall (fun g => fg_subset g = None) gs ->
  Forall2 (fun r c => Forall2 (fun g p => file_denotes g (fst p) (snd p)) gs (combine r c) /\ length r = length gs /\ length c = length gs) raw combs ->
  exists m, domain_of_file fuel t (Some (FileScenarios gs (Some raw))) = Ok m /\ md_time m = ts /\
    map members (dom_indices (md_scenarios m)) = combs /\
    map simulation_id (dom_indices (md_scenarios m)) = seq 0 (length combs).
Proof.
  intros fuel t gs raw combs ts Hne Hraw Ht Hn Hok Hsub Hc.
  assert (Hg : exists gs', Forall2 (fun g g' => build_group (builder_for g) = Ok g') gs gs').
  { clear - Hok. induction Hok as [|g gs Hg _ (gs' & IH)]; [exists []; constructor|]. apply file_ok_builder, C02_builder_accepts in Hg.
    destruct Hg as (g' & Hg). exists (g' :: gs'). constructor; assumption. }
  destruct Hg as (gs' & Hg).
  assert (Hlen : length gs' = length gs) by (symmetry; apply (Forall2_length' _ _ _ Hg)).
  assert (Hbuilt : Forall built gs').
  { clear - Hg. induction Hg as [|g g' gs gs' H _ IH]; constructor; [exists (builder_for g); exact H | exact IH]. }
  assert (Hnone : Forall (fun g => g_subset g = None) gs').
  { clear - Hg Hsub. induction Hg as [|g g' gs gs' H _ IH]; inversion Hsub as [|? ? Hs Hs']; subst; constructor; [|apply IH; exact Hs'].
    destruct (group_name _ _ H) as (_ & _ & _ & Hx). apply Hx. unfold builder_for. cbn. rewrite Hs. reflexivity. }
  destruct (C04_combinations_run_as_listed gs' raw combs) as (d & E & Hm & Hi & _); [destruct gs; [contradiction | destruct gs'; [discriminate Hlen | discriminate]] | exact Hbuilt | exact Hnone | exact Hraw | |].
  - clear - Hc Hg Hlen. induction Hc as [|r c raw combs (H1 & H2 & H3) _ IH]; constructor; [|exact IH].
    split; [|split; congruence]. clear - H1 Hg. revert H1. generalize (combine r c). induction Hg as [|g g' gs gs' H _ IH]; intros ps H1; inversion H1 as [|? p ? ps' Hp Hps]; subst; constructor; [|apply IH; exact Hps].
    destruct (group_name _ _ H) as (_ & Hsz & Hlb & _). cbn [builder_for b_size b_labels] in Hsz, Hlb. unfold denotes, file_denotes in *. rewrite Hsz, Hlb.
    destruct (fst p) as [l|j]; [destruct Hp as (ls & E1 & [E2 E3] & E4); split; [exact E4|]; exists ls; auto | destruct Hp as [-> Hp]; auto].
  - exists (ModelDomain ts d). split; [apply domain_Ok; exists gs'; cbn; auto|]. cbn. auto.
Qed.
Print Assumptions C72_combinations_of_file.

(** A file without scenarios is run once. *)
Theorem C72_no_scenarios : forall fuel t ts, build_time fuel (ft_start t) (ft_end t) (ft_step t) = Ok ts ->
  exists m s, domain_of_file fuel t None = Ok m /\ md_time m = ts /\ dom_indices (md_scenarios m) = [s] /\ simulation_id s = 0.
Proof. intros fuel t ts Ht. unfold domain_of_file. rewrite Ht. eexists. eexists. cbn. repeat split. Qed.
Print Assumptions C72_no_scenarios.

(** *** Conversion *)
Lemma step_by_In step : step <> 0 -> forall fuel start stop i, stop - start <= fuel ->
  (In i (step_by_loop fuel start stop step) <-> i < stop /\ exists k, i = start + k * step).
Proof.
  intros Hs. induction fuel as [|fuel IH]; intros start stop i Hf; cbn [step_by_loop].
  - split; [intros []|]. intros (H & k & ->). nia.
  - destruct (Nat.ltb_spec start stop) as [Hlt|Hge].
    + cbn [In]. rewrite IH by lia. split.
      * intros [<-|(H & k & ->)]; [split; [exact Hlt | exists 0; lia] | split; [exact H | exists (S k); lia]].
      * intros (H & [|k] & ->); [left; lia | right; split; [exact H | exists k; lia]].
    + split; [intros []|]. intros (H & k & ->). nia.
Qed.
Definition single_given (v : v1_scenario) : Prop := exists stop, v1_slice v = Some [Some stop] /\ stop < v1_size v.
Lemma v1_group v g : convert_scenario v = Ok g ->
  fg_name g = v1_name v /\ fg_size g = v1_size v /\ fg_labels g = v1_names v /\ (v1_slice v = None <-> fg_subset g = None) /\
  (~ single_given v -> forall i, file_asks g i <-> v1_asks v i).
Proof.
  unfold convert_scenario. destruct (v1_slice v) as [s|] eqn:Es.
  2:{ intros H. injection H as <-. cbn. repeat (split; [reflexivity|]). split; [tauto|]. intros _ i. unfold file_asks, v1_asks. rewrite Es. reflexivity. }
  intros H. apply rbind_Ok in H. destruct H as (sub & Hc & H). injection H as <-. cbn [fg_name fg_size fg_labels fg_subset].
  repeat (split; [reflexivity|]). split; [split; discriminate|]. intros Hsg i. unfold file_asks, v1_asks. cbn [fg_size fg_subset fg_labels]. rewrite Es.
  unfold convert_slice in Hc. destruct s as [|a [|b [|c [|? ?]]]]; try discriminate Hc.
  - injection Hc as <-. cbn [python_slice]. unfold python_range. cbn [or_default]. split.
    + intros [H1 _]. split; [exact H1|]. split; [lia|]. split; [|split; [exact H1 | exists i; lia]].
      destruct a as [stop|]; cbn [or_default]; [|exact H1]. destruct (Nat.lt_ge_cases i stop) as [Hlt|Hge]; [exact Hlt|]. exfalso. apply Hsg. exists stop. split; [exact Es | lia].
    + intros (H1 & _). split; [exact H1 | lia].
  - injection Hc as <-. cbn [python_slice]. unfold python_range. cbn [or_default]. split.
    + intros (H1 & H2 & H3). split; [exact H1|]. repeat (split; [assumption|]). exists (i - or_default a 0). lia.
    + intros (H1 & H2 & H3 & _). auto.
  - cbn [python_slice]. unfold python_range. destruct c as [step|]; cbn [or_default].
    + apply rbind_Ok in Hc. destruct Hc as (l & Hl & Hc). injection Hc as <-. unfold step_by in Hl. destruct step as [|st]; [discriminate Hl|]. injection Hl as <-.
      rewrite step_by_In by lia. split.
      * intros (H1 & H2 & k & ->). split; [exact H1|]. split; [lia|]. split; [exact H2|]. split; [exact H1 | exists k; reflexivity].
      * intros (H1 & _ & H2 & _ & H3). auto.
    + injection Hc as <-. split.
      * intros (H1 & H2 & H3). split; [exact H1|]. repeat (split; [assumption|]). exists (i - or_default a 0). lia.
      * intros (H1 & H2 & H3 & _). auto.
Qed.

(** What is not reported is converted: one group per v1 scenario, with its name,
    size and labels, and the combinations. *)
Theorem C72_v1_nothing_lost : forall vs combs s, convert_scenarios vs combs = Ok (s, []) ->
  match vs with
  | None => s = None /\ combs = None
  | Some l => exists gs, s = Some (FileScenarios gs (option_map (map (map ByIndex)) combs)) /\
      Forall2 (fun v g => convert_scenario v = Ok g /\ fg_name g = v1_name v /\ fg_size g = v1_size v /\ fg_labels g = v1_names v /\
                          (v1_slice v = None <-> fg_subset g = None)) l gs
  end.
Proof.
  unfold convert_scenarios. intros [l|] combs s H.
  - destruct (rmap convert_scenario l) as [gs|e|] eqn:E; cbn [rbind] in H.
    + apply rmap_Ok_Forall2 in E. exists gs. split; [destruct combs; cbn in H; injection H as <-; reflexivity|].
      clear H. induction E as [|v g l gs Hv _ IH]; constructor; [|exact IH]. destruct (v1_group v g Hv) as (H1 & H2 & H3 & H4 & _). auto.
    + destruct combs; cbn in H; discriminate H.
    + discriminate H.
  - cbn [rbind] in H. destruct combs; cbn in H; [discriminate H | injection H as <-; auto].
Qed.
Print Assumptions C72_v1_nothing_lost.

(** An error is reported exactly for a slice with a number of arguments that
    Python does not accept, and for combinations without scenarios. *)
Theorem C72_v1_reported : forall vs combs s errs, convert_scenarios vs combs = Ok (s, errs) ->
  (errs <> [] <-> (exists l v args, vs = Some l /\ In v l /\ v1_slice v = Some args /\ ~ 1 <= length args <= 3) \/ (vs = None /\ combs <> None)).
Proof.
  assert (Herr : forall v e, convert_scenario v = Err e -> exists args, v1_slice v = Some args /\ ~ 1 <= length args <= 3).
  { intros v e H. unfold convert_scenario in H. destruct (v1_slice v) as [args|]; [|discriminate H]. exists args. split; [reflexivity|].
    destruct args as [|a [|b [|c [|? ?]]]]; cbn in *; try discriminate H; try lia. destruct c as [step|]; [destruct step|]; discriminate H. }
  assert (Hbad : forall v args, v1_slice v = Some args -> ~ 1 <= length args <= 3 -> exists e, convert_scenario v = Err e).
  { intros v args Ha Hl. unfold convert_scenario. rewrite Ha. destruct args as [|a [|b [|c [|d r]]]]; cbn [length] in Hl; try lia; eexists; reflexivity. }
  assert (Hmap : forall l e, rmap convert_scenario l = Err e -> exists v args, In v l /\ v1_slice v = Some args /\ ~ 1 <= length args <= 3).
  { induction l as [|v l IH]; intros e H; cbn [rmap] in H; [discriminate H|]. destruct (convert_scenario v) as [g|e'|] eqn:Ev; cbn [rbind] in H.
    - destruct (rmap convert_scenario l) as [gs|e''|]; cbn [rbind] in H; try discriminate H. destruct (IH e'' eq_refl) as (v' & args & H1 & H2). exists v', args. split; [right; exact H1 | exact H2].
    - destruct (Herr v e' Ev) as (args & Ha). exists v, args. split; [left; reflexivity | exact Ha].
    - discriminate H. }
  unfold convert_scenarios. intros vs combs s errs H. destruct vs as [l|].
  - destruct (rmap convert_scenario l) as [gs|e|] eqn:E; cbn [rbind] in H.
    + assert (errs = []) as -> by (destruct combs; cbn in H; injection H as _ <-; reflexivity). split; [intros Hx; contradiction|].
      intros [(l' & v & args & H1 & H2 & H3 & H4)|[H1 _]]; [|discriminate H1]. injection H1 as <-. exfalso. apply rmap_Ok_Forall2 in E.
      destruct (Hbad v args H3 H4) as (e & He). destruct (Forall2_In_l _ _ _ _ E H2) as (g & _ & Hg). cbn in Hg. congruence.
    + split; [|intros _; destruct combs; cbn in H; injection H as _ <-; discriminate]. intros _. left. destruct (Hmap l e E) as (v & args & H1 & H2 & H3).
      exists l, v, args. auto.
    + discriminate H.
  - cbn [rbind] in H. destruct combs as [cs|]; cbn in H; injection H as _ <-.
    + split; [intros _; right; split; [reflexivity | discriminate] | intros _; discriminate].
    + split; [intros Hx; contradiction|]. intros [(l' & v & args & H1 & _)|[_ H1]]; [discriminate H1 | contradiction].
Qed.
Print Assumptions C72_v1_reported.

(** The scenarios simulated by a converted file are those of the v1 file.  Full
    statement: for all slices; proved without slices of one given argument below
    the size of the group. *)
Theorem C72_v1_scenarios_partial : forall fuel t vs s m, vs <> [] -> convert_scenarios (Some vs) None = Ok (Some s, []) ->
  domain_of_file fuel t (Some s) = Ok m -> Forall (fun v => ~ single_given v) vs ->
  StronglySorted lex_lt (map members (dom_indices (md_scenarios m))) /\
  NoDup (map members (dom_indices (md_scenarios m))) /\
  (forall c, In c (map members (dom_indices (md_scenarios m))) <-> Forall2 v1_asks vs c).
Proof.
  intros fuel t vs s m Hne Hc Hd Hs. apply C72_v1_nothing_lost in Hc. destruct Hc as (gs & E & Hgs). injection E as ->. cbn [option_map] in Hd.
  assert (Hgn : gs <> []) by (intros ->; inversion Hgs; subst; contradiction).
  destruct (C72_scenarios_of_file fuel t gs m Hgn Hd) as (H1 & H2 & H3 & _). split; [exact H1|]. split; [exact H2|]. intros c. rewrite H3. clear - Hgs Hs.
  revert c Hs. induction Hgs as [|v g vs gs (Hg & _) _ IH]; intros c Hs; [split; intros H; inversion H; constructor|].
  inversion Hs as [|? ? Hv Hs']; subst. destruct (v1_group v g Hg) as (_ & _ & _ & _ & Ha). specialize (Ha Hv).
  split; intros H; inversion H as [|? i ? c' Hi Hc']; subst; constructor; try (apply Ha; exact Hi); apply IH; assumption.
Qed.
Print Assumptions C72_v1_scenarios_partial.

(** The combinations of a v1 file without slices are run as listed. *)
Theorem C72_v1_combinations : forall fuel t vs combs ts, vs <> [] -> combs <> [] ->
  build_time fuel (ft_start t) (ft_end t) (ft_step t) = Ok ts -> NoDup (map v1_name vs) ->
  Forall (fun v => v1_slice v = None /\ match v1_names v with Some ls => length ls = v1_size v | None => True end) vs ->
  Forall (fun c => Forall2 (fun v i => i < v1_size v) vs c) combs ->
  exists s m, convert_scenarios (Some vs) (Some combs) = Ok (Some s, []) /\ domain_of_file fuel t (Some s) = Ok m /\
    map members (dom_indices (md_scenarios m)) = combs.
Proof.
  intros fuel t vs combs ts Hne Hcne Ht Hn Hv Hc.
  set (gs := map (fun v => FileGroup (v1_name v) (v1_size v) (v1_names v) None) vs).
  assert (Hconv : rmap convert_scenario vs = Ok gs).
  { apply rmap_Ok_Forall2. unfold gs. clear - Hv. induction Hv as [|v vs [H _] _ IH]; cbn [map]; constructor; [unfold convert_scenario; rewrite H; reflexivity | exact IH]. }
  destruct (C72_combinations_of_file fuel t gs (map (map ByIndex) combs) combs ts) as (m & Hm & _ & Hmem & _).
  - unfold gs. destruct vs; [contradiction | discriminate].
  - destruct combs; [contradiction | discriminate].
  - exact Ht.
  - unfold gs. rewrite map_map. cbn. exact Hn.
  - unfold gs. clear - Hv. induction Hv as [|v vs [_ H] _ IH]; cbn [map]; constructor; [split; [exact H | exact I] | exact IH].
  - unfold gs. clear. induction vs; cbn [map]; constructor; [reflexivity | assumption].
  - clear - Hc. unfold gs. induction Hc as [|c combs Hc _ IH]; cbn [map]; constructor; [|exact IH].
    split; [|split; rewrite ?map_length; symmetry; apply (Forall2_length' _ _ _ Hc)].
    clear - Hc. induction Hc as [|v i vs c Hi _ IHc]; [constructor|]. cbn [map combine]. constructor; [cbn; auto | exact IHc].
  - exists (FileScenarios gs (Some (map (map ByIndex) combs))), m. split; [|split; [exact Hm | exact Hmem]].
    unfold convert_scenarios. rewrite Hconv. reflexivity.
Qed.
Print Assumptions C72_v1_combinations.

(** A time-step of a positive number of days stays that number of days, from the
    start to the end; a frequency stays that frequency. *)
Theorem C72_v1_time : forall t,
  (forall d, v1_timestep t = V1Days d -> 0 < d -> valid_datetime (v1_start t) = true -> (instant (v1_start t) <= instant (v1_end t))%Z ->
   exists ft n, convert_time t = Ok ft /\ forall fuel, n <= fuel -> exists l, build_time fuel (ft_start ft) (ft_end ft) (ft_step ft) = Ok l /\
    (forall i ts, nth_error l i = Some ts ->
      (ts_duration ts = (NS_PER_DAY * Z.of_nat d) /\ instant (ts_date ts) = instant (v1_start t) + Z.of_nat i * (NS_PER_DAY * Z.of_nat d) /\
       instant (ts_date ts) <= instant (v1_end t))%Z) /\
    (instant (v1_end t) < instant (v1_start t) + Z.of_nat (length l) * (NS_PER_DAY * Z.of_nat d))%Z) /\
  (forall f, v1_timestep t = V1Freq f -> convert_time t = Ok (FileTime (v1_start t) (v1_end t) (Frequency f))).
Proof.
  intros t. split.
  - intros d Hd Hp Hs Hse. unfold convert_time. rewrite Hd. destruct d as [|d]; [lia|].
    assert (Hpos : (0 < Z.of_nat (S d))%Z) by lia.
    destruct (C06_fixed_steps_tile (v1_start t) (v1_end t) (Days (Z.of_nat (S d))) Hs Hse Hpos) as (n & Hn).
    exists (FileTime (v1_start t) (v1_end t) (Days (Z.of_nat (S d)))), n. split; [reflexivity|]. intros fuel Hf. cbn [ft_start ft_end ft_step].
    destruct (Hn fuel Hf) as (l & Hl & _ & Hi & He). exists l. split; [exact Hl|]. split; [|exact He].
    intros i ts Hts. destruct (Hi i ts Hts) as (_ & H2 & _ & H3 & H4). auto.
  - intros f Hf. unfold convert_time. rewrite Hf. reflexivity.
Qed.
Print Assumptions C72_v1_time.

(** *** What does not hold *)
Definition C72_time := FileTime (DateTime (Date 2020 1 1) 0) (DateTime (Date 2020 1 3) 0) (Days 1).

(** A v1 slice of one argument (the end) is dropped: all members are simulated. *)
Theorem C72_v1_single_argument_refuted :
  exists vs s m c, convert_scenarios (Some vs) None = Ok (Some s, []) /\ domain_of_file 10 C72_time (Some s) = Ok m /\
    In c (map members (dom_indices (md_scenarios m))) /\ ~ Forall2 v1_asks vs c.
Proof.
  exists [V1Scenario "a" 3 None (Some [Some 1])]. eexists. eexists. exists [2].
  split; [vm_compute; reflexivity|]. split; [vm_compute; reflexivity|]. split; [vm_compute; auto|].
  intros H. inversion H as [|? ? ? ? H1 _]. destruct H1 as [_ (_ & H1 & _)]. cbn in H1. lia.
Qed.
Print Assumptions C72_v1_single_argument_refuted.

(** Values the v1 program reports as errors make the conversion panic. *)
Theorem C72_v1_panics_refuted :
  convert_scenarios (Some [V1Scenario "a" 3 None (Some [None; None; Some 0])]) None = Panic /\
  forall start stop, convert_time (V1Time start stop (V1Days 0)) = Panic.
Proof. split; reflexivity. Qed.
Print Assumptions C72_v1_panics_refuted.

(** A listed index that does not exist is not reported; the scenario is left out,
    here leaving none. *)
Theorem C72_missing_index_refuted :
  exists g m i, fg_subset g = Some (FIndices [i]) /\ fg_size g <= i /\
    domain_of_file 10 C72_time (Some (FileScenarios [g] None)) = Ok m /\ dom_indices (md_scenarios m) = [].
Proof.
  exists (FileGroup "a" 3 None (Some (FIndices [3]))). eexists. exists 3. split; [reflexivity|]. split; [cbn; lia|]. split; [vm_compute; reflexivity | reflexivity].
Qed.
Print Assumptions C72_missing_index_refuted.

Example C72_example :
  let vs := [V1Scenario "a" 5 None (Some [Some 1; None; Some 2]); V1Scenario "b" 3 (Some ["x"; "y"; "z"]%string) (Some [None; Some 2])] in
  match convert_scenarios (Some vs) None with
  | Ok (Some s, []) => match domain_of_file 10 C72_time (Some s) with
                       | Ok m => map members (dom_indices (md_scenarios m)) = [[1; 0]; [1; 1]; [3; 0]; [3; 1]] /\ length (md_time m) = 3
                       | _ => False
                       end
  | _ => False
  end /\ Forall (fun v => ~ single_given v) vs.
Proof.
  split; [vm_compute; auto|]. repeat constructor; intros (stop & H & _); discriminate H.
Qed.
Example C72_combinations_example :
  match convert_scenarios (Some [V1Scenario "a" 5 None None; V1Scenario "b" 3 None None]) (Some [[4; 1]; [0; 2]]) with
  | Ok (Some s, []) => match domain_of_file 10 C72_time (Some s) with
                       | Ok m => map members (dom_indices (md_scenarios m)) = [[4; 1]; [0; 2]]
                       | _ => False
                       end
  | _ => False
  end.
Proof. vm_compute. reflexivity. Qed.
