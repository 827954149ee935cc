(** C77: the outputs of a model file deliver the metric sets they name. *)
From Coq Require Import QArith String.
From Verif Require Import Base Calendar Timestep Network NetworkBuildLemmas AggFuncs AggFuncsSpec Aggregator AggregatorSpec Memory MemorySpec MemoryFinalLemmas Outputs OutputsSpec OutputsLemmas OutputsWide OutputsLong MetricSets SchemaOutputs SchemaOutputsSpec SchemaOutputsLemmas SchemaOutputsLoad Props_Recorder Props_Outputs.
Open Scope list_scope.
Open Scope nat_scope.

(** A file is accepted exactly if no two metric sets have one name and every
    output can be served. *)
Theorem C77_accepted : forall hdf5 dir sets outputs,
  (exists rs, load_outputs hdf5 dir sets outputs = Ok rs) <-> NoDup (map bs_name sets) /\ Forall (servable hdf5 sets) outputs.
Proof.
  intros hdf5 dir sets outputs. split.
  - intros [rs H]. apply loaded in H. destruct H as [ND F]. split; [exact ND|]. apply Forall_forall. intros o Ho.
    destruct (Forall2_In_l _ _ _ _ F Ho) as (r & _ & Hr). apply (servable_recorder hdf5 dir sets o). eauto.
  - intros [ND F]. assert (X : exists rs, Forall2 (fun o r => (match o with SoHdf5 _ _ _ => hdf5 = true | _ => True end) /\ recorder_for dir (map bs_name sets) o r) outputs rs).
    { clear ND. induction F as [|o outputs H1 H2 IH]; [exists []; constructor|]. destruct IH as [rs IH]. apply (servable_recorder hdf5 dir sets o) in H1. destruct H1 as [r Hr].
      exists (r :: rs). constructor; assumption. }
    destruct X as [rs X]. exists rs. apply loaded. auto.
Qed.
Print Assumptions C77_accepted.

(** The outputs of a file do not disturb each other: a run with all of them ends
    exactly if a run with each of them alone does, and leaves the same of each. *)
Theorem C77_independent : forall p sets rs scenarios steps outs,
  network_run p sets rs scenarios steps = Ok outs <->
  network_run p sets [] scenarios steps = Ok [] /\ Forall2 (fun r o => network_run p sets [r] scenarios steps = Ok [o]) rs outs.
Proof. intros p sets rs scenarios steps outs. exact (run_independent p sets scenarios steps rs outs). Qed.
Print Assumptions C77_independent.

Section File.
  Variable hdf5 : bool.
  Variable dir : option path.
  Variable sets : list built_set.
  Variable outputs : list soutput.
  Variable rs : list recorder.
  Variable p : printing.
  Variable scenarios : list scenario_id.
  Variable steps : list saved_step.
  Variable outs : list outcome.
  Hypothesis Hl : load_outputs hdf5 dir sets outputs = Ok rs.
  Hypothesis Hr : network_run p sets rs scenarios steps = Ok outs.

  Lemma named_set i set : nth_error (map bs_name sets) i = Some set ->
    exists b, nth_error sets i = Some b /\ bs_name b = set /\ nth_error (core_sets sets) i = Some (recorded_set b).
  Proof.
    intros H. rewrite nth_error_map in H. destruct (nth_error sets i) as [b|] eqn:E; [|discriminate]. injection H as H. exists b. split; [reflexivity|]. split; [exact H|].
    unfold core_sets. rewrite nth_error_map, E. reflexivity.
  Qed.

  Lemma outcome_of k o : nth_error outputs k = Some o ->
    exists r out, nth_error outs k = Some out /\ recorder_for dir (map bs_name sets) o r /\ network_run p sets [r] scenarios steps = Ok [out].
  Proof.
    intros H. apply loaded in Hl. destruct Hl as [ND F]. apply run_independent in Hr. destruct Hr as [_ G].
    destruct (Forall2_nth_l _ _ _ _ _ F H) as (r & Er & _ & Hr'). destruct (Forall2_nth_l _ _ _ _ _ G Er) as (out & Eo & Ho). eauto.
  Qed.

  Lemma memory_outcome k name set agg order : nth_error outputs k = Some (SoMemory name set agg order) ->
    exists i b data, nth_error sets i = Some b /\ bs_name b = set /\ record_run (core_sets sets) i (length scenarios) steps = Ok data /\
      nth_error outs k = Some (OutMemory (mkMemResult name scenarios (ms_metrics (recorded_set b)) data
        (load_mem_agg (match agg with Some a => a | None => mkMemAgg None None None end)) (match order with Some o => o | None => MetricTimeScenario end))).
  Proof.
    intros H. destruct (outcome_of _ _ H) as (r & out & Eo & R & Ho). destruct r as [| | |name' i agg' order']; try contradiction. destruct R as (-> & Hi & -> & ->).
    destruct (named_set _ _ Hi) as (b & Hb & Hn & Hc). apply mem_alone in Ho. destruct Ho as (ms & data & Hms & Hd & ->). rewrite Hc in Hms. injection Hms as <-.
    exists i, b, data. auto.
  Qed.

  Lemma outcome_memory k r : nth_error outs k = Some (OutMemory r) -> exists set agg order, nth_error outputs k = Some (SoMemory (mr_name r) set agg order).
  Proof.
    intros H. pose proof Hr as Hr'. apply run_independent in Hr'. destruct Hr' as [_ G]. pose proof Hl as Hl'. apply loaded in Hl'. destruct Hl' as [_ F].
    pose proof (Forall2_length' _ _ _ G) as L1. pose proof (Forall2_length' _ _ _ F) as L2.
    assert (K : k < length outputs) by (rewrite L2, L1; apply nth_error_Some; congruence).
    destruct (nth_error outputs k) as [o|] eqn:Eo; [|apply nth_error_None in Eo; lia].
    destruct (outcome_of _ _ Eo) as (rec & out & E & R & Ho). rewrite H in E. injection E as <-.
    destruct rec as [n f i|n f is pl|n f i|n i a od].
    - apply wide_alone in Ho. destruct Ho as (? & _ & ?). discriminate.
    - apply long_alone in Ho. destruct Ho as (? & _ & ?). discriminate.
    - apply hdf_alone in Ho. destruct Ho as (_ & ? & _ & ?). discriminate.
    - apply mem_alone in Ho. destruct Ho as (ms & d & _ & _ & E). injection E as ->. cbn [mr_name].
      destruct o as [? ? [] [] ? | | name' set agg order]; try contradiction. destruct R as (-> & _). eauto.
  Qed.

  Lemma memory_result k name set agg order :
    nth_error outputs k = Some (SoMemory name set agg order) ->
    (forall k' set' agg' order', nth_error outputs k' = Some (SoMemory name set' agg' order') -> k' <= k) ->
    exists i b data, nth_error sets i = Some b /\ bs_name b = set /\ record_run (core_sets sets) i (length scenarios) steps = Ok data /\
      result_get (network_result outs) name = Some (mkMemResult name scenarios (ms_metrics (recorded_set b)) data
        (load_mem_agg (match agg with Some a => a | None => mkMemAgg None None None end)) (match order with Some o => o | None => MetricTimeScenario end)).
  Proof.
    intros H Hlast. destruct (memory_outcome _ _ _ _ _ H) as (i & b & data & Hb & Hn & Hd & Ho). exists i, b, data. split; [exact Hb|]. split; [exact Hn|]. split; [exact Hd|].
    apply nth_error_split in Ho. destruct Ho as (os1 & os2 & E & L). unfold network_result. rewrite E.
    set (r := mkMemResult _ _ _ _ _ _) in *. change name with (mr_name r). apply results_last. intros r' Hin Heq. cbn [mr_name r] in Heq.
    apply In_nth_error in Hin. destruct Hin as [j Hj]. assert (Hk : nth_error outs (k + S j) = Some (OutMemory r')).
    { rewrite E, nth_error_app2 by lia. replace (k + S j - length os1) with (S j) by lia. exact Hj. }
    apply outcome_memory in Hk. destruct Hk as (s' & a' & o' & Hk). rewrite Heq in Hk. apply Hlast in Hk. lia.
  Qed.

  Hypothesis Hc : Forall (complete (core_sets sets) (length scenarios)) steps.

  Lemma run_holds i b data : nth_error sets i = Some b -> bs_metrics b <> [] -> record_run (core_sets sets) i (length scenarios) steps = Ok data ->
    holds_set (recorded_set b) i scenarios steps data.
  Proof.
    intros Hb Hne Hd. assert (Hm : nth_error (core_sets sets) i = Some (recorded_set b)) by (unfold core_sets; rewrite nth_error_map, Hb; reflexivity).
    assert (L : length data = length scenarios) by exact (C34_one_entry_per_scenario _ _ _ _ _ Hc Hd). split; [exact L|].
    intros s rows Hs. assert (Hlt : s < length scenarios) by (rewrite <- L; apply nth_error_Some; congruence).
    destruct (ms_aggregator (recorded_set b)) as [a|] eqn:Ea.
    - destruct (C34_stores_every_period _ _ _ _ _ _ _ Hc Hd Hm Ea s Hlt) as (rows' & E & F & K). rewrite Hs in E. injection E as <-. split; [exact F|].
      intros j Hj. unfold recorded. rewrite Ea. exact (K j Hj).
    - assert (Hne' : ms_metrics (recorded_set b) <> []) by (cbn; destruct (bs_metrics b); [congruence|discriminate]).
      pose proof (C34_stores_every_step _ _ _ _ _ _ Hc Hd Hm Ea Hne' s Hlt) as E. rewrite Hs in E. injection E as ->. split.
      + apply Forall_forall. intros r Hr'. apply in_map_iff in Hr'. destruct Hr' as (st & <- & Hst). cbn [pv_value]. unfold values_at.
        rewrite Forall_forall in Hc. destruct (Hc _ Hst) as [L1 F]. rewrite Forall_forall in F.
        assert (Hin : In (nth s (sv_values st) []) (sv_values st)) by (apply nth_In; lia). specialize (F _ Hin).
        destruct (Forall2_nth_l _ _ _ _ _ F Hm) as (l & El & Hll). rewrite (nth_error_nth _ _ [] El). exact Hll.
      + intros j Hj. unfold recorded. rewrite Ea. unfold column, history. rewrite map_map. reflexivity.
  Qed.
End File.

(** A memory output can be got by its name, and holds what the metric set it
    names recorded, for every scenario and every metric. *)
Theorem C77_memory : forall hdf5 dir sets outputs rs p scenarios steps outs k name set agg order,
  load_outputs hdf5 dir sets outputs = Ok rs -> network_run p sets rs scenarios steps = Ok outs ->
  Forall (fun b => bs_metrics b <> []) sets -> Forall (complete (core_sets sets) (length scenarios)) steps ->
  nth_error outputs k = Some (SoMemory name set agg order) ->
  (forall k' set' agg' order', nth_error outputs k' = Some (SoMemory name set' agg' order') -> k' <= k) ->
  exists r i ms, result_get (network_result outs) name = Some r /\ mr_name r = name /\ mr_scenarios r = scenarios /\
    is_set sets set i ms /\ mr_metrics r = ms_metrics ms /\ holds_set ms i scenarios steps (mr_data r).
Proof.
  intros hdf5 dir sets outputs rs p scenarios steps outs k name set agg order Hl Hr Hne Hc Hk Hlast.
  destruct (memory_result _ _ _ _ _ _ _ _ _ Hl Hr _ _ _ _ _ Hk Hlast) as (i & b & data & Hb & Hn & Hd & Hg).
  eexists _, i, (recorded_set b). split; [exact Hg|]. cbn [mr_name mr_scenarios mr_metrics mr_data]. split; [reflexivity|]. split; [reflexivity|].
  split; [exists b; auto|]. split; [reflexivity|]. apply (run_holds sets scenarios steps Hc i b data Hb); [|exact Hd].
  rewrite Forall_forall in Hne. apply Hne. eapply nth_error_In. exact Hb.
Qed.
Print Assumptions C77_memory.

(** The data frame of a memory output has one record for every scenario, period
    and metric of the set: with the dates of the period, the scenario, the name
    and the attribute of the metric, and the value. *)
Theorem C77_dataframe : forall hdf5 dir sets outputs rs p scenarios steps outs k name set agg order,
  load_outputs hdf5 dir sets outputs = Ok rs -> network_run p sets rs scenarios steps = Ok outs ->
  Forall (fun b => bs_metrics b <> []) sets -> Forall (complete (core_sets sets) (length scenarios)) steps ->
  nth_error outputs k = Some (SoMemory name set agg order) ->
  (forall k' set' agg' order', nth_error outputs k' = Some (SoMemory name set' agg' order') -> k' <= k) ->
  exists r i ms, result_get (network_result outs) name = Some r /\ is_set sets set i ms /\ holds_set ms i scenarios steps (mr_data r) /\
    length (to_dataframe r) = length (ms_metrics ms) * list_sum (map (@length row) (mr_data r)) /\
    forall s t j sc rows period v metric attribute,
      nth_error scenarios s = Some sc -> nth_error (mr_data r) s = Some rows -> nth_error rows t = Some period ->
      nth_error (pv_value period) j = Some v -> nth_error (ms_metrics ms) j = Some (metric, attribute) ->
      exists set_column, nth_error (to_dataframe r) (record_position (length (ms_metrics ms)) (mr_data r) s t j) =
        Some (LongRecord (pv_start period) (pv_end period) (si_simulation sc) (si_label sc) set_column metric attribute v).
Proof.
  intros hdf5 dir sets outputs rs p scenarios steps outs k name set agg order Hl Hr Hne Hc Hk Hlast.
  destruct (C77_memory _ _ _ _ _ _ _ _ _ _ _ _ _ _ Hl Hr Hne Hc Hk Hlast) as (r & i & ms & Hg & Hn & Hs & Hi & Hm & Hh).
  exists r, i, ms. split; [exact Hg|]. split; [exact Hi|]. split; [exact Hh|]. destruct Hh as [L K].
  destruct (C34_long_export (mr_name r) (map fst (mr_metrics r)) (map snd (mr_metrics r)) (length (ms_metrics ms)) (mr_scenarios r) (mr_data r)) as [A B].
  - rewrite Hs, L. reflexivity.
  - rewrite map_length, Hm. reflexivity.
  - rewrite map_length, Hm. reflexivity.
  - apply Forall_forall. intros rows Hin. apply In_nth_error in Hin. destruct Hin as [s Hin]. exact (proj1 (K s rows Hin)).
  - split; [exact A|]. intros s t j sc rows period v metric attribute H1 H2 H3 H4 H5. exists (mr_name r).
    apply (B s t j sc rows period v metric attribute); try assumption; [rewrite Hs; exact H1| |]; rewrite Hm, nth_error_map, H5; reflexivity.
Qed.
Print Assumptions C77_dataframe.

(** Nothing else is among the results. *)
Theorem C77_no_other_results : forall hdf5 dir sets outputs rs p scenarios steps outs name r,
  load_outputs hdf5 dir sets outputs = Ok rs -> network_run p sets rs scenarios steps = Ok outs ->
  result_get (network_result outs) name = Some r -> exists set agg order, In (SoMemory name set agg order) outputs.
Proof.
  intros hdf5 dir sets outputs rs p scenarios steps outs name r Hl Hr Hg. unfold network_result in Hg. apply results_from in Hg. destruct Hg as [Hg | [Hin Hn]]; [discriminate|].
  apply In_nth_error in Hin. destruct Hin as [k Hk]. destruct (outcome_memory _ _ _ _ _ _ _ _ _ Hl Hr _ _ Hk) as (s & a & o & H). rewrite Hn in H. exists s, a, o. eapply nth_error_In. exact H.
Qed.
Print Assumptions C77_no_other_results.

(** A wide CSV output: the file is where the file name says, and the column of a
    scenario and a metric of the named set holds its recorded series. *)
Theorem C77_wide_csv : forall hdf5 dir sets outputs rs p scenarios steps outs k name f set places,
  load_outputs hdf5 dir sets outputs = Ok rs -> network_run p sets rs scenarios steps = Ok outs ->
  Forall (fun b => bs_metrics b <> []) sets -> Forall (complete (core_sets sets) (length scenarios)) steps -> aggregates_fine (core_sets sets) (length scenarios) steps ->
  nth_error outputs k = Some (SoCsv name f CfWide (CsSingle set) places) ->
  exists i ms header rows, is_set sets set i ms /\ nth_error outs k = Some (OutWide (placed dir f) (header ++ rows)) /\
    map (cell 0) header = ["node"; "attribute"; "simulation_id"; "label"]%string /\
    Forall (fun l => length l = 1 + length (ms_metrics ms) * length scenarios) (header ++ rows) /\
    forall s sc j m vs, nth_error scenarios s = Some sc -> nth_error (ms_metrics ms) j = Some m -> recorded ms (history s i j steps) vs ->
      let column := 1 + length (ms_metrics ms) * s + j in
      map (cell column) header = [fst m; snd m; print_nat p (si_simulation sc); si_label sc] /\
      map (cell column) rows = map (fun v => print_value p (pv_value v)) vs /\
      map (cell 0) rows = map (fun v => print_date p (pv_start v)) vs.
Proof.
  intros hdf5 dir sets outputs rs p scenarios steps outs k name f set places Hl Hr Hne Hc Ha Hk.
  destruct (outcome_of _ _ _ _ _ _ _ _ _ Hl Hr _ _ Hk) as (r & out & Eo & R & Ho). destruct r as [n f' i| | |]; try contradiction. destruct R as (-> & -> & Hi).
  destruct (named_set _ _ _ Hi) as (b & Hb & Hn & Hm). apply wide_alone in Ho. destruct Ho as (file & Hf & ->).
  assert (Ne : Forall (fun m => ms_metrics m <> []) (core_sets sets)).
  { unfold core_sets. apply Forall_forall. intros m Hin. apply in_map_iff in Hin. destruct Hin as (b' & <- & Hin). rewrite Forall_forall in Hne. specialize (Hne _ Hin). cbn. destruct (bs_metrics b'); [congruence|discriminate]. }
  destruct (C66_wide_csv p (core_sets sets) i (recorded_set b) scenarios steps Hm Ne Hc Ha) as (header & rows & E & L & H0 & K).
  rewrite E in Hf. injection Hf as <-. exists i, (recorded_set b), header, rows. split; [exists b; auto|]. split; [exact Eo|]. auto.
Qed.
Print Assumptions C77_wide_csv.

(** A long CSV output: the records of a scenario, one of the named sets and a
    metric are its recorded series, to the places asked for, and there are no
    others. *)
Theorem C77_long_csv : forall hdf5 dir sets outputs rs p scenarios steps outs k name f asked places,
  load_outputs hdf5 dir sets outputs = Ok rs -> network_run p sets rs scenarios steps = Ok outs ->
  Forall (fun b => bs_metrics b <> [] /\ NoDup (ms_metrics (recorded_set b))) sets -> Forall (complete (core_sets sets) (length scenarios)) steps -> aggregates_fine (core_sets sets) (length scenarios) steps ->
  NoDup (map si_simulation scenarios) -> NoDup (asked_sets (SoCsv name f CfLong asked places)) ->
  nth_error outputs k = Some (SoCsv name f CfLong asked places) ->
  exists file, nth_error outs k = Some (OutLong (placed dir f) file) /\
    (forall s sc set i ms j m vs, nth_error scenarios s = Some sc -> In set (asked_sets (SoCsv name f CfLong asked places)) -> is_set sets set i ms ->
       nth_error (ms_metrics ms) j = Some m -> recorded ms (history s i j steps) vs ->
       filter (belongs sc set m) file =
         map (fun v => LongRecord (pv_start v) (pv_end v) (si_simulation sc) (si_label sc) set (fst m) (snd m) (to_places (schema_places places) (pv_value v))) vs) /\
    (forall r, In r file -> exists sc set i ms m,
       In sc scenarios /\ In set (asked_sets (SoCsv name f CfLong asked places)) /\ is_set sets set i ms /\ In m (ms_metrics ms) /\ belongs sc set m r = true).
Proof.
  intros hdf5 dir sets outputs rs p scenarios steps outs k name f asked places Hl Hr Hne Hc Ha Hsim Hask Hk.
  destruct (outcome_of _ _ _ _ _ _ _ _ _ Hl Hr _ _ Hk) as (r & out & Eo & R & Ho). destruct r as [|n f' is pl| |]; try (destruct asked; contradiction).
  assert (R' : f' = placed dir f /\ pl = schema_places places /\ Forall2 (fun set i => nth_error (map bs_name sets) i = Some set) (asked_sets (SoCsv name f CfLong asked places)) is).
  { cbn [recorder_for] in R. destruct R as (_ & -> & -> & R). cbn [asked_sets]. destruct asked; auto. }
  destruct R' as (-> & -> & F). clear R. apply long_alone in Ho. destruct Ho as (file & Hf & ->).
  assert (ND : NoDup (map bs_name sets)) by (apply loaded in Hl; tauto).
  assert (NDi : NoDup is).
  { clear - F Hask. induction F as [|a i l is H1 H2 IH]; [constructor|]. inversion Hask as [|? ? Hn Hd]; subst. constructor; [|apply IH; exact Hd].
    intros Hin. destruct (Forall2_In_r _ _ _ _ H2 Hin) as (a' & Ha' & E). assert (a' = a) by congruence. subst a'. contradiction. }
  assert (Ib : Forall (fun i => i < length (core_sets sets)) is).
  { apply Forall_forall. intros i Hi. destruct (Forall2_In_r _ _ _ _ F Hi) as (a & _ & E). unfold core_sets. rewrite map_length. rewrite <- (map_length bs_name). apply nth_error_Some. congruence. }
  assert (Ne : Forall (fun m => ms_metrics m <> [] /\ NoDup (ms_metrics m)) (core_sets sets)).
  { unfold core_sets. apply Forall_forall. intros m Hin. apply in_map_iff in Hin. destruct Hin as (b' & <- & Hin). rewrite Forall_forall in Hne. destruct (Hne _ Hin) as [H1 H2]. split; [|exact H2]. cbn. destruct (bs_metrics b'); [congruence|discriminate]. }
  destruct (C66_long_csv (schema_places places) (core_sets sets) (map bs_name sets) is scenarios steps ltac:(unfold core_sets; rewrite !map_length; reflexivity) Ib ND Hsim NDi Ne Hc Ha) as (file' & E & K1 & K2).
  rewrite E in Hf. injection Hf as <-. exists file'. split; [exact Eo|]. split.
  - intros s sc set i ms j m vs Hs Hset (b & Hb & Hn & ->) Hj Hrec. destruct (Forall2_In_l _ _ _ _ F Hset) as (i' & Hi' & Ei').
    assert (Ei : nth_error (map bs_name sets) i = Some set) by (rewrite nth_error_map, Hb; cbn; congruence).
    assert (i' = i). { apply (proj1 (NoDup_nth_error _) ND); [apply nth_error_Some; congruence|congruence]. } subst i'.
    apply (K1 s sc i (recorded_set b) set j m vs Hs Hi'); [unfold core_sets; rewrite nth_error_map, Hb; reflexivity|exact Ei|exact Hj|exact Hrec].
  - intros r Hin. destruct (K2 r Hin) as (sc & i & ms & nm & m & H1 & H2 & H3 & H4 & H5 & H6). destruct (named_set _ _ _ H4) as (b & Hb & Hn & Hm). rewrite Hm in H3. injection H3 as <-.
    destruct (Forall2_In_r _ _ _ _ F H2) as (a & Ha' & Ea). rewrite H4 in Ea. injection Ea as <-.
    exists sc, nm, i, (recorded_set b), m. split; [exact H1|]. split; [exact Ha'|]. split; [exists b; auto|]. auto.
Qed.
Print Assumptions C77_long_csv.

(** An HDF5 output: a data set of the values of every metric of the named set. *)
Theorem C77_hdf5 : forall hdf5 dir sets outputs rs p scenarios steps outs k name f set,
  load_outputs hdf5 dir sets outputs = Ok rs -> network_run p sets rs scenarios steps = Ok outs -> Forall (complete (core_sets sets) (length scenarios)) steps ->
  nth_error outputs k = Some (SoHdf5 name f set) ->
  exists i ms data, is_set sets set i ms /\ nth_error outs k = Some (OutHdf5 (placed dir f) data) /\
    (NoDup (ms_metrics ms) -> (forall m, In m (ms_metrics ms) -> fst m <> "time"%string /\ m <> ("scenarios", "groups")%string /\ m <> ("scenarios", "indices")%string) ->
     length data = length (ms_metrics ms) /\
     forall j t s st, j < length (ms_metrics ms) -> nth_error steps t = Some st -> s < length scenarios -> nth s (nth t (nth j data []) []) 0%Q = value_at s i j st).
Proof.
  intros hdf5 dir sets outputs rs p scenarios steps outs k name f set Hl Hr Hc Hk.
  destruct (outcome_of _ _ _ _ _ _ _ _ _ Hl Hr _ _ Hk) as (r & out & Eo & R & Ho). destruct r as [| |n f' i|]; try contradiction. destruct R as (-> & -> & Hi).
  destruct (named_set _ _ _ Hi) as (b & Hb & Hn & Hm). apply hdf_alone in Ho. destruct Ho as (_ & d & Hd & ->).
  exists i, (recorded_set b), d. split; [exists b; auto|]. split; [exact Eo|]. intros ND Hok.
  destruct (C66_hdf5_partial _ _ _ _ _ Hm Hc ND Hok) as (d' & E & L & _ & K). rewrite E in Hd. injection Hd as <-. split; [exact L|]. exact K.
Qed.
Print Assumptions C77_hdf5.

(** *** The single value of a memory output *)

Lemma value_of hdf5 dir sets outputs rs p scenarios steps outs k name set agg order :
  load_outputs hdf5 dir sets outputs = Ok rs -> network_run p sets rs scenarios steps = Ok outs ->
  Forall (fun b => bs_metrics b <> []) sets -> Forall (complete (core_sets sets) (length scenarios)) steps ->
  nth_error outputs k = Some (SoMemory name set (Some agg) (Some order)) ->
  (forall k' set' agg' order', nth_error outputs k' = Some (SoMemory name set' agg' order') -> k' <= k) ->
  exists r i ms, result_get (network_result outs) name = Some r /\ is_set sets set i ms /\ holds_set ms i scenarios steps (mr_data r) /\
    forall x, get_aggregated_value (network_result outs) name = Ok (Some x) <-> wanted_value (exchanged agg) order (mr_data r) x.
Proof.
  intros Hl Hr Hne Hc Hk Hlast. destruct (memory_result _ _ _ _ _ _ _ _ _ Hl Hr _ _ _ _ _ Hk Hlast) as (i & b & data & Hb & Hn & Hd & Hg).
  assert (Hh : holds_set (recorded_set b) i scenarios steps data).
  { apply (run_holds sets scenarios steps Hc i b data Hb); [|exact Hd]. rewrite Forall_forall in Hne. apply Hne. eapply nth_error_In. exact Hb. }
  eexists _, i, (recorded_set b). split; [exact Hg|]. split; [exists b; auto|]. cbn [mr_data]. split; [exact Hh|]. intros x.
  assert (HM : Forall (Forall (fun r => length (pv_value r) = length (ms_metrics (recorded_set b)))) data).
  { apply Forall_forall. intros rows Hin. apply In_nth_error in Hin. destruct Hin as [s Hs]. exact (proj1 (proj2 Hh s rows Hs)). }
  pose proof (aggregated_wanted agg order name scenarios (ms_metrics (recorded_set b)) data _ x HM) as W.
  unfold get_aggregated_value. rewrite Hg. set (v := aggregated_value _) in *. rewrite <- W. destruct v; split; congruence.
Qed.

(** The value is the one the file asks for as long as it names the same function
    over time and over scenarios.  Missing: different functions, refuted below. *)
Theorem C77_value_partial : forall hdf5 dir sets outputs rs p scenarios steps outs k name set agg order,
  load_outputs hdf5 dir sets outputs = Ok rs -> network_run p sets rs scenarios steps = Ok outs ->
  Forall (fun b => bs_metrics b <> []) sets -> Forall (complete (core_sets sets) (length scenarios)) steps ->
  nth_error outputs k = Some (SoMemory name set (Some agg) (Some order)) ->
  (forall k' set' agg' order', nth_error outputs k' = Some (SoMemory name set' agg' order') -> k' <= k) ->
  ma_time agg = ma_scenario agg ->
  exists r i ms, result_get (network_result outs) name = Some r /\ is_set sets set i ms /\ holds_set ms i scenarios steps (mr_data r) /\
    forall x, get_aggregated_value (network_result outs) name = Ok (Some x) <-> wanted_value agg order (mr_data r) x.
Proof.
  intros hdf5 dir sets outputs rs p scenarios steps outs k name set agg order Hl Hr Hne Hc Hk Hlast E.
  destruct (value_of _ _ _ _ _ _ _ _ _ _ _ _ _ _ Hl Hr Hne Hc Hk Hlast) as (r & i & ms & H1 & H2 & H3 & H4). exists r, i, ms. split; [exact H1|]. split; [exact H2|]. split; [exact H3|].
  assert (X : exchanged agg = agg) by (destruct agg as [t s m]; cbn in E; subst; reflexivity). rewrite X in H4. exact H4.
Qed.
Print Assumptions C77_value_partial.

Lemma func_not_Panic g l : apply_func g l <> Panic.
Proof. unfold apply_func. destruct l as [|x [|]], g; discriminate. Qed.
Lemma time_func_not_Panic g l : apply_time_func g l <> Panic.
Proof. unfold apply_time_func. destruct l as [|x [|]], g; try discriminate; destruct (calc_period_values _ _); discriminate. Qed.
Lemma rmap_in_not_Panic {E A B} (f : A -> res E B) l : (forall x, In x l -> f x <> Panic) -> rmap f l <> Panic.
Proof.
  induction l as [|x l IH]; intros H; [discriminate|]. cbn [rmap]. pose proof (H x (or_introl eq_refl)) as Hx.
  destruct (f x); [|discriminate|congruence]. cbn [rbind]. specialize (IH (fun y I => H y (or_intror I))).
  destruct (rmap f l); [discriminate..|congruence].
Qed.
Lemma rbind_not_panic {E A B} (r : res E A) (k : A -> res E B) : r <> Panic -> (forall a, k a <> Panic) -> rbind r k <> Panic.
Proof. intros H1 H2. destruct r; cbn [rbind]; [apply H2|discriminate|congruence]. Qed.

(** If the functions do not give a value, asking for it is answered with "none",
    not with a panic; with the order that starts over time this needs a recorded
    period in each scenario. *)
Theorem C77_no_value : forall hdf5 dir sets outputs rs p scenarios steps outs k name set agg order,
  load_outputs hdf5 dir sets outputs = Ok rs -> network_run p sets rs scenarios steps = Ok outs ->
  Forall (fun b => bs_metrics b <> []) sets -> Forall (complete (core_sets sets) (length scenarios)) steps ->
  nth_error outputs k = Some (SoMemory name set (Some agg) (Some order)) ->
  (forall k' set' agg' order', nth_error outputs k' = Some (SoMemory name set' agg' order') -> k' <= k) ->
  exists r, result_get (network_result outs) name = Some r /\
    (order = MetricTimeScenario \/ Forall (fun periods => periods <> []) (mr_data r) ->
     (get_aggregated_value (network_result outs) name = Ok None \/
      exists x, get_aggregated_value (network_result outs) name = Ok (Some x))).
Proof.
  intros hdf5 dir sets outputs rs p scenarios steps outs k name set agg order Hl Hr Hne Hc Hk Hlast.
  destruct (memory_result _ _ _ _ _ _ _ _ _ Hl Hr _ _ _ _ _ Hk Hlast) as (i & b & data & Hb & Hn & Hd & Hg).
  assert (Hh : holds_set (recorded_set b) i scenarios steps data).
  { apply (run_holds sets scenarios steps Hc i b data Hb); [|exact Hd]. rewrite Forall_forall in Hne. apply Hne. eapply nth_error_In. exact Hb. }
  assert (HM : Forall (Forall (fun r => length (pv_value r) = length (ms_metrics (recorded_set b)))) data).
  { apply Forall_forall. intros rows Hin. apply In_nth_error in Hin. destruct Hin as [s Hs]. exact (proj1 (proj2 Hh s rows Hs)). }
  eexists. split; [exact Hg|]. cbn [mr_data]. intros Ho. unfold get_aggregated_value. rewrite Hg.
  assert (NP : aggregated_value (mkMemResult name scenarios (ms_metrics (recorded_set b)) data (load_mem_agg agg) order) <> Panic).
  { unfold aggregated_value. cbn [mr_order mr_agg mr_data]. destruct order; cbn.
    - apply rbind_not_panic; [|apply func_not_Panic]. apply rmap_in_not_Panic. intros rows _. apply rbind_not_panic; [|apply time_func_not_Panic].
      apply rmap_in_not_Panic. intros r _. apply rbind_not_panic; [apply func_not_Panic|discriminate].
    - destruct Ho as [Ho|Ho]; [discriminate|]. apply rbind_not_panic; [|apply func_not_Panic]. apply rmap_in_not_Panic. intros rows Hin.
      rewrite Forall_forall in Ho, HM. pose proof (HM _ Hin) as HMr. destruct rows as [|r0 rows]; [exfalso; exact (Ho _ Hin eq_refl)|].
      apply rbind_not_panic; [|apply func_not_Panic]. apply rmap_in_not_Panic. intros j Hj. apply rbind_not_panic; [|apply time_func_not_Panic].
      apply rmap_in_not_Panic. intros r Hr'. unfold row_index. apply in_seq in Hj. rewrite Forall_forall in HMr.
      destruct (nth_error (pv_value r) j) eqn:En; [discriminate|]. apply nth_error_None in En. rewrite (HMr _ Hr') in En.
      rewrite (HMr r0 (or_introl eq_refl)) in Hj. lia. }
  destruct (aggregated_value _) as [x| |]; [right; exists x; reflexivity|left; reflexivity|congruence].
Qed.
Print Assumptions C77_no_value.

(** The function over time and the one over scenarios are exchanged: the value is
    always the one that a file with the two exchanged would ask for. *)
Theorem C77_exchanged_refuted : forall hdf5 dir sets outputs rs p scenarios steps outs k name set agg order,
  load_outputs hdf5 dir sets outputs = Ok rs -> network_run p sets rs scenarios steps = Ok outs ->
  Forall (fun b => bs_metrics b <> []) sets -> Forall (complete (core_sets sets) (length scenarios)) steps ->
  nth_error outputs k = Some (SoMemory name set (Some agg) (Some order)) ->
  (forall k' set' agg' order', nth_error outputs k' = Some (SoMemory name set' agg' order') -> k' <= k) ->
  exists r i ms, result_get (network_result outs) name = Some r /\ is_set sets set i ms /\ holds_set ms i scenarios steps (mr_data r) /\
    forall x, get_aggregated_value (network_result outs) name = Ok (Some x) <->
      wanted_value (mkMemAgg (ma_scenario agg) (ma_time agg) (ma_metric agg)) order (mr_data r) x.
Proof. exact value_of. Qed.
Print Assumptions C77_exchanged_refuted.

(** With one scenario a file need only say how to aggregate over time.  Then there
    is no value at all. *)
Theorem C77_time_function_refuted : forall hdf5 dir sets outputs rs p sc steps outs k name set f metric order b,
  load_outputs hdf5 dir sets outputs = Ok rs -> network_run p sets rs [sc] steps = Ok outs ->
  Forall (fun b => bs_metrics b <> []) sets -> Forall (complete (core_sets sets) 1) steps ->
  nth_error outputs k = Some (SoMemory name set (Some (mkMemAgg (Some f) None metric)) (Some order)) ->
  (forall k' set' agg' order', nth_error outputs k' = Some (SoMemory name set' agg' order') -> k' <= k) ->
  In b sets -> bs_name b = set -> bs_aggregator b = None -> 2 <= length steps ->
  forall x, get_aggregated_value (network_result outs) name <> Ok (Some x).
Proof.
  intros hdf5 dir sets outputs rs p sc steps outs k name set f metric order b Hl Hr Hne Hc Hk Hlast Hin Hbn Hba Hs x Hx.
  destruct (value_of _ _ _ _ _ _ [sc] _ _ _ _ _ _ _ Hl Hr Hne Hc Hk Hlast) as (r & i & ms & _ & (b' & Hb' & Hn' & ->) & [L K] & H). apply H in Hx. clear H.
  assert (ND : NoDup (map bs_name sets)) by (apply loaded in Hl; tauto).
  assert (b' = b).
  { apply In_nth_error in Hin. destruct Hin as [i' Hi']. assert (i' = i).
    { apply (proj1 (NoDup_nth_error _) ND); [rewrite map_length; apply nth_error_Some; congruence|]. rewrite !nth_error_map, Hi', Hb'. cbn. congruence. }
    congruence. } subst b'.
  destruct (mr_data r) as [|rows [|]]; try discriminate. destruct (K 0 rows eq_refl) as [F R]. clear K L.
  assert (Hm : bs_metrics b <> []) by (rewrite Forall_forall in Hne; apply Hne; eapply nth_error_In; exact Hb').
  assert (Hj : 0 < length (ms_metrics (recorded_set b))) by (cbn; destruct (bs_metrics b); [congruence|cbn; lia]).
  pose proof (R 0 Hj) as R0. unfold recorded in R0. cbn [recorded_set ms_aggregator] in R0. rewrite Hba in R0.
  assert (Lr : length rows = length steps). { apply (f_equal (@length _)) in R0. unfold column, history in R0. rewrite !map_length in R0. exact R0. }
  destruct Hx as (ys & FY & _). inversion FY as [|? y ? ? HY _]; subst. clear FY.
  assert (T : forall l y, 2 <= length l -> ~ reduced_in_time (ma_time (exchanged (mkMemAgg (Some f) None metric))) l y).
  { intros l y' Hl'. destruct l as [|a [|c l]]; cbn in Hl'; try lia. cbn. intros (g & ? & _). discriminate. }
  destruct order.
  - destruct HY as (zs & FZ & HT). revert HT. apply T. rewrite map_length, combine_length, <- (Forall2_length' _ _ _ FZ). lia.
  - destruct HY as (M & zs & Hne' & FM & LZ & HZ & _). destruct rows as [|r0 rows]; [congruence|]. assert (EM : length (pv_value r0) = M) by (inversion FM; assumption).
    assert (EM' : length (pv_value r0) = length (ms_metrics (recorded_set b))) by (inversion F; assumption).
    destruct zs as [|z zs]; [cbn in LZ; lia|]. revert HZ. intros HZ. apply (T (column 0 (r0 :: rows)) z); [unfold column; rewrite map_length; lia|]. apply HZ. reflexivity.
Qed.
Print Assumptions C77_time_function_refuted.

(** *** A file with two memory outputs and a CSV file *)

Definition a_metric (name : string) : output_metric := mkOut name "flow" "Node" None (LmConst 0).
Definition the_sets : list built_set :=
  [mkBuilt "flows" None [a_metric "a"; a_metric "b"]; mkBuilt "levels" None [a_metric "c"]]%string.
Definition the_outputs (second : string) : list soutput :=
  [SoMemory "first" "levels" (Some (mkMemAgg (Some AgSum) (Some AgMax) None)) (Some MetricTimeScenario);
   SoCsv "table" (mkPath false ["table.csv"]) CfWide (CsSingle "flows") None;
   SoMemory second "flows" (Some (mkMemAgg (Some AgSum) (Some AgSum) (Some AgMax))) (Some TimeMetricScenario);
   SoCsv "list" (mkPath true ["tmp"; "list.csv"]) CfLong (CsMultiple ["levels"; "flows"]) (Some 2)]%string.
Definition the_scenarios : list scenario_id := [ScenarioId 0 "dry"; ScenarioId 1 "wet"]%string.
Definition the_steps : list saved_step :=
  [SavedStep (at_midnight 2021 1 1) NS_PER_DAY [[[1; 2]; [1]]; [[3; 4]; [5]]];
   SavedStep (at_midnight 2021 1 2) NS_PER_DAY [[[5; 6]; [2]]; [[7; 8]; [7]]]]%Q.
Definition printed : printing := Printing (fun _ => "n"%string) (fun _ => "d"%string) (fun _ => "v"%string).
Definition the_dir : option path := Some (mkPath true ["out"]%string).

Example C77_example : exists rs outs,
  load_outputs false the_dir the_sets (the_outputs "second") = Ok rs /\ network_run printed the_sets rs the_scenarios the_steps = Ok outs /\ Forall (fun b => bs_metrics b <> [] /\ NoDup (ms_metrics (recorded_set b))) the_sets /\
  Forall (complete (core_sets the_sets) (length the_scenarios)) the_steps /\ aggregates_fine (core_sets the_sets) (length the_scenarios) the_steps /\
  length (network_result outs) = 2 /\ result_get (network_result outs) "table" = None /\
  get_aggregated_value (network_result outs) "first" = Ok (Some (0 + 2 + 7)%Q) /\
  (exists records, nth_error outs 1 = Some (OutWide (mkPath true ["out"; "table.csv"]%string) records) /\ length records = 6) /\
  (exists records, nth_error outs 3 = Some (OutLong (mkPath true ["tmp"; "list.csv"]%string) records) /\ length records = 12).
Proof.
  eexists _, _. split; [vm_compute; reflexivity|]. split; [vm_compute; reflexivity|].
  split. { apply Forall_cons; [|apply Forall_cons; [|constructor]]; (split; [discriminate|]); cbn; repeat constructor; cbn; intuition discriminate. }
  split. { repeat constructor. }
  split. { intros i ms a s j Hi Ha. exfalso. destruct i as [|[|[|]]]; cbn in Hi; try discriminate; injection Hi as <-; discriminate Ha. }
  split; [vm_compute; reflexivity|]. split; [vm_compute; reflexivity|]. split; [vm_compute; reflexivity|].
  split; eexists; split; vm_compute; reflexivity.
Qed.

(** In it the first output asks for the greatest over the scenarios of the sums
    over time, which is 12; its value is the sum of the greatest values, 9. *)
Theorem C77_wrong_value_refuted : exists rs outs r x y,
  load_outputs false the_dir the_sets (the_outputs "second") = Ok rs /\ network_run printed the_sets rs the_scenarios the_steps = Ok outs /\
  result_get (network_result outs) "first" = Some r /\ get_aggregated_value (network_result outs) "first" = Ok (Some x) /\
  wanted_value (mkMemAgg (Some AgSum) (Some AgMax) None) MetricTimeScenario (mr_data r) y /\ (x == 9)%Q /\ (y == 12)%Q.
Proof.
  eexists _, _, _, _, _. split; [vm_compute; reflexivity|]. split; [vm_compute; reflexivity|]. split; [vm_compute; reflexivity|]. split; [vm_compute; reflexivity|].
  split; [|split; [vm_compute; reflexivity|]]; cycle 1.
  - instantiate (1 := calc_iter_f64 FMax [0 + 1 + 2; 0 + 5 + 7]%Q). vm_compute. reflexivity.
  - exists [0 + 1 + 2; 0 + 5 + 7]%Q. split; [|cbn; eauto]. constructor; [|constructor; [|constructor]].
    + exists [1; 2]%Q. split; [repeat constructor|]. exists AgSum. split; reflexivity.
    + exists [5; 7]%Q. split; [repeat constructor|]. exists AgSum. split; reflexivity.
Qed.
Print Assumptions C77_wrong_value_refuted.

(** Two memory outputs of one name are accepted, and only the later is kept. *)
Theorem C77_same_name_refuted : exists rs outs r,
  load_outputs false the_dir the_sets (the_outputs "first") = Ok rs /\ network_run printed the_sets rs the_scenarios the_steps = Ok outs /\
  length (network_result outs) = 1 /\ result_get (network_result outs) "first" = Some r /\ map fst (mr_metrics r) = ["a"; "b"]%string.
Proof. eexists _, _, _. split; [vm_compute; reflexivity|]. split; [vm_compute; reflexivity|]. split; [vm_compute; reflexivity|]. split; vm_compute; reflexivity. Qed.
Print Assumptions C77_same_name_refuted.

(** The column "metric_set" of a data frame holds the name of the output. *)
Theorem C77_dataframe_set_refuted : forall r, Forall (fun rec => lr_metric_set rec = mr_name r) (to_dataframe r).
Proof.
  intros r. unfold to_dataframe, long_records. apply Forall_forall. intros x H. apply in_flat_map in H. destruct H as ([sc rows] & _ & H).
  apply in_flat_map in H. destruct H as (pv & _ & H). unfold row_records in H. apply in_map_iff in H. destruct H as (y & <- & _). destruct y as [[v n] a]. reflexivity.
Qed.
Print Assumptions C77_dataframe_set_refuted.
