(** C66: the output files hold every value under its own scenario, metric and time. *)
From Coq Require Import QArith Lqa Qround Qabs.
From Verif Require Import Base Calendar CalendarLemmas Timestep Network AggFuncs Aggregator AggregatorSpec Memory MemorySpec MemoryFinalLemmas Outputs OutputsSpec OutputsLemmas OutputsWide OutputsLong Props_Recorder.
Open Scope nat_scope.

(** C66, wide CSV: the run succeeds; all records have a cell for every scenario
    and metric after the first; the column of a scenario and a metric starts with
    the name, the attribute, the number and the label, and continues with the
    recorded series, beside the starts of its values. *)
Theorem C66_wide_csv : forall p sets idx ms scenarios steps,
  nth_error sets idx = Some ms -> Forall (fun m => ms_metrics m <> []) sets ->
  Forall (complete sets (length scenarios)) steps -> aggregates_fine sets (length scenarios) steps ->
  exists header rows, wide_run p sets idx scenarios steps = Ok (header ++ rows) /\
    Forall (fun l => length l = 1 + length (ms_metrics ms) * length scenarios) (header ++ rows) /\
    map (cell 0) header = ["node"; "attribute"; "simulation_id"; "label"]%string /\
    forall s sc j m vs, nth_error scenarios s = Some sc -> nth_error (ms_metrics ms) j = Some m -> recorded ms (history s idx j steps) vs ->
      let column := 1 + length (ms_metrics ms) * s + j in
      map (cell column) header = [fst m; snd m; print_nat p (si_simulation sc); si_label sc] /\
      map (cell column) rows = map (fun v => print_value p (pv_value v)) vs /\
      map (cell 0) rows = map (fun v => print_date p (pv_start v)) vs.
Proof.
  intros p sets idx ms scenarios steps Hm Ne C A. destruct (wide_correct p sets idx ms scenarios steps Hm Ne C A) as (rows & E & L & K).
  exists (wide_header p (ms_metrics ms) scenarios), rows. split; [exact E|]. split; [exact L|]. split; [reflexivity|].
  intros s sc j m vs Hs Hj Hr column. unfold column. replace (1 + length (ms_metrics ms) * s + j) with (1 + (length (ms_metrics ms) * s + j)) by lia.
  split; [apply header_cells; assumption|]. apply K; [apply nth_error_Some; congruence|apply nth_error_Some; congruence|exact Hr].
Qed.
Print Assumptions C66_wide_csv.

(** C66, long CSV: the records of a scenario, a metric set and a metric are the
    recorded series in order, with its dates; and every record is one of these. *)
Theorem C66_long_csv : forall places sets names idxs scenarios steps,
  length names = length sets -> Forall (fun i => i < length sets) idxs -> NoDup names -> NoDup (map si_simulation scenarios) -> NoDup idxs ->
  Forall (fun m => ms_metrics m <> [] /\ NoDup (ms_metrics m)) sets ->
  Forall (complete sets (length scenarios)) steps -> aggregates_fine sets (length scenarios) steps ->
  exists file, long_run places sets names idxs scenarios steps = Ok file /\
    (forall s sc i ms name j m vs, nth_error scenarios s = Some sc -> In i idxs -> nth_error sets i = Some ms -> nth_error names i = Some name ->
       nth_error (ms_metrics ms) j = Some m -> recorded ms (history s i j steps) vs ->
       filter (belongs sc name m) file =
         map (fun v => LongRecord (pv_start v) (pv_end v) (si_simulation sc) (si_label sc) name (fst m) (snd m) (to_places places (pv_value v))) vs) /\
    (forall r, In r file -> exists sc i ms name m,
       In sc scenarios /\ In i idxs /\ nth_error sets i = Some ms /\ nth_error names i = Some name /\ In m (ms_metrics ms) /\ belongs sc name m r = true).
Proof. exact long_correct. Qed.
Print Assumptions C66_long_csv.

(** C66, decimal places: the value written is within half a unit of the last
    place, and has no more places; without the option it is exact. *)
Theorem C66_decimal_places : forall q,
  to_places None q = q /\
  forall n, (Qabs (to_places (Some n) q - q) <= (1 # 2) / inject_Z (10 ^ Zpos n))%Q /\
    exists z, (to_places (Some n) q == inject_Z z / inject_Z (10 ^ Zpos n))%Q.
Proof. intros q. split; [reflexivity|]. intros n. apply to_places_close. Qed.
Print Assumptions C66_decimal_places.

(** Asking for no decimal places at all leaves every value as it is. *)
Theorem C66_zero_places_refuted : forall n : nat,
  schema_places (Some 0) = None /\ (schema_places (Some (S n)) = Some (Pos.of_succ_nat n)) /\
  ~ (forall q, exists z, (to_places (schema_places (Some 0%nat)) q == inject_Z z)%Q).
Proof.
  intros n. split; [reflexivity|]. split; [reflexivity|]. intros H. destruct (H (1 # 2)) as [z E]. cbn in E. unfold Qeq in E. cbn in E. lia.
Qed.
Print Assumptions C66_zero_places_refuted.

(** C66, HDF5: every metric has its own data set, of one row per time-step and
    one column per scenario, which holds the values of the metric.  Missing: the aggregation of the metric
    set, and names used twice or reserved, refuted below. *)
Theorem C66_hdf5_partial : forall sets idx ms ns steps, nth_error sets idx = Some ms -> Forall (complete sets ns) steps ->
  NoDup (ms_metrics ms) -> (forall m, In m (ms_metrics ms) -> fst m <> "time"%string /\ m <> ("scenarios", "groups")%string /\ m <> ("scenarios", "indices")%string) ->
  exists data, hdf_run sets idx ns steps = Ok data /\ length data = length (ms_metrics ms) /\
    Forall (fun d => length d = length steps /\ Forall (fun r => length r = ns) d) data /\
    forall j k s st, j < length (ms_metrics ms) -> nth_error steps k = Some st -> s < ns -> nth s (nth k (nth j data []) []) 0%Q = value_at s idx j st.
Proof. exact hdf_correct. Qed.
Print Assumptions C66_hdf5_partial.

(** The HDF5 recorder ignores the aggregator of its metric set. *)
Theorem C66_hdf5_aggregation_refuted :
  (forall a b metrics ns steps, hdf_run [MetricSet a metrics] 0 ns steps = hdf_run [MetricSet b metrics] 0 ns steps) /\
  ~ (forall sets idx ms ns steps data, nth_error sets idx = Some ms -> Forall (complete sets ns) steps -> hdf_run sets idx ns steps = Ok data ->
       forall j s vs, j < length (ms_metrics ms) -> s < ns -> recorded ms (history s idx j steps) vs -> map (fun r => nth s r 0%Q) (nth j data []) = map pv_value vs).
Proof.
  split; [reflexivity|]. intros H.
  assert (E : exists data, hdf_run two_sets 1 2 saved = Ok data) by (eexists; vm_compute; reflexivity). destruct E as [data E].
  assert (R : exists vs, recorded (MetricSet (Some (flat GMonthly FMean)) [("c", "volume"); ("d", "volume"); ("e", "flow")]%string) (history 0 1 0 saved) vs /\ length vs = 2).
  { unfold recorded. cbn [ms_aggregator]. eexists. split.
    - do 4 eexists. split; [vm_compute; reflexivity|]. split; [vm_compute; reflexivity|reflexivity].
    - vm_compute. reflexivity. }
  destruct R as (vs & R & L).
  specialize (H two_sets 1 _ 2 saved data eq_refl (proj1 C34_saved_complete) E 0 0 vs ltac:(cbn; lia) ltac:(lia) R).
  apply (f_equal (@length Q)) in H. rewrite !map_length, L in H.
  assert (D : length (nth 0 data []) = 3) by (revert E; vm_compute; intros E; injection E as <-; reflexivity). rewrite D in H. discriminate H.
Qed.
Print Assumptions C66_hdf5_aggregation_refuted.

(** Two metrics of one name and attribute, or a node called [time], cannot be
    saved to HDF5. *)
Theorem C66_hdf5_names_refuted :
  ~ (forall sets idx ns steps, idx < length sets -> Forall (fun m => ms_metrics m <> []) sets -> Forall (complete sets ns) steps -> exists data, hdf_run sets idx ns steps = Ok data) /\
  forall a ns steps attr, hdf_run [MetricSet a [("time"%string, attr)]] 0 ns steps = Err AlreadyExists /\
    forall name, name <> "time"%string -> name <> "scenarios"%string -> hdf_run [MetricSet a [(name, attr); (name, attr)]] 0 ns steps = Err AlreadyExists.
Proof.
  split.
  - intros H. destruct (H [MetricSet None [("time", "flow")]]%string 0 0 [] ltac:(cbn; lia) ltac:(repeat constructor; discriminate) ltac:(constructor)) as [d E]. discriminate E.
  - intros a ns steps attr. split; [reflexivity|]. intros name Ht Hn. unfold hdf_run, hdf_setup. cbn [nth_error ms_metrics require_datasets require_dataset fst snd existsb].
    unfold require_dataset. pose proof (proj2 (String.eqb_neq name "scenarios") Hn) as E1. pose proof (proj2 (String.eqb_neq name "time") Ht) as E2.
    assert (E3 : String.eqb "scenarios" name = false) by (apply String.eqb_neq; congruence).
    cbn -[String.eqb]. repeat (rewrite ?E1, ?E2, ?E3, ?String.eqb_refl; cbn -[String.eqb]). reflexivity.
Qed.
Print Assumptions C66_hdf5_names_refuted.

(** A metric set without metrics stops the wide CSV recorder. *)
Theorem C66_empty_set_refuted : forall p sc scenarios st,
  complete [MetricSet None []] (length (sc :: scenarios)) st -> wide_run p [MetricSet None []] 0 (sc :: scenarios) [st] = Panic.
Proof.
  intros p sc scenarios [date dur values] [L F]. cbn [sv_values] in *. unfold wide_run, run_recorder. cbn [nth_error run_steps sv_date sv_dur sv_values map length repeat] in *.
  destruct values as [|v values]; [discriminate|]. inversion F as [|? ? Fv Fr]; subst. inversion Fv as [|? l ? ? Fl Fn]; subst. inversion Fn; subst. destruct l; [|discriminate Fl].
  cbn [save_scenarios save_sets ms_save ms_aggregator rbind].
  assert (G : exists r, save_scenarios [MetricSet None []] date dur values (repeat [ms_setup (MetricSet None [])] (length scenarios)) = Ok r).
  { cbn [length] in L. apply Nat.succ_inj in L. clear - L Fr. revert L. generalize (length scenarios) as n. induction values as [|v values IH]; intros n L; destruct n as [|n]; cbn [length] in L; try lia; [eexists; reflexivity|].
    inversion Fr as [|? ? Fv Fr']; subst. inversion Fv as [|? l ? ? Fl Fn]; subst. inversion Fn; subst. destruct l; [|discriminate Fl]. destruct (IH Fr' n ltac:(lia)) as [r E].
    cbn [repeat save_scenarios]. rewrite E. cbn. eauto. }
  destruct G as [r E]. change [MetricSetState None None] with [ms_setup (MetricSet None [])]. rewrite E. reflexivity.
Qed.
Print Assumptions C66_empty_set_refuted.

(** A run that meets the hypotheses: two scenarios, a plain and a monthly metric set. *)
Definition two_scenarios : list scenario_id := [ScenarioId 3 "wet"; ScenarioId 8 "dry"]%string.
Definition dots : printing := Printing (fun n => if n =? 3 then "3"%string else "8"%string) (fun _ => "date"%string) (fun q => if Qle_bool q 15 then "low"%string else "high"%string).
Example C66_example_fine : aggregates_fine two_sets 2 saved.
Proof.
  intros i ms a s j Hi Ha Hs Hj. destruct i as [|[|i]]; cbn in Hi; [| |destruct i; discriminate]; injection Hi as <-; [discriminate|]. cbn in Ha. injection Ha as <-. cbn in Hj, Hs.
  destruct s as [|[|s]]; [| |lia]; (destruct j as [|[|[|j]]]; [| | |lia]); (do 3 eexists; split; [vm_compute; reflexivity|vm_compute; reflexivity]).
Qed.
Example C66_example_wide : wide_run dots two_sets 0 two_scenarios saved = Ok
    [["node"; "a"; "b"; "a"; "b"]; ["attribute"; "flow"; "flow"; "flow"; "flow"]; ["simulation_id"; "3"; "3"; "8"; "8"]; ["label"; "wet"; "wet"; "dry"; "dry"];
     ["date"; "low"; "low"; "low"; "low"]; ["date"; "low"; "low"; "high"; "high"]; ["date"; "high"; "high"; "high"; "high"]]%string.
Proof. vm_compute. reflexivity. Qed.
Example C66_example_long : exists file, long_run (Some 2%positive) two_sets ["daily"; "monthly"]%string [1; 0] two_scenarios saved = Ok file /\ length file = 24.
Proof. eexists. split; [vm_compute; reflexivity|reflexivity]. Qed.
Example C66_example_hdf5 : exists data, hdf_run two_sets 1 2 saved = Ok data /\ nth 2 data [] = [[5; 10]; [15; 20]; [25; 30]]%Q.
Proof. eexists. split; [vm_compute; reflexivity|reflexivity]. Qed.
Example C66_example_names : Forall (fun m => ms_metrics m <> [] /\ NoDup (ms_metrics m)) two_sets /\ NoDup (map si_simulation two_scenarios) /\ Forall (complete two_sets (length two_scenarios)) saved.
Proof. split; [|split; [|exact (proj1 C34_saved_complete)]]; repeat constructor; cbn; try discriminate; intuition discriminate. Qed.
