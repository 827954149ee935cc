(** C31, C32 and C34: periodic aggregation and the memory recorder. *)
From Coq Require Import QArith.
From Verif Require Import Base Calendar CalendarLemmas Timestep TimestepLemmas Network AggFuncs AggFuncsSpec Aggregator AggregatorSpec PeriodLemmas AggregatorLemmas AggregatorRunLemmas AggregatorEndLemmas LockstepLemmas Memory MemorySpec MemoryLemmas MemoryRunLemmas MemoryFinalLemmas.
Open Scope Z_scope.

(* ------------------------------ C31 ------------------------------ *)

(** Every value is cut into pieces that each stay in one period (uncut if it does
    already); the pieces in order are the groups of the emitted periods followed
    by what is held back; each emitted period is the aggregate of exactly its
    group; the groups are the pieces of one period each, and neighbours differ. *)
Theorem C31_periods_cover_their_values : forall f func values outs st,
  freq_ok f -> Forall recorded values -> consecutive values ->
  append_all (flat f func) (setup (flat f func)) values = Ok (outs, st) ->
  exists parts groups pending,
    Forall2 covers values parts /\ Forall (Forall (within_a_period f)) parts /\
    Forall2 (fun v ps => within_a_period f v -> ps = [v]) values parts /\
    concat parts = concat groups ++ pending /\
    st = SBase (match values with [] => None | _ => Some pending end) /\
    (values <> [] -> pending <> []) /\
    Forall2 (aggregates func) groups (emitted outs) /\
    Forall (one_period f) (groups ++ [pending]) /\ apart f (groups ++ [pending]).
Proof. exact flat_tiling. Qed.
Print Assumptions C31_periods_cover_their_values.

(** The emitted periods lie end to end from the first value on, for every nesting. *)
Theorem C31_contiguous : forall a values outs st,
  Forall level_ok (levels a) -> Forall recorded values -> consecutive values ->
  append_all a (setup a) values = Ok (outs, st) -> emits_well values (emitted outs).
Proof. intros a values outs st H. exact (nested_emits_well a H values outs st). Qed.
Print Assumptions C31_contiguous.

(** Months and years: an emitted period stays within its month or year and ends
    where the next one begins. *)
Theorem C31_calendar_boundaries : forall f func values outs st,
  calendric f -> Forall recorded values -> consecutive values ->
  append_all (flat f func) (setup (flat f func)) values = Ok (outs, st) ->
  Forall (calendar_period f) (emitted outs).
Proof. exact flat_calendar. Qed.
Print Assumptions C31_calendar_boundaries.

(** Means times lengths, with what is held back, add up to the recorded values
    times their durations, for every nesting. *)
Theorem C31_means_conserve : forall a values outs st,
  Forall level_ok (levels a) -> Forall (fun l => lv_func l = FMean) (levels a) ->
  Forall recorded values -> consecutive values ->
  append_all a (setup a) values = Ok (outs, st) ->
  (integral (emitted outs) + integral (held_back st) == integral values)%Q.
Proof. intros a values outs st H K. exact (nested_means a H K values outs st). Qed.
Print Assumptions C31_means_conserve.

(** Sums are conserved as long as no value is cut. *)
Theorem C31_sums_conserve : forall f values outs st,
  freq_ok f -> Forall recorded values -> consecutive values -> Forall (within_a_period f) values ->
  append_all (flat f FSum) (setup (flat f FSum)) values = Ok (outs, st) ->
  (total (map pv_value (emitted outs)) + total (map pv_value (held_back st)) == total (map pv_value values))%Q.
Proof. exact flat_sums. Qed.
Print Assumptions C31_sums_conserve.

(** No panic as long as each value meets at most one beginning of a period. *)
Theorem C31_never_panics : forall f func values,
  freq_ok f -> Forall recorded values -> consecutive values -> Forall (short_enough f) values ->
  exists outs st, append_all (flat f func) (setup (flat f func)) values = Ok (outs, st).
Proof. intros f func values F R C S. exact (flat_never_panics_from f func values F None R C S I). Qed.
Print Assumptions C31_never_panics.

(** Four weeks are short enough for months, 365 days for years. *)
Theorem C31_short_steps : forall f v, calendric f ->
  pv_dur v <= (match f with GAnnual => 365 | _ => 28 end) * NS_PER_DAY -> short_enough f v.
Proof. exact short_by_length. Qed.
Print Assumptions C31_short_steps.

Definition at_midnight (y m d : Z) : datetime := DateTime (Date y m d) 0.
Definition daily (y m d : Z) (x : Q) : pvalue := PV (at_midnight y m d) NS_PER_DAY x.

(** A value over three beginnings of months panics. *)
Theorem C31_long_step_refuted : exists values,
  Forall recorded values /\ consecutive values /\
  append_all (flat GMonthly FMean) (setup (flat GMonthly FMean)) values = Panic.
Proof.
  exists [PV (at_midnight 2021 1 15) (100 * NS_PER_DAY) 1%Q].
  split; [repeat constructor|]. split; [exact I|]. vm_compute. reflexivity.
Qed.
Print Assumptions C31_long_step_refuted.

(** A value cut by the beginning of a month is counted twice in sums. *)
Theorem C31_sum_of_cut_value_refuted : exists values outs st,
  Forall recorded values /\ consecutive values /\
  append_all (flat GMonthly FSum) (setup (flat GMonthly FSum)) values = Ok (outs, st) /\
  (total (map pv_value (emitted outs)) + total (map pv_value (held_back st)) == 2 * total (map pv_value values))%Q /\
  ~ (total (map pv_value values) == 0)%Q.
Proof.
  exists [PV (at_midnight 2021 1 29) (7 * NS_PER_DAY) 5%Q]. eexists _, _.
  split; [repeat constructor|]. split; [exact I|]. split; [vm_compute; reflexivity|]. split; [vm_compute; reflexivity|]. vm_compute. discriminate.
Qed.
Print Assumptions C31_sum_of_cut_value_refuted.

(** A negative number of days, which the type allows, never ends. *)
Lemma negative_days_loop n fuel : n < 0 -> forall t stop x, valid_datetime t = true -> instant t < instant stop ->
  split_loop fuel (GDays n) t stop x = None.
Proof.
  intros Hn. induction fuel as [|fuel IH]; intros t stop x V L; cbn [split_loop]; [reflexivity|].
  destruct (instant t <? instant stop) eqn:E; [|lia]. cbn [start_of_next_period]. cbv zeta.
  rewrite (IH (add_span t (Span 0 0 n 0)) stop x); [reflexivity| |].
  - apply datetime_of_instant_valid.
  - rewrite add_span_days by exact V. unfold NS_PER_DAY. lia.
Qed.
Theorem C31_negative_days_refuted : forall n v, n < 0 -> recorded v ->
  forall fuel, split_loop fuel (GDays n) (pv_start v) (pv_end v) (pv_value v) = None.
Proof.
  intros n v Hn [V D] fuel. apply negative_days_loop; [exact Hn|exact V|]. unfold pv_end.
  rewrite instant_add_duration. lia.
Qed.
Print Assumptions C31_negative_days_refuted.

(** A run of weekly values over a month and a year boundary. *)
Definition weekly : list pvalue :=
  [PV (at_midnight 2020 12 24) (7 * NS_PER_DAY) 1%Q; PV (at_midnight 2020 12 31) (7 * NS_PER_DAY) 3%Q;
   PV (at_midnight 2021 1 7) (7 * NS_PER_DAY) 5%Q; PV (at_midnight 2021 1 14) (7 * NS_PER_DAY) 2%Q].
Example C31_weekly_hypotheses : Forall recorded weekly /\ consecutive weekly /\ freq_ok GMonthly /\ calendric GMonthly /\
  Forall (short_enough GMonthly) weekly.
Proof.
  split; [repeat constructor|]. split; [repeat split; vm_compute; reflexivity|]. split; [exact I|]. split; [exact I|].
  repeat constructor; apply short_by_length; (exact I || discriminate).
Qed.
Example C31_weekly_run : exists outs st e,
  append_all (flat GMonthly FMean) (setup (flat GMonthly FMean)) weekly = Ok (outs, st) /\ emitted outs = [e] /\
  pv_start e = at_midnight 2020 12 24 /\ pv_dur e = 8 * NS_PER_DAY /\ (pv_value e == 10 # 8)%Q.
Proof. eexists _, _, _. split; [vm_compute; reflexivity|]. split; [vm_compute; reflexivity|]. split; [vm_compute; reflexivity|]. try split; vm_compute; reflexivity. Qed.
Example C31_unsplit_hypotheses : Forall (within_a_period (GDays 10)) (firstn 2 weekly).
Proof.
  cbn [firstn weekly].
  constructor; [|constructor; [|constructor]]; intros t Ht; cbn [same_period]; rewrite instant_datetime_of_instant; revert Ht;
    unfold start_of, stop_of, start_of; cbn [pv_start pv_dur]; unfold NS_PER_DAY; lia.
Qed.
Example C31_nested_hypotheses : let a := ANest (Level (Some GAnnual) FMean) (flat GMonthly FMean) in
  Forall level_ok (levels a) /\ Forall (fun l => lv_func l = FMean) (levels a) /\
  exists outs st, append_all a (setup a) weekly = Ok (outs, st).
Proof. split; [repeat constructor|]. split; [repeat constructor|]. eexists _, _. vm_compute. reflexivity. Qed.

(* ------------------------------ C32 ------------------------------ *)

(** One kind of period: the final value aggregates everything held back, which
    reaches to the end of the last recorded value. *)
Theorem C32_flat_final_partial : forall f func values outs st,
  freq_ok f -> values <> [] -> Forall recorded values -> consecutive values ->
  append_all (flat f func) (setup (flat f func)) values = Ok (outs, st) ->
  exists e a pending, finalise (flat f func) st = Ok (Some e, st) /\ held_back st = a :: pending /\
    pv_start e = pv_start a /\ calc_period_values func (a :: pending) = Some (pv_value e) /\
    stop_of e = start_of (last pending a) /\ stop_of (last pending a) = stop_of (last values (PV (pv_start a) 0 0%Q)).
Proof. exact flat_final. Qed.
Print Assumptions C32_flat_final_partial.

(** No period: nothing is emitted before the end and the final value aggregates
    every recorded value. *)
Theorem C32_unending_final_partial : forall func values outs st,
  values <> [] -> Forall recorded values ->
  append_all (unending func) (setup (unending func)) values = Ok (outs, st) ->
  emitted outs = [] /\ exists e, finalise (unending func) st = Ok (Some e, st) /\
    Some (pv_start e) = option_map pv_start (head values) /\ calc_period_values func values = Some (pv_value e).
Proof. exact unending_final. Qed.
Print Assumptions C32_unending_final_partial.

(** Periods of any kind nested in an aggregator over the whole run: the final
    value aggregates every value the child emitted and the child's final one. *)
Theorem C32_nested_unending_final_partial : forall func child values outs st,
  append_all (ANest (Level None func) child) (setup (ANest (Level None func) child)) values = Ok (outs, st) ->
  exists couts cst, append_all child (setup child) values = Ok (couts, cst) /\ emitted outs = [] /\
    forall cfin cst', finalise child cst = Ok (cfin, cst') -> emitted couts ++ if_any cfin <> [] ->
      exists fin st', finalise (ANest (Level None func) child) st = Ok (fin, st') /\
        option_map pv_value fin = calc_period_values func (emitted couts ++ if_any cfin).
Proof. exact nested_unending_final. Qed.
Print Assumptions C32_nested_unending_final_partial.

(** The final period always stops where the last value held back starts, so it
    never covers that value. *)
Theorem C32_final_duration_refuted : forall f func values outs st e st',
  freq_ok f -> values <> [] -> Forall recorded values -> consecutive values ->
  append_all (flat f func) (setup (flat f func)) values = Ok (outs, st) ->
  finalise (flat f func) st = Ok (Some e, st') ->
  stop_of e < stop_of (last values (PV (pv_start e) 0 0%Q)).
Proof.
  intros f func values outs st e st' F N R C H K. pose proof H as T.
  destruct (flat_final f func values outs st F N R C H) as (e2 & a & pending & K2 & Hb & Es & _ & S1 & S2). rewrite K in K2. injection K2 as -> _.
  rewrite Es, <- S2, S1. apply flat_tiling in T; auto. destruct T as (parts & groups & pend & Cv & _ & _ & Cat & St & _).
  assert (Rp : Forall recorded (concat parts)).
  { clear - Cv. induction Cv as [|v ps vs pss [H _] Hr IH]; [constructor|]. cbn. apply Forall_app. auto. }
  rewrite Cat in Rp. apply Forall_app in Rp. destruct Rp as [_ Rp]. subst st. destruct values as [|v0 values]; [congruence|]. cbn [held_back] in Hb. subst pend.
  rewrite Forall_forall in Rp. destruct (Rp (last pending a)) as [_ D]; [|unfold stop_of; lia].
  pose proof (last_In pending a a) as X. destruct pending; exact X.
Qed.
Print Assumptions C32_final_duration_refuted.

(** A monthly aggregator within an annual one, both sums, fed 31 December and 1
    and 2 January: the year that ends with December is emitted by no call. *)
Theorem C32_completed_parent_lost_refuted : exists a values outs st fin st',
  a = ANest (Level (Some GAnnual) FSum) (flat GMonthly FSum) /\
  values = [daily 2020 12 31 7; daily 2021 1 1 2; daily 2021 1 2 4] /\
  append_all a (setup a) values = Ok (outs, st) /\ finalise a st = Ok (fin, st') /\
  emitted outs = [] /\ option_map pv_value fin = Some (0 + 2 + 4)%Q.
Proof.
  eexists _, _, _, _, _, _. split; [reflexivity|]. split; [reflexivity|]. split; [vm_compute; reflexivity|].
  split; [vm_compute; reflexivity|]. split; [reflexivity|]. vm_compute. reflexivity.
Qed.
Print Assumptions C32_completed_parent_lost_refuted.

(** A single value held back by the child has a final period of no length, which
    a periodic parent ignores. *)
Theorem C32_single_child_value_refuted : exists a values outs st fin st',
  a = ANest (Level (Some GAnnual) FSum) (flat GMonthly FSum) /\
  values = [daily 2021 1 30 7; daily 2021 1 31 2; daily 2021 2 1 4] /\
  append_all a (setup a) values = Ok (outs, st) /\ finalise a st = Ok (fin, st') /\
  emitted outs = [] /\ option_map pv_value fin = Some (0 + (0 + 7 + 2))%Q.
Proof.
  eexists _, _, _, _, _, _. split; [reflexivity|]. split; [reflexivity|]. split; [vm_compute; reflexivity|].
  split; [vm_compute; reflexivity|]. split; [reflexivity|]. vm_compute. reflexivity.
Qed.
Print Assumptions C32_single_child_value_refuted.

Example C32_weekly_final : exists outs st e,
  append_all (flat GMonthly FMean) (setup (flat GMonthly FMean)) weekly = Ok (outs, st) /\
  finalise (flat GMonthly FMean) st = Ok (Some e, st) /\ pv_start e = at_midnight 2021 1 1 /\ (pv_value e == (3 * 6 + 5 * 7 + 2 * 7) / 20)%Q.
Proof. eexists _, _, _. split; [vm_compute; reflexivity|]. split; [vm_compute; reflexivity|]. split; [vm_compute; reflexivity|]. try split; vm_compute; reflexivity. Qed.

(* ------------------------------ C34 ------------------------------ *)
Open Scope nat_scope.

(** Without an aggregator: for every scenario one row per time-step, in order,
    with that time-step's date, duration and values of that metric set. *)
Theorem C34_stores_every_step : forall sets idx ns steps data ms,
  Forall (complete sets ns) steps -> record_run sets idx ns steps = Ok data ->
  nth_error sets idx = Some ms -> ms_aggregator ms = None -> ms_metrics ms <> [] ->
  forall s, s < ns -> nth_error data s = Some (map (fun st => PV (sv_date st) (sv_dur st) (values_at s idx st)) steps).
Proof. exact plain_stored. Qed.
Print Assumptions C34_stores_every_step.

(** With an aggregator: for every scenario, the column of every metric is what
    the aggregator makes of that metric's own history. *)
Theorem C34_stores_every_period : forall sets idx ns steps data ms a,
  Forall (complete sets ns) steps -> record_run sets idx ns steps = Ok data ->
  nth_error sets idx = Some ms -> ms_aggregator ms = Some a ->
  forall s, s < ns -> exists rows, nth_error data s = Some rows /\
    Forall (fun r => length (pv_value r) = length (ms_metrics ms)) rows /\
    forall j, j < length (ms_metrics ms) -> exists outs st fin st',
      append_all a (setup a) (history s idx j steps) = Ok (outs, st) /\ finalise a st = Ok (fin, st') /\
      column j rows = emitted outs ++ if_any fin.
Proof. exact aggregated_stored. Qed.
Print Assumptions C34_stores_every_period.

(** There is an entry for every scenario and no other. *)
Theorem C34_one_entry_per_scenario : forall sets idx ns steps data,
  Forall (complete sets ns) steps -> record_run sets idx ns steps = Ok data -> length data = ns.
Proof. intros sets idx ns steps data C H. exact (proj1 (record_run_nth sets idx ns steps data C H)). Qed.
Print Assumptions C34_one_entry_per_scenario.

(** Recording never fails or panics when every set has a metric and every
    metric's history can be aggregated on its own. *)
Theorem C34_recording_succeeds : forall sets idx ns steps,
  idx < length sets -> Forall (fun ms => ms_metrics ms <> []) sets -> Forall (complete sets ns) steps ->
  (forall i ms a s j, nth_error sets i = Some ms -> ms_aggregator ms = Some a -> s < ns -> j < length (ms_metrics ms) ->
     exists outs st r, append_all a (setup a) (history s i j steps) = Ok (outs, st) /\ finalise a st = Ok r) ->
  exists data, record_run sets idx ns steps = Ok data.
Proof. exact record_run_ok. Qed.
Print Assumptions C34_recording_succeeds.

(** A metric set without metrics panics. *)
Theorem C34_no_metrics_refuted : forall idx sets ns step,
  nth_error sets idx = Some (MetricSet None []) -> (forall ms, In ms sets -> ms_aggregator ms = None) -> complete sets (S ns) step ->
  record_run sets idx (S ns) [step] = Panic.
Proof.
  intros idx sets ns step Hi Hn C. unfold record_run. cbv zeta. cbn [save_steps].
  assert (Gs : forall date dur values, exists r, save_sets sets date dur values (map ms_setup sets) = Ok r /\
     (nth_error values idx = Some [] -> exists st, nth_error r idx = Some st /\ current_values st = Some [])).
  { intros date dur. revert idx Hi Hn. clear C. induction sets as [|m sets IH]; intros idx Hi Hn values; [destruct idx; discriminate|].
    destruct values as [|v values]; cbn [map save_sets].
    - eexists. split; [reflexivity|]. destruct idx; discriminate.
    - unfold ms_save. rewrite (Hn m (or_introl eq_refl)). cbv zeta. cbn [rbind].
      destruct idx as [|idx].
      + assert (X : exists r, save_sets sets date dur values (map ms_setup sets) = Ok r).
        { clear - Hn. revert values. induction sets as [|m2 sets IH]; intros values; cbn [map save_sets]; [eauto|].
          destruct values as [|v values]; [eauto|]. unfold ms_save. rewrite (Hn m2 (or_intror (or_introl eq_refl))). cbv zeta. cbn [rbind].
          destruct (IH ltac:(intros ms [<-|Hm]; [apply Hn; left; reflexivity|apply Hn; right; right; exact Hm]) values) as [r ->]. cbn [rbind]. eauto. }
        destruct X as [r ->]. cbn [rbind]. eexists. split; [reflexivity|]. cbn [nth_error]. intros [= ->]. eexists. split; reflexivity.
      + cbn [nth_error] in Hi. destruct (IH idx Hi (fun ms Hm => Hn ms (or_intror Hm)) values) as (r & -> & K). cbn [rbind]. eexists. split; [reflexivity|]. exact K. }
  assert (Gn : forall values n, exists rest, save_scenarios sets (sv_date step) (sv_dur step) values (repeat (map ms_setup sets) n) = Ok rest).
  { induction values as [|v values IH]; intros n; cbn [save_scenarios]; [eauto|]. destruct n; cbn [repeat]; [eauto|].
    destruct (Gs (sv_date step) (sv_dur step) v) as (r & -> & _). cbn [rbind]. destruct (IH n) as [rest ->]. cbn [rbind]. eauto. }
  destruct C as [L F]. destruct (sv_values step) as [|v values]; [discriminate|]. cbn [repeat save_scenarios].
  destruct (Gs (sv_date step) (sv_dur step) v) as (r & E & K). rewrite E. cbn [rbind]. destruct (Gn values ns) as [rest ->]. cbn [rbind].
  assert (Fv : Forall2 (fun ms l => length l = length (ms_metrics ms)) sets v) by (inversion F; assumption).
  destruct (nth_error v idx) as [vl|] eqn:Ev.
  - pose proof (Forall2_nth_error _ _ _ idx _ _ Fv Hi Ev) as Lv. cbn in Lv. destruct vl; [|discriminate].
    destruct (K eq_refl) as (st & Hst & Hc). unfold mem_setup. cbn [repeat mem_save]. rewrite Hst, Hc. reflexivity.
  - apply nth_error_None in Ev. apply Forall2_length' in Fv. assert (idx < length sets) by (apply nth_error_Some; congruence). lia.
Qed.
Print Assumptions C34_no_metrics_refuted.

(** The long-format export has one record per scenario, period and metric, at the
    expected place, with the right dates, labels, name, attribute and value. *)
Theorem C34_long_export : forall recorder names attrs num_metrics scenarios data,
  length scenarios = length data -> length names = num_metrics -> length attrs = num_metrics ->
  Forall (Forall (fun r => length (pv_value r) = num_metrics)) data ->
  length (long_records recorder names attrs scenarios data) = num_metrics * list_sum (map (@length row) data) /\
  forall i k j sc rows r v n a,
    nth_error scenarios i = Some sc -> nth_error data i = Some rows -> nth_error rows k = Some r ->
    nth_error (pv_value r) j = Some v -> nth_error names j = Some n -> nth_error attrs j = Some a ->
    nth_error (long_records recorder names attrs scenarios data) (record_position num_metrics data i k j) =
      Some (LongRecord (pv_start r) (pv_end r) (si_simulation sc) (si_label sc) recorder n a v).
Proof. intros rec names attrs M scenarios data. exact (long_position rec names attrs M scenarios data). Qed.
Print Assumptions C34_long_export.

(** When all functions are sums both orders give the sum of everything. *)
Theorem C34_sum_orders_agree : forall data num_metrics,
  Forall (fun rows => rows <> [] /\ Forall (fun r => length (pv_value r) = num_metrics) rows) data ->
  exists x y,
    metric_time_scenario (Aggregation (Some FSum) (Some FSum) (Some FSum)) data = Ok x /\
    time_metric_scenario (Aggregation (Some FSum) (Some FSum) (Some FSum)) data = Ok y /\
    (x == grand_total data)%Q /\ (y == grand_total data)%Q.
Proof.
  intros data M F. destruct (metric_first data) as (x & X1 & X2). destruct (time_first data M F) as (y & Y1 & Y2). exists x, y. auto.
Qed.
Print Assumptions C34_sum_orders_agree.

(** Other functions need not agree: the maximum of sums is not the sum of maxima. *)
Definition two_by_two : list (list row) :=
  [[PV (at_midnight 2021 1 1) NS_PER_DAY [1; 5]%Q; PV (at_midnight 2021 1 2) NS_PER_DAY [4; 2]%Q]].
Theorem C34_mixed_orders_differ_refuted : exists data x y,
  metric_time_scenario (Aggregation None (Some FMax) (Some FSum)) data = Ok x /\
  time_metric_scenario (Aggregation None (Some FMax) (Some FSum)) data = Ok y /\ ~ (x == y)%Q.
Proof. exists two_by_two. eexists _, _. split; [vm_compute; reflexivity|]. split; [vm_compute; reflexivity|]. vm_compute. discriminate. Qed.
Print Assumptions C34_mixed_orders_differ_refuted.

(** Two scenarios, two metric sets, the second aggregated monthly. *)
Definition two_sets : list metric_set :=
  [MetricSet None [("a", "flow"); ("b", "flow")]; MetricSet (Some (flat GMonthly FMean)) [("c", "volume"); ("d", "volume"); ("e", "flow")]]%string.
Definition saved : list saved_step :=
  [SavedStep (at_midnight 2021 1 30) (2 * NS_PER_DAY) [[[1; 2]; [3; 4; 5]]; [[6; 7]; [8; 9; 10]]]%Q;
   SavedStep (at_midnight 2021 2 1) (2 * NS_PER_DAY) [[[11; 12]; [13; 14; 15]]; [[16; 17]; [18; 19; 20]]]%Q;
   SavedStep (at_midnight 2021 2 3) (2 * NS_PER_DAY) [[[21; 22]; [23; 24; 25]]; [[26; 27]; [28; 29; 30]]]%Q].
Example C34_saved_complete : Forall (complete two_sets 2) saved /\ Forall (fun ms => ms_metrics ms <> []) two_sets.
Proof. repeat constructor; discriminate. Qed.
Example C34_saved_plain : record_run two_sets 0 2 saved = Ok
  [map (fun st => PV (sv_date st) (sv_dur st) (values_at 0 0 st)) saved; map (fun st => PV (sv_date st) (sv_dur st) (values_at 1 0 st)) saved].
Proof. vm_compute. reflexivity. Qed.
Example C34_saved_monthly : exists data, record_run two_sets 1 2 saved = Ok data /\ map (@length row) data = [2; 2] /\
  Forall (fun rows => rows <> [] /\ Forall (fun r => length (pv_value r) = 3) rows) data.
Proof. eexists. split; [vm_compute; reflexivity|]. split; [reflexivity|]. repeat constructor; discriminate. Qed.
Example C34_empty_set : complete [MetricSet None []] 2 (SavedStep (at_midnight 2021 1 30) NS_PER_DAY [[[]]; [[]]]).
Proof. repeat constructor. Qed.
