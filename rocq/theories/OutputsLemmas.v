(** The file recorders see, save by save, what each metric records. *)
From Coq Require Import QArith Lqa.
From Verif Require Import Base Calendar CalendarLemmas Timestep Network NetworkBuildLemmas AggFuncs Aggregator AggregatorSpec LockstepLemmas Memory MemorySpec MemoryLemmas MemoryRunLemmas MemoryFinalLemmas Outputs OutputsSpec.
Open Scope nat_scope.

(* ---------- one metric set in one scenario ---------- *)

Fixpoint set_trace (ms : metric_set) (series : list (datetime * Z * list Q)) (st : metric_set_state) : res mem_error (list metric_set_state) :=
  match series with
  | [] => rbind (ms_finalise ms st) (fun f => Ok [f])
  | (date, dur, vals) :: rest => rbind (ms_save ms date dur vals st) (fun st' => rbind (set_trace ms rest st') (fun l => Ok (st' :: l)))
  end.

(** What a metric yields in every save and at the end. *)
Definition yields (ms : metric_set) (h : list pvalue) (ys : list (option pvalue)) : Prop :=
  match ms_aggregator ms with
  | None => ys = map Some h ++ [None]
  | Some a => exists outs st fin st', append_all a (setup a) h = Ok (outs, st) /\ finalise a st = Ok (fin, st') /\ ys = outs ++ [fin]
  end.

Lemma emitted_app a b : emitted (a ++ b) = emitted a ++ emitted b.
Proof. apply flat_map_app. Qed.
Lemma emitted_map_Some l : emitted (map Some l) = l.
Proof. induction l as [|v l IH]; [reflexivity|]. cbn. f_equal. exact IH. Qed.

Lemma recorded_yields ms h vs : recorded ms h vs <-> exists ys, yields ms h ys /\ vs = emitted ys.
Proof.
  unfold recorded, yields. destruct (ms_aggregator ms) as [a|].
  - split.
    + intros (outs & st & fin & st' & A & B & ->). exists (outs ++ [fin]). split; [exists outs, st, fin, st'; auto|]. rewrite emitted_app. f_equal. destruct fin; reflexivity.
    + intros (ys & (outs & st & fin & st' & A & B & ->) & ->). exists outs, st, fin, st'. repeat split; auto. rewrite emitted_app. f_equal. destruct fin; reflexivity.
  - split.
    + intros ->. eexists. split; [reflexivity|]. rewrite emitted_app, emitted_map_Some. cbn. rewrite app_nil_r. reflexivity.
    + intros (ys & -> & ->). rewrite emitted_app, emitted_map_Some. cbn. apply app_nil_r.
Qed.

Definition shows (M : nat) (cv : option (list pvalue)) (j : nat) (y : option pvalue) : Prop :=
  match cv with
  | None => y = None
  | Some vs => length vs = M /\ exists v, nth_error vs j = Some v /\ y = Some v
  end.

Lemma set_trace_plain ms : ms_aggregator ms = None -> forall series st,
  Forall (fun x => length (snd x) = length (ms_metrics ms)) series ->
  exists tr, set_trace ms series st = Ok tr /\ length tr = S (length series) /\
    forall j, j < length (ms_metrics ms) -> Forall2 (fun st y => shows (length (ms_metrics ms)) (current_values st) j y) tr (map Some (metric_series j series) ++ [None]).
Proof.
  intros Ha. induction series as [|[[date dur] vals] series IH]; intros st F; cbn [set_trace].
  - unfold ms_finalise. rewrite Ha. cbn [rbind]. eexists. split; [reflexivity|]. split; [reflexivity|]. intros j Hj. constructor; [reflexivity|constructor].
  - inversion F as [|? ? Fv Fs]; subst. cbn [snd] in Fv. unfold ms_save. rewrite Ha. cbv zeta. cbn [rbind].
    destruct (IH (MetricSetState (Some (map (fun x => PV date dur x) vals)) (aggregation_states st)) Fs) as (tr & E & L & K). rewrite E. cbn [rbind].
    eexists. split; [reflexivity|]. split; [cbn; lia|]. intros j Hj. cbn [metric_series map app]. constructor; [|apply K, Hj].
    cbn [current_values shows]. rewrite map_length. split; [exact Fv|]. eexists. split; [|reflexivity].
    rewrite nth_error_map. rewrite (nth_error_nth' vals 0%Q) by lia. reflexivity.
Qed.

Lemma set_trace_agg ms a : ms_aggregator ms = Some a -> forall series cv sts,
  sts <> [] -> Forall (fun x => length (snd x) = length sts) series -> all_alike sts ->
  (forall j s, nth_error sts j = Some s -> exists outs st r, append_all a s (metric_series j series) = Ok (outs, st) /\ finalise a st = Ok r) ->
  exists tr, set_trace ms series (MetricSetState cv (Some sts)) = Ok tr /\ length tr = S (length series) /\
    forall j s outs st fin st', nth_error sts j = Some s -> append_all a s (metric_series j series) = Ok (outs, st) -> finalise a st = Ok (fin, st') ->
      Forall2 (fun st y => shows (length sts) (current_values st) j y) tr (outs ++ [fin]).
Proof.
  intros Ha. induction series as [|[[date dur] vals] series IH]; intros cv sts Ne F AL K; cbn [set_trace].
  - unfold ms_finalise. rewrite Ha. cbn [aggregation_states].
    destruct (finalise_each_ok a sts) as [[vs sts'] E].
    { intros s Hs. apply In_nth_error in Hs. destruct Hs as [j Hj]. destruct (K j s Hj) as (outs & st & r & A & B). cbn in A. injection A as <- <-. eauto. }
    rewrite E. cbn [rbind]. eexists. split; [reflexivity|]. split; [reflexivity|].
    intros j s outs st fin st' Hj A B. cbn in A. injection A as <- <-. cbn [app]. constructor; [|constructor]. cbn [current_values].
    destruct (finalise_each_inv a sts vs sts' E AL) as (os & L & G & V & _). destruct (G j s Hj) as (o & s1 & Ho & Fo).
    assert (o = fin) by congruence. subst o. destruct vs as [l|]; cbn [shows].
    + subst os. rewrite map_length in L. split; [exact L|]. rewrite nth_error_map in Ho. destruct (nth_error l j) as [v|] eqn:El; [|discriminate]. exists v. split; [reflexivity|]. cbn in Ho. congruence.
    + rewrite Forall_forall in V. apply V. eapply nth_error_In; eassumption.
  - inversion F as [|? ? Fv Fs]; subst. cbn [snd] in Fv.
    assert (K0 : forall j x s, nth_error vals j = Some x -> nth_error sts j = Some s -> exists r, append_value a s (PV date dur x) = Ok r).
    { intros j x s Hx Hs. destruct (K j s Hs) as (outs & st & r & A & _). cbn [metric_series map append_all] in A. rewrite (nth_error_nth _ _ 0%Q Hx) in A.
      apply rbind_Ok in A. destruct A as (w & A & _). eauto. }
    destruct (ms_save_ok ms a date dur vals cv sts Ha Fv AL K0) as [st1 E1]. rewrite E1. cbn [rbind].
    destruct (ms_save_inv ms a date dur vals cv sts st1 Ha Fv AL E1) as (os & sts1 & S1 & L1 & L2 & AL1 & G & _ & CV).
    destruct st1 as [cv1 ag1]. cbn [current_values] in *. injection S1 as ->.
    assert (NX : forall j s, nth_error sts j = Some s -> exists x, nth_error vals j = Some x /\ nth j vals 0%Q = x).
    { intros j s Hs. assert (j < length vals) by (rewrite Fv; apply nth_error_Some; congruence). destruct (nth_error vals j) as [x|] eqn:Ex; [|apply nth_error_None in Ex; lia].
      exists x. split; [reflexivity|]. apply nth_error_nth. exact Ex. }
    destruct (IH cv1 sts1) as (tr & E2 & L3 & R).
    + intros ->. destruct sts; [congruence|discriminate].
    + rewrite L2. exact Fs.
    + exact AL1.
    + intros j s1 Hs1. assert (j < length sts) by (rewrite <- L2; apply nth_error_Some; congruence). destruct (nth_error sts j) as [s|] eqn:Hs; [|apply nth_error_None in Hs; lia].
      destruct (NX j s Hs) as (x & Hx & Nx). destruct (G j x s Hx Hs) as (o & s' & _ & B & C). assert (s' = s1) by congruence. subst s'.
      destruct (K j s Hs) as (outs & st & r & A & Fi). cbn [metric_series map append_all] in A. rewrite Nx, C in A. cbn [rbind] in A.
      apply rbind_Ok in A. destruct A as ((outs1, st1) & A & B1). injection B1 as <- <-. exists outs1, st1, r. split; [exact A|exact Fi].
    + rewrite E2. cbn [rbind]. eexists. split; [reflexivity|]. split; [cbn; lia|].
      intros j s outs st fin st' Hs A Fi. destruct (NX j s Hs) as (x & Hx & Nx). destruct (G j x s Hx Hs) as (o & s' & Ho & Hs' & C).
      cbn [metric_series map append_all] in A. rewrite Nx, C in A. cbn [rbind] in A. apply rbind_Ok in A. destruct A as ((outs1, st1) & A & B1). injection B1 as <- <-.
      cbn [app]. constructor; [|rewrite <- L2; exact (R j s' outs1 st1 fin st' Hs' A Fi)]. cbn [current_values].
      destruct CV as [[-> N]|(-> & EM & _)]; cbn [shows].
      * assert (Z : forall l : list (option pvalue), emitted l = [] -> forall o, In o l -> o = None).
        { clear. induction l as [|[v|] l IH]; intros H o Ho; [destruct Ho|discriminate|]. destruct Ho as [<-|Ho]; [reflexivity|exact (IH H o Ho)]. }
        apply (Z os N). eapply nth_error_In; eassumption.
      * split; [rewrite <- L1; rewrite EM at 2; rewrite map_length; reflexivity|]. rewrite EM, nth_error_map in Ho. destruct (nth_error (emitted os) j) as [v|] eqn:Ev; [|discriminate].
        exists v. split; [reflexivity|]. cbn in Ho. congruence.
Qed.

Lemma set_trace_ok ms series : ms_metrics ms <> [] -> Forall (fun x => length (snd x) = length (ms_metrics ms)) series ->
  (forall a j, ms_aggregator ms = Some a -> j < length (ms_metrics ms) -> exists outs st r, append_all a (setup a) (metric_series j series) = Ok (outs, st) /\ finalise a st = Ok r) ->
  exists tr, set_trace ms series (ms_setup ms) = Ok tr /\ length tr = S (length series) /\
    forall j ys, j < length (ms_metrics ms) -> yields ms (metric_series j series) ys -> Forall2 (fun st y => shows (length (ms_metrics ms)) (current_values st) j y) tr ys.
Proof.
  intros Ne F A. unfold ms_setup, yields. destruct (ms_aggregator ms) as [a|] eqn:Ha; cbn [option_map].
  - set (sts := map (fun _ => setup a) (ms_metrics ms)). assert (Ls : length sts = length (ms_metrics ms)) by apply map_length.
    assert (Hn : forall j s, nth_error sts j = Some s -> j < length (ms_metrics ms) /\ s = setup a).
    { intros j s Hs. split; [rewrite <- Ls; apply nth_error_Some; congruence|]. unfold sts in Hs. rewrite nth_error_map in Hs. destruct (nth_error (ms_metrics ms) j); [cbn in Hs; congruence|discriminate]. }
    destruct (set_trace_agg ms a Ha series None sts) as (tr & E & L & R).
    + intros Z. rewrite Z in Ls. destruct (ms_metrics ms); [congruence|discriminate].
    + rewrite Ls. exact F.
    + apply setup_all_alike.
    + intros j s Hs. destruct (Hn j s Hs) as [Hj ->]. apply A; auto.
    + exists tr. split; [exact E|]. split; [exact L|]. intros j ys Hj (outs & st & fin & st' & B & C & ->). rewrite <- Ls. apply (R j (setup a) outs st fin st'); auto.
      unfold sts. rewrite nth_error_map. destruct (nth_error (ms_metrics ms) j) eqn:E0; [reflexivity|]. apply nth_error_None in E0. lia.
  - destruct (set_trace_plain ms Ha series (MetricSetState None None) F) as (tr & E & L & R). exists tr. split; [exact E|]. split; [exact L|]. intros j ys Hj ->. apply R, Hj.
Qed.

(* ---------- all scenarios and metric sets ---------- *)

Fixpoint all_states (sets : list metric_set) (steps : list saved_step) (states : list (list metric_set_state)) : res mem_error (list (list (list metric_set_state))) :=
  match steps with
  | [] => rbind (rmap (finalise_sets sets) states) (fun f => Ok [f])
  | s :: rest => rbind (save_scenarios sets (sv_date s) (sv_dur s) (sv_values s) states) (fun states' => rbind (all_states sets rest states') (fun l => Ok (states' :: l)))
  end.

Fixpoint fold_saves {D} (save : list (list metric_set_state) -> D -> res out_error D) (l : list (list (list metric_set_state))) (d : D) : res out_error D :=
  match l with
  | [] => Ok d
  | x :: l' => rbind (save x d) (fold_saves save l')
  end.

Lemma run_as_fold {D} (save : _ -> D -> res out_error D) d0 sets ns steps seqs :
  all_states sets steps (repeat (map ms_setup sets) ns) = Ok seqs -> run_recorder save d0 sets ns steps = fold_saves save seqs d0.
Proof.
  unfold run_recorder. generalize (repeat (map ms_setup sets) ns) as states. intros states. revert states d0 seqs.
  induction steps as [|s steps IH]; intros states d0 seqs H; cbn [all_states run_steps] in *.
  - apply rbind_Ok in H. destruct H as (f & E & H). injection H as <-. cbn [rbind]. rewrite E. cbn [of_sets rbind fold_saves]. destruct (save f d0); reflexivity.
  - apply rbind_Ok in H. destruct H as (states' & E & H). apply rbind_Ok in H. destruct H as (l & E2 & H). injection H as <-.
    rewrite E. cbn [of_sets rbind fold_saves]. destruct (save states' d0) as [d1| |]; cbn [rbind]; try reflexivity. exact (IH states' d1 l E2).
Qed.

Lemma all_states_ok sets ns : forall steps states,
  Forall (complete sets ns) steps -> length states = ns -> Forall (fun sc => length sc = length sets) states ->
  (forall s sc i ms st, nth_error states s = Some sc -> nth_error sets i = Some ms -> nth_error sc i = Some st -> exists tr, set_trace ms (series_of s i steps) st = Ok tr) ->
  exists seqs, all_states sets steps states = Ok seqs /\ length seqs = S (length steps) /\
    Forall (fun x => length x = ns /\ Forall (fun sc => length sc = length sets) x) seqs /\
    forall s sc i ms st tr, nth_error states s = Some sc -> nth_error sets i = Some ms -> nth_error sc i = Some st -> set_trace ms (series_of s i steps) st = Ok tr ->
      Forall2 (fun x st' => exists sc', nth_error x s = Some sc' /\ nth_error sc' i = Some st') seqs tr.
Proof.
  induction steps as [|stp steps IH]; intros states C L F K; cbn [all_states].
  - destruct (rmap_ok (finalise_sets sets) states) as [fs E].
    { intros sc Hsc. rewrite Forall_forall in F. pose proof (F sc Hsc) as Lsc. apply In_nth_error in Hsc. destruct Hsc as [s Hs]. apply finalise_sets_ok; [exact Lsc|].
      intros i ms st Hm Hst. destruct (K s sc i ms st Hs Hm Hst) as [tr T]. cbn in T. apply rbind_Ok in T. destruct T as (f & T & _). eauto. }
    rewrite E. cbn [rbind]. destruct (rmap_nth_Ok _ _ _ E) as [L1 K1]. eexists. split; [reflexivity|]. split; [reflexivity|]. split.
    + constructor; [|constructor]. split; [lia|]. apply Forall_forall. intros f Hf. apply In_nth_error in Hf. destruct Hf as [s Hs].
      assert (s < length states) by (rewrite <- L1; apply nth_error_Some; congruence). destruct (nth_error states s) as [sc|] eqn:Es; [|apply nth_error_None in Es; lia].
      destruct (K1 s sc Es) as (y & Hy & Fy). assert (y = f) by congruence. subst y. rewrite Forall_forall in F.
      apply (finalise_sets_nth sets sc f); [apply F; eapply nth_error_In; eassumption|exact Fy].
    + intros s sc i ms st tr Hs Hm Hst T. cbn in T. apply rbind_Ok in T. destruct T as (f & T & T2). injection T2 as <-. constructor; [|constructor].
      destruct (K1 s sc Hs) as (y & Hy & Fy). rewrite Forall_forall in F. destruct (finalise_sets_nth sets sc y) as [_ G]; [apply F; eapply nth_error_In; eassumption|exact Fy|].
      destruct (G i ms st Hm Hst) as (st' & A & B). exists y. split; [exact Hy|]. congruence.
  - inversion C as [|? ? Cs Cr]; subst.
    assert (Lv : length (sv_values stp) = length states) by apply Cs.
    assert (SS : forall s sc, nth_error states s = Some sc -> s < length states /\ length (nth s (sv_values stp) []) = length sets /\ length sc = length sets).
    { intros s sc Hs. assert (s < length states) by (apply nth_error_Some; congruence). split; [assumption|]. split; [apply (complete_nth sets _ stp s Cs); lia|]. rewrite Forall_forall in F. apply F. eapply nth_error_In; eassumption. }
    destruct (save_scenarios_ok sets (sv_date stp) (sv_dur stp) (sv_values stp) states Lv) as [states' E].
    { intros s sc Hs. destruct (SS s sc Hs) as (Hlt & A & B). apply save_sets_ok; [exact A|exact B|].
      intros i ms st Hm Hst. destruct (K s sc i ms st Hs Hm Hst) as [tr T]. cbn in T. apply rbind_Ok in T. destruct T as (st' & T & _). exists st'. exact T. }
    rewrite E. cbn [rbind]. destruct (save_scenarios_nth sets (sv_date stp) (sv_dur stp) (sv_values stp) states states' Lv E) as [L1 K1].
    assert (F' : Forall (fun sc => length sc = length sets) states').
    { apply Forall_forall. intros f Hf. apply In_nth_error in Hf. destruct Hf as [s Hs]. assert (s < length states) by (rewrite <- L1; apply nth_error_Some; congruence).
      destruct (nth_error states s) as [sc|] eqn:Es; [|apply nth_error_None in Es; lia]. destruct (K1 s sc Es) as (y & Hy & Fy). assert (y = f) by congruence. subst y.
      destruct (SS s sc Es) as (_ & A & B). apply (save_sets_nth (sv_date stp) (sv_dur stp) sets (nth s (sv_values stp) []) sc f A B Fy). }
    assert (Step : forall s sc i ms st, nth_error states s = Some sc -> nth_error sets i = Some ms -> nth_error sc i = Some st ->
        exists sc' st', nth_error states' s = Some sc' /\ nth_error sc' i = Some st' /\ ms_save ms (sv_date stp) (sv_dur stp) (values_at s i stp) st = Ok st').
    { intros s sc i ms st Hs Hm Hst. destruct (K1 s sc Hs) as (sc' & Hsc' & Fy). destruct (SS s sc Hs) as (_ & A & B).
      destruct (save_sets_nth (sv_date stp) (sv_dur stp) sets (nth s (sv_values stp) []) sc sc' A B Fy) as [_ G]. destruct (G i ms st Hm Hst) as (st' & G1 & G2). exists sc', st'. auto. }
    assert (Back : forall s sc' i ms st', nth_error states' s = Some sc' -> nth_error sets i = Some ms -> nth_error sc' i = Some st' ->
        exists sc st, nth_error states s = Some sc /\ nth_error sc i = Some st /\ ms_save ms (sv_date stp) (sv_dur stp) (values_at s i stp) st = Ok st').
    { intros s sc' i ms st' Hs Hm Hst. assert (s < length states) by (rewrite <- L1; apply nth_error_Some; congruence).
      destruct (nth_error states s) as [sc|] eqn:Es; [|apply nth_error_None in Es; lia]. destruct (SS s sc Es) as (_ & _ & B).
      assert (i < length sc) by (rewrite B; apply nth_error_Some; congruence). destruct (nth_error sc i) as [st|] eqn:Ei; [|apply nth_error_None in Ei; lia].
      destruct (Step s sc i ms st Es Hm Ei) as (sc2 & st2 & A1 & A2 & A3). assert (sc2 = sc') by congruence. subst sc2. assert (st2 = st') by congruence. subst st2. exists sc, st. auto. }
    destruct (IH states' Cr L1 F') as (seqs & E2 & L2 & F2 & R).
    { intros s sc' i ms st' Hs Hm Hst. destruct (Back s sc' i ms st' Hs Hm Hst) as (sc & st & B1 & B2 & B3). destruct (K s sc i ms st B1 Hm B2) as [tr T].
      cbn [series_of map set_trace] in T. rewrite B3 in T. cbn [rbind] in T. apply rbind_Ok in T. destruct T as (tr' & T & _). exists tr'. exact T. }
    rewrite E2. cbn [rbind]. eexists. split; [reflexivity|]. split; [cbn; lia|]. split.
    + constructor; [|exact F2]. split; assumption.
    + intros s sc i ms st tr Hs Hm Hst T. destruct (Step s sc i ms st Hs Hm Hst) as (sc' & st' & A1 & A2 & A3). cbn [series_of map set_trace] in T. rewrite A3 in T. cbn [rbind] in T.
      apply rbind_Ok in T. destruct T as (tr' & T & T2). injection T2 as <-. constructor; [eauto|]. exact (R s sc' i ms st' tr' A1 Hm A2 T).
Qed.

Definition shown_at (M s i j : nat) (x : list (list metric_set_state)) (y : option pvalue) : Prop :=
  exists sc st, nth_error x s = Some sc /\ nth_error sc i = Some st /\ shows M (current_values st) j y.

Lemma saves_exist sets ns steps : Forall (fun ms => ms_metrics ms <> []) sets -> Forall (complete sets ns) steps -> aggregates_fine sets ns steps ->
  exists seqs, all_states sets steps (repeat (map ms_setup sets) ns) = Ok seqs /\ length seqs = S (length steps) /\
    Forall (fun x => length x = ns /\ Forall (fun sc => length sc = length sets) x) seqs /\
    forall s i ms j ys, s < ns -> nth_error sets i = Some ms -> j < length (ms_metrics ms) -> yields ms (history s i j steps) ys ->
      Forall2 (shown_at (length (ms_metrics ms)) s i j) seqs ys.
Proof.
  intros Ne C A.
  assert (T : forall s i ms, s < ns -> nth_error sets i = Some ms -> exists tr, set_trace ms (series_of s i steps) (ms_setup ms) = Ok tr /\
    forall j ys, j < length (ms_metrics ms) -> yields ms (history s i j steps) ys -> Forall2 (fun st y => shows (length (ms_metrics ms)) (current_values st) j y) tr ys).
  { intros s i ms Hs Hm. rewrite Forall_forall in Ne. destruct (set_trace_ok ms (series_of s i steps)) as (tr & E & _ & R).
    - apply Ne. eapply nth_error_In; eassumption.
    - apply (series_lengths sets ns); assumption.
    - intros a j Ha Hj. rewrite history_series. exact (A i ms a s j Hm Ha Hs Hj).
    - exists tr. split; [exact E|]. intros j ys Hj Hy. apply R; [exact Hj|]. rewrite history_series. exact Hy. }
  assert (N0 : forall s sc, nth_error (repeat (map ms_setup sets) ns) s = Some sc -> s < ns /\ sc = map ms_setup sets).
  { intros s sc H. assert (s < ns) by (rewrite <- (repeat_length (map ms_setup sets) ns); apply nth_error_Some; congruence). split; [assumption|]. rewrite repeat_nth in H by assumption. congruence. }
  destruct (all_states_ok sets ns steps (repeat (map ms_setup sets) ns) C) as (seqs & E & L & F & R).
  - apply repeat_length.
  - apply Forall_forall. intros sc H. apply repeat_spec in H. subst sc. apply map_length.
  - intros s sc i ms st Hs Hm Hst. destruct (N0 s sc Hs) as [Hlt ->]. rewrite nth_error_map, Hm in Hst. injection Hst as <-. destruct (T s i ms Hlt Hm) as (tr & E & _). eauto.
  - exists seqs. split; [exact E|]. split; [exact L|]. split; [exact F|]. intros s i ms j ys Hs Hm Hj Hy.
    destruct (T s i ms Hs Hm) as (tr & Et & Rt). assert (N1 : nth_error (map ms_setup sets) i = Some (ms_setup ms)) by (rewrite nth_error_map, Hm; reflexivity).
    pose proof (R s (map ms_setup sets) i ms (ms_setup ms) tr (repeat_nth _ _ _ Hs) Hm N1 Et) as R1.
    pose proof (Rt j ys Hj Hy) as R2. clear - R1 R2. revert ys R2. induction R1 as [|x st' seqs tr (sc' & H1 & H2) R1 IH]; intros ys R2; inversion R2; subst; constructor; [|auto].
    exists sc', st'. auto.
Qed.

Lemma yields_ex sets ns steps s i ms j : aggregates_fine sets ns steps -> s < ns -> nth_error sets i = Some ms -> j < length (ms_metrics ms) ->
  exists ys, yields ms (history s i j steps) ys.
Proof.
  intros A Hs Hm Hj. unfold yields. destruct (ms_aggregator ms) as [a|] eqn:Ha; [|eauto].
  destruct (A i ms a s j Hm Ha Hs Hj) as (outs & st & [fin st'] & B & D). exists (outs ++ [fin]), outs, st, fin, st'. auto.
Qed.

Lemma yields_alike ms s s' i j j' steps ys ys' : yields ms (history s i j steps) ys -> yields ms (history s' i j' steps) ys' -> Forall2 option_alike ys ys'.
Proof.
  assert (H0 : Forall2 alike (history s i j steps) (history s' i j' steps)).
  { unfold history. induction steps; constructor; [split; reflexivity|assumption]. }
  unfold yields. destruct (ms_aggregator ms) as [a|].
  - intros (o1 & s1 & f1 & s1' & A1 & B1 & ->) (o2 & s2 & f2 & s2' & A2 & B2 & ->).
    pose proof (append_all_alike a _ _ H0 (setup a) (setup a) (setup_alike a)) as K. rewrite A1, A2 in K. cbn in K. destruct K as [K1 K2].
    pose proof (finalise_alike a s1 s2 K2) as K3. rewrite B1, B2 in K3. destruct K3 as [K3 _]. apply Forall2_app; [exact K1|]. constructor; [exact K3|constructor].
  - intros -> ->. apply Forall2_app; [|constructor; [exact I|constructor]]. induction H0; constructor; assumption.
Qed.
