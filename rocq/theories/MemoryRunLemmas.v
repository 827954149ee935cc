(** Whole runs of the memory recorder. *)
From Coq Require Import QArith Lqa.
From Verif Require Import Base Calendar CalendarLemmas Timestep Network NetworkBuildLemmas LpRowLemmas AggFuncs AggFuncsSpec AggFuncsLemmas Aggregator AggregatorSpec LockstepLemmas Memory MemorySpec MemoryLemmas.
Open Scope nat_scope.

(** One metric set in one scenario. *)
Definition push (st : metric_set_state) (d : list row) : res mem_error (list row) :=
  match current_values st with
  | Some vs => rbind (row_of vs) (fun r => Ok (d ++ [r]))
  | None => Ok d
  end.

Fixpoint set_run (ms : metric_set) (series : list (datetime * Z * list Q)) (st : metric_set_state) (d : list row)
  : res mem_error (metric_set_state * list row) :=
  match series with
  | [] => Ok (st, d)
  | (date, dur, vals) :: rest =>
      rbind (ms_save ms date dur vals st) (fun st' => rbind (push st' d) (fun d' => set_run ms rest st' d'))
  end.

(* ---------- taking the run apart ---------- *)

Lemma save_sets_nth date dur : forall sets values states states',
  length values = length sets -> length states = length sets ->
  save_sets sets date dur values states = Ok states' ->
  length states' = length sets /\
  forall i ms st, nth_error sets i = Some ms -> nth_error states i = Some st ->
    exists st', nth_error states' i = Some st' /\ ms_save ms date dur (nth i values []) st = Ok st'.
Proof.
  induction sets as [|ms sets IH]; intros values states states' L1 L2 H; destruct values as [|v values], states as [|st states]; try discriminate; cbn [save_sets] in H.
  - injection H as <-. split; [reflexivity|]. intros [|i]; discriminate.
  - apply rbind_Ok in H. destruct H as (st1 & E1 & H). apply rbind_Ok in H. destruct H as (rest & E2 & H). injection H as <-.
    destruct (IH values states rest ltac:(cbn in L1; lia) ltac:(cbn in L2; lia) E2) as [L K].
    split; [cbn; lia|]. intros [|i] m s Hm Hs; cbn [nth_error nth] in *; [|eauto]. injection Hm as <-. injection Hs as <-. eauto.
Qed.

Lemma save_sets_ok date dur : forall sets values states,
  length values = length sets -> length states = length sets ->
  (forall i ms st, nth_error sets i = Some ms -> nth_error states i = Some st -> exists st', ms_save ms date dur (nth i values []) st = Ok st') ->
  exists states', save_sets sets date dur values states = Ok states'.
Proof.
  induction sets as [|ms sets IH]; intros values states L1 L2 K; destruct values as [|v values], states as [|st states]; try discriminate; cbn [save_sets]; [eauto|].
  destruct (K 0 ms st eq_refl eq_refl) as [st1 E1]. cbn [nth] in E1. rewrite E1. cbn [rbind].
  destruct (IH values states ltac:(cbn in L1; lia) ltac:(cbn in L2; lia)) as [r E2]; [intros i; apply (K (S i))|].
  rewrite E2. cbn [rbind]. eauto.
Qed.

Lemma save_scenarios_nth sets date dur : forall values states states', length values = length states ->
  save_scenarios sets date dur values states = Ok states' ->
  length states' = length states /\
  forall s sc, nth_error states s = Some sc -> exists sc', nth_error states' s = Some sc' /\ save_sets sets date dur (nth s values []) sc = Ok sc'.
Proof.
  induction values as [|v values IH]; intros states states' L H; destruct states as [|st states]; try discriminate; cbn [save_scenarios] in H.
  - injection H as <-. split; [reflexivity|]. intros [|i]; discriminate.
  - apply rbind_Ok in H. destruct H as (st1 & E1 & H). apply rbind_Ok in H. destruct H as (rest & E2 & H). injection H as <-.
    destruct (IH states rest ltac:(cbn in L; lia) E2) as [L' K]. split; [cbn; lia|].
    intros [|s] sc Hs; cbn [nth_error nth] in *; [|eauto]. injection Hs as <-. eauto.
Qed.

Lemma save_scenarios_ok sets date dur : forall values states, length values = length states ->
  (forall s sc, nth_error states s = Some sc -> exists sc', save_sets sets date dur (nth s values []) sc = Ok sc') ->
  exists states', save_scenarios sets date dur values states = Ok states'.
Proof.
  induction values as [|v values IH]; intros states L K; destruct states as [|st states]; try discriminate; cbn [save_scenarios]; [eauto|].
  destruct (K 0 st eq_refl) as [st1 E1]. cbn [nth] in E1. rewrite E1. cbn [rbind].
  destruct (IH states ltac:(cbn in L; lia)) as [r E2]; [intros i; apply (K (S i))|]. rewrite E2. cbn [rbind]. eauto.
Qed.

Lemma mem_save_nth idx : forall states data data', length states = length data -> mem_save idx states data = Ok data' ->
  length data' = length data /\
  forall s sc d, nth_error states s = Some sc -> nth_error data s = Some d ->
    exists st d', nth_error sc idx = Some st /\ nth_error data' s = Some d' /\ push st d = Ok d'.
Proof.
  induction states as [|sc states IH]; intros data data' L H; destruct data as [|d data]; try discriminate; cbn [mem_save] in H.
  - injection H as <-. split; [reflexivity|]. intros [|i]; discriminate.
  - destruct (nth_error sc idx) as [st|] eqn:E; [|discriminate]. apply rbind_Ok in H. destruct H as (d' & E1 & H).
    apply rbind_Ok in H. destruct H as (rest & E2 & H). injection H as <-.
    destruct (IH data rest ltac:(cbn in L; lia) E2) as [L' K]. split; [cbn; lia|].
    intros [|s] sc' d0 Hs Hd; cbn [nth_error] in *; [|eauto]. injection Hs as <-. injection Hd as <-. exists st, d'. auto.
Qed.

Lemma mem_save_ok idx : forall states data, length states = length data ->
  (forall s sc d, nth_error states s = Some sc -> nth_error data s = Some d -> exists st d', nth_error sc idx = Some st /\ push st d = Ok d') ->
  exists data', mem_save idx states data = Ok data'.
Proof.
  induction states as [|sc states IH]; intros data L K; destruct data as [|d data]; try discriminate; cbn [mem_save]; [eauto|].
  destruct (K 0 sc d eq_refl eq_refl) as (st & d' & E1 & E2). rewrite E1. unfold push in E2. rewrite E2. cbn [rbind].
  destruct (IH data ltac:(cbn in L; lia)) as [r E]; [intros i; apply (K (S i))|]. rewrite E. cbn [rbind]. eauto.
Qed.

Definition series_of (s i : nat) (steps : list saved_step) : list (datetime * Z * list Q) :=
  map (fun st => (sv_date st, sv_dur st, values_at s i st)) steps.

Lemma complete_nth sets ns st s : complete sets ns st -> s < ns ->
  length (nth s (sv_values st) []) = length sets /\
  forall i ms, nth_error sets i = Some ms -> length (values_at s i st) = length (ms_metrics ms).
Proof.
  intros [L F] Hs. rewrite Forall_forall in F. assert (I : In (nth s (sv_values st) []) (sv_values st)) by (apply nth_In; lia).
  specialize (F _ I). split; [symmetry; apply (Forall2_length' _ _ _ F)|].
  intros i ms Hi. unfold values_at. destruct (nth_error (nth s (sv_values st) []) i) as [l|] eqn:E.
  - rewrite (nth_error_nth _ _ [] E). exact (Forall2_nth_error _ _ _ i ms l F Hi E).
  - apply nth_error_None in E. pose proof (Forall2_length' _ _ _ F). assert (i < length sets) by (apply nth_error_Some; congruence). lia.
Qed.

(** The run of all metric sets in all scenarios, seen from one of each. *)
Lemma save_steps_nth sets idx ns : forall steps states data states' data',
  Forall (complete sets ns) steps -> length states = ns -> length data = ns ->
  Forall (fun sc => length sc = length sets) states ->
  save_steps sets idx steps states data = Ok (states', data') ->
  length states' = ns /\ length data' = ns /\ Forall (fun sc => length sc = length sets) states' /\
  (forall s sc i ms st, nth_error states s = Some sc -> nth_error sets i = Some ms -> nth_error sc i = Some st ->
     exists sc' st', nth_error states' s = Some sc' /\ nth_error sc' i = Some st' /\
       (i = idx -> forall d, nth_error data s = Some d -> exists d', nth_error data' s = Some d' /\ set_run ms (series_of s i steps) st d = Ok (st', d'))).
Proof.
  induction steps as [|stp steps IH]; intros states data states' data' C L1 L2 F H; cbn [save_steps] in H.
  - injection H as <- <-. repeat split; auto. intros s sc i ms st H1 H2 H3. exists sc, st. repeat split; auto.
    intros _ d Hd. exists d. split; [exact Hd|reflexivity].
  - apply rbind_Ok in H. destruct H as (st1 & E1 & H). apply rbind_Ok in H. destruct H as (d1 & E2 & H).
    assert (C0 : complete sets ns stp) by (inversion C; assumption). assert (Cr : Forall (complete sets ns) steps) by (inversion C; assumption).
    pose proof C0 as [LV FV].
    destruct (save_scenarios_nth sets _ _ (sv_values stp) states st1 ltac:(lia) E1) as [L3 K1].
    assert (F1 : Forall (fun sc => length sc = length sets) st1).
    { apply Forall_forall. intros sc' Hin. apply In_nth_error in Hin. destruct Hin as [s Hs].
      assert (Bs : s < length states) by (rewrite <- L3; apply nth_error_Some; congruence).
      destruct (nth_error states s) as [sc|] eqn:Es; [|apply nth_error_None in Es; lia].
      destruct (K1 s sc Es) as (sc2 & A & B). assert (sc2 = sc') by congruence. subst sc2.
      destruct (complete_nth sets ns stp s C0 ltac:(lia)) as [LS _]. rewrite Forall_forall in F.
      apply (save_sets_nth _ _ _ _ _ _ LS (F sc (nth_error_In _ _ Es)) B). }
    destruct (mem_save_nth idx st1 data d1 ltac:(lia) E2) as [L4 K2].
    destruct (IH st1 d1 states' data' Cr ltac:(lia) ltac:(lia) F1 H) as (A1 & A2 & A3 & A4).
    split; [lia|]. split; [lia|]. split; [exact A3|]. intros s sc i ms st H1 H2 H3.
    assert (Bs : s < length states) by (apply nth_error_Some; congruence).
    destruct (K1 s sc H1) as (sc1 & B1 & B2). destruct (complete_nth sets ns stp s C0 ltac:(lia)) as [LS _]. rewrite Forall_forall in F.
    destruct (save_sets_nth _ _ _ _ _ _ LS (F sc (nth_error_In _ _ H1)) B2) as [_ K3].
    destruct (K3 i ms st H2 H3) as (stn & B3 & B4).
    destruct (A4 s sc1 i ms stn B1 H2 B3) as (sc' & st' & G1 & G2 & G3).
    exists sc', st'. split; [exact G1|]. split; [exact G2|]. intros -> d Hd.
    destruct (K2 s sc1 d B1 Hd) as (stx & d2 & X1 & X2 & X3). assert (stx = stn) by congruence. subst stx.
    destruct (G3 eq_refl d2 X2) as (d' & Y1 & Y2). exists d'. split; [exact Y1|].
    cbn [series_of map set_run]. unfold values_at at 1. rewrite B4. cbn [rbind]. rewrite X3. cbn [rbind]. exact Y2.
Qed.

(* ---------- without an aggregator ---------- *)

Definition plain_row (x : datetime * Z * list Q) : row := let '(date, dur, vals) := x in PV date dur vals.

Lemma row_of_plain date dur vals : vals <> [] -> row_of (map (fun x => PV date dur x) vals) = Ok (PV date dur vals).
Proof.
  intros H. destruct vals as [|x vals]; [congruence|]. cbn [map row_of].
  assert (L : forall (l : list Q) y, pv_dur (last (map (fun x => PV date dur x) (y :: l)) (PV date dur x)) = dur).
  { induction l as [|z l IH]; intros y; [reflexivity|]. change (last (map _ (y :: z :: l)) _) with (last (map (fun x => PV date dur x) (z :: l)) (PV date dur x)). apply IH. }
  assert (E : forall d' v', d' = dur -> v' = x :: vals -> @Ok mem_error row (PV date d' v') = Ok (PV date dur (x :: vals))) by (intros; subst; reflexivity).
  apply E; [exact (L vals x)|]. cbn [map pv_value]. rewrite map_map. cbn [pv_value]. rewrite map_id. reflexivity.
Qed.

Lemma set_run_plain ms series : ms_aggregator ms = None -> Forall (fun x => snd x <> []) series -> forall st d,
  exists st', set_run ms series st d = Ok (st', d ++ map plain_row series).
Proof.
  intros Ha. induction series as [|[[date dur] vals] series IH]; intros F st d; cbn [set_run map].
  - rewrite app_nil_r. eauto.
  - inversion F as [|? ? Fv Fs]; subst. cbn [snd] in Fv. unfold ms_save. rewrite Ha. cbv zeta. cbn [rbind]. unfold push. cbn [current_values].
    rewrite row_of_plain by exact Fv. cbn [rbind].
    destruct (IH Fs (MetricSetState (Some (map (fun x => PV date dur x) vals)) (aggregation_states st)) (d ++ [PV date dur vals])) as [st' E].
    exists st'. etransitivity; [exact E|]. rewrite <- app_assoc. reflexivity.
Qed.

(* ---------- with an aggregator ---------- *)

Definition metric_series (j : nat) (series : list (datetime * Z * list Q)) : list pvalue :=
  map (fun '(date, dur, vals) => PV date dur (nth j vals 0%Q)) series.

Lemma last_In {A} (l : list A) a d : In (last (a :: l) d) (a :: l).
Proof.
  revert a. induction l as [|b l IH]; intros a; [left; reflexivity|].
  change (last (a :: b :: l) d) with (last (b :: l) d). right. apply IH.
Qed.

Lemma alike_row l : l <> [] -> (forall v w, In v l -> In w l -> alike v w) ->
  exists r, row_of l = Ok r /\ length (pv_value r) = length l /\ forall j v, nth_error l j = Some v -> column j [r] = [v].
Proof.
  intros Hne A. destruct l as [|a l]; [congruence|]. cbn [row_of]. eexists. split; [reflexivity|]. cbn [pv_value]. rewrite map_length.
  split; [reflexivity|]. intros j v Hv. cbn [column map pv_start pv_dur pv_value].
  assert (E : nth j (map pv_value (a :: l)) 0%Q = pv_value v).
  { apply nth_error_nth. rewrite nth_error_map, Hv. reflexivity. }
  cbn [map] in E. rewrite E.
  destruct (A a v (or_introl eq_refl) (nth_error_In _ _ Hv)) as [S _]. destruct (A _ v (last_In l a a) (nth_error_In _ _ Hv)) as [_ D].
  rewrite S, D. destruct v; reflexivity.
Qed.

Lemma column_app j a b : column j (a ++ b) = column j a ++ column j b.
Proof. apply map_app. Qed.

Lemma map_Some_alike l : (forall o p, In o (map Some l) -> In p (map Some l) -> option_alike o p) -> forall v w, In v l -> In w l -> alike v w.
Proof. intros H v w Hv Hw. exact (H (Some v) (Some w) (in_map Some _ _ Hv) (in_map Some _ _ Hw)). Qed.

Lemma set_run_agg ms a : ms_aggregator ms = Some a -> forall series cv sts d st' d',
  Forall (fun x => length (snd x) = length sts) series -> all_alike sts ->
  set_run ms series (MetricSetState cv (Some sts)) d = Ok (st', d') ->
  exists sts' new, st' = MetricSetState (current_values st') (Some sts') /\ length sts' = length sts /\ all_alike sts' /\ d' = d ++ new /\
    Forall (fun r => length (pv_value r) = length sts) new /\
    forall j s, nth_error sts j = Some s -> exists outs s', nth_error sts' j = Some s' /\
      append_all a s (metric_series j series) = Ok (outs, s') /\ column j new = emitted outs.
Proof.
  intros Ha. induction series as [|[[date dur] vals] series IH]; intros cv sts d st' d' F AL H; cbn [set_run] in H.
  - injection H as <- <-. exists sts, []. rewrite app_nil_r. repeat split; auto. intros j s Hs. exists [], s. auto.
  - apply rbind_Ok in H. destruct H as (st1 & E1 & H). apply rbind_Ok in H. destruct H as (d1 & E2 & H).
    inversion F as [|? ? Fv Fs]; subst. cbn [snd] in Fv.
    destruct (ms_save_inv ms a date dur vals cv sts st1 Ha Fv AL E1) as (os & sts1 & S1 & L1 & L2 & AL1 & K & AO & C).
    rewrite S1 in H.
    destruct (IH _ sts1 d1 st' d' ltac:(rewrite L2; exact Fs) AL1 H) as (sts' & new & S' & L' & AL' & -> & Fn & K').
    assert (X : exists r, d1 = d ++ r /\ Forall (fun x => length (pv_value x) = length sts) r /\
       forall j o, nth_error os j = Some o -> column j r = if_any o).
    { unfold push in E2. destruct C as [[C1 C2]|(C1 & C2 & C3)]; rewrite C1 in E2.
      - injection E2 as <-. exists []. rewrite app_nil_r. repeat split; [constructor|]. intros j o Ho.
        destruct o as [v|]; [|reflexivity]. exfalso. apply nth_error_In in Ho. apply in_split in Ho. destruct Ho as (p & q & ->).
        unfold emitted in C2. rewrite flat_map_app in C2. apply app_eq_nil in C2. destruct C2 as [_ C2]. discriminate C2.
      - apply rbind_Ok in E2. destruct E2 as (r & E2 & E3). injection E3 as <-.
        assert (NE : emitted os <> []) by (intros Z; apply C3; rewrite C2, Z; reflexivity).
        destruct (alike_row (emitted os) NE) as (r' & R1 & R2 & R3).
        { apply map_Some_alike. rewrite <- C2. exact AO. }
        rewrite R1 in E2. injection E2 as ->. exists [r]. split; [reflexivity|]. split.
        + constructor; [|constructor]. rewrite R2. pose proof (f_equal (@length _) C2) as Q0. rewrite map_length in Q0. lia.
        + intros j o Ho. rewrite C2, nth_error_map in Ho. destruct (nth_error (emitted os) j) as [v|] eqn:Ev; [|discriminate]. injection Ho as <-.
          exact (R3 j v Ev). }
    destruct X as (r & -> & Fr & Kr). exists sts', (r ++ new). split; [exact S'|]. split; [lia|]. split; [exact AL'|].
    split; [rewrite app_assoc; reflexivity|]. split; [apply Forall_app; split; [exact Fr|rewrite L2 in Fn; exact Fn]|].
    intros j s Hs. assert (Bj : j < length sts) by (apply nth_error_Some; congruence).
    destruct (nth_error vals j) as [x|] eqn:Ex; [|apply nth_error_None in Ex; lia].
    destruct (K j x s Ex Hs) as (o & s1 & O1 & O2 & O3). destruct (K' j s1 O2) as (outs & s' & P1 & P2 & P3).
    exists (o :: outs), s'. split; [exact P1|]. cbn [metric_series map append_all]. rewrite (nth_error_nth _ _ 0%Q Ex), O3. cbn [rbind].
    change (map _ series) with (metric_series j series). rewrite P2. split; [reflexivity|].
    rewrite column_app, (Kr j o O1), P3. destruct o; reflexivity.
Qed.

Lemma set_run_agg_ok ms a : ms_aggregator ms = Some a -> forall series cv sts d,
  sts <> [] -> Forall (fun x => length (snd x) = length sts) series -> all_alike sts ->
  (forall j s, nth_error sts j = Some s -> exists r, append_all a s (metric_series j series) = Ok r) ->
  exists r, set_run ms series (MetricSetState cv (Some sts)) d = Ok r.
Proof.
  intros Ha. induction series as [|[[date dur] vals] series IH]; intros cv sts d Ne F AL K; cbn [set_run]; [eauto|].
  inversion F as [|? ? Fv Fs]; subst. cbn [snd] in Fv.
  assert (K0 : forall j x s, nth_error vals j = Some x -> nth_error sts j = Some s -> exists r, append_value a s (PV date dur x) = Ok r).
  { intros j x s Hx Hs. destruct (K j s Hs) as [r Hr]. cbn [metric_series map append_all] in Hr. rewrite (nth_error_nth _ _ 0%Q Hx) in Hr.
    apply rbind_Ok in Hr. destruct Hr as (z & Hz & _). eauto. }
  destruct (ms_save_ok ms a date dur vals cv sts Ha Fv AL K0) as [st1 E1]. rewrite E1. cbn [rbind].
  destruct (ms_save_inv ms a date dur vals cv sts st1 Ha Fv AL E1) as (os & sts1 & S1 & L1 & L2 & AL1 & K1 & AO & C).
  assert (X : exists d1, push st1 d = Ok d1).
  { unfold push. destruct C as [[C1 C2]|(C1 & C2 & C3)]; rewrite C1; [eauto|].
    assert (NE : emitted os <> []) by (intros Z; apply C3; rewrite C2, Z; reflexivity).
    destruct (alike_row (emitted os) NE) as (r' & R1 & R2 & R3); [apply map_Some_alike; rewrite <- C2; exact AO|]. rewrite R1. cbn [rbind]. eauto. }
  destruct X as [d1 E2]. rewrite E2. cbn [rbind]. rewrite S1. apply IH.
  - intros ->. destruct sts; [congruence|discriminate L2].
  - rewrite L2. exact Fs.
  - exact AL1.
  - intros j s1 Hs1. assert (Bj : j < length sts) by (rewrite <- L2; apply nth_error_Some; congruence).
    destruct (nth_error sts j) as [s|] eqn:Es; [|apply nth_error_None in Es; lia].
    destruct (nth_error vals j) as [x|] eqn:Ex; [|apply nth_error_None in Ex; lia].
    destruct (K1 j x s Ex Es) as (o & s1' & O1 & O2 & O3). assert (s1' = s1) by congruence. subst s1'.
    destruct (K j s Es) as [r Hr]. cbn [metric_series map append_all] in Hr. rewrite (nth_error_nth _ _ 0%Q Ex), O3 in Hr. cbn [rbind] in Hr.
    apply rbind_Ok in Hr. destruct Hr as (z & Hz & _). eauto.
Qed.
