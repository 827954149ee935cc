(** The final result of the memory recorder. *)
From Coq Require Import QArith Lqa.
From Verif Require Import Base Calendar CalendarLemmas Timestep Network NetworkBuildLemmas LpRowLemmas VsLemmas AggFuncs AggFuncsSpec AggFuncsLemmas Aggregator AggregatorSpec LockstepLemmas Memory MemorySpec MemoryLemmas MemoryRunLemmas.
Open Scope nat_scope.

Lemma finalise_sets_nth : forall sets states states', length states = length sets -> finalise_sets sets states = Ok states' ->
  length states' = length sets /\
  forall i ms st, nth_error sets i = Some ms -> nth_error states i = Some st -> exists st', nth_error states' i = Some st' /\ ms_finalise ms st = Ok st'.
Proof.
  induction sets as [|ms sets IH]; intros states states' L H; destruct states as [|st states]; try discriminate; cbn [finalise_sets] in H.
  - injection H as <-. split; [reflexivity|]. intros [|i]; discriminate.
  - apply rbind_Ok in H. destruct H as (st1 & E1 & H). apply rbind_Ok in H. destruct H as (rest & E2 & H). injection H as <-.
    destruct (IH states rest ltac:(cbn in L; lia) E2) as [L' K]. split; [cbn; lia|].
    intros [|i] m s Hm Hs; cbn [nth_error] in *; [|eauto]. injection Hm as <-. injection Hs as <-. eauto.
Qed.

Lemma finalise_sets_ok : forall sets states, length states = length sets ->
  (forall i ms st, nth_error sets i = Some ms -> nth_error states i = Some st -> exists st', ms_finalise ms st = Ok st') ->
  exists states', finalise_sets sets states = Ok states'.
Proof.
  induction sets as [|ms sets IH]; intros states L K; destruct states as [|st states]; try discriminate; cbn [finalise_sets]; [eauto|].
  destruct (K 0 ms st eq_refl eq_refl) as [st1 E1]. rewrite E1. cbn [rbind].
  destruct (IH states ltac:(cbn in L; lia)) as [r E2]; [intros i; apply (K (S i))|]. rewrite E2. cbn [rbind]. eauto.
Qed.

Lemma rmap_nth_Ok {E A B} (f : A -> res E B) l l' : rmap f l = Ok l' -> length l' = length l /\
  forall i x, nth_error l i = Some x -> exists y, nth_error l' i = Some y /\ f x = Ok y.
Proof.
  revert l'. induction l as [|a l IH]; intros l' H; cbn [rmap] in H.
  - injection H as <-. split; [reflexivity|]. intros [|i]; discriminate.
  - destruct (f a) as [y| |] eqn:Ea; try discriminate. destruct (rmap f l) as [ys| |] eqn:E2; try discriminate. injection H as <-.
    destruct (IH ys eq_refl) as [L K]. split; [cbn; lia|]. intros [|i] x Hx; cbn [nth_error] in *; [|eauto]. injection Hx as <-. eauto.
Qed.

Lemma rmap_ok {E A B} (f : A -> res E B) l : (forall x, In x l -> exists y, f x = Ok y) -> exists l', rmap f l = Ok l'.
Proof.
  induction l as [|a l IH]; intros H; cbn [rmap]; [eauto|]. destruct (H a (or_introl eq_refl)) as [y ->].
  destruct IH as [ys ->]; [intros x Hx; apply H; right; exact Hx|]. eauto.
Qed.

Lemma repeat_nth {A} (a : A) n i : i < n -> nth_error (repeat a n) i = Some a.
Proof. revert i. induction n as [|n IH]; intros [|i] H; cbn; [lia|lia|reflexivity|apply IH; lia]. Qed.

Lemma record_run_nth sets idx ns steps data : Forall (complete sets ns) steps -> record_run sets idx ns steps = Ok data ->
  length data = ns /\ forall s, s < ns -> exists ms rows st rows' st',
    nth_error sets idx = Some ms /\ nth_error data s = Some rows /\
    set_run ms (series_of s idx steps) (ms_setup ms) [] = Ok (st, rows') /\ ms_finalise ms st = Ok st' /\ push st' rows' = Ok rows.
Proof.
  intros C H. unfold record_run in H. cbv zeta in H. apply rbind_Ok in H. destruct H as ((states1, data1) & E1 & H).
  apply rbind_Ok in H. destruct H as (states2 & E2 & H). destruct (nth_error sets idx) as [ms|] eqn:Ei; [|discriminate].
  destruct (save_steps_nth sets idx ns steps (repeat (map ms_setup sets) ns) (mem_setup ns) states1 data1 C) as (L1 & L2 & F1 & K1); [apply repeat_length|apply repeat_length| |exact E1|].
  { apply Forall_forall. intros sc Hsc. apply repeat_spec in Hsc. subst sc. apply map_length. }
  destruct (rmap_nth_Ok _ _ _ E2) as [L3 K2]. destruct (mem_save_nth idx states2 data1 data ltac:(lia) H) as [L4 K3].
  split; [lia|]. intros s Hs.
  destruct (K1 s (map ms_setup sets) idx ms (ms_setup ms)) as (sc' & st & G1 & G2 & G3); [apply repeat_nth; exact Hs|exact Ei|apply map_nth_error; exact Ei|].
  destruct (G3 eq_refl []) as (rows' & R1 & R2); [apply repeat_nth; exact Hs|].
  destruct (K2 s sc' G1) as (sc2 & P1 & P2). rewrite Forall_forall in F1.
  destruct (finalise_sets_nth sets sc' sc2 (F1 _ (nth_error_In _ _ G1)) P2) as [_ K4]. destruct (K4 idx ms st Ei G2) as (st' & Q1 & Q2).
  destruct (K3 s sc2 rows' P1 R1) as (stx & rows & X1 & X2 & X3). assert (stx = st') by congruence. subst stx.
  exists ms, rows, st, rows', st'. auto 10.
Qed.

Lemma series_lengths sets ns steps s i ms : Forall (complete sets ns) steps -> s < ns -> nth_error sets i = Some ms ->
  Forall (fun x => length (snd x) = length (ms_metrics ms)) (series_of s i steps).
Proof.
  intros C Hs Hi. unfold series_of. apply Forall_map. eapply Forall_impl; [|exact C]. intros st Hst. cbn [snd].
  apply (complete_nth sets ns st s Hst Hs). exact Hi.
Qed.

Lemma history_series s i j steps : metric_series j (series_of s i steps) = history s i j steps.
Proof. unfold metric_series, series_of, history. rewrite map_map. reflexivity. Qed.

Lemma setup_all_alike a (l : list (string * string)) : all_alike (map (fun _ => setup a) l).
Proof. intros s t Hs Ht. apply in_map_iff in Hs, Ht. destruct Hs as (? & <- & _), Ht as (? & <- & _). apply setup_alike. Qed.

Lemma plain_stored sets idx ns steps data ms : Forall (complete sets ns) steps -> record_run sets idx ns steps = Ok data ->
  nth_error sets idx = Some ms -> ms_aggregator ms = None -> ms_metrics ms <> [] ->
  forall s, s < ns -> nth_error data s = Some (map (fun st => PV (sv_date st) (sv_dur st) (values_at s idx st)) steps).
Proof.
  intros C H Ei Ha Ne s Hs. destruct (record_run_nth sets idx ns steps data C H) as [_ K].
  destruct (K s Hs) as (ms' & rows & st & rows' & st' & E1 & E2 & E3 & E4 & E5). assert (ms' = ms) by congruence. subst ms'.
  pose proof (series_lengths sets ns steps s idx ms C Hs Ei) as F.
  destruct (set_run_plain ms (series_of s idx steps) Ha) with (st := ms_setup ms) (d := @nil row) as [st2 R].
  { eapply Forall_impl; [|exact F]. intros x Hx Z. cbn beta in Hx. rewrite Z in Hx. destruct (ms_metrics ms); [congruence|discriminate]. }
  rewrite E3 in R. injection R as -> ->. cbn [app] in *. unfold ms_finalise in E4. rewrite Ha in E4. injection E4 as <-. unfold push in E5.
  cbn [current_values] in E5. injection E5 as <-. rewrite E2. unfold series_of. rewrite map_map. reflexivity.
Qed.

Lemma aggregated_stored sets idx ns steps data ms a : Forall (complete sets ns) steps -> record_run sets idx ns steps = Ok data ->
  nth_error sets idx = Some ms -> ms_aggregator ms = Some a ->
  forall s, s < ns -> exists rows, nth_error data s = Some rows /\
    Forall (fun r => length (pv_value r) = length (ms_metrics ms)) rows /\
    forall j, j < length (ms_metrics ms) -> exists outs st fin st',
      append_all a (setup a) (history s idx j steps) = Ok (outs, st) /\ finalise a st = Ok (fin, st') /\
      column j rows = emitted outs ++ if_any fin.
Proof.
  intros C H Ei Ha s Hs. destruct (record_run_nth sets idx ns steps data C H) as [_ K].
  destruct (K s Hs) as (ms' & rows & st & rows' & st' & E1 & E2 & E3 & E4 & E5). assert (ms' = ms) by congruence. subst ms'.
  pose proof (series_lengths sets ns steps s idx ms C Hs Ei) as F.
  unfold ms_setup in E3. rewrite Ha in E3. cbn [option_map] in E3.
  set (sts := map (fun _ => setup a) (ms_metrics ms)) in *.
  assert (Ls : length sts = length (ms_metrics ms)) by apply map_length.
  destruct (set_run_agg ms a Ha (series_of s idx steps) None sts [] st rows') as (sts' & new & S1 & L1 & AL1 & -> & Fn & K1); auto.
  { rewrite Ls. exact F. } { apply setup_all_alike. }
  cbn [app] in *. rewrite S1 in E4. unfold ms_finalise in E4. rewrite Ha in E4. cbn [aggregation_states] in E4.
  apply rbind_Ok in E4. destruct E4 as ((vs, sts2) & E4 & E6). injection E6 as <-.
  destruct (finalise_each_inv a sts' vs sts2 E4 AL1) as (os & Lo & Ko & Kv & AO). unfold push in E5. cbn [current_values] in E5.
  exists rows. split; [exact E2|].
  assert (X : exists r, rows = new ++ r /\ Forall (fun x => length (pv_value x) = length sts) r /\ forall j o, nth_error os j = Some o -> column j r = if_any o).
  { destruct vs as [l|].
    - apply rbind_Ok in E5. destruct E5 as (r & R1 & R2). injection R2 as <-. exists [r]. split; [reflexivity|].
      assert (NE : l <> []) by (intros ->; discriminate R1).
      destruct (alike_row l NE) as (r' & R3 & R4 & R5); [apply map_Some_alike; rewrite <- Kv; exact AO|]. rewrite R1 in R3. injection R3 as <-.
      split.
      + constructor; [|constructor]. rewrite R4. apply (f_equal (@length _)) in Kv. rewrite map_length in Kv. lia.
      + intros j o Ho. rewrite Kv, nth_error_map in Ho. destruct (nth_error l j) as [v|] eqn:Ev; [|discriminate]. injection Ho as <-. exact (R5 j v Ev).
    - injection E5 as <-. exists []. rewrite app_nil_r. split; [reflexivity|]. split; [constructor|]. intros j o Ho.
      rewrite Forall_forall in Kv. rewrite (Kv o (nth_error_In _ _ Ho)). reflexivity. }
  destruct X as (r & -> & Fr & Kr). split.
  { rewrite <- Ls. apply Forall_app. split; assumption. }
  intros j Hj. destruct (nth_error sts j) as [s0|] eqn:Es; [|apply nth_error_None in Es; lia].
  assert (s0 = setup a). { apply nth_error_In in Es. unfold sts in Es. apply in_map_iff in Es. destruct Es as (? & <- & _). reflexivity. } subst s0.
  destruct (K1 j _ Es) as (outs & s' & P1 & P2 & P3). destruct (Ko j s' P1) as (o & s2 & Q1 & Q2).
  exists outs, s', o, s2. rewrite history_series in P2. split; [exact P2|]. split; [exact Q2|].
  rewrite column_app, P3, (Kr j o Q1). reflexivity.
Qed.

(* ---------- success ---------- *)

Lemma push_any st d d2 r : push st d = Ok r -> exists r2, push st d2 = Ok r2.
Proof. unfold push. destruct (current_values st); [|eauto]. destruct (row_of l); cbn; try discriminate. eauto. Qed.

Lemma set_run_any ms : forall series st d d2 r, set_run ms series st d = Ok r -> exists d', set_run ms series st d2 = Ok (fst r, d').
Proof.
  induction series as [|[[date dur] vals] series IH]; intros st d d2 r H; cbn [set_run] in *.
  - injection H as <-. eauto.
  - apply rbind_Ok in H. destruct H as (st1 & E1 & H). apply rbind_Ok in H. destruct H as (d1 & E2 & H). rewrite E1. cbn [rbind].
    destruct (push_any st1 d d2 d1 E2) as [r2 E3]. rewrite E3. cbn [rbind]. eapply IH; eauto.
Qed.

Lemma save_steps_ok sets idx ns : idx < length sets -> forall steps states data,
  Forall (complete sets ns) steps -> length states = ns -> length data = ns ->
  Forall (fun sc => length sc = length sets) states ->
  (forall s sc i ms st, nth_error states s = Some sc -> nth_error sets i = Some ms -> nth_error sc i = Some st ->
     exists r, set_run ms (series_of s i steps) st [] = Ok r) ->
  exists states' data', save_steps sets idx steps states data = Ok (states', data') /\
    (forall s sc i ms st r, nth_error states s = Some sc -> nth_error sets i = Some ms -> nth_error sc i = Some st ->
       set_run ms (series_of s i steps) st [] = Ok r -> exists sc', nth_error states' s = Some sc' /\ nth_error sc' i = Some (fst r)).
Proof.
  intros Hidx. induction steps as [|stp steps IH]; intros states data C L1 L2 F K; cbn [save_steps].
  - exists states, data. split; [reflexivity|]. intros s sc i ms st r H1 H2 H3 H4. cbn [series_of map set_run] in H4. injection H4 as <-. eauto.
  - assert (C0 : complete sets ns stp) by (inversion C; assumption). assert (Cr : Forall (complete sets ns) steps) by (inversion C; assumption).
    pose proof C0 as [LV FV]. rewrite Forall_forall in F.
    destruct (save_scenarios_ok sets (sv_date stp) (sv_dur stp) (sv_values stp) states ltac:(lia)) as [st1 E1].
    { intros s sc Hs. assert (Bs : s < ns) by (rewrite <- L1; apply nth_error_Some; congruence).
      destruct (complete_nth sets ns stp s C0 Bs) as [LS _]. apply save_sets_ok; [exact LS|apply F; eapply nth_error_In; eassumption|].
      intros i ms st Hi Hst. destruct (K s sc i ms st Hs Hi Hst) as [r Hr]. cbn [series_of map set_run] in Hr. apply rbind_Ok in Hr.
      destruct Hr as (z & Hz & _). eauto. }
    rewrite E1. cbn [rbind].
    destruct (save_scenarios_nth sets _ _ (sv_values stp) states st1 ltac:(lia) E1) as [L3 K1].
    assert (F1 : Forall (fun sc => length sc = length sets) st1).
    { apply Forall_forall. intros sc' Hin. apply In_nth_error in Hin. destruct Hin as [s Hs].
      assert (Bs : s < length states) by (rewrite <- L3; apply nth_error_Some; congruence).
      destruct (nth_error states s) as [sc|] eqn:Es; [|apply nth_error_None in Es; lia].
      destruct (K1 s sc Es) as (sc2 & A & B). assert (sc2 = sc') by congruence. subst sc2.
      destruct (complete_nth sets ns stp s C0 ltac:(lia)) as [LS _].
      apply (save_sets_nth _ _ _ _ _ _ LS (F sc (nth_error_In _ _ Es)) B). }
    assert (KN : forall s sc i ms st, nth_error states s = Some sc -> nth_error sets i = Some ms -> nth_error sc i = Some st ->
       exists sc1 st1', nth_error st1 s = Some sc1 /\ nth_error sc1 i = Some st1' /\ ms_save ms (sv_date stp) (sv_dur stp) (values_at s i stp) st = Ok st1').
    { intros s sc i ms st H1 H2 H3. assert (Bs : s < ns) by (rewrite <- L1; apply nth_error_Some; congruence).
      destruct (K1 s sc H1) as (sc1 & B1 & B2). destruct (complete_nth sets ns stp s C0 Bs) as [LS _].
      destruct (save_sets_nth _ _ _ _ _ _ LS (F sc (nth_error_In _ _ H1)) B2) as [_ K3]. destruct (K3 i ms st H2 H3) as (stn & B3 & B4). eauto. }
    assert (KS : forall s sc1 i ms st1', nth_error st1 s = Some sc1 -> nth_error sets i = Some ms -> nth_error sc1 i = Some st1' ->
       (exists r, set_run ms (series_of s i steps) st1' [] = Ok r) /\ exists d', push st1' [] = Ok d').
    { intros s sc1 i ms st1' H1 H2 H3. assert (Bs : s < length states) by (rewrite <- L3; apply nth_error_Some; congruence).
      destruct (nth_error states s) as [sc|] eqn:Es; [|apply nth_error_None in Es; lia].
      assert (Bi : i < length sc). { rewrite (F sc (nth_error_In _ _ Es)). apply nth_error_Some. congruence. }
      destruct (nth_error sc i) as [st|] eqn:Est; [|apply nth_error_None in Est; lia].
      destruct (KN s sc i ms st Es H2 Est) as (sc1' & st1'' & G1 & G2 & G3). assert (sc1' = sc1) by congruence. subst sc1'. assert (st1'' = st1') by congruence. subst st1''.
      destruct (K s sc i ms st Es H2 Est) as [r Hr]. cbn [series_of map set_run] in Hr. rewrite G3 in Hr. cbn [rbind] in Hr.
      apply rbind_Ok in Hr. destruct Hr as (z & Hz & Hr). split; [|eauto]. destruct (set_run_any _ _ _ _ [] _ Hr) as [d' Hd]. eauto. }
    destruct (mem_save_ok idx st1 data ltac:(lia)) as [d1 E2].
    { intros s sc1 d H1 H2. rewrite Forall_forall in F1. pose proof (F1 sc1 (nth_error_In _ _ H1)) as Lsc.
      destruct (nth_error sc1 idx) as [st1'|] eqn:Est; [|apply nth_error_None in Est; lia].
      destruct (nth_error sets idx) as [ms|] eqn:Ems; [|apply nth_error_None in Ems; lia].
      destruct (KS s sc1 idx ms st1' H1 Ems Est) as [_ [d' Hd]]. destruct (push_any _ _ d _ Hd) as [d2 Hd2]. eauto. }
    rewrite E2. cbn [rbind]. destruct (mem_save_nth idx st1 data d1 ltac:(lia) E2) as [L4 _].
    destruct (IH st1 d1 Cr ltac:(lia) ltac:(lia) F1) as (states' & data' & E3 & K5).
    { intros s sc i ms st H1 H2 H3. apply (KS s sc i ms st H1 H2 H3). }
    exists states', data'. split; [exact E3|]. intros s sc i ms st r H1 H2 H3 H4.
    destruct (KN s sc i ms st H1 H2 H3) as (sc1 & st1' & G1 & G2 & G3). cbn [series_of map set_run] in H4. rewrite G3 in H4. cbn [rbind] in H4.
    apply rbind_Ok in H4. destruct H4 as (z & Hz & Hr). destruct (set_run_any _ _ _ _ [] _ Hr) as [d' Hd].
    destruct (K5 s sc1 i ms st1' _ G1 H2 G2 Hd) as (sc' & Q1 & Q2). cbn [fst] in Q2. eauto.
Qed.

Lemma finalise_each_ok a : forall sts, (forall s, In s sts -> exists r, finalise a s = Ok r) -> exists r, finalise_each a sts = Ok r.
Proof.
  induction sts as [|s sts IH]; intros H; cbn [finalise_each]; [eauto|].
  destruct (H s (or_introl eq_refl)) as [[o s'] E]. rewrite E. cbn [lift rbind]. destruct o; [|eauto].
  destruct IH as [[vs sts'] E2]; [intros t Ht; apply H; right; exact Ht|]. rewrite E2. cbn [rbind]. eauto.
Qed.

(** Every metric of an aggregating set can be aggregated on its own. *)
Definition aggregates_fine (sets : list metric_set) (ns : nat) (steps : list saved_step) : Prop :=
  forall i ms a s j, nth_error sets i = Some ms -> ms_aggregator ms = Some a -> s < ns -> j < length (ms_metrics ms) ->
    exists outs st r, append_all a (setup a) (history s i j steps) = Ok (outs, st) /\ finalise a st = Ok r.

Lemma record_run_ok sets idx ns steps : idx < length sets -> Forall (fun ms => ms_metrics ms <> []) sets ->
  Forall (complete sets ns) steps -> aggregates_fine sets ns steps -> exists data, record_run sets idx ns steps = Ok data.
Proof.
  intros Hidx Ne C A. unfold record_run. cbv zeta. rewrite Forall_forall in Ne.
  assert (R0 : forall s i ms, s < ns -> nth_error sets i = Some ms -> exists r, set_run ms (series_of s i steps) (ms_setup ms) [] = Ok r /\
     exists st', ms_finalise ms (fst r) = Ok st' /\ exists d', push st' [] = Ok d').
  { intros s i ms Hs Hi. pose proof (series_lengths sets ns steps s i ms C Hs Hi) as F. pose proof (Ne ms (nth_error_In _ _ Hi)) as Nm.
    destruct (ms_aggregator ms) as [a|] eqn:Ha.
    - unfold ms_setup. rewrite Ha. cbn [option_map]. set (sts := map (fun _ => setup a) (ms_metrics ms)).
      assert (Ls : length sts = length (ms_metrics ms)) by apply map_length.
      assert (Sj : forall j s0, nth_error sts j = Some s0 -> s0 = setup a /\ j < length (ms_metrics ms)).
      { intros j s0 Es. split; [|rewrite <- Ls; apply nth_error_Some; congruence]. apply nth_error_In in Es. unfold sts in Es. apply in_map_iff in Es. destruct Es as (? & <- & _). reflexivity. }
      destruct (set_run_agg_ok ms a Ha (series_of s i steps) None sts []) as [[st d] E].
      + intros Z. rewrite Z in Ls. destruct (ms_metrics ms); [congruence|discriminate].
      + rewrite Ls. exact F.
      + apply setup_all_alike.
      + intros j s0 Es. destruct (Sj j s0 Es) as [-> Hj]. destruct (A i ms a s j Hi Ha Hs Hj) as (outs & st & r & P & _).
        rewrite history_series. eauto.
      + exists (st, d). split; [exact E|]. cbn [fst].
        destruct (set_run_agg ms a Ha (series_of s i steps) None sts [] st d) as (sts' & new & S1 & L1 & AL1 & _ & _ & K1); auto.
        { rewrite Ls. exact F. } { apply setup_all_alike. }
        rewrite S1. unfold ms_finalise. rewrite Ha. cbn [aggregation_states].
        assert (FE : exists r, finalise_each a sts' = Ok r).
        { apply finalise_each_ok. intros s' Hin. apply In_nth_error in Hin. destruct Hin as [j Hj].
          assert (Bj : j < length sts) by (rewrite <- L1; apply nth_error_Some; congruence).
          destruct (nth_error sts j) as [s0|] eqn:Es; [|apply nth_error_None in Es; lia]. destruct (Sj j s0 Es) as [-> Hjm].
          destruct (K1 j _ Es) as (outs & s2 & P1 & P2 & P3). assert (s2 = s') by congruence. subst s2.
          destruct (A i ms a s j Hi Ha Hs Hjm) as (outs' & st' & r & Q1 & Q2). rewrite history_series, Q1 in P2. injection P2 as -> ->. eauto. }
        destruct FE as [[vs sts2] FE]. rewrite FE. cbn [rbind]. eexists. split; [reflexivity|]. unfold push. cbn [current_values].
        destruct (finalise_each_inv a sts' vs sts2 FE AL1) as (os & Lo & _ & Kv & _). destruct vs as [l|]; [|eauto].
        destruct l as [|v l]; [|cbn; eauto]. exfalso. subst os. cbn in Lo. rewrite L1, Ls in Lo. destruct (ms_metrics ms); [congruence|discriminate].
    - destruct (set_run_plain ms (series_of s i steps) Ha) with (st := ms_setup ms) (d := @nil row) as [st2 R].
      { eapply Forall_impl; [|exact F]. intros x Hx Z. cbn beta in Hx. rewrite Z in Hx. destruct (ms_metrics ms); [congruence|discriminate]. }
      eexists. split; [exact R|]. cbn [fst]. unfold ms_finalise. rewrite Ha. eexists. split; [reflexivity|]. unfold push. cbn. eauto. }
  destruct (save_steps_ok sets idx ns Hidx steps (repeat (map ms_setup sets) ns) (mem_setup ns) C) as (states' & data' & E1 & K).
  { apply repeat_length. } { apply repeat_length. }
  { apply Forall_forall. intros sc Hsc. apply repeat_spec in Hsc. subst sc. apply map_length. }
  { intros s sc i ms st H1 H2 H3. assert (Bs : s < ns). { rewrite <- (repeat_length (map ms_setup sets) ns). apply nth_error_Some. congruence. }
    rewrite repeat_nth in H1 by exact Bs. injection H1 as <-. rewrite (map_nth_error _ _ _ H2) in H3. injection H3 as <-.
    destruct (R0 s i ms Bs H2) as (r & Hr & _). eauto. }
  rewrite E1. cbn [rbind].
  destruct (save_steps_nth sets idx ns steps (repeat (map ms_setup sets) ns) (mem_setup ns) states' data' C) as (L1 & L2 & F1 & _); [apply repeat_length|apply repeat_length| |exact E1|].
  { apply Forall_forall. intros sc Hsc. apply repeat_spec in Hsc. subst sc. apply map_length. }
  assert (KF : forall s sc' i ms st, nth_error states' s = Some sc' -> nth_error sets i = Some ms -> nth_error sc' i = Some st ->
     exists st', ms_finalise ms st = Ok st' /\ exists d', push st' [] = Ok d').
  { intros s sc' i ms st H1 H2 H3. assert (Bs : s < ns) by (rewrite <- L1; apply nth_error_Some; congruence).
    destruct (R0 s i ms Bs H2) as (r & Hr & X).
    destruct (K s (map ms_setup sets) i ms (ms_setup ms) r) as (sc2 & P1 & P2); [apply repeat_nth; exact Bs|exact H2|apply map_nth_error; exact H2|exact Hr|].
    assert (sc2 = sc') by congruence. subst sc2. assert (fst r = st) by congruence. subst st. exact X. }
  rewrite Forall_forall in F1.
  destruct (rmap_ok (finalise_sets sets) states') as [states2 E2].
  { intros sc' Hin. apply finalise_sets_ok; [apply F1; exact Hin|]. apply In_nth_error in Hin. destruct Hin as [s Hs]. intros i ms st Hi Hst.
    destruct (KF s sc' i ms st Hs Hi Hst) as (st' & H & _). eauto. }
  rewrite E2. cbn [rbind]. destruct (nth_error sets idx) as [ms|] eqn:Ei; [|apply nth_error_None in Ei; lia].
  destruct (rmap_nth_Ok _ _ _ E2) as [L3 K2]. apply mem_save_ok; [lia|]. intros s sc2 d H1 H2.
  assert (Bs : s < length states') by (rewrite <- L3; apply nth_error_Some; congruence).
  destruct (nth_error states' s) as [sc'|] eqn:Es; [|apply nth_error_None in Es; lia]. destruct (K2 s sc' Es) as (sc2' & P1 & P2).
  assert (sc2' = sc2) by congruence. subst sc2'. pose proof (F1 sc' (nth_error_In _ _ Es)) as Lsc.
  destruct (finalise_sets_nth sets sc' sc2 Lsc P2) as [_ K4].
  destruct (nth_error sc' idx) as [st|] eqn:Est; [|apply nth_error_None in Est; lia].
  destruct (K4 idx ms st Ei Est) as (st' & Q1 & Q2). destruct (KF s sc' idx ms st Es Ei Est) as (st2 & X1 & d' & X2).
  assert (st2 = st') by congruence. subst st2. destruct (push_any _ _ d _ X2) as [d2 Hd2]. eauto.
Qed.

(* ---------- long format ---------- *)

Lemma row_records_length rec names attrs sc r : length names = length (pv_value r) -> length attrs = length (pv_value r) ->
  length (row_records rec names attrs sc r) = length (pv_value r).
Proof. intros A B. unfold row_records. rewrite map_length, !combine_length. lia. Qed.

Lemma combine_nth_error {A B} (l : list A) (m : list B) i x y : nth_error l i = Some x -> nth_error m i = Some y -> nth_error (combine l m) i = Some (x, y).
Proof. revert m i. induction l as [|a l IH]; intros [|b m] [|i] H1 H2; cbn in *; try discriminate; [congruence|auto]. Qed.

Lemma row_records_nth rec names attrs sc r j v n a : nth_error (pv_value r) j = Some v -> nth_error names j = Some n -> nth_error attrs j = Some a ->
  nth_error (row_records rec names attrs sc r) j = Some (LongRecord (pv_start r) (pv_end r) (si_simulation sc) (si_label sc) rec n a v).
Proof.
  intros H1 H2 H3. unfold row_records. rewrite (map_nth_error _ j (combine (combine (pv_value r) names) attrs) (d := ((v, n), a))); [reflexivity|].
  apply combine_nth_error; [apply combine_nth_error; assumption|exact H3].
Qed.

(** The k-th block of equal blocks. *)
Lemma flat_map_block {A B} (f : A -> list B) M : forall l k a j, Forall (fun x => length (f x) = M) l -> nth_error l k = Some a -> j < M ->
  nth_error (flat_map f l) (M * k + j) = nth_error (f a) j.
Proof.
  induction l as [|x l IH]; intros k a j F Hk Hj; [destruct k; discriminate|]. inversion F as [|? ? Fx Fl]; subst. cbn [flat_map].
  destruct k as [|k]; cbn [nth_error] in Hk.
  - injection Hk as ->. rewrite nth_error_app1 by lia. f_equal. lia.
  - rewrite nth_error_app2 by nia. rewrite <- (IH k a j Fl Hk Hj). f_equal. nia.
Qed.

Lemma flat_map_length_const {A B} (f : A -> list B) M l : Forall (fun x => length (f x) = M) l -> length (flat_map f l) = M * length l.
Proof. induction 1 as [|x l Hx H IH]; cbn [flat_map length]; [lia|]. rewrite app_length, Hx, IH. lia. Qed.

Lemma long_position rec names attrs M : forall scenarios data, length scenarios = length data ->
  length names = M -> length attrs = M ->
  Forall (Forall (fun r => length (pv_value r) = M)) data ->
  length (long_records rec names attrs scenarios data) = M * list_sum (map (@length _) data) /\
  forall i k j sc rows r v n a, nth_error scenarios i = Some sc -> nth_error data i = Some rows -> nth_error rows k = Some r ->
    nth_error (pv_value r) j = Some v -> nth_error names j = Some n -> nth_error attrs j = Some a ->
    nth_error (long_records rec names attrs scenarios data) (record_position M data i k j) =
      Some (LongRecord (pv_start r) (pv_end r) (si_simulation sc) (si_label sc) rec n a v).
Proof.
  unfold long_records. induction scenarios as [|s scenarios IH]; intros data L Ln La F; destruct data as [|rows data]; try discriminate.
  - split; [cbn; lia|]. intros [|i]; discriminate.
  - inversion F as [|? ? Fr Fd]; subst. cbn [combine flat_map]. destruct (IH data ltac:(cbn in L; lia) eq_refl La Fd) as [IL IK].
    assert (Fb : Forall (fun r => length (row_records rec names attrs s r) = length names) rows).
    { eapply Forall_impl; [|exact Fr]. intros r Hr. rewrite row_records_length by (cbn beta in Hr; lia). exact Hr. }
    pose proof (flat_map_length_const _ _ _ Fb) as Lb.
    split; [rewrite app_length, IL, Lb; cbn [map list_sum fold_right]; unfold list_sum; lia|].
    intros i k j sc rws r v n a H1 H2 H3 H4 H5 H6. unfold record_position.
    assert (Bj : j < length names) by (apply nth_error_Some; congruence).
    destruct i as [|i]; cbn [nth_error firstn map] in *.
    + injection H1 as ->. injection H2 as ->. assert (Bk : k < length rws) by (apply nth_error_Some; congruence).
      cbn [list_sum fold_right]. rewrite Nat.mul_0_r, Nat.add_0_l. rewrite nth_error_app1 by nia.
      rewrite (flat_map_block _ _ _ k r j Fb H3 Bj). apply row_records_nth; assumption.
    + rewrite <- (IK i k j sc rws r v n a H1 H2 H3 H4 H5 H6). unfold record_position. cbn [list_sum fold_right]. change (fold_right Nat.add 0 ?x) with (list_sum x).
      rewrite nth_error_app2 by nia. f_equal. rewrite Lb. nia.
Qed.

(* ---------- orders of aggregation ---------- *)

Lemma apply_sum l : exists x, apply_func (Some FSum) l = Ok x /\ (x == total l)%Q.
Proof.
  destruct l as [|a [|b l]]; cbn [apply_func].
  - eexists. split; [reflexivity|]. reflexivity.
  - exists a. split; [reflexivity|]. cbn. ring.
  - eexists. split; [reflexivity|]. cbn [calc_iter_f64]. rewrite iter_sum_qsum. reflexivity.
Qed.

Lemma apply_time_sum l : exists x, apply_time_func (Some FSum) l = Ok x /\ (x == total (map pv_value l))%Q.
Proof.
  destruct l as [|a [|b l]]; cbn [apply_time_func].
  - eexists. split; [reflexivity|]. reflexivity.
  - exists (pv_value a). split; [reflexivity|]. cbn. ring.
  - cbn [calc_period_values]. eexists. split; [reflexivity|]. rewrite iter_sum_qsum. reflexivity.
Qed.

Lemma rmap_sum {A} (f : A -> res mem_error Q) (g : A -> Q) l : (forall x, In x l -> exists y, f x = Ok y /\ (y == g x)%Q) ->
  exists ys, rmap f l = Ok ys /\ (total ys == total (map g l))%Q.
Proof.
  induction l as [|a l IH]; intros H; [exists []; split; reflexivity|]. cbn [rmap map].
  destruct (H a (or_introl eq_refl)) as (y & -> & E). destruct IH as (ys & -> & E2); [intros x Hx; apply H; right; exact Hx|].
  exists (y :: ys). split; [reflexivity|]. change (y + total ys == g a + total (map g l))%Q. rewrite E, E2. reflexivity.
Qed.

Lemma total_ext {A} (f g : A -> Q) l : (forall x, In x l -> f x == g x)%Q -> (total (map f l) == total (map g l))%Q.
Proof. induction l as [|a l IH]; intros H; [reflexivity|]. change (f a + total (map f l) == g a + total (map g l))%Q. rewrite H, IH; [reflexivity| |left; reflexivity]. intros x Hx. apply H. right; exact Hx. Qed.

Lemma total_swap {A B} (f : A -> B -> Q) l m : (total (map (fun a => total (map (f a) m)) l) == total (map (fun b => total (map (fun a => f a b) l)) m))%Q.
Proof.
  induction l as [|a l IH].
  - cbn. induction m as [|b m IHm]; [reflexivity|]. cbn. rewrite <- IHm. reflexivity.
  - cbn [map total fold_right]. change (fold_right Qplus 0%Q ?x) with (total x). rewrite IH. clear IH.
    induction m as [|b m IHm]; [reflexivity|]. cbn [map total fold_right] in *. change (fold_right Qplus 0%Q ?x) with (total x) in *. rewrite <- IHm. ring.
Qed.

Lemma total_nth (l : list Q) : (total l == total (map (fun j => nth j l 0) (seq 0 (length l))))%Q.
Proof.
  induction l as [|a l IH]; [reflexivity|]. cbn [length seq map nth total fold_right]. change (fold_right Qplus 0%Q ?x) with (total x).
  rewrite <- seq_shift, map_map. rewrite IH at 1. reflexivity.
Qed.

Definition all_sums : aggregation := Aggregation (Some FSum) (Some FSum) (Some FSum).

Lemma metric_first data : exists x, metric_time_scenario all_sums data = Ok x /\ (x == grand_total data)%Q.
Proof.
  unfold metric_time_scenario, all_sums. cbn [ag_scenario ag_time ag_metric].
  match goal with |- context [rmap ?f data] => destruct (rmap_sum f (fun rows => total (map (fun r => total (pv_value r)) rows)) data) as (ys & E & S) end.
  - intros rows _.
    assert (G : exists ts, rmap (fun r => rbind (apply_func (Some FSum) (pv_value r)) (fun x => @Ok mem_error _ (PV (pv_start r) (pv_dur r) x))) rows = Ok ts /\
        (total (map pv_value ts) == total (map (fun r => total (pv_value r)) rows))%Q).
    { induction rows as [|r rows IH]; [exists []; split; reflexivity|]. cbn [rmap]. destruct (apply_sum (pv_value r)) as (x & -> & Ex). cbn [rbind].
      destruct IH as (ts & -> & Et). eexists. split; [reflexivity|].
      change (x + total (map pv_value ts) == total (pv_value r) + total (map (fun r => total (pv_value r)) rows))%Q. rewrite Ex, Et. reflexivity. }
    destruct G as (ts & -> & Et). cbn [rbind]. destruct (apply_time_sum ts) as (x & -> & Ex). exists x. split; [reflexivity|]. rewrite Ex, Et. reflexivity.
  - rewrite E. cbn [rbind]. destruct (apply_sum ys) as (x & -> & Ex). exists x. split; [reflexivity|]. rewrite Ex, S. reflexivity.
Qed.

Lemma time_first data M : Forall (fun rows => rows <> [] /\ Forall (fun r => length (pv_value r) = M) rows) data ->
  exists x, time_metric_scenario all_sums data = Ok x /\ (x == grand_total data)%Q.
Proof.
  intros F. unfold time_metric_scenario, all_sums. cbn [ag_scenario ag_time ag_metric].
  match goal with |- context [rmap ?f data] => destruct (rmap_sum f (fun rows => total (map (fun r => total (pv_value r)) rows)) data) as (ys & E & S) end.
  - intros rows Hin. rewrite Forall_forall in F. destruct (F rows Hin) as [Ne Fr]. destruct rows as [|r0 rows]; [congruence|]. clear Ne.
    set (time_data := r0 :: rows) in *. assert (L0 : length (pv_value r0) = M) by (inversion Fr; assumption). rewrite L0.
    match goal with |- context [rmap ?f (seq 0 M)] => destruct (rmap_sum f (fun j => total (map (fun r => nth j (pv_value r) 0%Q) time_data)) (seq 0 M)) as (zs & Ez & Sz) end.
    + intros j Hj. apply in_seq in Hj.
      assert (G : rmap (row_index j) time_data = Ok (column j time_data)).
      { clear - Fr Hj. induction Fr as [|r l Hr Fr IH]; [reflexivity|]. cbn [rmap column map]. unfold row_index at 1.
        destruct (nth_error (pv_value r) j) as [x|] eqn:E; [|apply nth_error_None in E; lia]. rewrite (nth_error_nth _ _ 0%Q E). rewrite IH. reflexivity. }
      rewrite G. cbn [rbind]. destruct (apply_time_sum (column j time_data)) as (x & -> & Ex). exists x. split; [reflexivity|]. rewrite Ex.
      unfold column. rewrite map_map. reflexivity.
    + rewrite Ez. cbn [rbind]. destruct (apply_sum zs) as (x & -> & Ex). exists x. split; [reflexivity|]. rewrite Ex, Sz.
      rewrite <- (total_swap (fun (r : row) (j : nat) => nth j (pv_value r) 0%Q)). apply total_ext. intros r Hr.
      rewrite Forall_forall in Fr. rewrite (total_nth (pv_value r)), (Fr r Hr). reflexivity.
  - rewrite E. cbn [rbind]. destruct (apply_sum ys) as (x & -> & Ex). exists x. split; [reflexivity|]. rewrite Ex, S. reflexivity.
Qed.
