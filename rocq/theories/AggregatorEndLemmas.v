(** Period boundaries, runs which never panic, and the end of a run. *)
From Coq Require Import QArith Lqa.
From Verif Require Import Base Calendar CalendarLemmas Timestep Network NetworkBuildLemmas LpRowLemmas AggFuncs AggFuncsSpec AggFuncsLemmas Aggregator AggregatorSpec PeriodLemmas AggregatorLemmas AggregatorRunLemmas.
Open Scope Z_scope.

(* ---------- calendar boundaries ---------- *)

Lemma find_part l a t : Forall recorded (a :: l) -> consecutive (a :: l) -> start_of a <= t < stop_of (last l a) ->
  exists p, In p (a :: l) /\ start_of p <= t < stop_of p.
Proof.
  revert a. induction l as [|b l IH]; intros a R C H.
  - exists a. cbn [last] in H. split; [left; reflexivity|exact H].
  - destruct (Z_lt_ge_dec t (stop_of a)) as [L|G]; [exists a; split; [left; reflexivity|lia]|].
    destruct C as [E C]. inversion R; subst. rewrite last_cons in H. destruct (IH b) as (p & I & P); auto; [lia|].
    exists p. split; [right; exact I|exact P].
Qed.

Lemma group_period f a l : Forall recorded (a :: l) -> consecutive (a :: l) ->
  Forall (within_a_period f) (a :: l) -> one_period f (a :: l) -> calendric f ->
  forall t, start_of a <= t < stop_of (last l a) -> same_period f (pv_start a) (datetime_of_instant t).
Proof.
  intros R C W O K t H. destruct (find_part l a t R C H) as (p & I & P).
  rewrite Forall_forall in R, W. unfold one_period in O. rewrite Forall_forall in O.
  pose proof (O p I) as S1. pose proof (W p I t P) as S2. destruct (R p I) as [Vp _]. destruct (R a (or_introl eq_refl)) as [Va _].
  rewrite same_period_index in * by auto using datetime_of_instant_valid. congruence.
Qed.

Lemma boundary_after f a l b : Forall recorded (a :: l) -> consecutive (a :: l) ->
  Forall (within_a_period f) (a :: l) -> one_period f (a :: l) -> calendric f ->
  valid_datetime (pv_start b) = true -> stop_of (last l a) = start_of b ->
  ~ same_period f (pv_start a) (pv_start b) -> begins_period f (start_of b).
Proof.
  intros R C W O K Vb J N. pose proof (consecutive_span a l C) as Sp. pose proof (zsum_pos (a :: l) ltac:(discriminate) R) as P.
  assert (S : same_period f (pv_start a) (datetime_of_instant (start_of b - 1))) by (apply (group_period f a l); auto; lia).
  inversion R as [|? ? [Va _] _]; subst.
  rewrite same_period_index in S, N by auto using datetime_of_instant_valid.
  apply begins_period_iff; [exact K|]. unfold start_of in *. rewrite datetime_of_instant_inv by exact Vb.
  pose proof (pindex_bounds f (datetime_of_instant (instant (pv_start b) - 1)) (datetime_of_instant_valid _)) as B1.
  rewrite instant_datetime_of_instant, <- S in B1. pose proof (pindex_bounds f (pv_start b) Vb) as B2.
  assert (M : pindex f (pv_start a) <= pindex f (pv_start b)).
  { rewrite S. apply pindex_mono; auto using datetime_of_instant_valid. rewrite instant_datetime_of_instant. lia. }
  pose proof (pstart_mono f (pindex f (pv_start a) + 1) (pindex f (pv_start b))). unfold NS_PER_DAY in *. lia.
Qed.


Lemma groups_calendar f func groups es : calendric f -> Forall2 (aggregates func) groups es -> forall pending, pending <> [] ->
  Forall recorded (concat groups ++ pending) -> consecutive (concat groups ++ pending) ->
  Forall (within_a_period f) (concat groups) -> Forall (one_period f) groups -> apart f (groups ++ [pending]) ->
  Forall (calendar_period f) es.
Proof.
  intros K. induction 1 as [|g e groups es Hg H IH]; intros pending Np R C W O A; [constructor|].
  cbn [concat] in *. rewrite <- app_assoc in R, C. apply Forall_app in R, W. destruct R as [Rg Rr], W as [Wg Wr].
  apply consecutive_app in C. destruct C as (Cg & Cr & J). inversion O as [|? ? Og Or]; subst.
  destruct (aggregates_cons func g e Hg) as (a & l & -> & S & E).
  assert (NX : exists b r, concat groups ++ pending = b :: r /\ ~ same_period f (pv_start a) (pv_start b) /\ apart f (groups ++ [pending])).
  { cbn [app] in A. destruct H as [|g2 e2 groups es Hg2 H].
    - cbn [app concat] in *. destruct pending as [|b r]; [congruence|]. cbn [apart] in A. exists b, r. tauto.
    - destruct (aggregates_cons func g2 e2 Hg2) as (b & r & -> & _). cbn [app apart concat] in *. exists b. eexists. split; [reflexivity|tauto]. }
  destruct NX as (b & r & EB & N & A'). constructor; [|eapply IH; eauto].
  rewrite EB in *. cbn [app] in *. inversion Rr as [|? ? [Vb _] _]; subst.
  split.
  - intros t Ht. rewrite S. apply (group_period f a l); auto. unfold start_of in *. rewrite S in Ht. lia.
  - rewrite E, J. apply (boundary_after f a l b); auto.
Qed.

Lemma flat_calendar f func values outs st : calendric f -> Forall recorded values -> consecutive values ->
  append_all (flat f func) (setup (flat f func)) values = Ok (outs, st) -> Forall (calendar_period f) (emitted outs).
Proof.
  intros K R C H. assert (F : freq_ok f) by (destruct f; try exact I; destruct K).
  destruct (flat_tiling f func values outs st F R C H) as (parts & gs & pe & Cv & W & U & E & St & Np & A & O & Ap).
  destruct values as [|v values].
  { inversion Cv; subst. cbn [concat] in E. symmetry in E. apply app_eq_nil in E. destruct E as [EG ->].
    destruct A as [|g e gs es Hg A]; [constructor|]. destruct (aggregates_cons func g e Hg) as (a & l & -> & _). discriminate EG. }
  destruct (covers_consecutive _ _ Cv C) as [CC CR]. rewrite E in CC, CR.
  eapply (groups_calendar f func gs _ K A pe); auto.
  - apply Np. discriminate.
  - assert (WC : Forall (within_a_period f) (concat parts)) by (apply Forall_concat; exact W).
    rewrite E in WC. apply Forall_app in WC. tauto.
  - apply Forall_app in O. tauto.
Qed.

(* ---------- no panic ---------- *)

Lemma parts_short f v ps : calendric f -> short_enough f v -> covers v ps ->
  Forall (fun p => begins_period f (start_of p)) (tl ps) ->
  (exists p, ps = [p]) \/ (exists p q, ps = [p; q] /\ ~ begins_period f (start_of p)).
Proof.
  intros K S C B. pose proof C as (R & Cs & _). destruct (covers_first v ps C) as (a & l & -> & Sa & E). cbn [tl] in B.
  destruct l as [|q l]; [left; eauto|]. right.
  assert (SE : forall t u, start_of v <= t < stop_of v -> start_of v <= u < stop_of v -> begins_period f t -> begins_period f u -> t = u)
    by (destruct f; [exact S|exact S|destruct K]).
  assert (Sa' : start_of a = start_of v) by (unfold start_of; rewrite Sa; reflexivity).
  inversion R as [|? ? [_ Da] Rq]; subst. pose proof Rq as Rq'. inversion Rq' as [|? ? [_ Dq] Rl]; subst. destruct Cs as [Ca Cq].
  inversion B as [|? ? Bq Bl]; subst. rewrite last_cons in E.
  assert (Lq : stop_of q <= stop_of (last l q)) by (apply stops_increase; assumption).
  unfold stop_of at 1 in Ca. unfold stop_of at 1 in Lq.
  destruct l as [|q2 l].
  - exists a, q. split; [reflexivity|]. intros Ba. specialize (SE (start_of a) (start_of q)). rewrite <- E in SE. rewrite <- Sa' in SE. cbn [last] in *. unfold stop_of in SE. specialize (SE ltac:(lia) ltac:(lia) Ba Bq). lia.
  - exfalso. inversion Bl as [|? ? Bq2 _]; subst. destruct Cq as [Cq C2]. inversion Rl as [|? ? [_ D2] Rl']; subst.
    assert (L2 : stop_of q2 <= stop_of (last l q2)) by (apply stops_increase; assumption). rewrite last_cons in E.
    unfold stop_of at 1 in L2. unfold stop_of at 1 in Cq.
    specialize (SE (start_of q) (start_of q2) ltac:(lia) ltac:(lia) Bq Bq2). lia.
Qed.

Lemma state_process_ok f func a l p : exists o s', state_process_value f func (Some (a :: l)) p = Ok (o, s').
Proof. cbn [state_process_value]. destruct (is_date_in_period _ _ _); eauto. Qed.

Lemma process_one_ok f func s p : s <> Some [] -> exists o s', process_parts f func s [p] None = Ok (o, s').
Proof.
  intros H. cbn [process_parts]. destruct s as [[|a l]|]; [congruence| |cbn; eauto].
  destruct (state_process_ok f func a l p) as (o & s' & E). rewrite E. cbn [rbind]. destruct o; eauto.
Qed.

(** What the state of a flat aggregator satisfies between two values. *)
Definition state_inv (f : agg_freq) (s : pstate) (rest : list pvalue) : Prop :=
  match s with
  | None => True
  | Some [] => False
  | Some (a :: l) => Forall recorded (a :: l) /\ consecutive ((a :: l) ++ rest) /\ Forall (within_a_period f) (a :: l) /\ one_period f (a :: l)
  end.

Lemma short_within n v : recorded v -> short_enough (GDays n) v -> within_a_period (GDays n) v.
Proof. intros R S t Ht. cbn [short_enough same_period] in *. rewrite instant_datetime_of_instant. unfold stop_of, start_of in *. lia. Qed.

Lemma process_ok f func s v rest : freq_ok f -> recorded v -> consecutive (v :: rest) -> short_enough f v -> state_inv f s (v :: rest) ->
  exists parts o s', split_value_into_periods f v = Ok parts /\ process_parts f func s parts None = Ok (o, s').
Proof.
  intros F R C S I. destruct (split_total f v F R) as [parts Hp]. exists parts.
  destruct (split_spec f v parts F R Hp) as (Cv & W & B).
  assert (Sn : s <> Some []) by (intros ->; exact I).
  assert (G : exists o s', process_parts f func s parts None = Ok (o, s')); [|destruct G as (o & s' & G); exists o, s'; auto].
  destruct (match f with GDays _ => true | _ => false end) eqn:EF.
  { destruct f as [| |n]; try discriminate. rewrite (unsplit _ v parts F R (short_within n v R S) Hp). apply process_one_ok, Sn. }
  assert (K : calendric f) by (destruct f; try discriminate; exact Logic.I).
  destruct (parts_short f v parts K S Cv (B K)) as [[p ->]|(p & q & -> & Nb)]; [apply process_one_ok, Sn|].
  cbn [process_parts]. destruct s as [[|a l]|]; [congruence| |].
  - destruct I as (Ra & Ca & Wa & Oa). cbn [state_process_value].
    destruct (is_date_in_period f (pv_start a) (pv_start p)) eqn:E.
    + cbn [rbind]. change ((a :: l) ++ [p]) with (a :: (l ++ [p])). destruct (state_process_ok f func a (l ++ [p]) q) as (o & s' & E2). rewrite E2.
      cbn [rbind]. destruct o; eauto.
    + exfalso. apply Nb. apply (boundary_after f a l p); auto.
      * apply consecutive_app in Ca. tauto.
      * destruct Cv as ((Rp & _)%Forall_inv & _). exact Rp.
      * apply consecutive_app in Ca. destruct Ca as (_ & _ & J). cbn in J. rewrite J.
        destruct (covers_first v _ Cv) as (a' & r & EE & Sa & _). injection EE as <- _. unfold start_of. rewrite Sa. reflexivity.
      * intros Sm. apply (in_period_iff f) in Sm; [congruence|]. inversion Ra as [|? ? [Va _] _]; exact Va.
  - change (state_process_value f func None p) with (@Ok unit _ (@None pvalue, Some [p])). cbn [rbind]. destruct (state_process_ok f func p [] q) as (o & s' & E2). rewrite E2. cbn [rbind]. destruct o; eauto.
Qed.

Lemma process_keeps_inv f func s v rest parts o s' : freq_ok f -> recorded v -> consecutive (v :: rest) ->
  state_inv f s (v :: rest) -> split_value_into_periods f v = Ok parts -> process_parts f func s parts None = Ok (o, s') ->
  state_inv f s' rest.
Proof.
  intros F R C I Hp H. destruct (split_spec f v parts F R Hp) as (Cv & W & _).
  destruct (process_parts_feed _ _ _ _ _ _ _ H) as (es & Fe & _).
  pose proof Cv as (Rp & Cp & _). destruct (covers_first v parts Cv) as (b & r & EP & Sb & Eb).
  assert (J : consecutive (parts ++ rest)).
  { apply consecutive_app. split; [exact Cp|]. split; [exact (consecutive_tl _ _ C)|]. rewrite EP. destruct rest as [|w rest]; [exact Logic.I|].
    destruct C as [C _]. rewrite Eb. exact C. }
  assert (X : exists groups pending pre, (match s with Some l => l | None => [] end) ++ parts = concat groups ++ pending /\ s' = Some pending /\
      pending <> [] /\ Forall (one_period f) (groups ++ [pending]) /\ pre = concat groups).
  { destruct s as [[|a l]|]; [destruct I| |].
    - destruct I as (Ra & Ca & Wa & Oa). destruct (feed_groups f func F parts a l es s') as (gs & pe & E1 & E2 & E3 & E4 & E5 & _); auto.
      + apply Forall_app; auto.
      + apply consecutive_app. apply consecutive_app in Ca. destruct Ca as (Ca & _ & Jv). split; [exact Ca|]. split; [exact Cp|].
        rewrite EP. cbn in Jv. rewrite Jv. unfold start_of. rewrite Sb. reflexivity.
      + exists gs, pe, (concat gs). auto.
    - destruct (feed_groups_none f func parts es s' F) as (gs & pe & E1 & E2 & E3 & E4 & E5 & _); auto.
      + rewrite EP. discriminate.
      + exists gs, pe, (concat gs). auto. }
  destruct X as (gs & pe & _ & E1 & -> & Np & O & _). destruct pe as [|a' l']; [congruence|].
  assert (RA : Forall recorded ((match s with Some l => l | None => [] end) ++ parts)).
  { apply Forall_app. split; [|exact Rp]. destruct s as [[|a l]|]; [constructor| |constructor]. destruct I; assumption. }
  assert (WA : Forall (within_a_period f) ((match s with Some l => l | None => [] end) ++ parts)).
  { apply Forall_app. split; [|exact W]. destruct s as [[|a l]|]; [constructor| |constructor]. destruct I as (_ & _ & Wa & _); assumption. }
  assert (CA : consecutive (((match s with Some l => l | None => [] end) ++ parts) ++ rest)).
  { rewrite <- app_assoc. destruct s as [[|a l]|]; [destruct I| |exact J]. destruct I as (_ & Ca & _). apply consecutive_app in Ca.
    destruct Ca as (Ca & _ & Jv). apply consecutive_app. split; [exact Ca|]. split; [exact J|]. rewrite EP. cbn [app]. cbn in Jv.
    rewrite Jv. unfold start_of. rewrite Sb. reflexivity. }
  rewrite E1 in RA, WA, CA. apply Forall_app in RA, WA, O. rewrite <- app_assoc in CA. apply consecutive_app in CA.
  destruct O as [_ O]. inversion O; subst. cbn [state_inv]. tauto.
Qed.

Lemma flat_never_panics_from f func values : freq_ok f -> forall s, Forall recorded values -> consecutive values ->
  Forall (short_enough f) values -> state_inv f s values ->
  exists outs st, append_all (flat f func) (SBase s) values = Ok (outs, st).
Proof.
  intros F. induction values as [|v values IH]; intros s R C S I; cbn [append_all]; [eauto|].
  inversion R as [|? ? Rv Rvs]; inversion S as [|? ? Sv Svs]; subst.
  destruct (process_ok f func s v values F Rv C Sv I) as (parts & o & s' & Hp & Hq).
  pose proof (process_keeps_inv f func s v values parts o s' F Rv C I Hp Hq) as I'.
  destruct (IH s' Rvs (consecutive_tl _ _ C) Svs I') as (outs & st & E).
  cbn [flat append_value]. unfold level_process_value. cbn [lv_freq lv_func]. rewrite Hp. cbn [rbind]. rewrite Hq. cbn [rbind].
  change (ABase (Level (Some f) func)) with (flat f func). rewrite E. cbn [rbind]. eauto.
Qed.

Lemma short_by_length f v : calendric f -> pv_dur v <= (match f with GAnnual => 365 | _ => 28 end) * NS_PER_DAY -> short_enough f v.
Proof.
  intros K H.
  assert (G : forall t u, start_of v <= t < stop_of v -> start_of v <= u < stop_of v -> begins_period f t -> begins_period f u -> t < u -> False).
  { intros t u Ht Hu Bt Bu L. rewrite begins_period_iff in Bt, Bu by exact K.
    assert (M : pindex f (datetime_of_instant t) < pindex f (datetime_of_instant u)).
    { assert (N : ~ pindex f (datetime_of_instant t) = pindex f (datetime_of_instant u)) by (intros E; rewrite E in Bt; lia).
      assert (pindex f (datetime_of_instant t) <= pindex f (datetime_of_instant u)); [|lia].
      apply pindex_mono; auto using datetime_of_instant_valid. rewrite !instant_datetime_of_instant. lia. }
    unfold stop_of in *.
    destruct f; [| |destruct K]; cbn [pstart] in *.
    - pose proof (month_start_mono _ _ (Z.lt_le_incl _ _ M)). unfold NS_PER_DAY in *. lia.
    - pose proof (days_before_year_mono _ _ (Z.lt_le_incl _ _ M)). unfold NS_PER_DAY in *. lia. }
  destruct f; [| |destruct K]; cbn [short_enough]; intros t u Ht Hu Bt Bu;
    (destruct (Z.lt_trichotomy t u) as [L|[E|L]]; [exfalso; apply (G t u); assumption|exact E|exfalso; apply (G u t); assumption]).
Qed.

(* ---------- the end of a run ---------- *)

Lemma flat_final f func values outs st : freq_ok f -> values <> [] -> Forall recorded values -> consecutive values ->
  append_all (flat f func) (setup (flat f func)) values = Ok (outs, st) ->
  exists e a pending, finalise (flat f func) st = Ok (Some e, st) /\ held_back st = a :: pending /\
    pv_start e = pv_start a /\ calc_period_values func (a :: pending) = Some (pv_value e) /\
    stop_of e = start_of (last pending a) /\ stop_of (last pending a) = stop_of (last values (PV (pv_start a) 0 0%Q)).
Proof.
  intros F Ne R C H. destruct (flat_tiling f func values outs st F R C H) as (parts & gs & pe & Cv & W & U & E & St & Np & A & _).
  destruct (covers_consecutive _ _ Cv C) as [CC CR]. pose proof CR as CR0. rewrite E in CC, CR.
  destruct values as [|v vs]; [congruence|]. specialize (Np ltac:(discriminate)). destruct pe as [|a l]; [congruence|].
  apply Forall_app in CR. destruct CR as [_ RP].
  destruct (aggregate_exists func (a :: l) ltac:(discriminate) RP) as [x Hx].
  exists (PV (pv_start a) (instant (pv_start (last l a)) - instant (pv_start a)) x), a, l.
  subst st. cbn [finalise flat calc_aggregation lv_func]. rewrite Hx. cbn [rbind]. rewrite last_cons. repeat split.
  - unfold stop_of, start_of. cbn [pv_start pv_dur]. lia.
  - rewrite last_cons.
    assert (L : forall d, stop_of (last (concat parts) d) = stop_of (last vs v)).
    { clear - Cv. revert parts Cv. revert v. induction vs as [|w vs IH]; intros v parts Cv d; inversion Cv as [|? ps ? parts' Hv Hvs]; subst.
      - inversion Hvs; subst. cbn [concat]. rewrite app_nil_r. destruct (covers_first v ps Hv) as (b & q & -> & S & St). rewrite last_cons. exact St.
      - cbn [concat]. inversion Hvs as [|? ps2 ? parts2 Hw Hr]; subst. destruct (covers_first w ps2 Hw) as (b & q & E2 & _).
        rewrite last_cons. rewrite <- (IH w (ps2 :: parts2) Hvs d). subst ps2. cbn [concat app]. rewrite last_app_cons, last_cons. reflexivity. }
    rewrite <- (L a), E, last_app_cons. reflexivity.
Qed.

Lemma unending_final func values outs st : values <> [] -> Forall recorded values ->
  append_all (unending func) (setup (unending func)) values = Ok (outs, st) ->
  emitted outs = [] /\ exists e, finalise (unending func) st = Ok (Some e, st) /\
    Some (pv_start e) = option_map pv_start (head values) /\ calc_period_values func values = Some (pv_value e).
Proof.
  intros Ne R H. destruct (unending_run func values None) as (outs' & E & N). unfold unending in E, H |- *. cbn [setup] in H. rewrite E in H. injection H as <- <-.
  split; [exact N|]. destruct values as [|v vs]; [congruence|]. destruct (aggregate_exists func (v :: vs) Ne R) as [x Hx].
  eexists. cbn [finalise calc_aggregation lv_func app]. rewrite Hx. cbn [rbind]. split; [reflexivity|]. split; reflexivity.
Qed.

(** An outer aggregator without a period takes everything its child hands on. *)
Lemma nested_unending_final func child values outs st :
  append_all (ANest (Level None func) child) (setup (ANest (Level None func) child)) values = Ok (outs, st) ->
  exists couts cst, append_all child (setup child) values = Ok (couts, cst) /\ emitted outs = [] /\
    forall cfin cst', finalise child cst = Ok (cfin, cst') -> emitted couts ++ opt_list cfin <> [] ->
      exists fin st', finalise (ANest (Level None func) child) st = Ok (fin, st') /\
        option_map pv_value fin = calc_period_values func (emitted couts ++ opt_list cfin).
Proof.
  intros H. cbn [setup] in H. destruct (nested_run _ _ _ _ _ _ _ H) as (couts & cst' & louts & s' & A & B & -> & E).
  destruct (unending_run func (emitted couts) None) as (o & E2 & N). unfold unending in E2. rewrite E2 in B. injection B as <- <-.
  exists couts, cst'. split; [exact A|]. split; [rewrite E; exact N|]. intros cfin cst2 Hf Hne.
  assert (G : forall l, calc_aggregation func (Some l) = match calc_period_values func l with
     | Some x => match l with [] => Panic | a :: _ => Ok (Some (PV (pv_start a) (instant (pv_start (last l a)) - instant (pv_start a)) x)) end | None => Ok None end).
  { reflexivity. }
  assert (K : forall l, l <> [] -> exists fin, calc_aggregation func (Some l) = Ok fin /\ option_map pv_value fin = calc_period_values func l).
  { intros l Hl. rewrite G. destruct (calc_period_values func l) as [x|]; [|eauto]. destruct l as [|a l]; [congruence|]. eexists. split; reflexivity. }
  cbn [finalise]. rewrite Hf. cbn [rbind]. destruct cfin as [c|]; cbn [opt_list] in *.
  - unfold level_process_value. cbn [lv_freq rbind].
    cbn [lv_func]. destruct (emitted couts) as [|x l] eqn:EC; cbn [process_value_no_period app] in *;
      (match goal with |- context [calc_aggregation func (Some ?z)] => destruct (K z ltac:(discriminate)) as (fin & -> & Ef) end; cbn [rbind]; eauto).
  - rewrite app_nil_r in *. cbn [rbind lv_func]. destruct (emitted couts) as [|x l] eqn:EC; [congruence|]. cbn [app].
    destruct (K _ Hne) as (fin & -> & Ef). cbn [rbind]. eauto.
Qed.

(** A final child value of a single recorded part does not reach its parent. *)
Lemma nested_single_lost l f func s p : finalise (ANest l (flat f func)) (SNest s (SBase (Some [p]))) = 
  match calc_period_values func [p] with
  | Some x =>
      rbind (level_process_value l s (PV (pv_start p) 0 x)) (fun '(_, s') => rbind (calc_aggregation (lv_func l) s') (fun o => Ok (o, SNest s' (SBase (Some [p])))))
  | None => rbind (calc_aggregation (lv_func l) s) (fun o => Ok (o, SNest s (SBase (Some [p]))))
  end.
Proof.
  cbn [finalise flat calc_aggregation lv_func]. destruct (calc_period_values func [p]) as [x|]; cbn [rbind]; [|reflexivity].
  cbn [last]. rewrite Z.sub_diag. destruct (level_process_value l s _) as [[o s']| |]; reflexivity.
Qed.

Lemma zero_length_ignored f func s t x : valid_datetime t = true -> level_process_value (Level (Some f) func) s (PV t 0 x) = Ok (None, s).
Proof.
  intros V. unfold level_process_value, split_value_into_periods. cbn [lv_freq pv_dur pv_start pv_value lv_func].
  change (Z.to_nat (0 / NS_PER_DAY + 3)) with 3%nat. cbn [split_loop]. rewrite start_end. unfold stop_of, start_of. cbn [pv_start pv_dur].
  destruct (_ <? _) eqn:E; [lia|]. reflexivity.
Qed.
