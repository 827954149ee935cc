(** Runs of flat and nested aggregators. *)
From Coq Require Import QArith Lqa.
From Verif Require Import Base Calendar CalendarLemmas Timestep Network NetworkBuildLemmas LpRowLemmas AggFuncs AggFuncsSpec AggFuncsLemmas Aggregator AggregatorSpec PeriodLemmas AggregatorLemmas.
Open Scope Z_scope.


(** The whole story of a flat aggregator. *)
Definition tiling (f : agg_freq) (func : agg_f64) (values : list pvalue) (es : list pvalue) (st : agg_state) : Prop :=
  exists parts groups pending,
    Forall2 covers values parts /\ Forall (Forall (within_a_period f)) parts /\
    Forall2 (fun v ps => within_a_period f v -> ps = [v]) values parts /\
    concat parts = concat groups ++ pending /\
    st = SBase (match values with [] => None | _ => Some pending end) /\
    (values <> [] -> pending <> []) /\
    Forall2 (aggregates func) groups es /\
    Forall (one_period f) (groups ++ [pending]) /\ apart f (groups ++ [pending]).

Lemma flat_tiling f func values outs st : freq_ok f -> Forall recorded values -> consecutive values ->
  append_all (flat f func) (setup (flat f func)) values = Ok (outs, st) -> tiling f func values (emitted outs) st.
Proof.
  intros F R C H. destruct (append_all_feed f func values F R None outs st H) as (parts & s' & -> & Cv & W & U & Fd).
  destruct values as [|v values].
  - inversion Cv; subst. cbn in Fd. injection Fd as <- <-. exists [], [], []. repeat split; try (cbn; constructor); auto.
  - destruct (covers_consecutive _ _ Cv C) as [CC CR].
    assert (Hne : concat parts <> []).
    { inversion Cv as [|? ps ? ? Hv]; subst. cbn [concat]. apply covers_nonempty in Hv. destruct ps; [congruence|discriminate]. }
    destruct (feed_groups_none f func _ _ _ F Hne CR CC Fd) as (gs & pe & A & B & D & G & K & L).
    exists parts, gs, pe. rewrite B. auto 10.
Qed.

(* ---------- emitted values ---------- *)

Lemma aggregates_cons func g e : aggregates func g e -> exists a l, g = a :: l /\ pv_start e = pv_start a /\ stop_of e = stop_of (last l a).
Proof. intros (a & H & S & E & _). destruct g as [|a' l]; [discriminate H|]. injection H as ->. rewrite last_cons in E. eauto. Qed.

Lemma emitted_recorded func groups es : Forall2 (aggregates func) groups es ->
  Forall recorded (concat groups) -> consecutive (concat groups) -> Forall recorded es /\ consecutive es /\
  match es, concat groups with
  | e :: _, a :: _ => pv_start e = pv_start a
  | [], [] => True
  | _, _ => False
  end /\
  match es, concat groups with
  | e :: r, a :: l => stop_of (last r e) = stop_of (last l a)
  | _, _ => True
  end.
Proof.
  induction 1 as [|g e groups es Hg H IH]; intros R C; [cbn; auto|].
  cbn [concat] in *. apply Forall_app in R. destruct R as [Rg Rr]. apply consecutive_app in C. destruct C as (Cg & Cr & J).
  destruct (IH Rr Cr) as (Re & Ce & Hs & Hl). destruct (aggregates_cons func g e Hg) as (a & l & -> & S & E).
  pose proof (consecutive_span a l Cg) as Sp. pose proof (zsum_pos (a :: l) ltac:(discriminate) Rg) as P.
  assert (Rv : recorded e).
  { split; [rewrite S; inversion Rg as [|? ? [V _] _]; exact V|]. unfold stop_of at 1, start_of at 1 in E. rewrite S in E.
    unfold stop_of, start_of in *. lia. }
  split; [constructor; assumption|]. split; [|split].
  - destruct es as [|e2 es]; [exact I|]. split; [|exact Ce]. destruct (concat groups) as [|b r] eqn:EG; [destruct Hs|].
    unfold start_of. rewrite Hs, E. exact J.
  - cbn [app]. exact S.
  - cbn [app]. destruct es as [|e2 es]; destruct (concat groups) as [|b r] eqn:EG; try (destruct Hs; fail).
    + rewrite app_nil_r. cbn [last]. exact E.
    + rewrite last_cons, last_app_cons. exact Hl.
Qed.

Lemma days_span a l : consecutive (a :: l) -> forall e, pv_start e = pv_start a -> stop_of e = stop_of (last l a) ->
  (days_of e == qsum (map days_of (a :: l)))%Q.
Proof.
  intros C e S E. rewrite days_zsum. unfold days_of. rewrite <- (consecutive_span a l C).
  replace (pv_dur e) with (stop_of (last l a) - start_of a); [reflexivity|]. rewrite <- E. unfold stop_of, start_of. rewrite S. lia.
Qed.

Lemma mean_of_group g e : Forall recorded g -> consecutive g -> aggregates FMean g e -> (pv_value e * days_of e == integral g)%Q.
Proof.
  intros R C A. pose proof A as (a & H & S & E & K). destruct g as [|a' l]; [discriminate H|]. injection H as ->.
  rewrite last_cons in E. pose proof (days_span a l C e S E) as D.
  assert (NZ : ~ (qsum (map days_of (a :: l)) == 0)%Q).
  { pose proof (zsum_pos (a :: l) ltac:(discriminate) R) as P. rewrite days_zsum.
    assert (0 < inject_Z (zsum (map pv_dur (a :: l))) / inject_Z NS_PER_DAY)%Q; [|lra].
    apply Qlt_shift_div_l; [reflexivity|]. rewrite Qmult_0_l. change 0%Q with (inject_Z 0). rewrite <- Zlt_Qlt. exact P. }
  destruct (weighted_formula (a :: l) NZ) as (m & Hm & Hf). rewrite K in Hm. injection Hm as ->.
  rewrite D. exact Hf.
Qed.

Lemma means_integral groups es : Forall2 (aggregates FMean) groups es ->
  Forall recorded (concat groups) -> consecutive (concat groups) -> (integral es == integral (concat groups))%Q.
Proof.
  induction 1 as [|g e groups es Hg H IH]; intros R C; [reflexivity|].
  cbn [concat] in *. apply Forall_app in R. destruct R as [Rg Rr]. apply consecutive_app in C. destruct C as (Cg & Cr & _).
  rewrite integral_cons, integral_app, (IH Rr Cr), (mean_of_group g e Rg Cg Hg). reflexivity.
Qed.

Lemma covers_integral v ps : covers v ps -> (integral ps == pv_value v * days_of v)%Q.
Proof.
  intros H. pose proof H as (R & C & V & _). destruct (covers_first v ps H) as (a & l & -> & S & E).
  rewrite (days_span a l C v (eq_sym S) (eq_sym E)).
  clear - V. unfold integral. rewrite total_qsum. induction V as [|p ps Hp V IH]; [cbn; ring|].
  cbn [map]. rewrite !qsum_cons, IH, Hp. ring.
Qed.

Lemma parts_integral vs parts : Forall2 covers vs parts -> (integral (concat parts) == integral vs)%Q.
Proof.
  induction 1 as [|v ps vs parts Hv H IH]; [reflexivity|]. cbn [concat].
  rewrite integral_app, integral_cons, IH, (covers_integral v ps Hv). reflexivity.
Qed.

(** What the tiling gives about the emitted values alone. *)

Lemma stops_increase l a : Forall recorded l -> consecutive (a :: l) -> stop_of a <= stop_of (last l a).
Proof.
  revert a. induction l as [|b l IH]; intros a R C; [cbn; lia|].
  rewrite last_cons. inversion R as [|? ? [_ Db] Rl]; subst. destruct C as [E C]. specialize (IH b Rl C).
  unfold stop_of at 1 in IH. lia.
Qed.

Lemma tiling_emits_well f func values es st : Forall recorded values -> consecutive values ->
  tiling f func values es st -> emits_well values es.
Proof.
  intros R C (parts & gs & pe & Cv & _ & U & E & _ & _ & A & _).
  destruct (covers_consecutive _ _ Cv C) as [CC CR]. rewrite E in CC, CR.
  pose proof CC as CC'. apply consecutive_app in CC'. destruct CC' as (CG & CP & J). pose proof CR as CR'. apply Forall_app in CR'. destruct CR' as [RG RP].
  destruct (emitted_recorded func gs es A RG CG) as (Re & Ce & Hs & Hl).
  split; [exact Re|]. split; [exact Ce|]. destruct es as [|e r]; [exact I|].
  destruct (concat gs) as [|a l] eqn:EG; [destruct Hs|].
  inversion Cv as [|v ps vs parts' Hv Hvs]; subst; [discriminate E|].
  destruct (covers_first v ps Hv) as (b & q & -> & S & St). cbn [concat app] in E. injection E as -> E.
  split; [rewrite Hs; exact S|]. rewrite Hl.
  (* the last part stops with the last value *)
  assert (L : stop_of (last (q ++ concat parts') a) = stop_of (last vs v)).
  { clear - Hvs St. revert q a v St. induction Hvs as [|w ps vs parts Hw H IH]; intros q a v St.
    - cbn [concat last]. rewrite app_nil_r. exact St.
    - cbn [concat]. destruct (covers_first w ps Hw) as (b & r & -> & S & St2). cbn [app]. rewrite last_app_cons.
      rewrite last_cons. apply (IH r b w St2). }
  rewrite <- L, E. destruct pe as [|p pe]; [rewrite app_nil_r; lia|].
  rewrite last_app_cons. pose proof (stops_increase pe p). inversion RP as [|? ? [_ Dp] RP']; subst.
  specialize (H RP' CP). unfold stop_of at 1 in H. lia.
Qed.

Lemma flat_means f values outs st : freq_ok f -> Forall recorded values -> consecutive values ->
  append_all (flat f FMean) (setup (flat f FMean)) values = Ok (outs, st) ->
  (integral (emitted outs) + integral (held_back st) == integral values)%Q.
Proof.
  intros F R C H. destruct (flat_tiling f FMean values outs st F R C H) as (parts & gs & pe & Cv & _ & U & E & St & _ & A & _).
  destruct (covers_consecutive _ _ Cv C) as [CC CR]. rewrite E in CC, CR.
  apply consecutive_app in CC. destruct CC as (CG & CP & J). apply Forall_app in CR. destruct CR as [RG RP].
  assert (P : held_back st = pe).
  { rewrite St. destruct values; [|reflexivity]. inversion Cv; subst. cbn [concat] in E. symmetry in E. apply app_eq_nil in E. destruct E as [_ ->]. reflexivity. }
  rewrite P, (means_integral gs _ A RG CG), <- integral_app, <- E. apply parts_integral, Cv.
Qed.

(* ---------- aggregators without a period ---------- *)


Lemma unending_run func values : forall s, exists outs,
  append_all (unending func) (SBase s) values = Ok (outs, SBase (match values with [] => s | _ => Some (match s with Some l => l | None => [] end ++ values) end)) /\
  emitted outs = [].
Proof.
  induction values as [|v values IH]; intros s; [exists []; split; reflexivity|].
  cbn [append_all append_value unending]. unfold level_process_value. cbn [lv_freq rbind].
  destruct (IH (process_value_no_period s v)) as (outs & E & N).
  change (append_all (ABase (Level None func))) with (append_all (unending func)). rewrite E. cbn [rbind].
  exists (None :: outs). split; [|exact N]. do 3 f_equal.
  destruct s as [l|]; cbn [process_value_no_period]; destruct values; cbn [app]; try rewrite <- app_assoc; reflexivity.
Qed.

(* ---------- nesting ---------- *)

Lemma nested_run l child values : forall s cst outs st,
  append_all (ANest l child) (SNest s cst) values = Ok (outs, st) ->
  exists couts cst' louts s', append_all child cst values = Ok (couts, cst') /\
    append_all (ABase l) (SBase s) (emitted couts) = Ok (louts, SBase s') /\
    st = SNest s' cst' /\ emitted outs = emitted louts.
Proof.
  induction values as [|v values IH]; intros s cst outs st H; cbn [append_all] in H.
  - injection H as <- <-. exists [], cst, [], s. repeat split; reflexivity.
  - apply rbind_Ok in H. destruct H as ((o, st1) & E1 & H). apply rbind_Ok in H. destruct H as ((os, st2) & E2 & H). injection H as <- <-.
    cbn [append_value] in E1. apply rbind_Ok in E1. destruct E1 as ((co, cst1) & Ec & E1). cbn [append_all]. rewrite Ec. cbn [rbind].
    destruct co as [w|].
    + apply rbind_Ok in E1. destruct E1 as ((o', s1) & El & E1). injection E1 as <- <-.
      destruct (IH _ _ _ _ E2) as (couts & cst' & louts & s' & A & B & C & D). rewrite A. cbn [rbind].
      exists (Some w :: couts), cst', (o' :: louts), s'. split; [reflexivity|]. split; [|split; [exact C|]].
      * change (emitted (Some w :: couts)) with (w :: emitted couts). cbn [append_all append_value]. rewrite El. cbn [rbind].
        rewrite B. reflexivity.
      * cbn [emitted flat_map] in *. change (flat_map _ os) with (emitted os). change (flat_map _ louts) with (emitted louts). rewrite D. reflexivity.
    + injection E1 as <- <-. destruct (IH _ _ _ _ E2) as (couts & cst' & louts & s' & A & B & C & D). rewrite A. cbn [rbind].
      exists (None :: couts), cst', louts, s'. split; [reflexivity|]. split; [exact B|]. split; [exact C|exact D].
Qed.

Lemma emits_well_trans a b c : emits_well a b -> emits_well b c -> emits_well a c.
Proof.
  intros (Rb & Cb & Hb) (Rc & Cc & Hc). split; [exact Rc|]. split; [exact Cc|].
  destruct c as [|e c]; [exact I|]. destruct b as [|f b]; [destruct Hc|]. destruct a as [|g a]; [destruct Hb|].
  destruct Hb as [S1 L1], Hc as [S2 L2]. split; [congruence|lia].
Qed.


Lemma base_emits_well l values outs st : level_ok l -> Forall recorded values -> consecutive values ->
  append_all (ABase l) (SBase None) values = Ok (outs, st) -> emits_well values (emitted outs).
Proof.
  destruct l as [[f|] func]; intros L R C H.
  - exact (tiling_emits_well f func values _ st R C (flat_tiling f func values outs st L R C H)).
  - destruct (unending_run func values None) as (outs' & E & N). unfold unending in E. rewrite E in H. injection H as <- <-.
    rewrite N. split; [constructor|]. split; [exact I|exact I].
Qed.

Lemma nested_emits_well a : Forall level_ok (levels a) -> forall values outs st, Forall recorded values -> consecutive values ->
  append_all a (setup a) values = Ok (outs, st) -> emits_well values (emitted outs).
Proof.
  induction a as [l|l child IH]; intros L values outs st R C H; cbn [levels] in L; inversion L as [|? ? Ll Lc]; subst.
  - eapply base_emits_well; eauto.
  - cbn [setup] in H. destruct (nested_run _ _ _ _ _ _ _ H) as (couts & cst' & louts & s' & A & B & -> & E).
    pose proof (IH Lc _ _ _ R C A) as W. eapply emits_well_trans; [exact W|]. rewrite E.
    destruct W as (R1 & C1 & _). eapply base_emits_well; eauto.
Qed.

Lemma nested_means a : Forall level_ok (levels a) -> Forall (fun l => lv_func l = FMean) (levels a) ->
  forall values outs st, Forall recorded values -> consecutive values ->
  append_all a (setup a) values = Ok (outs, st) -> (integral (emitted outs) + integral (held_back st) == integral values)%Q.
Proof.
  assert (B0 : forall l, level_ok l -> lv_func l = FMean -> forall values outs st, Forall recorded values -> consecutive values ->
     append_all (ABase l) (SBase None) values = Ok (outs, st) -> (integral (emitted outs) + integral (held_back st) == integral values)%Q).
  { intros [[f|] func] L M values outs st R C H; cbn in M; subst func.
    - exact (flat_means f values outs st L R C H).
    - destruct (unending_run FMean values None) as (outs' & E & N). unfold unending in E. rewrite E in H. injection H as <- <-.
      rewrite N. cbn [held_back app]. destruct values; cbn [held_back]; unfold integral at 1; cbn; ring. }
  induction a as [l|l child IH]; intros L M values outs st R C H; cbn [levels] in *; inversion L as [|? ? Ll Lc]; inversion M as [|? ? Ml Mc]; subst.
  - eapply B0; eauto.
  - cbn [setup] in H. destruct (nested_run _ _ _ _ _ _ _ H) as (couts & cst' & louts & s' & A & B & -> & E).
    destruct (nested_emits_well child Lc _ _ _ R C A) as (R1 & C1 & _).
    rewrite <- (IH Lc Mc _ _ _ R C A), <- (B0 l Ll Ml _ _ _ R1 C1 B), E. cbn [held_back]. rewrite integral_app. ring.
Qed.

(* ---------- totals of whole values ---------- *)

Lemma sums_total groups es : Forall2 (aggregates FSum) groups es ->
  (total (map pv_value es) == total (map pv_value (concat groups)))%Q.
Proof.
  induction 1 as [|g e groups es (a & _ & _ & _ & K) H IH]; [reflexivity|]. cbn [concat map]. rewrite map_app.
  rewrite !total_qsum, qsum_app, qsum_cons, <- !total_qsum, IH. cbn [calc_period_values] in K. injection K as <-.
  rewrite iter_sum_qsum. reflexivity.
Qed.


Lemma flat_sums f values outs st : freq_ok f -> Forall recorded values -> consecutive values ->
  Forall (within_a_period f) values ->
  append_all (flat f FSum) (setup (flat f FSum)) values = Ok (outs, st) ->
  (total (map pv_value (emitted outs)) + total (map pv_value (held_back st)) == total (map pv_value values))%Q.
Proof.
  intros F R C W H. destruct (flat_tiling f FSum values outs st F R C H) as (parts & gs & pe & Cv & _ & U & E & St & _ & A & _).
  assert (P : held_back st = pe).
  { rewrite St. destruct values; [|reflexivity]. inversion Cv; subst. cbn [concat] in E. symmetry in E. apply app_eq_nil in E. destruct E as [_ ->]. reflexivity. }
  assert (EV : concat parts = values).
  { clear - U W. induction U as [|v ps vs parts Hv U IH]; [reflexivity|]. inversion W; subst. cbn [concat]. rewrite Hv, IH by assumption. reflexivity. }
  assert (Z : map pv_value (concat gs) ++ map pv_value pe = map pv_value values) by (rewrite <- EV, E; symmetry; apply map_app).
  rewrite P, (sums_total gs _ A), !total_qsum, <- qsum_app, Z. reflexivity.
Qed.
