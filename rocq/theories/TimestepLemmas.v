From Verif Require Import Base Calendar CalendarLemmas Timestep.
From Coq Require Import Sorted.
Open Scope Z_scope.
Ltac Zify.zify_post_hook ::= Z.div_mod_to_equations.

Lemma instant_add_duration t d : instant (add_duration t d) = instant t + d.
Proof. unfold add_duration. apply instant_datetime_of_instant. Qed.

(** The list produced by the fixed loop, described by position. *)
Definition fixed_spec (s : datetime) (i0 d : Z) (stop : datetime) (l : list timestep) : Prop :=
  (forall k t, nth_error l k = Some t ->
     instant (ts_date t) = instant s + Z.of_nat k * d /\
     (valid_datetime s = true -> valid_datetime (ts_date t) = true) /\
     ts_index t = i0 + Z.of_nat k /\ ts_duration t = d /\
     instant (ts_date t) <= instant stop) /\
  instant stop < instant s + Z.of_nat (length l) * d.

Lemma fixed_loop_spec fuel cur stop d l :
  ts_duration cur = d ->
  fixed_loop fuel cur stop d = Some l -> fixed_spec (ts_date cur) (ts_index cur) d stop l.
Proof.
  revert cur l; induction fuel as [|fuel IH]; intros cur l Hd H; cbn [fixed_loop] in H; [discriminate|].
  destruct (dt_le (ts_date cur) stop) eqn:Hle; unfold dt_le in Hle.
  - destruct (fixed_loop fuel (next_timestep cur d) stop d) as [r|] eqn:Hr; [|discriminate].
    injection H as <-. apply IH in Hr; [|reflexivity]. destruct Hr as [Hr Hend].
    unfold next_timestep in Hr, Hend. cbn [ts_date ts_index] in Hr, Hend.
    rewrite instant_add_duration in *. split.
    + intros [|k] t Ht; cbn in Ht.
      * injection Ht as <-. repeat split; auto; lia.
      * destruct (Hr k t Ht) as (H1 & H2 & H3 & H4 & H5). repeat split; try lia; try assumption.
        intros _. apply H2. apply datetime_of_instant_valid.
    + cbn [length]. lia.
  - injection H as <-. split; [intros [|k] t Ht; discriminate|]. cbn. lia.
Qed.

Lemma fixed_loop_total cur stop d fuel :
  0 < d -> instant stop - instant (ts_date cur) < (Z.of_nat fuel - 1) * d -> (0 < fuel)%nat ->
  exists l, fixed_loop fuel cur stop d = Some l.
Proof.
  intros Hd. revert cur; induction fuel as [|fuel IH]; intros cur Hf Hpos; [lia|].
  cbn [fixed_loop]. destruct (dt_le (ts_date cur) stop) eqn:Hle; [|eauto]. unfold dt_le in Hle.
  destruct fuel as [|fuel].
  - exfalso. change (Z.of_nat 1) with 1 in Hf. lia.
  - destruct (IH (next_timestep cur d)) as [r Hr]; [|lia|].
    + unfold next_timestep. cbn [ts_date]. rewrite instant_add_duration. lia.
    + rewrite Hr. eauto.
Qed.

Lemma fixed_fuel start stop d :
  0 < d -> exists n, forall fuel, (n <= fuel)%nat -> exists l, generate_fixed fuel start stop d = Some l.
Proof.
  intros Hd. exists (S (Z.to_nat ((instant stop - instant start) / d + 1))). intros fuel Hf.
  apply fixed_loop_total; [exact Hd| |lia]. cbn [ts_date].
  set (x := instant stop - instant start) in *.
  destruct (Z.le_gt_cases 0 x) as [Hx|Hx].
  - assert (x / d + 1 <= Z.of_nat fuel).
    { assert (0 <= x / d) by (apply Z.div_pos; lia). lia. }
    assert (x < (x / d + 1) * d).
    { pose proof (Z.mod_pos_bound x d Hd). pose proof (Z.div_mod x d ltac:(lia)). nia. }
    nia.
  - nia.
Qed.

Lemma fixed_start start stop d fuel l :
  generate_fixed fuel start stop d = Some l -> instant start <= instant stop ->
  exists t r, l = t :: r /\ ts_date t = start.
Proof.
  unfold generate_fixed. destruct fuel as [|fuel]; cbn [fixed_loop]; [discriminate|].
  unfold dt_le. cbn [ts_date]. intros H Hle.
  assert (E : (instant start <=? instant stop) = true) by lia. rewrite E in H.
  destruct (fixed_loop fuel _ stop d); [|discriminate]. injection H as <-. eauto.
Qed.

(* ---------- frequency ---------- *)

Definition positive_span (s : span) : Prop :=
  0 <= sp_months s /\ 0 <= sp_weeks s /\ 0 <= sp_days s /\ 0 <= sp_ns s /\
  0 < sp_months s + sp_weeks s + sp_days s + sp_ns s.

Definition freq_ok (f : freq) : Prop :=
  0 <= f_months f /\ 0 <= f_weeks f /\ 0 <= f_days f /\ 0 <= f_ns f.

Lemma freq_span_fields f :
  sp_months (freq_span f) = f_months f /\ sp_weeks (freq_span f) = f_weeks f /\
  sp_days (freq_span f) = f_days f /\ sp_ns (freq_span f) = f_ns f.
Proof.
  unfold freq_span, days_only, weeks_only, months_only.
  destruct ((f_months f =? 0) && (f_weeks f =? 0) && (f_ns f =? 0)) eqn:E1; [cbn; lia|].
  destruct ((f_months f =? 0) && (f_days f =? 0) && (f_ns f =? 0)) eqn:E2; [cbn; lia|].
  destruct ((f_weeks f =? 0) && (f_days f =? 0) && (f_ns f =? 0)) eqn:E3; cbn; lia.
Qed.

Lemma freq_span_positive f :
  freq_ok f -> freq_is_zero f = false -> positive_span (freq_span f).
Proof.
  intros (H1 & H2 & H3 & H4) Hz. destruct (freq_span_fields f) as (E1 & E2 & E3 & E4).
  unfold positive_span. rewrite E1, E2, E3, E4. unfold freq_is_zero in Hz. lia.
Qed.

(** The k-th date of a frequency time domain. *)
Definition nth_date (start : datetime) (sp : span) (k : Z) : Z :=
  NS_PER_DAY * day_number (add_months (dt_date start) (sp_months sp * k)) + dt_ns start
  + k * (NS_PER_DAY * (7 * sp_weeks sp + sp_days sp) + sp_ns sp).

Lemma instant_add_span start sp k :
  instant (add_span start (span_mul sp k)) = nth_date start sp k.
Proof.
  unfold add_span, span_mul. rewrite instant_datetime_of_instant. unfold nth_date, instant.
  cbn [dt_date dt_ns sp_months sp_weeks sp_days sp_ns]. ring.
Qed.

Lemma nth_date_0 start sp : valid_datetime start = true -> nth_date start sp 0 = instant start.
Proof.
  intros H. unfold nth_date, instant. rewrite Z.mul_0_r.
  unfold valid_datetime in H. rewrite !andb_true_iff in H. destruct H as [[H _] _].
  rewrite add_months_0 by exact H. ring.
Qed.

Lemma nth_date_strict start sp j k :
  valid_datetime start = true -> positive_span sp -> j < k ->
  nth_date start sp j + 1 <= nth_date start sp k.
Proof.
  intros Hv (H1 & H2 & H3 & H4 & H5) Hjk. unfold nth_date.
  unfold valid_datetime in Hv. rewrite !andb_true_iff in Hv. destruct Hv as [[Hv _] _].
  set (c := NS_PER_DAY * (7 * sp_weeks sp + sp_days sp) + sp_ns sp).
  assert (Hc : 0 <= c) by (unfold c, NS_PER_DAY; lia).
  assert (Hjc : j * c <= k * c) by nia.
  destruct (Z.eq_dec (sp_months sp) 0) as [Hm|Hm].
  - assert (1 <= c) by (unfold c, NS_PER_DAY; lia). rewrite Hm, !Z.mul_0_l. nia.
  - assert (Hmm : sp_months sp * j < sp_months sp * k) by nia.
    pose proof (add_months_strict (dt_date start) _ _ Hv Hmm). unfold NS_PER_DAY in *. lia.
Qed.

Lemma nth_date_grows start sp k :
  valid_datetime start = true -> positive_span sp ->
  instant start + Z.of_nat k <= nth_date start sp (Z.of_nat k).
Proof.
  intros Hv Hp. induction k as [|k IH].
  - change (Z.of_nat 0) with 0. rewrite nth_date_0 by exact Hv. lia.
  - pose proof (nth_date_strict start sp (Z.of_nat k) (Z.of_nat (S k)) Hv Hp ltac:(lia)). lia.
Qed.

Definition freq_spec (start : datetime) (sp : span) (n : Z) (stop : datetime) (l : list timestep) : Prop :=
  (forall k t, nth_error l k = Some t ->
     instant (ts_date t) = nth_date start sp (n + Z.of_nat k) /\
     (valid_datetime start = true -> valid_datetime (ts_date t) = true) /\
     ts_index t = n + Z.of_nat k /\
     instant (ts_date t) + ts_duration t = nth_date start sp (n + Z.of_nat k + 1) /\
     instant (ts_date t) <= instant stop) /\
  instant stop < nth_date start sp (n + Z.of_nat (length l)).

Lemma Some_inj {A} (x y : A) : Some x = Some y -> x = y.
Proof. congruence. Qed.

Lemma freq_loop_spec fuel start sp cur stop n l :
  instant cur = nth_date start sp n -> (valid_datetime start = true -> valid_datetime cur = true) ->
  freq_loop fuel start sp cur stop n = Some l -> freq_spec start sp n stop l.
Proof.
  revert cur n l; induction fuel as [|fuel IH]; intros cur n l Hc Hv H; cbn [freq_loop] in H; [discriminate|].
  destruct (dt_le cur stop) eqn:Hle; unfold dt_le in Hle.
  - destruct (freq_loop fuel start sp _ stop (n + 1)) as [r|] eqn:Hr; [|discriminate].
    apply Some_inj in H; subst l. apply IH in Hr; [|apply instant_add_span|intros _; apply datetime_of_instant_valid].
    destruct Hr as [Hr Hend]. split.
    + intros [|k] t Ht; cbn in Ht.
      * apply Some_inj in Ht; subst t. cbn [ts_date ts_index ts_duration].
        rewrite instant_add_span. replace (n + Z.of_nat 0) with n by lia. repeat split; auto; lia.
      * destruct (Hr k t Ht) as (H1 & H2 & H3 & H4 & H5).
        replace (n + Z.of_nat (S k)) with (n + 1 + Z.of_nat k) by lia. auto.
    + cbn [length]. replace (n + Z.of_nat (S (length r))) with (n + 1 + Z.of_nat (length r)) by lia. exact Hend.
  - injection H as <-. split; [intros [|k] t Ht; discriminate|]. cbn [length].
    replace (n + Z.of_nat 0) with n by lia. lia.
Qed.

Lemma freq_loop_total start sp stop fuel : forall cur n,
  valid_datetime start = true -> positive_span sp ->
  instant cur = nth_date start sp (Z.of_nat n) ->
  instant stop - instant cur < Z.of_nat fuel - 1 -> (0 < fuel)%nat ->
  exists l, freq_loop fuel start sp cur stop (Z.of_nat n) = Some l.
Proof.
  induction fuel as [|fuel IH]; intros cur n Hv Hp Hc Hf Hpos; [lia|].
  cbn [freq_loop]. destruct (dt_le cur stop) eqn:Hle; [|eauto]. unfold dt_le in Hle.
  destruct fuel as [|fuel]; [exfalso; lia|].
  replace (Z.of_nat n + 1) with (Z.of_nat (S n)) by lia.
  destruct (IH (add_span start (span_mul sp (Z.of_nat (S n)))) (S n)) as [r Hr]; try assumption.
  - apply instant_add_span.
  - rewrite instant_add_span.
    pose proof (nth_date_strict start sp (Z.of_nat n) (Z.of_nat (S n)) Hv Hp ltac:(lia)). lia.
  - lia.
  - rewrite Hr. eauto.
Qed.

Lemma freq_start fuel start sp stop l :
  freq_loop fuel start sp start stop 0 = Some l -> instant start <= instant stop ->
  exists t r, l = t :: r /\ ts_date t = start.
Proof.
  destruct fuel as [|fuel]; cbn [freq_loop]; [discriminate|]. unfold dt_le. intros H Hle.
  assert (E : (instant start <=? instant stop) = true) by lia. rewrite E in H.
  destruct (freq_loop fuel start sp _ stop (0 + 1)); [|discriminate]. apply Some_inj in H; subst l. eauto.
Qed.

(* ---------- property lemmas ---------- *)

Definition step_length (k : step_kind) : Z :=
  match k with Hours h => NS_PER_HOUR * h | Days d => NS_PER_DAY * d | Frequency _ => 0 end.

Lemma build_fixed_props start stop k :
  valid_datetime start = true -> instant start <= instant stop ->
  match k with Hours h => 0 < h | Days d => 0 < d | Frequency _ => False end ->
  exists n, forall fuel, (n <= fuel)%nat ->
    exists l, build_time fuel start stop k = Ok l /\
      (exists t r, l = t :: r /\ ts_date t = start) /\
      (forall i t, nth_error l i = Some t ->
         ts_index t = Z.of_nat i /\ ts_duration t = step_length k /\
         valid_datetime (ts_date t) = true /\
         instant (ts_date t) = instant start + Z.of_nat i * step_length k /\
         instant (ts_date t) <= instant stop) /\
      instant stop < instant start + Z.of_nat (length l) * step_length k.
Proof.
  intros Hv Hle Hk.
  assert (Hgen : forall d, 0 < d -> step_length k = d ->
    (forall fuel, timesteps fuel start stop k =
       match generate_fixed fuel start stop d with Some l => Ok l | None => Err OutOfFuel end) ->
    exists n, forall fuel, (n <= fuel)%nat -> exists l, build_time fuel start stop k = Ok l /\
      (exists t r, l = t :: r /\ ts_date t = start) /\
      (forall i t, nth_error l i = Some t ->
         ts_index t = Z.of_nat i /\ ts_duration t = step_length k /\
         valid_datetime (ts_date t) = true /\
         instant (ts_date t) = instant start + Z.of_nat i * step_length k /\
         instant (ts_date t) <= instant stop) /\
      instant stop < instant start + Z.of_nat (length l) * step_length k).
  { intros d Hd Hsl Hts. destruct (fixed_fuel start stop d Hd) as [n Hn]. exists n. intros fuel Hf.
    destruct (Hn fuel Hf) as [l Hl]. exists l.
    destruct (fixed_start start stop d fuel l Hl Hle) as (t0 & r & El & Et).
    pose proof (fixed_loop_spec _ (Timestep start 0 d) _ _ _ eq_refl Hl) as [Hspec Hend]. cbn [ts_date ts_index] in *.
    split; [|split; [eauto|split]].
    - unfold build_time. rewrite Hts, Hl. cbn [rbind]. rewrite El. reflexivity.
    - intros i t Ht. destruct (Hspec i t Ht) as (A1 & A2 & A3 & A4 & A5). rewrite Hsl.
      repeat split; auto; lia.
    - rewrite Hsl. exact Hend. }
  destruct k as [h|d|f]; [| |destruct Hk].
  - apply (Hgen (from_hours h)); [unfold from_hours, NS_PER_HOUR; lia|reflexivity|reflexivity].
  - apply (Hgen (from_days d)); [unfold from_days, NS_PER_HOUR; lia| |reflexivity].
    cbn [step_length]. unfold from_days, NS_PER_DAY, NS_PER_HOUR. ring.
Qed.

Lemma build_empty start stop k fuel :
  instant stop < instant start ->
  match k with Hours h => 0 < h | Days d => 0 < d | Frequency f => freq_ok f /\ f_negative f = false /\ freq_is_zero f = false end ->
  (0 < fuel)%nat -> build_time fuel start stop k = Err NoTimesteps.
Proof.
  intros Hlt Hk Hf. destruct fuel as [|fuel]; [lia|].
  assert (E : dt_le start stop = false) by (unfold dt_le; lia).
  destruct k as [h|d|f]; unfold build_time, timesteps, generate_fixed; cbn [fixed_loop freq_loop ts_date].
  - rewrite E. reflexivity.
  - rewrite E. reflexivity.
  - destruct Hk as (_ & Hn & Hz). rewrite Hn, Hz. cbn [orb]. rewrite E. reflexivity.
Qed.

Lemma build_freq_props start stop f :
  valid_datetime start = true -> instant start <= instant stop ->
  freq_ok f -> f_negative f = false -> freq_is_zero f = false ->
  exists n, forall fuel, (n <= fuel)%nat ->
    exists l, build_time fuel start stop (Frequency f) = Ok l /\
      (exists t r, l = t :: r /\ ts_date t = start) /\
      (forall i t, nth_error l i = Some t ->
         ts_index t = Z.of_nat i /\ valid_datetime (ts_date t) = true /\ 0 < ts_duration t /\
         ts_date t = add_span start (span_mul (Span (f_months f) (f_weeks f) (f_days f) (f_ns f)) (Z.of_nat i)) /\
         instant (ts_date t) <= instant stop) /\
      (forall i t u, nth_error l i = Some t -> nth_error l (S i) = Some u ->
         instant (ts_date u) = instant (ts_date t) + ts_duration t) /\
      (forall t, nth_error l (length l - 1) = Some t -> instant stop < instant (ts_date t) + ts_duration t).
Proof.
  intros Hv Hle Hok Hneg Hz.
  assert (Esp : freq_span f = Span (f_months f) (f_weeks f) (f_days f) (f_ns f)).
  { destruct (freq_span_fields f) as (E1 & E2 & E3 & E4). destruct (freq_span f). cbn in *. congruence. }
  pose proof (freq_span_positive f Hok Hz) as Hp.
  exists (S (Z.to_nat (instant stop - instant start + 1))). intros fuel Hf.
  destruct (freq_loop_total start (freq_span f) stop fuel start 0%nat Hv Hp) as [l Hl].
  { change (Z.of_nat 0) with 0. rewrite nth_date_0 by exact Hv. reflexivity. }
  { lia. } { lia. }
  change (Z.of_nat 0) with 0 in Hl.
  destruct (freq_start fuel start (freq_span f) stop l Hl Hle) as (t0 & r & El & Et).
  pose proof Hl as Hspec. apply freq_loop_spec in Hspec;
    [|rewrite nth_date_0 by exact Hv; reflexivity|auto].
  destruct Hspec as [Hspec Hend].
  exists l. split; [|split; [eauto|split; [|split]]].
  - unfold build_time, timesteps. rewrite Hneg, Hz. cbn [orb]. rewrite Hl. cbn [rbind]. rewrite El. reflexivity.
  - intros i t Ht. destruct (Hspec i t Ht) as (A1 & A2 & A3 & A4 & A5).
    split; [lia|]. split; [auto|]. split; [|split; [|exact A5]].
    + pose proof (nth_date_strict start (freq_span f) (0 + Z.of_nat i) (0 + Z.of_nat i + 1) Hv Hp ltac:(lia)). lia.
    + apply instant_inj; [auto|apply datetime_of_instant_valid|].
      rewrite <- Esp, instant_add_span, A1. reflexivity.
  - intros i t u Ht Hu. destruct (Hspec i t Ht) as (_ & _ & _ & A4 & _).
    destruct (Hspec (S i) u Hu) as (B1 & _). rewrite A4, B1. f_equal. lia.
  - intros t Ht. destruct (Hspec _ t Ht) as (_ & _ & _ & A4 & _). rewrite A4.
    replace (0 + Z.of_nat (length l - 1) + 1) with (0 + Z.of_nat (length l)); [exact Hend|].
    subst l. cbn [length]. lia.
Qed.

Lemma build_freq_rejects start stop f fuel :
  f_negative f = true \/ freq_is_zero f = true ->
  build_time fuel start stop (Frequency f) = Err NonPositiveTimestepDuration.
Proof.
  intros [H|H]; unfold build_time, timesteps; rewrite H; [reflexivity|]. rewrite orb_true_r. reflexivity.
Qed.

Lemma fixed_step_duration_spec l d :
  fixed_step_duration l = Some d <-> l <> [] /\ Forall (fun t => ts_duration t = d) l.
Proof.
  destruct l as [|t l]; cbn [fixed_step_duration]; [split; [discriminate|intros [H _]; congruence]|].
  destruct (forallb (fun u => ts_duration u =? ts_duration t) (t :: l)) eqn:E.
  - rewrite forallb_forall in E. split.
    + intros H. injection H as <-. split; [discriminate|]. apply Forall_forall. intros x Hx.
      specialize (E x Hx). lia.
    + intros [_ H]. inversion H. congruence.
  - split; [discriminate|]. intros [_ H]. exfalso.
    assert (forallb (fun u => ts_duration u =? ts_duration t) (t :: l) = true); [|congruence].
    apply forallb_forall. intros x Hx. rewrite Forall_forall in H.
    pose proof (H x Hx). pose proof (H t (or_introl eq_refl)). lia.
Qed.

(* ---------- day of year index ---------- *)

Lemma doy_index_fixed t :
  valid_date t = true ->
  day_of_year_index t = days_before_month true (d_month t) + d_day t - 1.
Proof.
  intros H. apply valid_date_iff in H. destruct H as [Hm Hd].
  destruct t as [y m d]. cbn [d_year d_month d_day] in *. rewrite days_in_month_dim in Hd.
  unfold day_of_year_index, day_of_year. cbn [d_year d_month d_day].
  destruct (leap y) eqn:Hl; [cbn [negb andb]; lia|]. cbn [negb andb].
  month_split Hm; cbn [dim days_before_month Z.eqb Pos.eqb orb] in *;
    match goal with |- context [if ?b then _ else _] => destruct b eqn:? end; lia.
Qed.

Lemma doy_index_range t : valid_date t = true -> 0 <= day_of_year_index t <= 365.
Proof.
  intros H. rewrite doy_index_fixed by exact H. apply valid_date_iff in H. destruct H as [Hm Hd].
  destruct t as [y m d]. cbn [d_year d_month d_day] in *. rewrite days_in_month_dim in Hd.
  month_split Hm; destruct (leap y); cbn [dim days_before_month Z.eqb Pos.eqb orb] in *; lia.
Qed.

Lemma doy_index_inj t u :
  valid_date t = true -> valid_date u = true -> day_of_year_index t = day_of_year_index u ->
  d_month t = d_month u /\ d_day t = d_day u.
Proof.
  intros Ht Hu H. rewrite !doy_index_fixed in H by assumption.
  apply valid_date_iff in Ht. apply valid_date_iff in Hu. destruct Ht as [Hm Hd], Hu as [Hm2 Hd2].
  rewrite days_in_month_dim in *.
  assert (D1 : 1 <= d_day t <= dim true (d_month t)).
  { revert Hd. unfold dim. destruct (d_month t =? 2); [destruct (leap (d_year t)); lia|lia]. }
  assert (D2 : 1 <= d_day u <= dim true (d_month u)).
  { revert Hd2. unfold dim. destruct (d_month u =? 2); [destruct (leap (d_year u)); lia|lia]. }
  pose proof (month_of_doy_spec true _ _ Hm D1) as M1. pose proof (month_of_doy_spec true _ _ Hm2 D2) as M2.
  rewrite H in M1. assert (E : d_month t = d_month u) by congruence. split; [exact E|]. rewrite E in H. lia.
Qed.

Lemma doy_index_feb29 t :
  valid_date t = true -> (day_of_year_index t = 59 <-> d_month t = 2 /\ d_day t = 29).
Proof.
  intros H. split.
  - intros E. assert (H29 : valid_date (Date 2000 2 29) = true) by reflexivity.
    apply (doy_index_inj t (Date 2000 2 29) H H29). rewrite E. reflexivity.
  - intros [E1 E2]. rewrite doy_index_fixed by exact H. rewrite E1, E2. reflexivity.
Qed.

(** Consecutive days have consecutive indices, except over the missing 29 February. *)
Lemma doy_index_next t u :
  valid_date t = true -> valid_date u = true -> day_number u = day_number t + 1 ->
  d_year u = d_year t ->
  day_of_year_index u = day_of_year_index t +
    (if negb (leap (d_year t)) && (d_month t =? 2) && (d_day t =? 28) then 2 else 1).
Proof.
  intros Ht Hu Hn Hy. unfold day_number in Hn. rewrite Hy in Hn.
  assert (E : day_of_year u = day_of_year t + 1) by lia.
  pose proof Ht as Ht'. apply valid_date_iff in Ht'. destruct Ht' as [Hm Hd]. rewrite days_in_month_dim in Hd.
  unfold day_of_year_index. rewrite Hy, E. destruct (leap (d_year t)) eqn:Hl; cbn [negb andb]; [lia|].
  unfold day_of_year in *. rewrite Hl in *. set (m := d_month t) in *. set (d := d_day t) in *. clearbody m d.
  month_split Hm; cbn [dim days_before_month Z.eqb Pos.eqb orb andb] in *;
    repeat match goal with |- context [if ?b then _ else _] => destruct b eqn:? end; lia.
Qed.

(** Calendar-month steps land in the expected month on the expected day. *)
Lemma add_span_months start k :
  valid_datetime start = true ->
  add_span start (Span k 0 0 0) = DateTime (add_months (dt_date start) k) (dt_ns start).
Proof.
  intros H. unfold add_span. cbn [sp_months sp_weeks sp_days sp_ns].
  replace (NS_PER_DAY * (7 * 0 + 0)) with 0 by (unfold NS_PER_DAY; lia).
  rewrite !Z.add_0_r. apply datetime_of_instant_inv. unfold valid_datetime in *. cbn [dt_date dt_ns] in *.
  rewrite !andb_true_iff in *. destruct H as [[H1 H2] H3].
  destruct (add_months_spec (dt_date start) k H1) as [Hv _]. auto.
Qed.

Lemma month_steps_calendar start m i :
  valid_datetime start = true ->
  let t := add_span start (span_mul (Span m 0 0 0) i) in
  dt_ns t = dt_ns start /\
  month_index (dt_date t) = month_index (dt_date start) + m * i /\
  d_day (dt_date t) = Z.min (d_day (dt_date start)) (days_in_month (d_year (dt_date t)) (d_month (dt_date t))).
Proof.
  intros H. unfold span_mul. cbn [sp_months sp_weeks sp_days sp_ns]. rewrite !Z.mul_0_l.
  rewrite add_span_months by exact H. cbn [dt_date dt_ns]. split; [reflexivity|].
  unfold valid_datetime in H. rewrite !andb_true_iff in H. destruct H as [[H _] _].
  apply add_months_spec. exact H.
Qed.
