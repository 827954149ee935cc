(** C60: time series are aligned with the time-steps. *)
From Coq Require Import QArith Permutation Sorted.
From Verif Require Import Base Calendar Timestep TimestepLemmas Timeseries TimeseriesSpec TimeseriesLemmas.
Local Open Scope list_scope.
Local Open Scope Z_scope.

(** Steps of a fixed number of hours or days. *)
Definition fixed_kind (k : step_kind) : Prop :=
  match k with Hours h => 0 < h | Days d => 0 < d | Frequency _ => False end.
(** A time in whole milliseconds. *)
Definition ms_of (t : datetime) : Z := instant t / NS_PER_MS.
Definition step_ms (k : step_kind) : Z := milliseconds (step_length k).
Definition whole_second (t : datetime) : Prop := (NS_PER_SEC | instant t).

Lemma fixed_steps fuel start stop k steps : build_time fuel start stop k = Ok steps -> fixed_kind k -> whole_second start ->
  0 < step_ms k /\ steps <> [] /\ forall i t, nth_error steps i = Some t ->
    milliseconds (ts_duration t) = step_ms k /\ date_ms t = ms_of start + Z.of_nat i * step_ms k /\ ms_of (ts_date t) = date_ms t.
Proof.
  intros H Hk (c & Hc). unfold build_time, timesteps in H.
  assert (G : exists d m, step_length k = d /\ 0 < m /\ d = m * NS_PER_HOUR /\ generate_fixed fuel start stop d = Some steps /\ steps <> []).
  { destruct k as [h|d|f]; [exists (from_hours h), h | exists (from_days d), (d * 24) | destruct Hk]; cbn [fixed_kind step_length] in *.
    - destruct (generate_fixed _ _ _ _) as [l|]; [|discriminate]. cbn [rbind] in H. destruct l as [|t l]; [discriminate|]. injection H as <-. unfold from_hours. repeat split; [lia | lia | discriminate].
    - destruct (generate_fixed _ _ _ _) as [l|]; [|discriminate]. cbn [rbind] in H. destruct l as [|t l]; [discriminate|]. injection H as <-. unfold from_days, NS_PER_DAY, NS_PER_HOUR. repeat split; [lia | lia | lia | discriminate]. }
  destruct G as (d & m & Ed & Hm & Em & Hg & Hne). pose proof (fixed_loop_spec _ (Timestep start 0 d) _ _ _ eq_refl Hg) as (Hs & _). cbn [ts_date ts_index ts_duration] in Hs.
  assert (Hms : step_ms k = m * 3600000).
  { unfold step_ms, milliseconds. rewrite Ed, Em. unfold NS_PER_HOUR, NS_PER_MS. replace (m * 3600000000000) with (m * 3600000 * 1000000) by lia. apply Z.div_mul. lia. }
  split; [lia|]. split; [exact Hne|]. intros i t Hi. destruct (Hs i t Hi) as (E1 & _ & _ & E2 & _).
  assert (E3 : instant (ts_date t) = (c + Z.of_nat i * (m * 3600)) * NS_PER_SEC) by (rewrite E1, Hc, Em; unfold NS_PER_SEC, NS_PER_HOUR; ring).
  assert (E4 : date_ms t = (c + Z.of_nat i * (m * 3600)) * 1000) by (unfold date_ms; rewrite E3, Z.div_mul by (unfold NS_PER_SEC; lia); reflexivity).
  split; [rewrite E2; unfold step_ms; rewrite Ed; reflexivity|]. split.
  - rewrite E4, Hms. unfold ms_of. rewrite Hc. unfold NS_PER_SEC, NS_PER_MS. replace (c * 1000000000) with (c * 1000 * 1000000) by lia. rewrite Z.div_mul by lia. lia.
  - rewrite E4. unfold ms_of. rewrite E3. unfold NS_PER_SEC, NS_PER_MS. match goal with |- ?x / _ = ?y => replace x with (y * 1000000) by lia end. apply Z.div_mul. lia.
Qed.

Section Core.
Variables (f : frame) (s D : Z) (N : nat).
Hypothesis HD : 0 < D.
Hypothesis Hw : whole_rows f.
Let rows := slice_start s (sort_rows (fr_rows f)).
Lemma rows_in r : In r rows <-> In r (fr_rows f) /\ s <= fst r.
Proof.
  unfold rows, slice_start. rewrite filter_In. split.
  - intros (H1 & H2). split; [eapply Permutation_in; [symmetry; apply sort_perm | exact H1] | lia].
  - intros (H1 & H2). split; [eapply Permutation_in; [apply sort_perm | exact H1] | lia].
Qed.
Lemma rows_perm : Permutation (filter (fun r : ts_row => s <=? fst r) (fr_rows f)) rows.
Proof. apply filter_perm, sort_perm. Qed.
Lemma within_perm a b : s <= a -> Permutation (within a b rows) (within a b (fr_rows f)).
Proof.
  intros Ha. unfold within. rewrite <- (filter_perm _ _ _ rows_perm).
  replace (filter (fun r : ts_row => (a <=? fst r) && (fst r <? b)) (filter (fun r : ts_row => s <=? fst r) (fr_rows f)))
    with (filter (fun r : ts_row => (a <=? fst r) && (fst r <? b)) (fr_rows f)); [reflexivity|].
  generalize (fr_rows f). induction l as [|x l IH]; [reflexivity|]. cbn [filter]. destruct (s <=? fst x) eqn:E1; cbn [filter].
  - rewrite IH. reflexivity.
  - destruct (a <=? fst x) eqn:E2; [lia|]. cbn [andb]. exact IH.
Qed.
Lemma rows_spacing d : durations rows = [d] -> exists t0, rows <> [] /\ s <= t0 /\ 0 <= d /\ arith rows t0 d.
Proof.
  intros H. destruct (durations_arith _ _ H) as (x & y & l' & E & Ha). exists (fst x). split; [congruence|].
  assert (Hx : In x rows) by (rewrite E; left; reflexivity). split; [apply rows_in in Hx; apply Hx|]. split; [|exact Ha].
  assert (Hs : sorted rows) by (apply filter_sorted, sort_sorted). rewrite E in Hs. inversion Hs as [|? ? _ Hf]; subst. inversion Hf as [|? ? Hxy _]; subst.
  assert (E1 : fst y = fst x + d) by (rewrite (Ha 1%nat y ltac:(rewrite E; reflexivity)); lia). lia.
Qed.

Definition resampled (d : Z) : list ts_row :=
  match D ?= d with Gt => downsample D (length (fr_columns f)) rows | Lt => upsample D (length (fr_columns f)) rows | Eq => rows end.
Definition right_cells (d t : Z) (r : ts_row) : Prop :=
  length (snd r) = length (fr_columns f) /\
  (d = D -> exists r', In r' (fr_rows f) /\ fst r' = t /\ snd r' = snd r) /\
  (d < D -> forall j o, nth_error (snd r) j = Some o -> is_mean (values_of j (within t (t + D) (fr_rows f))) o) /\
  (D < d -> (D | d) -> forall j o, nth_error (snd r) j = Some o -> last_known s t j (fr_rows f) o).

Lemma whole r : In r rows -> length (snd r) = length (fr_columns f).
Proof. intros H. apply Hw. apply rows_in in H. apply H. Qed.
Lemma resampled_spec d t0 : rows <> [] -> s <= t0 -> 0 <= d -> arith rows t0 d ->
  arith (resampled d) t0 D /\
  (t0 = s -> forall i r, nth_error (resampled d) i = Some r -> right_cells d (s + Z.of_nat i * D) r) /\
  (0 < d -> length (resampled d) = S (Z.to_nat ((Z.of_nat (length rows) - 1) * d / D))).
Proof.
  intros Hne Hs Hd Ha. unfold resampled. destruct (Z.compare_spec D d) as [E|E|E].
  - subst d. split; [exact Ha|]. split.
    + intros -> i r Hi. pose proof (nth_error_In _ _ Hi) as Hin. split; [apply whole, Hin|]. split; [|split; intros; lia].
      intros _. exists r. split; [apply rows_in in Hin; apply Hin|]. split; [apply (Ha i r Hi) | reflexivity].
    + intros _. rewrite Z.div_mul by lia. destruct rows; [congruence|]. cbn [length]. lia.
  - rewrite (upsample_base D _ rows t0 d Hne Ha). set (n := S _). set (w := length (fr_columns f)).
    assert (Hb : forall r, In r (base_rows D t0 w rows n) -> length (snd r) = w).
    { intros r Hr. apply In_nth_error in Hr. destruct Hr as (i & Hi). destruct (base_row _ _ _ _ _ _ _ Hi) as (_ & _ & [(x & Hx & _ & <-)|(_ & ->)]); [apply whole, Hx | apply repeat_length]. }
    destruct (fill_spec w (base_rows D t0 w rows n) (repeat None w) (repeat_length _ _) Hb) as (Hlen & Hfill). split; [|split].
    + intros i r Hi. destruct (Hfill i r Hi) as (b & Eb & -> & _). apply (base_row _ _ _ _ _ _ _ Eb).
    + intros -> i r Hi. destruct (Hfill i r Hi) as (b & Eb & Et & El & Hj). split; [exact El|]. split; [lia|]. split; [lia|]. intros _ (c & Hc) j o Ho.
      assert (Hc0 : 0 < c) by nia.
      (* the row of the base at the time of a row of the data *)
      assert (Hdata : forall x, In x (fr_rows f) -> s <= fst x <= s + Z.of_nat i * D -> exists k rk, (k <= i)%nat /\ nth_error (base_rows D s w rows n) k = Some rk /\ fst x = s + Z.of_nat k * D /\ snd rk = snd x).
      { intros x Hx Hxt. assert (Hxr : In x rows) by (apply rows_in; split; [exact Hx | lia]). apply In_nth_error in Hxr. destruct Hxr as (m & Em).
        pose proof (Ha m x Em) as Ex. set (k := (m * Z.to_nat c)%nat). assert (Ek : fst x = s + Z.of_nat k * D) by (subst k; rewrite Ex, Hc; rewrite Nat2Z.inj_mul, Z2Nat.id by lia; ring).
        assert (Hki : (k <= i)%nat) by nia. exists k. pose proof (base_row _ _ _ _ _ _ _ Eb) as (Hin & _).
        assert (Hb' : nth_error (base_rows D s w rows n) k = Some (s + Z.of_nat k * D, snd x)).
        { unfold base_rows. rewrite (map_nth_error _ k (seq 0 n) (d := k)).
          - cbv zeta. rewrite <- Ek, Ex, (find_time rows s d m x Ha ltac:(lia) Em). reflexivity.
          - rewrite (nth_error_nth' _ 0%nat) by (rewrite seq_length; lia). f_equal. rewrite seq_nth; lia. }
        eexists. split; [exact Hki|]. split; [exact Hb'|]. split; [exact Ek | reflexivity]. }
      assert (Htime : forall k rk, nth_error (base_rows D s w rows n) k = Some rk -> fst rk = s + Z.of_nat k * D) by (intros k rk Hk; apply (base_row _ _ _ _ _ _ _ Hk)).
      destruct (Hj j o Ho) as [(i' & ri & q & H1 & H2 & H3 & -> & H5)|(H1 & H2)].
      * cbn [last_known]. destruct (base_row _ _ _ _ _ _ _ H2) as (_ & Eri & [(x & Hx & Ex & Esx)|(_ & Er)]).
        -- exists x. apply rows_in in Hx. destruct Hx as (Hx & Hsx). split; [exact Hx|]. rewrite Ex, Eri. split; [nia|]. rewrite Esx. split; [exact H3|].
           intros x' Hx' Hb'. destruct (Hdata x' Hx' ltac:(nia)) as (k & rk & Hk & Erk & Ex' & <-). apply (H5 k rk); [nia | exact Erk].
        -- rewrite Er in H3. apply nth_error_In in H3. apply repeat_spec in H3. discriminate.
      * assert (Eo : o = None) by (apply nth_error_In in H2; apply repeat_spec in H2; exact H2). subst o. intros x Hx Hxt.
        destruct (Hdata x Hx Hxt) as (k & rk & Hk & Erk & _ & <-). apply (H1 k rk Hk Erk).
    + intros _. rewrite Hlen. unfold base_rows. rewrite map_length, seq_length. reflexivity.
  - rewrite (downsample_map D _ rows t0 d Hne Ha ltac:(lia)). split; [|split].
    + intros i r Hi. apply nth_map_seq in Hi. destruct Hi as (_ & ->). reflexivity.
    + intros -> i r Hi. apply nth_map_seq in Hi. destruct Hi as (_ & ->). split; [cbn [snd]; rewrite map_length, seq_length; reflexivity|]. split; [lia|]. split; [|lia].
      intros _ j o Ho. cbn [snd] in Ho. apply nth_map_seq in Ho. destruct Ho as (_ & ->).
      apply (is_mean_perm (values_of j (within (s + Z.of_nat i * D) (s + Z.of_nat i * D + D) rows))).
      * unfold values_of. apply Permutation_flat_map. apply within_perm. nia.
      * apply mean_is.
    + intros _. rewrite map_length, seq_length. reflexivity.
Qed.
End Core.

Lemma align_ok steps f first D : hd_error steps = Some first -> milliseconds (ts_duration first) = D -> 0 < D ->
  let rows := slice_start (date_ms first) (sort_rows (fr_rows f)) in
  align_and_resample steps f =
  match durations rows with
  | _ :: _ :: _ => Panic
  | [] => Err TimeseriesDurationNotFound
  | [d] => let out := slice_end (date_ms (last steps first)) (resampled f (date_ms first) D d) in
           if (length out =? length steps)%nat then Ok (mkFrame (fr_columns f) out) else Err DataFrameTimestepMismatch
  end.
Proof.
  intros Hf <- HD rows. destruct steps as [|t l]; [discriminate|]. injection Hf as ->. unfold align_and_resample. fold rows. cbv zeta.
  destruct (durations rows) as [|d [|]]; try reflexivity. rewrite duration_round by lia. rewrite (proj2 (Z.leb_gt _ _)) by exact HD.
  unfold resampled. fold rows. destruct (_ ?= d); reflexivity.
Qed.

Lemma last_nth {A} (l : list A) x d : hd_error l = Some x -> nth_error l (length l - 1) = Some (last l d).
Proof.
  intros H. destruct l as [|a l]; [discriminate|]. clear H. revert a. induction l as [|b l IH]; intros a; [reflexivity|].
  cbn [length]. replace (S (S (length l)) - 1)%nat with (S (length (b :: l) - 1)) by (cbn [length]; lia). cbn [nth_error]. rewrite IH. reflexivity.
Qed.

(** With time-steps of a fixed number of hours or days every time-step is given
    the data that belong to it: the value at its date if the data are spaced
    like the time-steps; the mean of the values from its date up to the next
    one if they are closer; and the last value up to its date if they are a
    whole number of time-steps apart.  The data are never shifted: a series
    that does not have a value for every time-step is an error. *)
Theorem C60_aligned_partial : forall fuel start stop k steps f out,
  build_time fuel start stop k = Ok steps -> fixed_kind k -> whole_second start -> whole_rows f ->
  align_and_resample steps f = Ok out ->
  fr_columns out = fr_columns f /\ length (fr_rows out) = length steps /\
  exists spacing, 0 <= spacing /\ evenly (ms_of start) spacing (fr_rows f) /\
  forall i t, nth_error steps i = Some t -> exists cells,
    nth_error (fr_rows out) i = Some (ms_of (ts_date t), cells) /\ length cells = length (fr_columns f) /\
    (spacing = step_ms k -> exists r, In r (fr_rows f) /\ fst r = ms_of (ts_date t) /\ snd r = cells) /\
    (spacing < step_ms k -> forall j o, nth_error cells j = Some o ->
       is_mean (values_of j (within (ms_of (ts_date t)) (ms_of (ts_date t) + step_ms k) (fr_rows f))) o) /\
    (step_ms k < spacing -> (step_ms k | spacing) -> forall j o, nth_error cells j = Some o ->
       last_known (ms_of start) (ms_of (ts_date t)) j (fr_rows f) o).
Proof.
  intros fuel start stop k steps f out Hb Hk Hs Hw H. destruct (fixed_steps _ _ _ _ _ Hb Hk Hs) as (HD & Hne & Hst).
  destruct steps as [|first rest] eqn:Esteps; [congruence|]. rewrite <- Esteps in *.
  assert (Hhd : hd_error steps = Some first) by (rewrite Esteps; reflexivity).
  destruct (Hst 0%nat first ltac:(rewrite Esteps; reflexivity)) as (Hdur & Hdate & _). rewrite Z.mul_0_l, Z.add_0_r in Hdate.
  rewrite (align_ok steps f first (step_ms k) Hhd Hdur HD) in H. set (rows := slice_start (date_ms first) (sort_rows (fr_rows f))) in *.
  destruct (durations rows) as [|d [|]] eqn:Ed; try discriminate. cbv zeta in H. rewrite Hdate in H. destruct (_ =? _)%nat eqn:El; [|discriminate]. injection H as <-.
  apply Nat.eqb_eq in El. cbn [fr_columns fr_rows]. split; [reflexivity|]. split; [exact El|]. unfold rows in Ed. rewrite Hdate in Ed.
  destruct (rows_spacing f (ms_of start) d Ed) as (t0 & Hr & Ht0 & Hd & Ha). exists d. split; [exact Hd|].
  destruct (Hst _ _ (last_nth steps first first Hhd)) as (_ & Hlast & _).
  destruct (resampled_spec f (ms_of start) (step_ms k) HD Hw d t0 Hr Ht0 Hd Ha) as (Har & Hcells & _).
  assert (HN : length steps = S (length steps - 1)) by (rewrite Esteps; cbn [length]; lia). rewrite HN in El.
  destruct (slice_end_arith _ _ HD (length steps - 1) _ t0 Har El ltac:(lia)) as (Et0 & Hnth). assert (E0 : t0 = ms_of start) by lia. clear Et0. split.
  - exists t0, (length (slice_start (ms_of start) (sort_rows (fr_rows f)))).
    apply (@Permutation_trans _ _ (map fst (slice_start (ms_of start) (sort_rows (fr_rows f))))); [apply Permutation_map, rows_perm|]. apply eq_subrelation; [typeclasses eauto|].
    apply nth_ext with (d := 0) (d' := 0); [rewrite !map_length, seq_length; reflexivity|]. intros m Hm. rewrite map_length in Hm.
    destruct (nth_error_lt_Some _ m Hm) as (x & Ex). rewrite (nth_error_nth _ _ _ (map_nth_error fst m _ Ex)), (Ha m x Ex). symmetry.
    apply nth_error_nth. rewrite (map_nth_error _ m (seq 0 _) (d := m)); [reflexivity|]. rewrite (nth_error_nth' _ 0%nat) by (rewrite seq_length; exact Hm). f_equal. rewrite seq_nth; lia.
  - intros i t Hi. destruct (Hst i t Hi) as (_ & Hdi & Hmi). assert (Hil : (i < length steps)%nat) by (apply nth_error_Some; congruence).
    destruct (nth_error_lt_Some (slice_end (date_ms (last steps first)) (resampled f (ms_of start) (step_ms k) d)) i ltac:(lia)) as ([ti cells] & Ei).
    pose proof Ei as Ei'. rewrite Hnth in Ei' by lia. pose proof (Har _ _ Ei') as Eti. cbn [fst] in Eti.
    exists cells. rewrite Hmi, Hdi. split; [rewrite Ei; do 2 f_equal; lia|].
    destruct (Hcells E0 i _ Ei') as (C1 & C2 & C3 & C4). cbn [snd] in *. split; [exact C1|]. split; [intros E; exact (C2 E)|]. split; [exact C3 | exact C4].
Qed.
Print Assumptions C60_aligned_partial.

Lemma sorted_perm_eq (l l' : list Z) : StronglySorted Z.le l -> StronglySorted Z.le l' -> Permutation l l' -> l = l'.
Proof.
  intros Hs. revert l'. induction Hs as [|x l Hs IH Hx]; intros l' Hs' Hp; [symmetry; apply Permutation_nil, Hp|].
  destruct Hs' as [|y l' Hs' Hy]; [apply Permutation_sym, Permutation_nil in Hp; discriminate|]. rewrite Forall_forall in Hx, Hy.
  assert (E : x = y).
  { assert (H1 : In x (y :: l')) by (eapply Permutation_in; [exact Hp | left; reflexivity]).
    assert (H2 : In y (x :: l)) by (eapply Permutation_in; [apply Permutation_sym, Hp | left; reflexivity]).
    destruct H1 as [->|H1]; [reflexivity|]. destruct H2 as [->|H2]; [reflexivity|]. specialize (Hx _ H2). specialize (Hy _ H1). lia. }
  subst y. f_equal. apply IH; [exact Hs' | exact (Permutation_cons_inv Hp)].
Qed.
Lemma arith_sorted t0 d n : 0 <= d -> forall o, StronglySorted Z.le (map (fun i => t0 + Z.of_nat i * d) (seq o n)).
Proof.
  intros Hd. induction n as [|n IH]; intros o; cbn [seq map]; constructor; [apply IH|]. apply Forall_forall. intros x Hx. apply in_map_iff in Hx.
  destruct Hx as (i & <- & Hi). apply in_seq in Hi. nia.
Qed.
Lemma map_sorted l : sorted l -> StronglySorted Z.le (map fst l).
Proof. induction 1 as [|x l _ IH Hx]; cbn [map]; constructor; [exact IH|]. apply Forall_forall. intros y Hy. apply in_map_iff in Hy. destruct Hy as (r & <- & Hr). rewrite Forall_forall in Hx. apply Hx, Hr. Qed.

(** Every series with even spacing that starts with the first time-step and
    reaches the last one is accepted, in whatever order its rows are, and
    whatever comes before. *)
Theorem C60_accepted : forall fuel start stop k steps f spacing n t,
  build_time fuel start stop k = Ok steps -> fixed_kind k -> whole_second start -> whole_rows f ->
  Permutation (map fst (filter (fun r : ts_row => ms_of start <=? fst r) (fr_rows f))) (map (fun i => ms_of start + Z.of_nat i * spacing) (seq 0 n)) ->
  (2 <= n)%nat -> 0 < spacing -> nth_error steps (length steps - 1) = Some t -> ms_of (ts_date t) <= ms_of start + (Z.of_nat n - 1) * spacing ->
  exists out, align_and_resample steps f = Ok out.
Proof.
  intros fuel start stop k steps f spacing n t Hb Hk Hs Hw Hp Hn Hsp Ht Hlast. destruct (fixed_steps _ _ _ _ _ Hb Hk Hs) as (HD & Hne & Hst).
  destruct steps as [|first rest] eqn:Esteps; [congruence|]. rewrite <- Esteps in *.
  assert (Hhd : hd_error steps = Some first) by (rewrite Esteps; reflexivity).
  destruct (Hst 0%nat first ltac:(rewrite Esteps; reflexivity)) as (Hdur & Hdate & _). rewrite Z.mul_0_l, Z.add_0_r in Hdate.
  rewrite (align_ok steps f first (step_ms k) Hhd Hdur HD), Hdate. set (rows := slice_start (ms_of start) (sort_rows (fr_rows f))).
  assert (Et : map fst rows = map (fun i => ms_of start + Z.of_nat i * spacing) (seq 0 n)).
  { apply sorted_perm_eq; [apply map_sorted, filter_sorted, sort_sorted | apply arith_sorted; lia|]. rewrite <- Hp. apply Permutation_map, Permutation_sym, rows_perm. }
  assert (Hlen : length rows = n) by (rewrite <- (map_length fst), Et, map_length, seq_length; reflexivity).
  assert (Ha : arith rows (ms_of start) spacing).
  { intros i r Hi. pose proof (map_nth_error fst i rows Hi) as E. rewrite Et in E. apply nth_map_seq in E. apply E. }
  rewrite (arith_durations rows (ms_of start) spacing Ha ltac:(lia)). cbv zeta.
  destruct (resampled_spec f (ms_of start) (step_ms k) HD Hw spacing (ms_of start)) as (Har & _ & Hl); [fold rows; destruct rows; [cbn in Hlen; lia | discriminate] | lia | lia | exact Ha|].
  specialize (Hl Hsp). fold rows in Hl. rewrite Hlen in Hl. destruct (Hst _ _ Ht) as (_ & Hd1 & Hd2).
  pose proof (last_nth steps first first Hhd) as El. rewrite Ht in El. injection El as <-.
  assert (HN : length steps = S (length steps - 1)) by (rewrite Esteps; cbn [length]; lia).
  rewrite (slice_end_covers (date_ms t) (step_ms k) HD (length steps - 1) _ _ Har).
  - rewrite <- HN, Nat.eqb_refl. eexists. reflexivity.
  - rewrite Hl. assert (Z.of_nat (length steps - 1) <= (Z.of_nat n - 1) * spacing / step_ms k) by (apply Z.div_le_lower_bound; lia). lia.
  - lia.
Qed.
Print Assumptions C60_accepted.

(** Concrete cases. *)
Definition ex_start : datetime := DateTime (Date 2021 1 1) 0.
Definition day_ms : Z := 86400000.
Definition ex_series (start spacing : Z) (n : nat) : frame :=
  mkFrame ["value"%string] (map (fun i => (start + Z.of_nat i * spacing, [Some (inject_Z (Z.of_nat i))])) (seq 0 n)).
Example C60_example :
  match build_time 100 ex_start (DateTime (Date 2021 1 28) 0) (Days 7) with
  | Ok steps =>
      length steps = 4%nat /\ whole_second ex_start /\
      match align_and_resample steps (ex_series (ms_of ex_start - 2 * day_ms) day_ms 40) with
      | Ok out => map snd (fr_rows out) = [[Some (35 # 7)%Q]; [Some (84 # 7)%Q]; [Some (133 # 7)%Q]; [Some (182 # 7)%Q]] | _ => False end /\
      match align_and_resample steps (ex_series (ms_of ex_start) (14 * day_ms) 3) with
      | Ok out => map snd (fr_rows out) = [[Some 0%Q]; [Some 0%Q]; [Some 1%Q]; [Some 1%Q]] | _ => False end /\
      align_and_resample steps (ex_series (ms_of ex_start + day_ms) day_ms 40) = Err DataFrameTimestepMismatch
  | _ => False
  end.
Proof. vm_compute. repeat split; try reflexivity. exists 63776592000. reflexivity. Qed.

(** With time-steps of months the windows all have the length of the first
    time-step, so that later time-steps are given the data of other days: here
    April is given the mean of the days from 29 March to 25 April. *)
Theorem C60_months_refuted : exists steps f out t cells o,
  build_time 100 (DateTime (Date 2021 2 1) 0) (DateTime (Date 2021 4 30) 0) (Frequency (Freq 1 0 0 0 false)) = Ok steps /\
  whole_rows f /\ align_and_resample steps f = Ok out /\
  nth_error steps 2 = Some t /\ nth_error (fr_rows out) 2 = Some (ms_of (ts_date t) - 3 * day_ms, cells) /\ nth_error cells 0 = Some o /\
  is_mean (values_of 0 (within (ms_of (ts_date t) - 3 * day_ms) (ms_of (ts_date t) + 25 * day_ms) (fr_rows f))) o /\
  ~ is_mean (values_of 0 (within (ms_of (ts_date t)) (ms_of (ts_date t) + milliseconds (ts_duration t)) (fr_rows f))) o.
Proof.
  destruct (build_time 100 (DateTime (Date 2021 2 1) 0) (DateTime (Date 2021 4 30) 0) (Frequency (Freq 1 0 0 0 false))) as [steps| |] eqn:E; try (vm_compute in E; discriminate).
  vm_compute in E. injection E as <-.
  eexists _, (ex_series (ms_of (DateTime (Date 2021 2 1) 0)) day_ms 120), _, _, _, _. split; [reflexivity|]. split.
  - intros r Hr. apply in_map_iff in Hr. destruct Hr as (i & <- & _). reflexivity.
  - split; [vm_compute; reflexivity|]. split; [reflexivity|]. split; [vm_compute; reflexivity|]. split; [reflexivity|]. split; vm_compute; [|intros [_ H]; discriminate].
    split; [discriminate | reflexivity].
Qed.
Print Assumptions C60_months_refuted.

(** Data further apart than the time-steps but not by a whole number of them are
    partly lost: here day 8 is given the value of day 0, not that of day 7. *)
Theorem C60_off_the_grid_refuted : exists steps f out t cells o,
  build_time 100 ex_start (DateTime (Date 2021 1 14) 0) (Days 2) = Ok steps /\ whole_rows f /\ align_and_resample steps f = Ok out /\
  nth_error steps 4 = Some t /\ nth_error (fr_rows out) 4 = Some (ms_of (ts_date t), cells) /\ nth_error cells 0 = Some o /\
  ~ last_known (ms_of ex_start) (ms_of (ts_date t)) 0 (fr_rows f) o.
Proof.
  destruct (build_time 100 ex_start (DateTime (Date 2021 1 14) 0) (Days 2)) as [steps| |] eqn:E; try (vm_compute in E; discriminate).
  vm_compute in E. injection E as <-.
  eexists _, (ex_series (ms_of ex_start) (7 * day_ms) 3), _, _, _, _. split; [reflexivity|]. split.
  - intros r Hr. apply in_map_iff in Hr. destruct Hr as (i & <- & _). reflexivity.
  - split; [vm_compute; reflexivity|]. split; [reflexivity|]. split; [vm_compute; reflexivity|]. split; [reflexivity|].
    cbn [last_known]. intros (r & Hr & Ht & Hq & Hlast). vm_compute in Hr. destruct Hr as [<-|[<-|[<-|[]]]]; vm_compute in Hq; try discriminate.
    assert (H := Hlast (ms_of ex_start + 7 * day_ms, [Some 1%Q]) ltac:(vm_compute; auto) ltac:(vm_compute; split; [reflexivity | discriminate])). vm_compute in H. discriminate.
Qed.
Print Assumptions C60_off_the_grid_refuted.

(** A missing day is not reported: loading panics. *)
Theorem C60_missing_day_panics_refuted : exists steps f,
  build_time 100 ex_start (DateTime (Date 2021 1 3) 0) (Days 1) = Ok steps /\ whole_rows f /\ align_and_resample steps f = Panic.
Proof.
  destruct (build_time 100 ex_start (DateTime (Date 2021 1 3) 0) (Days 1)) as [steps| |] eqn:E; try (vm_compute in E; discriminate).
  exists steps, (mkFrame ["value"%string] [(ms_of ex_start, [Some 0%Q]); (ms_of ex_start + day_ms, [Some 1%Q]); (ms_of ex_start + 3 * day_ms, [Some 3%Q])]).
  split; [reflexivity|]. vm_compute in E. injection E as <-. split; [|vm_compute; reflexivity]. intros r [<-|[<-|[<-|[]]]]; reflexivity.
Qed.
Print Assumptions C60_missing_day_panics_refuted.
