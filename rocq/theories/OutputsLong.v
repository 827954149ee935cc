(** The long CSV file and the HDF5 file. *)
From Coq Require Import QArith Lqa Qround Qabs.
From Verif Require Import Base Calendar CalendarLemmas Timestep Network NetworkBuildLemmas AggFuncs Aggregator AggregatorSpec LockstepLemmas Memory MemorySpec MemoryLemmas MemoryRunLemmas MemoryFinalLemmas Outputs OutputsSpec OutputsLemmas OutputsWide.
Open Scope nat_scope.

Definition record_for (places : option positive) (sc : scenario_id) (name : string) (m : string * string) (v : pvalue) : long_record :=
  LongRecord (pv_start v) (pv_end v) (si_simulation sc) (si_label sc) name (fst m) (snd m) (to_places places (pv_value v)).

Lemma rmap_total {E A B} (f : A -> res E B) (g : A -> B) l : (forall x, In x l -> f x = Ok (g x)) -> rmap f l = Ok (map g l).
Proof.
  induction l as [|a l IH]; intros H; cbn [rmap map]; [reflexivity|]. rewrite (H a (or_introl eq_refl)), IH; [reflexivity|]. intros x Hx. apply H. right; exact Hx.
Qed.

Lemma filter_flat_map {A B} (P : B -> bool) (f : A -> list B) l : filter P (flat_map f l) = flat_map (fun x => filter P (f x)) l.
Proof. induction l as [|a l IH]; [reflexivity|]. cbn [flat_map]. rewrite filter_app, IH. reflexivity. Qed.

(** Only one part of a file has the records sought. *)
Lemma flat_map_one {A B} (f : A -> list B) l k a : nth_error l k = Some a -> (forall i x, nth_error l i = Some x -> i <> k -> f x = []) -> flat_map f l = f a.
Proof.
  revert k. induction l as [|x l IH]; intros k Hk H; [destruct k; discriminate|]. cbn [flat_map]. destruct k as [|k]; cbn [nth_error] in Hk.
  - injection Hk as ->. assert (E : flat_map f l = []).
    { assert (G : forall y, In y l -> f y = []) by (intros y Hy; apply In_nth_error in Hy; destruct Hy as [i Hi]; apply (H (S i) y); [exact Hi|lia]).
      clear - G. induction l as [|y l IH]; [reflexivity|]. cbn. rewrite (G y (or_introl eq_refl)), IH; [reflexivity|]. intros z Hz. apply G. right; exact Hz. }
    rewrite E, app_nil_r. reflexivity.
  - rewrite (H 0 x eq_refl) by lia. cbn [app]. apply (IH k Hk). intros i y Hi Hne. apply (H (S i) y); [exact Hi|lia].
Qed.

Lemma flat_map_none {A B} (f : A -> list B) l : (forall x, In x l -> f x = []) -> flat_map f l = [].
Proof. intros G. induction l as [|y l IH]; [reflexivity|]. cbn. rewrite (G y (or_introl eq_refl)), IH; [reflexivity|]. intros z Hz. apply G. right; exact Hz. Qed.

Section Long.
Variable places : option positive.
Variable sets : list metric_set.
Variable names : list string.
Variable idxs : list nat.
Variable scenarios : list scenario_id.
Hypothesis Lnames : length names = length sets.
Hypothesis Hidxs : Forall (fun i => i < length sets) idxs.

Definition set_block (sc : scenario_id) (states : list metric_set_state) (i : nat) : list long_record :=
  match nth_error states i with
  | Some st => match current_values st, nth_error sets i, nth_error names i with
               | Some vs, Some ms, Some name => set_records places sc name (ms_metrics ms) vs
               | _, _, _ => []
               end
  | None => []
  end.
Definition block (x : list (list metric_set_state)) : list long_record :=
  flat_map (fun '(sc, states) => flat_map (set_block sc states) idxs) (combine scenarios x).

Lemma long_save_block x file : Forall (fun sc => length sc = length sets) x -> long_save places sets names idxs scenarios x file = Ok (file ++ block x).
Proof.
  intros F. unfold long_save. rewrite (rmap_total _ (fun '(sc, states) => flat_map (set_block sc states) idxs)).
  - cbn [rbind]. unfold block. rewrite <- flat_map_concat_map. reflexivity.
  - intros [sc states] H. apply in_combine_r in H. rewrite Forall_forall in F. specialize (F states H). unfold scenario_records.
    rewrite (rmap_total _ (set_block sc states)); [cbn [rbind]; rewrite <- flat_map_concat_map; reflexivity|].
    intros i Hi. rewrite Forall_forall in Hidxs. specialize (Hidxs i Hi). unfold set_block.
    destruct (nth_error states i) eqn:E1; [|apply nth_error_None in E1; lia]. destruct (current_values m); [|reflexivity].
    destruct (nth_error sets i) eqn:E2; [|apply nth_error_None in E2; lia]. destruct (nth_error names i) eqn:E3; [reflexivity|apply nth_error_None in E3; lia].
Qed.

Lemma long_fold : forall seqs file, Forall (fun x => length x = length scenarios /\ Forall (fun sc => length sc = length sets) x) seqs ->
  fold_saves (long_save places sets names idxs scenarios) seqs file = Ok (file ++ flat_map block seqs).
Proof.
  induction seqs as [|x seqs IH]; intros file F; cbn [fold_saves flat_map]; [rewrite app_nil_r; reflexivity|].
  inversion F as [|? ? [_ F1] F2]; subst. rewrite long_save_block by exact F1. cbn [rbind]. rewrite IH by exact F2. rewrite app_assoc. reflexivity.
Qed.

Hypothesis Hnames : NoDup names.
Hypothesis Hsims : NoDup (map si_simulation scenarios).
Hypothesis Hnd : NoDup idxs.

Lemma belongs_set_records sc name m sc' name' ms' vs r : In r (set_records places sc' name' ms' vs) -> belongs sc name m r = true -> si_simulation sc = si_simulation sc' /\ name = name'.
Proof.
  intros H B. unfold set_records in H. apply in_map_iff in H. destruct H as ([m' v] & <- & _). unfold belongs in B. cbn in B.
  apply Bool.andb_true_iff in B. destruct B as [B _]. apply Bool.andb_true_iff in B. destruct B as [B _]. apply Bool.andb_true_iff in B. destruct B as [B1 B2].
  apply Nat.eqb_eq in B1. apply String.eqb_eq in B2. auto.
Qed.

Lemma filter_nil {A} (P : A -> bool) l : (forall x, In x l -> P x = true -> False) -> filter P l = [].
Proof. induction l as [|a l IH]; intros H; [reflexivity|]. cbn. destruct (P a) eqn:E; [destruct (H a (or_introl eq_refl) E)|]. apply IH. intros x Hx. apply H. right; exact Hx. Qed.

Lemma filter_set_records sc name ms m j vs v : NoDup ms -> nth_error ms j = Some m -> nth_error vs j = Some v ->
  filter (belongs sc name m) (set_records places sc name ms vs) = [record_for places sc name m v].
Proof.
  intros ND Hm Hv. unfold set_records.
  assert (E0 : filter (belongs sc name m) [record_for places sc name m v] = [record_for places sc name m v]).
  { cbn [filter]. unfold belongs, record_for. cbn. rewrite Nat.eqb_refl, !String.eqb_refl. reflexivity. }
  set (f := fun x : (string * string) * pvalue => filter (belongs sc name m) [record_for places sc name (fst x) (snd x)]).
  rewrite <- E0. change (filter (belongs sc name m) [record_for places sc name m v]) with (f (m, v)).
  rewrite <- (flat_map_one f (combine ms vs) j (m, v)).
  - unfold f. rewrite <- filter_flat_map. f_equal. clear. induction (combine ms vs) as [|[a b] l IH]; [reflexivity|]. cbn [map flat_map app]. f_equal. exact IH.
  - apply combine_nth_error; assumption.
  - intros i [m' v'] Hi Hne. unfold f. apply filter_nil. intros r [<-|[]] B. cbn [fst snd] in *. unfold belongs in B. cbn in B.
    apply Bool.andb_true_iff in B. destruct B as [B B4]. apply Bool.andb_true_iff in B. destruct B as [_ B3]. apply String.eqb_eq in B3, B4.
    assert (m' = m) by (destruct m, m'; cbn in *; congruence). subst m'.
    assert (Em : nth_error ms i = Some m).
    { clear - Hi. revert vs i Hi. induction ms as [|a l IH]; intros vs i Hi; [destruct i; discriminate|]. destruct vs as [|b vs]; [destruct i; discriminate|]. destruct i as [|i]; cbn in *; [congruence|eauto]. }
    apply Hne. apply (proj1 (NoDup_nth_error ms) ND); [apply nth_error_Some; congruence|congruence].
Qed.

Lemma combine_nth_inv {A B} (l : list A) (m : list B) i x y : nth_error (combine l m) i = Some (x, y) -> nth_error l i = Some x /\ nth_error m i = Some y.
Proof. revert m i. induction l as [|a l IH]; intros [|b m] [|i] H; cbn in *; try discriminate; [injection H as -> ->; auto|auto]. Qed.

Lemma filter_block x s sc i ms name j m y : length x = length scenarios ->
  nth_error scenarios s = Some sc -> In i idxs -> nth_error sets i = Some ms -> nth_error names i = Some name -> NoDup (ms_metrics ms) -> nth_error (ms_metrics ms) j = Some m ->
  shown_at (length (ms_metrics ms)) s i j x y ->
  filter (belongs sc name m) (block x) = map (record_for places sc name m) (if_any y).
Proof.
  intros Lx Hs Hi Hms Hn ND Hm (states & st & E1 & E2 & Sh). unfold block. rewrite filter_flat_map.
  rewrite (flat_map_one _ (combine scenarios x) s (sc, states)).
  - rewrite filter_flat_map. apply In_nth_error in Hi. destruct Hi as [q Hq]. rewrite (flat_map_one _ idxs q i Hq).
    + unfold set_block. rewrite E2, Hms, Hn. unfold shows in Sh. destruct (current_values st) as [vs|].
      * destruct Sh as (_ & v & Hv & ->). rewrite (filter_set_records sc name (ms_metrics ms) m j vs v ND Hm Hv). reflexivity.
      * subst y. reflexivity.
    + intros q' i' Hq' Hne. apply filter_nil. intros r Hr B. unfold set_block in Hr. destruct (nth_error states i') as [st'|]; [|destruct Hr]. destruct (current_values st'); [|destruct Hr].
      destruct (nth_error sets i'); [|destruct Hr]. destruct (nth_error names i') as [name'|] eqn:En; [|destruct Hr]. destruct (belongs_set_records _ _ _ _ _ _ _ _ Hr B) as [_ Z]. subst name'.
      assert (i' = i) by (apply (proj1 (NoDup_nth_error names) Hnames); [apply nth_error_Some; congruence|congruence]). subst i'.
      apply Hne. apply (proj1 (NoDup_nth_error idxs) Hnd); [apply nth_error_Some; congruence|congruence].
  - apply combine_nth_error; assumption.
  - intros q [sc' states'] Hq Hne. apply filter_nil. intros r Hr B. apply in_flat_map in Hr. destruct Hr as (i' & _ & Hr). unfold set_block in Hr.
    destruct (nth_error states' i') as [st'|]; [|destruct Hr]. destruct (current_values st'); [|destruct Hr]. destruct (nth_error sets i'); [|destruct Hr]. destruct (nth_error names i'); [|destruct Hr].
    destruct (belongs_set_records _ _ _ _ _ _ _ _ Hr B) as [Z _]. destruct (combine_nth_inv _ _ _ _ _ Hq) as [Q1 _]. apply Hne.
    apply (proj1 (NoDup_nth_error (map si_simulation scenarios)) Hsims); [rewrite map_length; apply nth_error_Some; congruence|]. rewrite !nth_error_map, Q1, Hs. cbn. congruence.
Qed.
End Long.

Lemma long_correct places sets names idxs scenarios steps :
  length names = length sets -> Forall (fun i => i < length sets) idxs -> NoDup names -> NoDup (map si_simulation scenarios) -> NoDup idxs ->
  Forall (fun m => ms_metrics m <> [] /\ NoDup (ms_metrics m)) sets ->
  Forall (complete sets (length scenarios)) steps -> aggregates_fine sets (length scenarios) steps ->
  exists file, long_run places sets names idxs scenarios steps = Ok file /\
    (forall s sc i ms name j m vs, nth_error scenarios s = Some sc -> In i idxs -> nth_error sets i = Some ms -> nth_error names i = Some name -> nth_error (ms_metrics ms) j = Some m ->
       recorded ms (history s i j steps) vs -> filter (belongs sc name m) file = map (record_for places sc name m) vs) /\
    (forall r, In r file -> exists sc i ms name m, In sc scenarios /\ In i idxs /\ nth_error sets i = Some ms /\ nth_error names i = Some name /\ In m (ms_metrics ms) /\ belongs sc name m r = true).
Proof.
  intros Ln Hi Nn Ns Nd Ne C A.
  assert (Ne1 : Forall (fun m => ms_metrics m <> []) sets) by (eapply Forall_impl; [|exact Ne]; intros x [H _]; exact H).
  destruct (saves_exist sets (length scenarios) steps Ne1 C A) as (seqs & E & L & F & R).
  exists (flat_map (block places sets names idxs scenarios) seqs). split; [|split].
  - unfold long_run. rewrite (run_as_fold _ _ _ _ _ _ E). rewrite (long_fold places sets names idxs scenarios Ln Hi) by exact F. reflexivity.
  - intros s sc i ms name j m vs Hs Hin Hms Hn Hm Hr. apply recorded_yields in Hr. destruct Hr as (ys & Hy & ->). rewrite filter_flat_map.
    assert (Hj : j < length (ms_metrics ms)) by (apply nth_error_Some; congruence). assert (Hlt : s < length scenarios) by (apply nth_error_Some; congruence).
    assert (ND : NoDup (ms_metrics ms)) by (rewrite Forall_forall in Ne; apply Ne; eapply nth_error_In; eassumption).
    pose proof (R s i ms j ys Hlt Hms Hj Hy) as G. clear - G F Ln Hi Nn Ns Nd Hs Hin Hms Hn Hm ND. induction G as [|x y seqs ys Hxy G IH]; [reflexivity|].
    inversion F as [|? ? [F1 _] F2]; subst. cbn [flat_map]. change (emitted (y :: ys)) with (if_any y ++ emitted ys). rewrite map_app, (IH F2). f_equal.
    apply (filter_block places sets names idxs scenarios Nn Ns Nd x s sc i ms name j m y); auto.
  - intros r Hr. apply in_flat_map in Hr. destruct Hr as (x & _ & Hr). unfold block in Hr. apply in_flat_map in Hr. destruct Hr as ([sc states] & Hc & Hr).
    apply in_flat_map in Hr. destruct Hr as (i & Hin & Hr). unfold set_block in Hr. destruct (nth_error states i) as [st|]; [|destruct Hr]. destruct (current_values st) as [vs|]; [|destruct Hr].
    destruct (nth_error sets i) as [ms|] eqn:Em; [|destruct Hr]. destruct (nth_error names i) as [name|] eqn:En; [|destruct Hr]. unfold set_records in Hr. apply in_map_iff in Hr. destruct Hr as ([m v] & <- & Hmv).
    exists sc, i, ms, name, m. repeat split; auto; [apply in_combine_l in Hc; exact Hc|apply in_combine_l in Hmv; exact Hmv|].
    unfold belongs. cbn. rewrite Nat.eqb_refl, !String.eqb_refl. reflexivity.
Qed.

(* ---------- decimal places ---------- *)

Lemma round_half_away_close q : (Qabs (inject_Z (round_half_away q) - q) <= 1 # 2)%Q.
Proof.
  unfold round_half_away. destruct (Qle_bool 0 q).
  - pose proof (Qfloor_le (q + (1 # 2))) as H1. pose proof (Qlt_floor (q + (1 # 2))) as H2. rewrite inject_Z_plus in H2. change (inject_Z 1) with 1%Q in H2.
    apply Qabs_Qle_condition. split; lra.
  - pose proof (Qle_ceiling (q - (1 # 2))) as H1. pose proof (Qceiling_lt (q - (1 # 2))) as H2. unfold Z.sub in H2. rewrite inject_Z_plus in H2. change (inject_Z (- (1))) with (-1)%Q in H2.
    apply Qabs_Qle_condition. split; lra.
Qed.

Lemma to_places_close n q : (Qabs (to_places (Some n) q - q) <= (1 # 2) / inject_Z (10 ^ Zpos n))%Q /\ exists z, (to_places (Some n) q == inject_Z z / inject_Z (10 ^ Zpos n))%Q.
Proof.
  cbn [to_places]. set (s := inject_Z (10 ^ Zpos n)). assert (Hs : (0 < s)%Q).
  { unfold s. rewrite <- (Qmult_0_l 1). change (0 * 1)%Q with (inject_Z 0). rewrite <- Zlt_Qlt. apply Z.pow_pos_nonneg; lia. }
  split; [|eexists; reflexivity].
  assert (E : (inject_Z (round_half_away (q * s)) / s - q == (inject_Z (round_half_away (q * s)) - q * s) / s)%Q) by (field; lra).
  rewrite E. unfold Qdiv at 1. rewrite Qabs_Qmult. rewrite (Qabs_pos (/ s)) by (apply Qlt_le_weak, Qinv_lt_0_compat, Hs).
  apply Qmult_le_compat_r; [apply round_half_away_close|]. apply Qlt_le_weak, Qinv_lt_0_compat, Hs.
Qed.

(* ---------- HDF5 ---------- *)

Lemma require_datasets_ok : forall ms groups sets,
  NoDup ms -> (forall m, In m ms -> ~ In m sets) -> (forall m, In m ms -> fst m <> "time"%string) ->
  exists r, require_datasets groups sets ms = Ok r.
Proof.
  induction ms as [|m ms IH]; intros groups sets ND D T; cbn [require_datasets]; [eauto|]. inversion ND as [|? ? N1 N2]; subst. unfold require_dataset.
  assert (G : exists groups', (if existsb (String.eqb (fst m)) groups then @Ok out_error _ groups else if String.eqb (fst m) "time" then Err AlreadyExists else Ok (groups ++ [fst m])) = Ok groups').
  { destruct (existsb _ groups); [eauto|]. destruct (String.eqb_spec (fst m) "time") as [E|_]; [destruct (T m (or_introl eq_refl) E)|eauto]. }
  destruct G as [groups' ->]. cbn [rbind].
  destruct (existsb (fun n => (String.eqb (fst n) (fst m) && String.eqb (snd n) (snd m))%bool) sets) eqn:X.
  - exfalso. apply existsb_exists in X. destruct X as (n & I & B). apply Bool.andb_true_iff in B. destruct B as [B1 B2]. apply String.eqb_eq in B1, B2.
    assert (n = m) by (destruct n, m; cbn in *; congruence). subst n. exact (D m (or_introl eq_refl) I).
  - cbn [rbind fst snd]. apply IH; [exact N2| |intros x Hx; apply T; right; exact Hx].
    intros x Hx I. apply in_app_iff in I. destruct I as [I|[<-|[]]]; [exact (D x (or_intror Hx) I)|exact (N1 Hx)].
Qed.

Lemma write_slice_ok data row values n : row < length data -> Forall (fun r => length r = n) data -> length values = n ->
  exists data', write_slice data row values = Ok data' /\ length data' = length data /\ Forall (fun r => length r = n) data' /\
    forall k, nth k data' [] = if k =? row then values else nth k data [].
Proof.
  intros Hr F L. unfold write_slice. destruct (nth_error data row) as [old|] eqn:E; [|apply nth_error_None in E; lia].
  assert (Lo : length old = n) by (rewrite Forall_forall in F; apply F; eapply nth_error_In; eassumption). rewrite L, Lo, Nat.eqb_refl. eexists. split; [reflexivity|].
  assert (Lf : length (firstn row data) = row) by (rewrite firstn_length; lia).
  split; [rewrite app_length; cbn [length]; rewrite skipn_length; lia|]. split.
  - apply Forall_app. split; [apply Forall_forall; intros x Hx; rewrite Forall_forall in F; apply F; rewrite <- (firstn_skipn row data); apply in_or_app; left; exact Hx|].
    constructor; [exact L|]. apply Forall_forall; intros x Hx; rewrite Forall_forall in F; apply F. rewrite <- (firstn_skipn (S row) data); apply in_or_app; right; exact Hx.
  - intros k. destruct (Nat.eqb_spec k row) as [->|Hne].
    + rewrite app_nth2 by lia. rewrite Lf, Nat.sub_diag. reflexivity.
    + destruct (Nat.lt_ge_cases k row) as [H|H].
      * rewrite app_nth1 by lia. rewrite <- (firstn_skipn row data) at 2. rewrite app_nth1 by lia. reflexivity.
      * rewrite app_nth2 by lia. rewrite Lf. destruct (k - row) as [|d] eqn:Ed; [lia|]. cbn [nth].
        rewrite <- (firstn_skipn (S row) data) at 2. rewrite app_nth2 by (rewrite firstn_length; lia). rewrite firstn_length. f_equal. lia.
Qed.

Lemma hdf_save_ok idx step values data n T : step < T -> length values = n -> Forall (fun d => length d = T /\ Forall (fun r => length r = n) d) data ->
  exists data', hdf_save idx step values data = Ok data' /\ length data' = length data /\ Forall (fun d => length d = T /\ Forall (fun r => length r = n) d) data' /\
    forall j k, j < length data -> nth k (nth j data' []) [] = if k =? step then map (fun sc => nth j (nth idx sc []) 0%Q) values else nth k (nth j data []) [].
Proof.
  intros Hs L F. unfold hdf_save.
  assert (G : forall j d, nth_error data j = Some d -> exists d', write_slice d step (map (fun sc => nth j (nth idx sc []) 0%Q) values) = Ok d' /\ length d' = length d /\ Forall (fun r => length r = n) d' /\
     forall k, nth k d' [] = if k =? step then map (fun sc => nth j (nth idx sc []) 0%Q) values else nth k d []).
  { intros j d Hd. rewrite Forall_forall in F. destruct (F d (nth_error_In _ _ Hd)) as [F1 F2]. apply write_slice_ok; [lia|exact F2|rewrite map_length; exact L]. }
  destruct (rmap_ok (fun '(j, d) => write_slice d step (map (fun sc => nth j (nth idx sc []) 0%Q) values)) (combine (seq 0 (length data)) data)) as [data' E].
  { intros [j d] H. apply In_nth_error in H. destruct H as [q H]. apply combine_nth_inv in H. destruct H as [H1 H2]. 
    assert (q = j). { assert (q < length data) by (apply nth_error_Some; congruence). rewrite (nth_error_nth' _ 0) in H1 by (rewrite seq_length; lia). rewrite seq_nth in H1 by lia. cbn in H1. congruence. }
    subst q. destruct (G j d H2) as (d' & E & _). eauto. }
  rewrite E. exists data'. split; [reflexivity|]. destruct (rmap_nth_Ok _ _ _ E) as [L1 K]. rewrite combine_length, seq_length, Nat.min_id in L1.
  assert (K1 : forall j d, nth_error data j = Some d -> exists d', nth_error data' j = Some d' /\ write_slice d step (map (fun sc => nth j (nth idx sc []) 0%Q) values) = Ok d').
  { intros j d Hd. assert (j < length data) by (apply nth_error_Some; congruence). assert (N : nth_error (combine (seq 0 (length data)) data) j = Some (j, d)).
    { apply combine_nth_error; [|exact Hd]. rewrite (nth_error_nth' _ 0) by (rewrite seq_length; lia). rewrite seq_nth by lia. reflexivity. }
    destruct (K j (j, d) N) as (d' & A & B). eauto. }
  split; [exact L1|]. split.
  - apply Forall_forall. intros d' Hd'. apply In_nth_error in Hd'. destruct Hd' as [j Hd']. assert (j < length data) by (rewrite <- L1; apply nth_error_Some; congruence).
    destruct (nth_error data j) as [d|] eqn:Ed; [|apply nth_error_None in Ed; lia]. destruct (K1 j d Ed) as (d2 & A & B). assert (d2 = d') by congruence. subst d2.
    destruct (G j d Ed) as (d3 & A3 & A4 & A5 & _). assert (d3 = d') by congruence. subst d3. rewrite Forall_forall in F. destruct (F d (nth_error_In _ _ Ed)). split; [congruence|exact A5].
  - intros j k Hj. destruct (nth_error data j) as [d|] eqn:Ed; [|apply nth_error_None in Ed; lia]. destruct (K1 j d Ed) as (d2 & A & B).
    destruct (G j d Ed) as (d3 & A3 & _ & _ & A6). assert (d3 = d2) by congruence. subst d3. rewrite (nth_error_nth _ _ [] A), (nth_error_nth _ _ [] Ed). apply A6.
Qed.

Lemma hdf_steps_ok idx n T M : forall steps step data, step + length steps = T -> Forall (fun st => length (sv_values st) = n) steps -> length data = M ->
  Forall (fun d => length d = T /\ Forall (fun r => length r = n) d) data ->
  exists data', hdf_steps idx step steps data = Ok data' /\ length data' = M /\ Forall (fun d => length d = T /\ Forall (fun r => length r = n) d) data' /\
    forall j, j < M -> (forall k, k < step -> nth k (nth j data' []) [] = nth k (nth j data []) []) /\
      forall k st, nth_error steps k = Some st -> nth (step + k) (nth j data' []) [] = map (fun sc => nth j (nth idx sc []) 0%Q) (sv_values st).
Proof.
  induction steps as [|s steps IH]; intros step data HT Hv LM F; cbn [hdf_steps].
  - exists data. repeat split; auto. intros [|k]; discriminate.
  - inversion Hv as [|? ? V1 V2]; subst. cbn [length] in *. destruct (hdf_save_ok idx step (sv_values s) data (length (sv_values s)) (step + S (length steps))) as (d1 & E1 & L1 & F1 & G1); [lia|reflexivity|exact F|].
    rewrite E1. cbn [rbind]. destruct (IH (S step) d1 ltac:(lia) V2 ltac:(lia) F1) as (d2 & E2 & L2 & F2 & G2). exists d2. repeat split; auto.
    + intros k Hk. destruct (G2 j H) as [A _]. rewrite A by lia. rewrite G1 by lia. destruct (Nat.eqb_spec k step); [lia|reflexivity].
    + intros [|k] st Hst; cbn [nth_error] in Hst.
      * injection Hst as <-. destruct (G2 j H) as [A _]. rewrite Nat.add_0_r, A by lia. rewrite G1 by lia. rewrite Nat.eqb_refl. reflexivity.
      * destruct (G2 j H) as [_ B]. rewrite <- (B k st Hst). f_equal. lia.
Qed.

Lemma hdf_correct sets idx ms ns steps : nth_error sets idx = Some ms -> Forall (complete sets ns) steps ->
  NoDup (ms_metrics ms) -> (forall m, In m (ms_metrics ms) -> fst m <> "time"%string /\ m <> ("scenarios", "groups")%string /\ m <> ("scenarios", "indices")%string) ->
  exists data, hdf_run sets idx ns steps = Ok data /\ length data = length (ms_metrics ms) /\
    Forall (fun d => length d = length steps /\ Forall (fun r => length r = ns) d) data /\
    forall j k s st, j < length (ms_metrics ms) -> nth_error steps k = Some st -> s < ns -> nth s (nth k (nth j data []) []) 0%Q = value_at s idx j st.
Proof.
  intros Hm C ND T. unfold hdf_run. rewrite Hm. unfold hdf_setup.
  destruct (require_datasets_ok (ms_metrics ms) ["scenarios"%string] [("scenarios", "groups"); ("scenarios", "indices")]%string ND) as [r E].
  { intros m I [<-|[<-|[]]]; destruct (T _ I) as (_ & A & B); congruence. } { intros m I. apply T, I. }
  rewrite E. cbn [rbind].
  destruct (hdf_steps_ok idx ns (length steps) (length (ms_metrics ms)) steps 0 (map (fun _ => repeat (repeat 0%Q ns) (length steps)) (ms_metrics ms))) as (data & E2 & L & F & G).
  - reflexivity.
  - eapply Forall_impl; [|exact C]. intros st [H _]. exact H.
  - apply map_length.
  - apply Forall_forall. intros d Hd. apply in_map_iff in Hd. destruct Hd as (_ & <- & _). split; [apply repeat_length|]. apply Forall_forall. intros x Hx. apply repeat_spec in Hx. subst x. apply repeat_length.
  - exists data. repeat split; auto. intros j k s st Hj Hk Hs. destruct (G j Hj) as [_ B]. specialize (B k st Hk). cbn [plus] in B. rewrite B.
    rewrite Forall_forall in C. pose proof (C st (nth_error_In _ _ Hk)) as Cst. destruct Cst as [Lv _].
    unfold value_at, values_at. rewrite (nth_indep _ 0%Q (nth j (nth idx (@nil (list Q)) []) 0%Q)) by (rewrite map_length; lia). rewrite (map_nth (fun sc => nth j (nth idx sc []) 0%Q)). reflexivity.
Qed.
