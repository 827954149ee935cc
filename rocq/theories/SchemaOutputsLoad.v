(** From the file to the recorders, and the single values of the results. *)
From Coq Require Import QArith String.
From Verif Require Import Base Calendar Timestep Network NetworkBuildLemmas AggFuncs AggFuncsSpec Aggregator Memory MemorySpec Outputs OutputsSpec MetricSets SchemaOutputs SchemaOutputsSpec SchemaOutputsLemmas.
Open Scope list_scope.
Open Scope nat_scope.

(** *** The map of the metric sets *)

Lemma set_map_from : forall names i m,
  (forall r, metric_set_map_from i names m = Ok r -> NoDup names /\ (forall n, In n names -> ~ In n (map fst m)) /\ r = rev (combine names (seq i (length names))) ++ m) /\
  (NoDup names -> (forall n, In n names -> ~ In n (map fst m)) -> exists r, metric_set_map_from i names m = Ok r).
Proof.
  induction names as [|n names IH]; intros i m; cbn [metric_set_map_from].
  - split; [|eauto]. intros r [= <-]. split; [constructor|]. split; [intros n []|reflexivity].
  - destruct (existsb (fun e => String.eqb (fst e) n) m) eqn:E.
    + split; [discriminate|]. intros _ H. exfalso. apply (H n (or_introl eq_refl)). apply existsb_exists in E. destruct E as (e & He & Eq).
      apply String.eqb_eq in Eq. subst n. apply in_map. exact He.
    + assert (Hn : ~ In n (map fst m)).
      { intros H. apply in_map_iff in H. destruct H as (e & Eq & He). assert (X : existsb (fun e => String.eqb (fst e) n) m = true).
        { apply existsb_exists. exists e. split; [exact He|]. apply String.eqb_eq. exact Eq. } congruence. }
      destruct (IH (S i) ((n, i) :: m)) as [I1 I2]. split.
      * intros r H. destruct (I1 r H) as (ND & Hd & ->). split; [|split].
        -- constructor; [|exact ND]. intros Hin. apply (Hd n Hin). left. reflexivity.
        -- intros x [<- | Hx]; [exact Hn|]. intros Hm. apply (Hd x Hx). right. exact Hm.
        -- cbn [length seq combine rev]. rewrite <- app_assoc. reflexivity.
      * intros ND Hd. inversion ND; subst. apply I2; [assumption|]. intros x Hx [Hm | Hm]; [cbn in Hm; subst; contradiction|]. apply (Hd x (or_intror Hx) Hm).
Qed.

Lemma set_map names : (exists r, metric_set_map names = Ok r) <-> NoDup names.
Proof.
  destruct (set_map_from names 0 []) as [A B]. split.
  - intros [r H]. apply A in H. tauto.
  - intros ND. apply B; [exact ND|]. intros n _ [].
Qed.

Lemma combine_In_nth {A} : forall (l : list A) i n k, In (n, k) (combine l (seq i (length l))) <-> i <= k /\ nth_error l (k - i) = Some n.
Proof.
  induction l as [|a l IH]; intros i n k; cbn [length seq combine].
  - split; [intros []|]. intros [_ H]. destruct (k - i); discriminate.
  - cbn [In]. rewrite IH. split.
    + intros [[= <- <-] | [H1 H2]]; [split; [lia|]; rewrite Nat.sub_diag; reflexivity|]. split; [lia|]. replace (k - i) with (S (k - S i)) by lia. exact H2.
    + intros [H1 H2]. destruct (Nat.eq_dec k i) as [-> | Hne].
      * rewrite Nat.sub_diag in H2. cbn in H2. injection H2 as <-. left. reflexivity.
      * right. split; [lia|]. replace (k - i) with (S (k - S i)) in H2 by lia. exact H2.
Qed.

Lemma find_set_spec names m name k : metric_set_map names = Ok m -> find_set m name = Ok k <-> nth_error names k = Some name.
Proof.
  intros H. apply (proj1 (set_map_from names 0 [])) in H. destruct H as (ND & _ & ->). rewrite app_nil_r.
  assert (G : forall n k, In (n, k) (rev (combine names (seq 0 (length names)))) <-> nth_error names k = Some n).
  { intros n k'. rewrite <- in_rev, combine_In_nth, Nat.sub_0_r. split; [tauto|]. intros; split; [lia|assumption]. }
  unfold find_set. destruct (find _ _) as [[n k']|] eqn:E.
  - apply find_some in E. destruct E as [Hin Eq]. cbn in Eq. apply String.eqb_eq in Eq. subst n. apply G in Hin. cbn [snd]. split.
    + intros [= <-]. exact Hin.
    + intros Hk. f_equal. apply (proj1 (NoDup_nth_error names) ND); [|congruence]. apply nth_error_Some. congruence.
  - split; [discriminate|]. intros Hk. apply G in Hk. pose proof (find_none _ _ E _ Hk) as X. cbn in X. rewrite String.eqb_refl in X. discriminate.
Qed.

(** The recorder of an output. *)
Definition recorder_for (dir : option path) (names : list string) (o : soutput) (r : recorder) : Prop :=
  match o, r with
  | SoCsv name f CfWide (CsSingle set) _, RWide name' f' i => name' = name /\ f' = placed dir f /\ nth_error names i = Some set
  | SoCsv name f CfLong cs places, RLong name' f' is places' =>
      name' = name /\ f' = placed dir f /\ places' = schema_places places /\
      Forall2 (fun set i => nth_error names i = Some set) (match cs with CsSingle n => [n] | CsMultiple l => l end) is
  | SoHdf5 name f set, RHdf5 name' f' i => name' = name /\ f' = placed dir f /\ nth_error names i = Some set
  | SoMemory name set agg order, RMemory name' i agg' order' =>
      name' = name /\ nth_error names i = Some set /\
      agg' = load_mem_agg (match agg with Some a => a | None => mkMemAgg None None None end) /\
      order' = match order with Some o => o | None => MetricTimeScenario end
  | _, _ => False
  end.

Lemma output_file_placed dir f : output_file dir f = placed dir f.
Proof. unfold output_file, placed, is_relative, path_join. destruct dir, (pa_absolute f); reflexivity. Qed.

Lemma find_sets names m l is : metric_set_map names = Ok m -> rmap (find_set m) l = Ok is <-> Forall2 (fun set i => nth_error names i = Some set) l is.
Proof.
  intros H. rewrite rmap_Ok_Forall2. split; intros F; (eapply Forall2_impl'; [|exact F]); intros a b _ _ X; apply (find_set_spec names m a b H); exact X.
Qed.

Lemma built_for hdf5 dir names m o r : metric_set_map names = Ok m ->
  rbind (add_output hdf5 dir o) (build_recorder m) = Ok r <->
  (match o with SoHdf5 _ _ _ => hdf5 = true | _ => True end) /\ recorder_for dir names o r.
Proof.
  intros Hm. destruct o as [name f [] [set | l] places | name f set | name set agg order]; cbn [add_output].
  - rewrite output_file_placed. cbn [rbind build_recorder]. split.
    + intros H. apply rbind_Ok in H. destruct H as (i & Hi & [= <-]). apply (find_set_spec names m _ _ Hm) in Hi. cbn. auto.
    + intros [_ H]. destruct r; try contradiction. destruct H as (-> & -> & Hi). apply (find_set_spec names m _ _ Hm) in Hi. rewrite Hi. reflexivity.
  - cbn [rbind]. split; [discriminate|]. intros [_ []].
  - rewrite output_file_placed. cbn [rbind build_recorder]. split.
    + intros H. apply rbind_Ok in H. destruct H as (i & Hi & [= <-]). apply (find_sets names m _ _ Hm) in Hi. cbn. auto.
    + intros [_ H]. destruct r; try contradiction. destruct H as (-> & -> & -> & Hi). apply (find_sets names m _ _ Hm) in Hi. rewrite Hi. reflexivity.
  - rewrite output_file_placed. cbn [rbind build_recorder]. split.
    + intros H. apply rbind_Ok in H. destruct H as (i & Hi & [= <-]). apply (find_sets names m _ _ Hm) in Hi. cbn. auto.
    + intros [_ H]. destruct r; try contradiction. destruct H as (-> & -> & -> & Hi). apply (find_sets names m _ _ Hm) in Hi. rewrite Hi. reflexivity.
  - destruct hdf5; cbn [rbind]; [|split; [discriminate|intros [? _]; discriminate]]. rewrite output_file_placed. cbn [build_recorder]. split.
    + intros H. apply rbind_Ok in H. destruct H as (i & Hi & [= <-]). apply (find_set_spec names m _ _ Hm) in Hi. cbn. auto.
    + intros [_ H]. destruct r; try contradiction. destruct H as (-> & -> & Hi). apply (find_set_spec names m _ _ Hm) in Hi. rewrite Hi. reflexivity.
  - cbn [rbind build_recorder]. split.
    + intros H. apply rbind_Ok in H. destruct H as (i & Hi & [= <-]). apply (find_set_spec names m _ _ Hm) in Hi. cbn. auto.
    + intros [_ H]. destruct r; try contradiction. destruct H as (-> & Hi & -> & ->). apply (find_set_spec names m _ _ Hm) in Hi. rewrite Hi. reflexivity.
Qed.

Lemma rmap_rbind {E A B C} (f : A -> res E B) (g : B -> res E C) : forall l r,
  rbind (rmap f l) (rmap g) = Ok r <-> rmap (fun a => rbind (f a) g) l = Ok r.
Proof.
  intros l r. rewrite rmap_Ok_Forall2. split.
  - intros H. apply rbind_Ok in H. destruct H as (bs & Hb & Hc). apply rmap_Ok_Forall2 in Hb. apply rmap_Ok_Forall2 in Hc.
    revert r Hc. induction Hb as [|a b l bs H1 H2 IH]; intros r Hc; inversion Hc; subst; constructor; [rewrite H1; assumption|]. apply IH. assumption.
  - intros F. induction F as [|a c l r H1 H2 IH]; [reflexivity|]. apply rbind_Ok in H1. destruct H1 as (b & Hb & Hc). apply rbind_Ok in IH. destruct IH as (bs & Hbs & Hcs).
    cbn [rmap]. rewrite Hb. cbn [rbind]. rewrite Hbs. cbn [rbind rmap]. rewrite Hc. cbn [rbind]. rewrite Hcs. reflexivity.
Qed.

Lemma loaded hdf5 dir sets outputs rs :
  load_outputs hdf5 dir sets outputs = Ok rs <->
  NoDup (map bs_name sets) /\ Forall2 (fun o r => (match o with SoHdf5 _ _ _ => hdf5 = true | _ => True end) /\ recorder_for dir (map bs_name sets) o r) outputs rs.
Proof.
  unfold load_outputs. split.
  - intros H. apply rbind_Ok in H. destruct H as (bs & Hb & H). apply rbind_Ok in H. destruct H as (m & Hm & H).
    split; [apply set_map; eauto|]. assert (X : rbind (rmap (add_output hdf5 dir) outputs) (rmap (build_recorder m)) = Ok rs) by (rewrite Hb; exact H).
    apply rmap_rbind in X. apply rmap_Ok_Forall2 in X. eapply Forall2_impl'; [|exact X]. intros o r _ _ Y. apply (built_for hdf5 dir _ m o r Hm). exact Y.
  - intros [ND F]. apply set_map in ND. destruct ND as [m Hm]. rewrite Hm.
    assert (X : rmap (fun o => rbind (add_output hdf5 dir o) (build_recorder m)) outputs = Ok rs).
    { apply rmap_Ok_Forall2. eapply Forall2_impl'; [|exact F]. intros o r _ _ Y. apply (built_for hdf5 dir _ m o r Hm). exact Y. }
    apply rmap_rbind in X. apply rbind_Ok in X. destruct X as (bs & Hb & X). rewrite Hb. exact X.
Qed.

Lemma servable_recorder hdf5 dir sets o : servable hdf5 sets o <->
  exists r, (match o with SoHdf5 _ _ _ => hdf5 = true | _ => True end) /\ recorder_for dir (map bs_name sets) o r.
Proof.
  assert (L : forall l, (forall n, In n l -> In n (map bs_name sets)) <-> exists is, Forall2 (fun set i => nth_error (map bs_name sets) i = Some set) l is).
  { induction l as [|n l IH].
    - split; [exists []; constructor|intros _ n []].
    - split.
      + intros H. destruct (proj1 IH (fun x Hx => H x (or_intror Hx))) as [is His]. destruct (In_nth_error _ _ (H n (or_introl eq_refl))) as [i Hi]. exists (i :: is). constructor; assumption.
      + intros [is F]. inversion F as [|? i ? is' H1 H2]; subst. intros x [<- | Hx]; [eapply nth_error_In; exact H1|]. apply (proj2 IH (ex_intro _ is' H2) x Hx). }
  assert (L1 : forall n, (forall x, In x [n] -> In x (map bs_name sets)) <-> exists i, nth_error (map bs_name sets) i = Some n).
  { intros n. rewrite L. split; [intros [is F]; inversion F; eauto|intros [i Hi]; exists [i]; constructor; [exact Hi|constructor]]. }
  unfold servable. destruct o as [name f [] [set | l] places | name f set | name set agg order]; cbn [asked_sets].
  - rewrite L1. split; [intros [_ [i Hi]]; exists (RWide name (placed dir f) i); cbn; auto|]. intros (r & _ & H). destruct r; try contradiction. destruct H as (_ & _ & H). eauto.
  - split; [intros [[] _]|]. intros (r & _ & []).
  - rewrite L. split; [intros [_ [is His]]; exists (RLong name (placed dir f) is (schema_places places)); cbn; auto|]. intros (r & _ & H). destruct r; try contradiction. destruct H as (_ & _ & _ & H). eauto.
  - rewrite L. split; [intros [_ [is His]]; exists (RLong name (placed dir f) is (schema_places places)); cbn; auto|]. intros (r & _ & H). destruct r; try contradiction. destruct H as (_ & _ & _ & H). eauto.
  - rewrite L1. split; [intros [E [i Hi]]; exists (RHdf5 name (placed dir f) i); cbn; auto|]. intros (r & E & H). destruct r; try contradiction. destruct H as (_ & _ & H). eauto.
  - rewrite L1. split; [intros [_ [i Hi]]; eexists (RMemory name i _ _); cbn; auto|]. intros (r & _ & H). destruct r; try contradiction. destruct H as (_ & H & _). eauto.
Qed.

(** *** The results by name *)

Lemma get_insert m e name : result_get (hash_insert m e) name = if String.eqb (fst e) name then Some (snd e) else result_get m name.
Proof.
  unfold result_get, hash_insert. cbn [find]. destruct (String.eqb (fst e) name) eqn:E; [reflexivity|]. f_equal.
  induction m as [|x m IH]; [reflexivity|]. cbn [filter find]. destruct (String.eqb (fst x) (fst e)) eqn:E1; cbn [negb].
  - apply String.eqb_eq in E1. rewrite E1, E. exact IH.
  - cbn [find]. destruct (String.eqb (fst x) name); [reflexivity|exact IH].
Qed.

Lemma results_other : forall os m name, (forall r, In (OutMemory r) os -> mr_name r <> name) -> result_get (results_of os m) name = result_get m name.
Proof.
  induction os as [|o os IH]; intros m name H; [reflexivity|]. destruct o as [| | |r]; cbn [results_of]; try (apply IH; intros r' Hr; apply H; right; exact Hr).
  rewrite IH by (intros r' Hr; apply H; right; exact Hr). rewrite get_insert. cbn [fst]. destruct (String.eqb_spec (mr_name r) name) as [E | E]; [|reflexivity].
  exfalso. exact (H r (or_introl eq_refl) E).
Qed.

Lemma results_last os1 r os2 m : (forall r', In (OutMemory r') os2 -> mr_name r' <> mr_name r) ->
  result_get (results_of (os1 ++ OutMemory r :: os2) m) (mr_name r) = Some r.
Proof.
  intros H. revert m. induction os1 as [|o os1 IH]; intros m.
  - cbn [app results_of]. rewrite results_other by exact H. rewrite get_insert. cbn [fst snd]. rewrite String.eqb_refl. reflexivity.
  - destruct o; cbn [app results_of]; apply IH.
Qed.

Lemma results_from : forall os m name r, result_get (results_of os m) name = Some r -> result_get m name = Some r \/ In (OutMemory r) os /\ mr_name r = name.
Proof.
  induction os as [|o os IH]; intros m name r; cbn [results_of]; [auto|]. destruct o as [| | |r0]; cbn [results_of]; intros H; apply IH in H; destruct H as [H | [H1 H2]]; try (right; split; [right; assumption|assumption]); try (left; assumption).
  rewrite get_insert in H. cbn [fst snd] in H. destruct (String.eqb_spec (mr_name r0) name) as [E | E]; [|left; exact H].
  injection H as <-. right. split; [left; reflexivity|exact E].
Qed.

(** *** The single value *)

Lemma reduced_apply f vs x : apply_func (option_map load_func f) vs = Ok x <-> reduced f vs x.
Proof.
  unfold apply_func, reduced. destruct vs as [|v [|w vs]].
  - destruct f as [g|]; cbn [option_map]; split; [intros [= <-]; eauto|intros (g' & [= <-] & ->); reflexivity|discriminate|intros (? & ? & _); discriminate].
  - split; [intros [= <-]; reflexivity|intros ->; reflexivity].
  - destruct f as [g|]; cbn [option_map]; split; [intros [= <-]; eauto|intros (g' & [= <-] & ->); reflexivity|discriminate|intros (? & ? & _); discriminate].
Qed.

Lemma reduced_time_apply f vs x : apply_time_func (option_map load_func f) vs = Ok x <-> reduced_in_time f vs x.
Proof.
  unfold apply_time_func, reduced_in_time.
  assert (G : forall l, match option_map load_func f with
      | Some f0 => match calc_period_values f0 l with Some x0 => Ok x0 | None => Err AggregationFunctionFailed end
      | None => Err AggregationFunctionNotDefined end = Ok x <-> exists g, f = Some g /\ calc_period_values (load_func g) l = Some x).
  { intros l. destruct f as [g|]; cbn [option_map].
    - destruct (calc_period_values (load_func g) l) eqn:E; split; [intros [= <-]; eauto|intros (g' & [= <-] & H); congruence|discriminate|intros (g' & [= <-] & H); congruence].
    - split; [discriminate|intros (? & ? & _); discriminate]. }
  destruct vs as [|v [|w vs]]; [apply G| |apply G]. split; [intros [= <-]; reflexivity|intros ->; reflexivity].
Qed.

Definition exchanged (m : mem_agg) : mem_agg := mkMemAgg (ma_scenario m) (ma_time m) (ma_metric m).

Lemma rows_reduced m rows zs' : rmap (fun r => rbind (apply_func (ag_metric (load_mem_agg m)) (pv_value r)) (fun x => Ok (PV (pv_start r) (pv_dur r) x))) rows = Ok zs' <->
  exists zs, Forall2 (fun r z => reduced (ma_metric m) (pv_value r) z) rows zs /\ zs' = map (fun '(r, z) => of_row r z) (combine rows zs).
Proof.
  rewrite rmap_Ok_Forall2. split.
  - intros F. induction F as [|r z rows zs' H1 H2 IH]; [exists []; split; [constructor|reflexivity]|]. destruct IH as (zs & F & ->).
    apply rbind_Ok in H1. destruct H1 as (x & Hx & [= <-]). apply (reduced_apply (ma_metric m)) in Hx. exists (x :: zs). split; [constructor; assumption|reflexivity].
  - intros (zs & F & ->). induction F as [|r z rows zs H1 H2 IH]; cbn [combine map]; constructor; [|exact IH].
    apply (reduced_apply (ma_metric m)) in H1. cbn [load_mem_agg aggregation_new ag_metric]. rewrite H1. reflexivity.
Qed.

Lemma column_reduced rows j M : Forall (fun r : row => length (pv_value r) = M) rows -> j < M -> rmap (row_index j) rows = Ok (column j rows).
Proof.
  intros F Hj. induction F as [|r rows H1 H2 IH]; [reflexivity|]. cbn [rmap]. unfold row_index at 1.
  destruct (nth_error (pv_value r) j) as [x|] eqn:E; [|apply nth_error_None in E; lia]. cbn [rbind]. rewrite IH. cbn [rbind column map].
  rewrite (nth_error_nth _ _ 0%Q E). reflexivity.
Qed.

Lemma aggregated_wanted m order name scenarios metrics data M x :
  Forall (Forall (fun r => length (pv_value r) = M)) data ->
  aggregated_value (mkMemResult name scenarios metrics data (load_mem_agg m) order) = Ok x <-> wanted_value (exchanged m) order data x.
Proof.
  intros HM. unfold aggregated_value, wanted_value. cbn [mr_order mr_agg mr_data exchanged ma_scenario ma_time ma_metric].
  assert (G : forall (f : list row -> res mem_error Q) (P : list row -> Q -> Prop), (forall rows y, In rows data -> f rows = Ok y <-> P rows y) ->
     rbind (rmap f data) (apply_func (ag_scenario (load_mem_agg m))) = Ok x <-> exists ys, Forall2 P data ys /\ reduced (ma_time m) ys x).
  { intros f P Hf. split.
    - intros H. apply rbind_Ok in H. destruct H as (ys & Hys & H). apply rmap_Ok_Forall2 in Hys. exists ys. split.
      + eapply Forall2_impl'; [|exact Hys]. intros a b Ha _ Hab. apply Hf; assumption.
      + apply reduced_apply. exact H.
    - intros (ys & Hys & H). assert (E : rmap f data = Ok ys).
      { apply rmap_Ok_Forall2. eapply Forall2_impl'; [|exact Hys]. intros a b Ha _ Hab. apply Hf; assumption. }
      rewrite E. cbn [rbind]. apply (reduced_apply (ma_time m)). exact H. }
  destruct order.
  - unfold metric_time_scenario. apply G. intros rows y _. split.
    + intros H. apply rbind_Ok in H. destruct H as (zs' & Hz & H). apply rows_reduced in Hz. destruct Hz as (zs & F & ->). exists zs. split; [exact F|]. apply reduced_time_apply. exact H.
    + intros (zs & F & H). assert (E := proj2 (rows_reduced m rows _) (ex_intro _ zs (conj F eq_refl))). rewrite E. cbn [rbind]. apply (reduced_time_apply (ma_scenario m)). exact H.
  - unfold time_metric_scenario. apply G. intros rows y Hrows. assert (Hu : Forall (fun r => length (pv_value r) = M) rows) by (rewrite Forall_forall in HM; exact (HM _ Hrows)).
    destruct rows as [|r0 rows0]; [split; [discriminate|intros (? & ? & ? & _); congruence]|].
    assert (H0 : length (pv_value r0) = M) by (inversion Hu; assumption). set (rows := r0 :: rows0) in *.
    assert (GJ : forall zs, rmap (fun j => rbind (rmap (row_index j) rows) (apply_time_func (ag_time (load_mem_agg m)))) (seq 0 M) = Ok zs <->
              length zs = M /\ forall j z, nth_error zs j = Some z -> reduced_in_time (ma_scenario m) (column j rows) z).
    { intros zs. rewrite rmap_Ok_Forall2. split.
      - intros F. pose proof (Forall2_length' _ _ _ F) as L. rewrite seq_length in L. split; [congruence|]. intros j z Hz.
        assert (Hj : j < M) by (rewrite L; apply nth_error_Some; congruence).
        assert (Hs : nth_error (seq 0 M) j = Some j) by (rewrite (nth_error_nth' _ 0) by (rewrite seq_length; exact Hj); rewrite seq_nth by exact Hj; reflexivity).
        pose proof (Forall2_nth_error _ _ _ j _ _ F Hs Hz) as X. cbn beta in X. rewrite (column_reduced rows j M Hu Hj) in X. cbn [rbind] in X. apply (reduced_time_apply (ma_scenario m)) in X. exact X.
      - intros [L H]. assert (A : forall k zs, (forall j z, nth_error zs j = Some z -> k + j < M /\ reduced_in_time (ma_scenario m) (column (k + j) rows) z) ->
           Forall2 (fun j z => rbind (rmap (row_index j) rows) (apply_time_func (ag_time (load_mem_agg m))) = Ok z) (seq k (length zs)) zs).
        { clear zs L H. intros k zs. revert k. induction zs as [|z zs IH]; intros k H; cbn [length seq]; constructor.
          - destruct (H 0 z eq_refl) as [Hj Hz]. rewrite Nat.add_0_r in *. rewrite (column_reduced rows k M Hu Hj). cbn [rbind]. apply (reduced_time_apply (ma_scenario m)). exact Hz.
          - apply IH. intros j z' Hz. destruct (H (S j) z' Hz) as [Hj Hz']. replace (S k + j) with (k + S j) by lia. auto. }
        rewrite <- L. apply (A 0). intros j z Hz. split; [rewrite <- L; apply nth_error_Some; cbn; congruence|]. apply H. exact Hz. }
    rewrite H0. split.
    + intros H. apply rbind_Ok in H. destruct H as (zs & Hz & H). apply GJ in Hz. destruct Hz as [L Hz]. exists M, zs. split; [discriminate|]. split; [exact Hu|]. split; [exact L|]. split; [exact Hz|]. apply reduced_apply. exact H.
    + intros (M' & zs & _ & Hu' & L & Hz & H). assert (EM : M' = M) by (inversion Hu'; congruence). rewrite EM in L.
      assert (E := proj2 (GJ zs) (conj L Hz)). rewrite E. cbn [rbind]. apply (reduced_apply (ma_metric m)). exact H.
Qed.
