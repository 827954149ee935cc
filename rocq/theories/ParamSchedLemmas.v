From Verif Require Import Base NetworkBuildLemmas ParamBuild ParamBuildSpec ParamBuildLemmas ParamEval
  ParamEvalSpec ParamEvalLemmas ParamMeaningLemmas ParamStepLemmas ParamOrderLemmas.
From Coq Require Import Permutation Relations.

Lemma map_eq_app' : forall {A B} (f : A -> B) l l1 l2, map f l = l1 ++ l2 ->
  exists k1 k2, l = k1 ++ k2 /\ map f k1 = l1 /\ map f k2 = l2.
Proof.
  intros A B f l l1. revert l. induction l1 as [|x l1 IH]; intros l l2 H; cbn [app] in H.
  - exists [], l. auto.
  - destruct l as [|a l]; [discriminate H|]. cbn [map] in H. injection H as Ha H.
    destruct (IH _ _ H) as (k1 & k2 & -> & E1 & E2). exists (a :: k1), k2. cbn [map app]. rewrite Ha, E1. auto.
Qed.

Lemma NoDup_app_r' : forall {A} (l l' : list A), NoDup (l ++ l') -> NoDup l'.
Proof.
  intros A l. induction l as [|a l IH]; intros l' H; [exact H|]. cbn [app] in H. inversion H. auto.
Qed.

(** ** The schedules. *)

Lemma options_names : forall (g : ptype * nat -> option item) (h : ptype * nat -> list pname) l its,
  (forall p it, g p = Some it -> h p = [it_name it]) ->
  options (map g l) = Some its -> flat_map h l = map it_name its.
Proof.
  intros g h l. induction l as [|p l IH]; intros its Hg H; cbn [map options] in H.
  - injection H as <-. reflexivity.
  - destruct (g p) as [it|] eqn:E; [|discriminate H].
    destruct (options (map g l)) as [r|]; [|discriminate H]. injection H as <-.
    cbn [flat_map map]. rewrite (Hg _ _ E), (IH _ Hg eq_refl). reflexivity.
Qed.

Lemma evaluated_items : forall nodes other es c m k, trace nodes other es c m ->
  evaluated k c = map it_name (stage_items k es).
Proof.
  intros nodes other es c m k Ht. destruct (trace_orders _ _ _ _ _ Ht) as (H1 & H2 & H3 & H4).
  specialize (H1 c (fun t i e He => He)). specialize (H2 c (fun t i e He => He)).
  destruct k; cbn [evaluated].
  - eapply options_names; [|exact H1]. intros p it E. unfold const_item in E.
    destruct (nth_error _ _) as [e|]; [|discriminate E]. injection E as <-. reflexivity.
  - eapply options_names; [|exact H2]. intros p it E. unfold simple_item in E.
    destruct (nth_error _ _) as [e|]; [|discriminate E]. injection E as <-. reflexivity.
  - rewrite <- H3, map_map. reflexivity.
  - rewrite <- H4, map_map. reflexivity.
Qed.

Lemma stage_names : forall k es,
  map it_name (stage_items k es) =
  map el_name (filter (fun el => match stage_item k el with Some _ => true | None => false end) es).
Proof.
  intros k es. induction es as [|el es IH]; [reflexivity|]. unfold stage_items in *. cbn [flat_map filter].
  rewrite map_app, IH. destruct (stage_item k el) as [it|] eqn:E; [|reflexivity].
  destruct (stage_item_facts _ _ _ E) as (F1 & _). cbn [opt_list map app]. rewrite F1. reflexivity.
Qed.

Lemma stage_item_some : forall k el, idx_shape (el_idx el) (el_shape el) ->
  (stage_item k el <> None <-> in_stage k (el_shape el)).
Proof.
  intros k el H. unfold stage_item. destruct k; destruct (el_idx el) as [i|i|r];
    destruct (el_shape el) as [| |bf af]; cbn [idx_shape in_stage] in *; try contradiction;
    try (split; [intros E; exfalso; apply E; reflexivity|contradiction]);
    try (split; [intros _; exact I|intros _; discriminate]).
  - destruct H as [H _]. destruct (reg_before r); subst bf.
    + split; [reflexivity|discriminate].
    + split; [intro E; exfalso; apply E; reflexivity|discriminate].
  - destruct af as [a|].
    + split; discriminate.
    + split; intro E; exfalso; apply E; reflexivity.
Qed.

Lemma NoDup_filter_map : forall {A B} (f : A -> B) p l, NoDup (map f l) -> NoDup (map f (filter p l)).
Proof.
  intros A B f p l. induction l as [|a l IH]; intro H; [constructor|].
  inversion H as [|? ? Hn Hd]; subst. cbn [filter]. destruct (p a); [|auto].
  cbn [map]. constructor; [|auto]. intro Hin. apply Hn. apply in_map_iff in Hin. destruct Hin as (x & E & Hx).
  apply filter_In in Hx. apply in_map_iff. exists x. tauto.
Qed.

Lemma schedule_exact : forall nodes other bs c m sh,
  build nodes other bs = Some (Ok (c, m)) -> shapes_ok bs sh ->
  forall k, NoDup (evaluated k c) /\
  (forall n, In n (evaluated k c) <-> exists b, In b bs /\ pb_name b = n /\ in_stage k (sh n)).
Proof.
  intros nodes other bs c m sh Hb Hsh k.
  destruct (build_Ok _ _ _ _ _ Hb) as (Hu & es & Ht & HP).
  assert (Hin : forall el, In el es -> In (el_b el) bs).
  { intros el H. apply (Permutation_in _ (Permutation_sym HP)). apply in_map. exact H. }
  pose proof (shapes_unique _ _ _ _ _ _ _ Ht Hin Hsh) as Hs.
  rewrite (evaluated_items _ _ _ _ _ k Ht), stage_names. split.
  - apply NoDup_filter_map. exact (trace_NoDup _ _ _ _ _ Ht).
  - intro n. rewrite in_map_iff. split.
    + intros (el & <- & Hel). apply filter_In in Hel. destruct Hel as [Hel E].
      exists (el_b el). split; [exact (Hin _ Hel)|]. split; [reflexivity|]. rewrite (Hs _ Hel).
      apply (stage_item_some k el (trace_shape _ _ _ _ _ Ht _ Hel)). destruct (stage_item k el); [discriminate|discriminate E].
    + intros (b & H1 & H2 & H3). apply (Permutation_in _ HP) in H1. apply in_map_iff in H1.
      destruct H1 as (el & <- & Hel). change (pb_name (el_b el)) with (el_name el) in H2. subst n.
      exists el. split; [reflexivity|]. apply filter_In. split; [exact Hel|]. rewrite (Hs _ Hel) in H3.
      apply (stage_item_some k el (trace_shape _ _ _ _ _ Ht _ Hel)) in H3.
      destruct (stage_item k el); [reflexivity|contradiction].
Qed.

Lemma earlier_map_filter : forall es p y x,
  comes_before es y x -> In y (map el_name (filter p es)) -> In x (map el_name (filter p es)) ->
  NoDup (map el_name es) -> earlier (map el_name (filter p es)) y x.
Proof.
  intros es p y x (pre & e & post & -> & He & Hy) Iy Ix Hnd.
  apply in_map_iff in Ix. destruct Ix as (ex & Ex & Ix). apply filter_In in Ix. destruct Ix as [Ix Px].
  apply in_map_iff in Iy. destruct Iy as (ey & Ey & Iy). apply filter_In in Iy. destruct Iy as [Iy Py].
  assert (ex = e).
  { apply (NoDup_map_inj el_name _ _ _ Hnd Ix); [apply in_app_iff; right; left; reflexivity|congruence]. }
  subst ex. apply in_map_iff in Hy. destruct Hy as (ey' & Ey' & Hy).
  assert (ey' = ey).
  { apply (NoDup_map_inj el_name _ _ _ Hnd); [apply in_app_iff; left; exact Hy|exact Iy|congruence]. }
  subst ey'. apply in_split in Hy. destruct Hy as (a & b & ->).
  exists (map el_name (filter p a)), (map el_name (filter p b)), (map el_name (filter p post)).
  rewrite !filter_app. cbn [filter]. rewrite Px, Py, <- app_assoc.
  rewrite !map_app. cbn [map app]. rewrite ?map_app. cbn [map]. rewrite ?map_app. cbn [map]. rewrite Ey, Ex. reflexivity.
Qed.

Lemma schedule_order : forall nodes other bs c m,
  build nodes other bs = Some (Ok (c, m)) ->
  forall k x y, depends bs x y -> In x (evaluated k c) -> In y (evaluated k c) ->
  earlier (evaluated k c) y x.
Proof.
  intros nodes other bs c m Hb k x y Hd Hx Hy.
  destruct (build_Ok _ _ _ _ _ Hb) as (Hu & es & Ht & HP).
  rewrite (evaluated_items _ _ _ _ _ k Ht), stage_names in *.
  apply earlier_map_filter; try assumption; [|exact (trace_NoDup _ _ _ _ _ Ht)].
  apply (trace_depends _ _ _ _ _ _ _ Ht). exact (depends_perm _ _ _ _ HP Hd).
Qed.

Lemma shapes_exist : forall nodes other bs c m,
  build nodes other bs = Some (Ok (c, m)) -> exists sh, shapes_ok bs sh.
Proof.
  intros nodes other bs c m Hb. destruct (build_Ok _ _ _ _ _ Hb) as (Hu & es & Ht & HP).
  exists (shape_in es). exact (trace_shapes_ok _ _ _ _ _ _ Ht HP).
Qed.

(** ** Indices. *)

Lemma metric_slot_range : forall c mt,
  (forall s, metric_slot mt = Some s -> slot_in c s) -> metric_in_range c mt.
Proof.
  intros c mt H. destruct mt; cbn [metric_in_range metric_slot] in *; auto; exact (H _ eq_refl).
Qed.

Lemma resolve_range : forall nodes other es c m u ph mt,
  trace nodes other es c m -> resolve m u ph = Ok mt -> metric_in_range c mt.
Proof.
  intros nodes other es c m u ph mt Ht H. destruct (names_param_dec u) as [[n Hn]|Hn].
  - destruct (resolve_found _ _ _ _ _ _ _ _ _ Ht Hn H) as (el & H1 & H2 & H3 & H4).
    pose proof (ref_access_type u _ (ex_intro _ n Hn) H3) as Hat.
    destruct (resolve_index_slot _ _ _ _ _ _ _ H4 Hat) as (G1 & _).
    destruct (trace_slots_in _ _ _ _ _ Ht _ H1) as (S1 & S2 & _).
    apply metric_slot_range. intros s Hs. rewrite G1 in Hs. destruct (ref_rv u); [apply S1|apply S2|apply S2]; exact Hs.
  - destruct u as [k rv|k rv|k key rv|k|k|k]; cbn [names_param resolve] in *; try (exfalso; exact (Hn _ eq_refl)).
    + injection H as <-. exact I.
    + destruct (existsb _ _); [|discriminate H]. injection H as <-. exact I.
    + destruct (existsb _ _); [|discriminate H]. injection H as <-. exact I.
Qed.

Lemma stage_item_range : forall nodes other es c m k el it,
  trace nodes other es c m -> In el es -> stage_item k el = Some it -> item_in_range c it.
Proof.
  intros nodes other es c m k el it Ht Hin Hit.
  destruct (stage_item_facts _ _ _ Hit) as (F1 & F2 & F3 & F4 & F5).
  destruct (trace_slots_in _ _ _ _ _ Ht _ Hin) as (S1 & S2 & S3). split; [|split].
  - apply Forall_forall. intros mt Hmt. apply F5 in Hmt.
    pose proof (trace_metrics _ _ _ _ _ _ Ht Hin) as HF. apply in_map_iff in Hmt. destruct Hmt as (p & <- & Hp).
    destruct (Forall2_In_r _ _ _ _ HF Hp) as (r & _ & Hr & _).
    exact (resolve_range _ _ _ _ _ _ _ _ Ht Hr).
  - rewrite <- F4 in S3. unfold it_islot in S3. exact S3.
  - assert (S : forall s, it_slot it = Some s -> slot_in c s).
    { intros s Hs. rewrite F3 in Hs. unfold stage_slot in Hs. destruct k; [apply S1|apply S1|apply S1|apply S2]; exact Hs. }
    unfold it_slot in S. destruct (it_out it); [|exact I]. specialize (S _ eq_refl). exact S.
Qed.

Lemma indices_in_range : forall nodes other bs c m,
  build nodes other bs = Some (Ok (c, m)) ->
  (exists its, schedule_items c = Some its /\ Forall (item_in_range c) its) /\
  (forall u ph mt, resolve m u ph = Ok mt -> metric_in_range c mt).
Proof.
  intros nodes other bs c m Hb. destruct (build_Ok _ _ _ _ _ Hb) as (Hu & es & Ht & HP). split.
  - destruct (trace_orders _ _ _ _ _ Ht) as (H1 & H2 & H3 & H4).
    specialize (H1 c (fun t i e He => He)). specialize (H2 c (fun t i e He => He)).
    unfold schedule_items. rewrite H1, H2, H3, H4. eexists. split; [reflexivity|].
    apply Forall_forall. intros it Hit. rewrite !in_app_iff in Hit.
    assert (Hk : exists k, In it (stage_items k es)) by (destruct Hit as [H|[H|[H|H]]]; eauto).
    destruct Hk as [k Hk]. apply in_stage_items in Hk. destruct Hk as (el & Hin & Hk).
    exact (stage_item_range _ _ _ _ _ _ _ _ Ht Hin Hk).
  - intros u ph mt H. exact (resolve_range _ _ _ _ _ _ _ _ Ht H).
Qed.

(** ** Outcomes of the build. *)

Lemma outcome : forall nodes other bs, exists r, build nodes other bs = Some r /\ build_spec nodes other bs r.
Proof. exact build_cases. Qed.

Lemma build_terminates : forall nodes other bs, exists r,
  forall fuel, length bs < fuel -> build_fuel fuel nodes other bs = Some r.
Proof.
  intros nodes other bs. destruct (build_cases nodes other bs) as (r & H & _). exists r.
  intros fuel Hf. apply build_fuel_enough; assumption.
Qed.

Lemma build_no_panic : forall nodes other bs, build nodes other bs <> Some Panic.
Proof.
  intros nodes other bs H. destruct (outcome nodes other bs) as (r & E & Hs). rewrite E in H.
  apply Some_inj' in H. subst r. destruct Hs as [_ []].
Qed.

Lemma build_success : forall nodes other bs c m,
  build nodes other bs = Some (Ok (c, m)) -> unique_names bs /\ all_defined bs /\ acyclic bs.
Proof.
  intros nodes other bs c m Hb. destruct (build_Ok _ _ _ _ _ Hb) as (Hu & es & Ht & HP).
  split; [exact Hu|]. split.
  - apply (all_defined_perm (map el_b es)); [apply Permutation_sym; exact HP|exact (trace_all_defined _ _ _ _ _ Ht)].
  - apply (acyclic_perm (map el_b es)); [apply Permutation_sym; exact HP|exact (trace_acyclic _ _ _ _ _ Ht)].
Qed.

Lemma build_duplicate : forall nodes other bs,
  (exists n, build nodes other bs = Some (Err (DuplicateName n))) <-> ~ unique_names bs.
Proof.
  intros nodes other bs. destruct (outcome nodes other bs) as (r & E & Hs). rewrite E. split.
  - intros (n & H). apply Some_inj' in H. subst r. destruct Hs as (l1 & l2 & E1 & E2). intro Hu.
    unfold unique_names in Hu. rewrite E1 in Hu. apply NoDup_remove_2 in Hu. apply Hu. apply in_app_iff. left. exact E2.
  - intro Hn. destruct r as [[c m]|[n|n|n|ns]|]; cbn [build_spec] in Hs; try (exfalso; apply Hn; exact (proj1 Hs)).
    exists n. reflexivity.
Qed.

Lemma build_duplicate_name : forall nodes other bs n,
  build nodes other bs = Some (Err (DuplicateName n)) ->
  exists b1 b2 l1 l2 l3, bs = l1 ++ b1 :: l2 ++ b2 :: l3 /\ pb_name b1 = n /\ pb_name b2 = n.
Proof.
  intros nodes other bs n H. destruct (outcome nodes other bs) as (r & E & Hs). rewrite E in H.
  apply Some_inj' in H. subst r. destruct Hs as (l1 & l2 & E1 & E2).
  apply map_eq_app' in E1. destruct E1 as (k1 & k2 & -> & <- & E3).
  destruct k2 as [|b2 k2]; [discriminate E3|]. cbn [map] in E3. injection E3 as E3 _.
  apply in_map_iff in E2. destruct E2 as (b1 & Eb & Hin). apply in_split in Hin. destruct Hin as (a & b & ->).
  exists b1, b2, a, b, k2. rewrite <- app_assoc. cbn [app]. auto.
Qed.

Lemma build_not_found : forall nodes other bs n,
  build nodes other bs = Some (Err (NotFound n)) ->
  exists b u ph, In b bs /\ In (u, ph) (pb_refs b) /\ names_param u n /\ ~ ref_defined bs u.
Proof.
  intros nodes other bs n H. destruct (outcome nodes other bs) as (r & E & Hs). rewrite E in H.
  apply Some_inj' in H. subst r. cbn [build_spec loop_result] in Hs.
  destruct Hs as (_ & es' & c0 & m0 & lf & Ht0 & HP0 & _ & Hlf & Es). symmetry in Es. cbn [app] in Ht0.
  destruct (stuck_not_found _ _ Es) as (b & Hin & Hno).
  pose proof (build1_retry _ _ _ (Hlf _ _ Hin)) as (u & ph & Hu1 & Hr).
  destruct (resolve_missing _ _ _ _ _ _ _ _ Ht0 Hr) as [Hnm Hna].
  exists b, u, ph. split; [|split; [exact Hu1|split; [exact Hnm|]]].
  - apply (Permutation_in _ (Permutation_sym HP0)). apply in_app_iff. right. apply in_map_iff. exists (b, n). auto.
  - intro Hd. destruct (Hd n Hnm) as (b2 & Hb2 & En & Hacc).
    apply (Permutation_in _ HP0) in Hb2. apply in_app_iff in Hb2. destruct Hb2 as [Hb2|Hb2].
    + apply in_map_iff in Hb2. destruct Hb2 as (el & <- & Hel). exact (Hna el Hel En Hacc).
    + apply Hno. apply in_map_iff in Hb2. destruct Hb2 as ([b3 k] & E3 & Hb3). cbn in E3. subst b3.
      apply in_map_iff. exists (b2, k). auto.
Qed.

Lemma build_circular : forall nodes other bs ns,
  build nodes other bs = Some (Err (Circular ns)) ->
  NoDup ns /\ (forall n, In n ns -> In n (map pb_name bs)) /\ cycle_within bs ns.
Proof.
  intros nodes other bs ns H. destruct (outcome nodes other bs) as (r & E & Hs). rewrite E in H.
  apply Some_inj' in H. subst r. cbn [build_spec loop_result] in Hs.
  destruct Hs as (Hu & es' & c0 & m0 & lf & Ht0 & HP0 & Hne & Hlf & Es). symmetry in Es. cbn [app] in Ht0.
  destruct (stuck_circular _ _ Es) as [-> Hcl].
  assert (Hin : forall b n, In (b, n) lf -> In b bs).
  { intros b n Hb. apply (Permutation_in _ (Permutation_sym HP0)). apply in_app_iff. right.
    apply in_map_iff. exists (b, n). auto. }
  split; [|split].
  - assert (Hnd : NoDup (map pb_name (map el_b es') ++ map pb_name (map fst lf))).
    { rewrite <- map_app. exact (Permutation_NoDup (Permutation_map _ HP0) Hu). }
    rewrite map_map in Hnd. apply NoDup_app_r' in Hnd. rewrite map_map in Hnd. exact Hnd.
  - intros n Hn. apply in_map_iff in Hn. destruct Hn as ([b k] & <- & Hb). apply in_map. exact (Hin _ _ Hb).
  - set (ns := map (fun p : pbuilder * pname => pb_name (fst p)) lf) in *.
    destruct (finite_cycle (fun x y => In x ns /\ In y ns /\ depends bs x y) ns) as (x & Hx & Hc).
    + destruct lf; [contradiction|discriminate].
    + intros x Hx. pose proof Hx as Hx0. unfold ns in Hx. apply in_map_iff in Hx. destruct Hx as ([b n] & Ex & Hb).
      exists n. split; [exact (Hcl _ _ Hb)|]. split; [exact Hx0|]. split; [exact (Hcl _ _ Hb)|]. cbn [fst] in Ex. subst x.
      pose proof (build1_retry _ _ _ (Hlf _ _ Hb)) as (u & ph & Hu1 & Hr).
      destruct (resolve_missing _ _ _ _ _ _ _ _ Ht0 Hr) as [Hnm _].
      exists b. split; [exact (Hin _ _ Hb)|]. split; [reflexivity|exists u, ph; auto].
    + exists x. auto.
Qed.

Lemma cycle_within_cyclic : forall bs ns, cycle_within bs ns -> ~ acyclic bs.
Proof.
  intros bs ns (x & _ & Hc) Ha. apply (Ha x). revert Hc. apply clos_trans_mono. tauto.
Qed.

Lemma build_iff : forall nodes other bs,
  (forall n, build nodes other bs <> Some (Err (BuildFailed n))) ->
  ((exists c m, build nodes other bs = Some (Ok (c, m))) <->
   (unique_names bs /\ all_defined bs /\ acyclic bs)).
Proof.
  intros nodes other bs Hnf. split.
  - intros (c & m & H). exact (build_success _ _ _ _ _ H).
  - intros (Hu & Hd & Ha). destruct (outcome nodes other bs) as (r & E & _).
    destruct r as [[c m]|[n|n|n|ns]|].
    + eauto.
    + exfalso. apply (proj1 (build_duplicate nodes other bs)); eauto.
    + exfalso. exact (Hnf n E).
    + exfalso. destruct (build_not_found _ _ _ _ E) as (b & u & ph & H1 & H2 & _ & H4). apply H4. exact (Hd b u ph H1 H2).
    + exfalso. destruct (build_circular _ _ _ _ E) as (_ & _ & Hc). exact (cycle_within_cyclic _ _ Hc Ha).
    + exfalso. exact (build_no_panic _ _ _ E).
Qed.

(** A parameter that fails does so for a reason of its own: its definition, or
    a reference that names no node, or the wrong phase of a parameter. *)
Lemma resolve_refs_fail : forall m rs, resolve_refs m rs = Err B1Fail ->
  exists u ph e, In (u, ph) rs /\ resolve m u ph = Err e /\ (forall n, e <> RNotFound n).
Proof.
  intros m rs. induction rs as [|[u ph] rs IH]; cbn [resolve_refs]; intro H; [discriminate H|].
  destruct (resolve m u ph) as [mt|e|] eqn:E.
  - destruct (resolve_refs m rs) as [l|e|]; try discriminate H. injection H as ->.
    destruct (IH eq_refl) as (u' & ph' & e' & H1 & H2 & H3). exists u', ph', e'. split; [right; exact H1|auto].
  - destruct e as [n|n|]; [discriminate H| |].
    + exists u, ph, (RWrongPhase n). split; [left; reflexivity|]. split; [exact E|]. intros k F. discriminate F.
    + exists u, ph, ROtherErr. split; [left; reflexivity|]. split; [exact E|]. intros k F. discriminate F.
  - discriminate H.
Qed.

(** ** Phases. *)

Lemma before_metric_phase : forall m u ph mt, resolve m u ph = Ok mt -> ph <> CAfter ->
  match mt with
  | MAfterP _ _ => exists n, ref_target u = Some (n, RVAfterOrInitial)
  | _ => True
  end.
Proof.
  intros m u ph mt H Hph.
  assert (G : forall n a idx rv, resolve_index n a idx rv ph = Ok mt ->
            match mt with MAfterP _ _ => rv = RVAfterOrInitial | _ => True end).
  { intros n a idx rv E. unfold resolve_index in E.
    destruct idx as [i|i|r]; [destruct rv; try discriminate E; injection E as <-; exact I
                             |destruct rv; try discriminate E; injection E as <-; exact I|].
    destruct rv; destruct ph; try discriminate E; try contradiction;
      first [destruct (reg_before r); [|discriminate E]; injection E as <-; exact I
            |destruct (reg_after r); [|discriminate E]; injection E as <-; reflexivity]. }
  destruct u as [k rv|k rv|k key rv|k|k|k]; cbn [resolve ref_target] in *.
  - destruct (lookup (mp_f64 m) k) as [i|].
    + specialize (G _ _ _ _ H). destruct mt; try exact I. subst rv. eauto.
    + destruct (lookup (mp_u64 m) k) as [i|]; [|discriminate H].
      specialize (G _ _ _ _ H). destruct mt; try exact I. subst rv. eauto.
  - destruct (lookup (mp_u64 m) k) as [i|]; [|discriminate H].
    specialize (G _ _ _ _ H). destruct mt; try exact I. subst rv. eauto.
  - destruct (lookup (mp_multi m) k) as [i|]; [|discriminate H].
    specialize (G _ _ _ _ H). destruct mt; try exact I. subst rv. eauto.
  - injection H as <-. exact I.
  - destruct (existsb _ _); [|discriminate H]. injection H as <-. exact I.
  - destruct (existsb _ _); [|discriminate H]. injection H as <-. exact I.
Qed.

Lemma after_rejected : forall m u ph n, ref_target u = Some (n, RVAfter) -> ph <> CAfter ->
  forall mt, resolve m u ph <> Ok mt.
Proof.
  intros m u ph n Ht Hph mt H.
  assert (G : forall k a idx, resolve_index k a idx RVAfter ph <> Ok mt).
  { intros k a idx E. unfold resolve_index in E. destruct idx; try discriminate E. destruct ph; try discriminate E. contradiction. }
  destruct u as [k rv|k rv|k key rv|k|k|k]; cbn [resolve ref_target] in *; try discriminate Ht; injection Ht as -> ->.
  - destruct (lookup (mp_f64 m) n); [exact (G _ _ _ H)|]. destruct (lookup (mp_u64 m) n); [exact (G _ _ _ H)|discriminate H].
  - destruct (lookup (mp_u64 m) n); [exact (G _ _ _ H)|discriminate H].
  - destruct (lookup (mp_multi m) n); [exact (G _ _ _ H)|discriminate H].
Qed.

Lemma after_rejected_build : forall nodes other bs c m b u ph n,
  build nodes other bs = Some (Ok (c, m)) -> In b bs -> In (u, ph) (pb_refs b) ->
  ref_target u = Some (n, RVAfter) -> ph = CAfter.
Proof.
  intros nodes other bs c m b u ph n Hb Hin Hr Ht.
  destruct (build_Ok _ _ _ _ _ Hb) as (Hu & es & Htr & HP).
  apply (Permutation_in _ HP) in Hin. apply in_map_iff in Hin. destruct Hin as (el & <- & Hel).
  pose proof (trace_metrics _ _ _ _ _ _ Htr Hel) as HF.
  destruct (Forall2_In_l _ _ _ _ HF Hr) as (p & _ & Hp & _). cbn [fst snd] in Hp.
  destruct ph; [|reflexivity|].
  - exfalso. refine (after_rejected _ _ _ _ Ht _ _ Hp). discriminate.
  - exfalso. refine (after_rejected _ _ _ _ Ht _ _ Hp). discriminate.
Qed.

Section Frame.

Context {V St Env Net Er : Type}.
Variable sm : sem V St Env Net Er.
Variable nw : network.

Notation pst := (pstate V St Net).

Lemma run_items_stage : forall f its (st st' : pst) k,
  run_items sm nw f its st = Ok st' -> (forall it, In it its -> it_stage it <> k) ->
  forall t i, ps_val st' k t i = ps_val st k t i.
Proof.
  intros f its. induction its as [|it its IH]; intros st st' k H Hk t i; cbn [run_items] in H.
  - injection H as <-. reflexivity.
  - destruct (eval_item sm nw (f it) it st) as [st1|e|] eqn:E; try discriminate H.
    rewrite (IH _ _ k H (fun x Hx => Hk x (or_intror Hx)) t i).
    unfold eval_item in E. destruct (f it _ _ _) as [[v x]|e|]; try discriminate E.
    assert (Hs : stage_eqb (it_stage it) k = false).
    { specialize (Hk it (or_introl eq_refl)). destruct (it_stage it), k; cbn; try reflexivity; exfalso; apply Hk; reflexivity. }
    destruct v as [v|]; [destruct (it_out it) as [o|]|]; injection E as <-; cbn [ps_val set_val set_int]; try reflexivity.
    rewrite Hs. reflexivity.
Qed.

Lemma options_In : forall {A B} (g : A -> option B) l r x, options (map g l) = Some r -> In x r ->
  exists a, In a l /\ g a = Some x.
Proof.
  intros A B g l. induction l as [|a l IH]; intros r x H Hin; cbn [map options] in H.
  - injection H as <-. destruct Hin.
  - destruct (g a) as [y|] eqn:E; [|discriminate H]. destruct (options (map g l)) as [r'|] eqn:E'; [|discriminate H].
    injection H as <-. destruct Hin as [<-|Hin]; [exists a; split; [left; reflexivity|exact E]|].
    destruct (IH _ _ eq_refl Hin) as (a' & H1 & H2). exists a'. split; [right; exact H1|exact H2].
Qed.

Lemma simple_keeps_after : forall c env (st st1 : pst),
  compute_simple sm nw c env st = Ok st1 -> forall t i, ps_val st1 StAfter t i = ps_val st StAfter t i.
Proof.
  intros c env st st1 H. unfold compute_simple in H. destruct (options _) as [its|] eqn:E; [|discriminate H].
  apply (run_items_stage _ _ _ _ _ H). intros it Hit. destruct (options_In _ _ _ _ E Hit) as (p & _ & Hp).
  unfold simple_item in Hp. destruct (nth_error _ _); [|discriminate Hp]. injection Hp as <-. discriminate.
Qed.

Lemma const_keeps_after : forall c (st st1 : pst),
  compute_const sm nw c st = Ok st1 -> forall t i, ps_val st1 StAfter t i = ps_val st StAfter t i.
Proof.
  intros c st st1 H. unfold compute_const in H. destruct (options _) as [its|] eqn:E; [|discriminate H].
  apply (run_items_stage _ _ _ _ _ H). intros it Hit. destruct (options_In _ _ _ _ E Hit) as (p & _ & Hp).
  unfold const_item in Hp. destruct (nth_error _ _); [|discriminate Hp]. injection Hp as <-. discriminate.
Qed.

Lemma firstn_In : forall {A} j (l : list A) x, In x (firstn j l) -> In x l.
Proof. intros A j l x H. rewrite <- (firstn_skipn j l). apply in_app_iff. left. exact H. Qed.

Lemma before_solve_after_values : forall c env st st',
  before_solve sm nw c env st st' -> forall a i,
  read_metric sm nw st' (MAfterP a i) = read_metric sm nw st (MAfterP a i).
Proof.
  intros c env st st' H a i. rewrite !read_plain by exact I. cbn [metric_slot get]. f_equal.
  destruct H as [(its & j & E & H)|(st1 & net1 & j & E & H)].
  - apply (run_items_stage _ _ _ _ _ H). intros it Hit. apply firstn_In in Hit.
    destruct (options_In _ _ _ _ E Hit) as (p & _ & Hp).
    unfold simple_item in Hp. destruct (nth_error _ _); [|discriminate Hp]. injection Hp as <-. discriminate.
  - rewrite (run_items_stage _ _ _ _ StAfter H).
    + cbn [set_net ps_val]. exact (simple_keeps_after _ _ _ _ E _ _).
    + intros it Hit. apply firstn_In in Hit. apply in_map_iff in Hit. destruct Hit as (b & <- & _). discriminate.
Qed.

Lemma setup_after_values : forall c st, setup sm nw c = Ok st -> forall a i,
  read_metric sm nw st (MAfterP a i) = sm_view sm a (sm_default sm (access_type a)).
Proof.
  intros c st H a i. rewrite read_plain by exact I. cbn [metric_slot get]. f_equal.
  unfold setup in H. rewrite (const_keeps_after _ _ _ H). reflexivity.
Qed.

End Frame.
