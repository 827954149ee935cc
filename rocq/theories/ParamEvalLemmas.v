From Verif Require Import Base ParamBuild ParamBuildSpec ParamBuildLemmas ParamEval ParamEvalSpec.
From Coq Require Import Permutation.

(** ** Slots. *)

Definition slot := (stage * ptype * nat)%type.
Definition islot := (pclass * ptype * nat)%type.

Definition slot_eqb (a b : slot) : bool :=
  match a, b with (s, t, i), (s', t', i') => stage_eqb s s' && ptype_eqb t t' && (i =? i') end.

Definition islot_eqb (a b : islot) : bool :=
  match a, b with (s, t, i), (s', t', i') => pclass_eqb s s' && ptype_eqb t t' && (i =? i') end.

Lemma slot_eqb_spec : forall a b, slot_eqb a b = true <-> a = b.
Proof.
  intros [[s t] i] [[s' t'] i']. cbn. rewrite !andb_true_iff, ptype_eqb_spec, Nat.eqb_eq. split.
  - intros [[H1 ->] ->]. destruct s, s'; try discriminate H1; reflexivity.
  - intro H. injection H as <- <- <-. destruct s; auto.
Qed.

Lemma islot_eqb_spec : forall a b, islot_eqb a b = true <-> a = b.
Proof.
  intros [[s t] i] [[s' t'] i']. cbn. rewrite !andb_true_iff, ptype_eqb_spec, Nat.eqb_eq. split.
  - intros [[H1 ->] ->]. destruct s, s'; try discriminate H1; reflexivity.
  - intro H. injection H as <- <- <-. destruct s; auto.
Qed.

Definition val_slot_of (t : ptype) (idx : pindex) : option slot :=
  match idx with
  | IConst i => Some (StConst, t, i)
  | ISimple i => Some (StSimple, t, i)
  | IGeneral r => match reg_before r with Some o => Some (StBefore, t, o) | None => None end
  end.

Definition after_slot_of (t : ptype) (idx : pindex) : option slot :=
  match idx with
  | IGeneral r => match reg_after r with Some o => Some (StAfter, t, o) | None => None end
  | _ => None
  end.

Definition int_slot_of (t : ptype) (idx : pindex) : islot :=
  match idx with
  | IConst i => (ClConst, t, i)
  | ISimple i => (ClSimple, t, i)
  | IGeneral r => (ClGeneral, t, reg_param r)
  end.

Definition val_slot (el : elem) := val_slot_of (el_type el) (el_idx el).
Definition after_slot (el : elem) := after_slot_of (el_type el) (el_idx el).
Definition int_slot (el : elem) := int_slot_of (el_type el) (el_idx el).

(** The index is within the space the collection asks for. *)
Definition slot_in (c : collection) (s : slot) : Prop :=
  match s with
  | (StConst, t, i) => i < length (c_const c t)
  | (StSimple, t, i) => i < length (c_simple c t)
  | (StBefore, t, i) => i < c_num_before c t
  | (StAfter, t, i) => i < c_num_after c t
  end.

Definition islot_in (c : collection) (s : islot) : Prop :=
  match s with
  | (ClConst, t, i) => i < length (c_const c t)
  | (ClSimple, t, i) => i < length (c_simple c t)
  | (ClGeneral, t, i) => i < length (c_general c t)
  end.

Ltac type_cases t t' :=
  let H := fresh "Hd" in
  assert (H : t = t' \/ t <> t') by (destruct t, t'; (left; reflexivity) || (right; discriminate));
  destruct H as [<-|H]; rewrite ?at_type_same, ?(at_type_other _ _ _ _ H).

Lemma push_mono : forall t e sh c c' idx, push t e sh c = (c', idx) ->
  (forall s, slot_in c s -> slot_in c' s) /\ (forall s, islot_in c s -> islot_in c' s).
Proof.
  intros t e sh c c' idx H.
  destruct sh as [| |bf af]; cbn [push push_const push_simple push_general] in H; injection H as <- <-.
  - split; intros [[[] t'] i]; cbn [slot_in islot_in c_const c_simple c_general c_num_before c_num_after]; intro Hi; try exact Hi; type_cases t t'; rewrite ?app_length; cbn; lia.
  - split; intros [[[] t'] i]; cbn [slot_in islot_in c_const c_simple c_general c_num_before c_num_after]; intro Hi; try exact Hi; type_cases t t'; rewrite ?app_length; cbn; lia.
  - split; intros [[[] t'] i]; cbn [slot_in islot_in c_const c_simple c_general c_num_before c_num_after]; intro Hi; try exact Hi.
    + destruct bf; [|exact Hi]. type_cases t t'; lia.
    + destruct af as [[]|]; try exact Hi. type_cases t t'; lia.
    + type_cases t t'; rewrite ?app_length; cbn; lia.
Qed.

Lemma push_fresh : forall t e sh c c' idx, push t e sh c = (c', idx) ->
  (forall s, val_slot_of t idx = Some s -> ~ slot_in c s /\ slot_in c' s) /\
  (forall s, after_slot_of t idx = Some s -> ~ slot_in c s /\ slot_in c' s) /\
  (~ islot_in c (int_slot_of t idx) /\ islot_in c' (int_slot_of t idx)).
Proof.
  intros t e sh c c' idx H.
  destruct sh as [| |bf af]; cbn [push push_const push_simple push_general] in H; injection H as <- <-.
  - split; [|split].
    + intros s Hs. injection Hs as <-. cbn [slot_in c_const]. rewrite at_type_same, app_length. cbn. lia.
    + intros s Hs. discriminate Hs.
    + cbn [islot_in int_slot_of c_const]. rewrite at_type_same, app_length. cbn. lia.
  - split; [|split].
    + intros s Hs. injection Hs as <-. cbn [slot_in c_simple]. rewrite at_type_same, app_length. cbn. lia.
    + intros s Hs. discriminate Hs.
    + cbn [islot_in int_slot_of c_simple]. rewrite at_type_same, app_length. cbn. lia.
  - cbn [val_slot_of after_slot_of int_slot_of reg_before reg_after reg_param]. split; [|split].
    + intros s Hs. destruct bf; [|discriminate Hs]. injection Hs as <-. cbn [slot_in c_num_before]. rewrite at_type_same. lia.
    + intros s Hs. destruct af as [[]|]; try discriminate Hs. injection Hs as <-. cbn [slot_in c_num_after]. rewrite at_type_same. lia.
    + cbn [islot_in c_general]. rewrite at_type_same, app_length. cbn. lia.
Qed.

Lemma trace_slots_in : forall nodes other es c m, trace nodes other es c m ->
  forall el, In el es ->
  (forall s, val_slot el = Some s -> slot_in c s) /\
  (forall s, after_slot el = Some s -> slot_in c s) /\ islot_in c (int_slot el).
Proof.
  intros nodes other es c m H. induction H as [|es c m b e sh c' idx Ht IH Hn Hb Hp]; intros el Hin.
  - destruct Hin.
  - destruct (push_mono _ _ _ _ _ _ Hp) as [Hm1 Hm2].
    apply in_app_iff in Hin. destruct Hin as [Hin|[<-|[]]].
    + destruct (IH _ Hin) as (H1 & H2 & H3). repeat split; auto.
    + destruct (push_fresh _ _ _ _ _ _ Hp) as (H1 & H2 & H3). repeat split.
      * intros s Hs. apply H1. exact Hs.
      * intros s Hs. apply H2. exact Hs.
      * apply H3.
Qed.

Lemma trace_slots_inj : forall nodes other es c m, trace nodes other es c m ->
  forall e1 e2, In e1 es -> In e2 es ->
  (forall s, val_slot e1 = Some s -> val_slot e2 = Some s -> e1 = e2) /\
  (forall s, after_slot e1 = Some s -> after_slot e2 = Some s -> e1 = e2) /\
  (int_slot e1 = int_slot e2 -> e1 = e2).
Proof.
  intros nodes other es c m H. induction H as [|es c m b e sh c' idx Ht IH Hn Hb Hp]; intros e1 e2 Hi1 Hi2.
  - destruct Hi1.
  - destruct (push_fresh _ _ _ _ _ _ Hp) as (F1 & F2 & F3).
    apply in_app_iff in Hi1. apply in_app_iff in Hi2.
    destruct Hi1 as [Hi1|[<-|[]]]; destruct Hi2 as [Hi2|[<-|[]]].
    + apply IH; assumption.
    + destruct (trace_slots_in _ _ _ _ _ Ht _ Hi1) as (S1 & S2 & S3). split; [|split].
      * intros s H1 H2. exfalso. exact (proj1 (F1 _ H2) (S1 _ H1)).
      * intros s H1 H2. exfalso. exact (proj1 (F2 _ H2) (S2 _ H1)).
      * intro H1. exfalso. rewrite H1 in S3. exact (proj1 F3 S3).
    + destruct (trace_slots_in _ _ _ _ _ Ht _ Hi2) as (S1 & S2 & S3). split; [|split].
      * intros s H1 H2. exfalso. exact (proj1 (F1 _ H1) (S1 _ H2)).
      * intros s H1 H2. exfalso. exact (proj1 (F2 _ H1) (S2 _ H2)).
      * intro H1. exfalso. rewrite <- H1 in S3. exact (proj1 F3 S3).
    + auto.
Qed.

(** ** The index of a parameter and what it is. *)

Definition idx_shape (idx : pindex) (sh : shape) : Prop :=
  match idx, sh with
  | IConst _, ShConst => True
  | ISimple _, ShSimple => True
  | IGeneral r, ShGeneral bf af =>
      (match reg_before r with Some _ => bf = true | None => bf = false end) /\
      (match reg_after r with Some _ => af = Some OpValue | None => af <> Some OpValue end)
  | _, _ => False
  end.

Lemma push_shape : forall t e sh c c' idx, push t e sh c = (c', idx) -> idx_shape idx sh.
Proof.
  intros t e sh c c' idx H.
  destruct sh as [| |bf af]; cbn [push push_const push_simple push_general] in H; injection H as <- <-; cbn; auto.
  split; [destruct bf; reflexivity|]. destruct af as [[]|]; try reflexivity; discriminate.
Qed.

Lemma trace_shape : forall nodes other es c m, trace nodes other es c m ->
  forall el, In el es -> idx_shape (el_idx el) (el_shape el).
Proof.
  intros nodes other es c m H. induction H as [|es c m b e sh c' idx Ht IH Hn Hb Hp]; intros el Hin.
  - destruct Hin.
  - apply in_app_iff in Hin. destruct Hin as [Hin|[<-|[]]]; [auto|]. exact (push_shape _ _ _ _ _ _ Hp).
Qed.

(** ** The evaluations of a parameter. *)

Definition opt_list {A} (o : option A) : list A := match o with Some x => [x] | None => [] end.

Definition stage_item (k : stage) (el : elem) : option item :=
  match k, el_idx el with
  | StConst, IConst i =>
      Some (Item (el_name el) (map fst (e_metrics (el_entry el))) StConst (el_type el) (Some i) ClConst i)
  | StSimple, ISimple i =>
      Some (Item (el_name el) (map fst (e_metrics (el_entry el))) StSimple (el_type el) (Some i) ClSimple i)
  | StBefore, IGeneral r =>
      match reg_before r with
      | Some o => Some (Item (el_name el) (before_metrics (el_entry el)) StBefore (el_type el) (Some o) ClGeneral (reg_param r))
      | None => None
      end
  | StAfter, IGeneral r =>
      match el_shape el with
      | ShGeneral _ (Some _) =>
          Some (Item (el_name el) (map fst (e_metrics (el_entry el))) StAfter (el_type el) (reg_after r) ClGeneral (reg_param r))
      | _ => None
      end
  | _, _ => None
  end.

Definition stage_items (k : stage) (es : list elem) : list item :=
  flat_map (fun el => opt_list (stage_item k el)) es.

Lemma options_app : forall {A} (l1 l2 : list (option A)) r1 r2,
  options l1 = Some r1 -> options l2 = Some r2 -> options (l1 ++ l2) = Some (r1 ++ r2).
Proof.
  induction l1 as [|[x|] l1 IH]; intros l2 r1 r2 H1 H2; cbn [options app] in *.
  - injection H1 as <-. exact H2.
  - destruct (options l1) as [r|]; [|discriminate H1]. injection H1 as <-.
    rewrite (IH l2 r r2 eq_refl H2). reflexivity.
  - discriminate H1.
Qed.

Definition vec_le (v v' : ptype -> list entry) : Prop :=
  forall t i e, nth_error (v t) i = Some e -> nth_error (v' t) i = Some e.

Lemma vec_le_at : forall t (e : entry) v, vec_le v (at_type t (fun l => l ++ [e]) v).
Proof.
  intros t e v t' i x H. type_cases t t'; [|exact H].
  rewrite nth_error_app1; [exact H|]. apply nth_error_Some. rewrite H. discriminate.
Qed.

Lemma push_vec : forall t e sh c c' idx, push t e sh c = (c', idx) ->
  vec_le (c_const c) (c_const c') /\ vec_le (c_simple c) (c_simple c') /\
  vec_le (c_general c) (c_general c').
Proof.
  intros t e sh c c' idx H.
  destruct sh as [| |bf af]; cbn [push push_const push_simple push_general] in H; injection H as <- <-; cbn;
    repeat split; try (intros ? ? ? Hx; exact Hx); apply vec_le_at.
Qed.

Lemma trace_orders : forall nodes other es c m, trace nodes other es c m ->
  (forall cf, vec_le (c_const c) (c_const cf) ->
     options (map (const_item cf) (c_const_order c)) = Some (stage_items StConst es)) /\
  (forall cf, vec_le (c_simple c) (c_simple cf) ->
     options (map (simple_item cf) (c_simple_order c)) = Some (stage_items StSimple es)) /\
  map before_item (c_before_order c) = stage_items StBefore es /\
  map after_item (c_after_order c) = stage_items StAfter es.
Proof.
  intros nodes other es c m H. induction H as [|es c m b e sh c' idx Ht IH Hn Hb Hp].
  - repeat split; reflexivity.
  - destruct IH as (I1 & I2 & I3 & I4).
    pose proof (build1_name _ _ _ _ Hb) as Hnm.
    pose proof (push_vec _ _ _ _ _ _ Hp) as (V1 & V2 & _).
    assert (T : forall v1 v2 v3 : ptype -> list entry, vec_le v1 v2 -> vec_le v2 v3 -> vec_le v1 v3).
    { intros v1 v2 v3 H1 H2 t i x Hx. apply H2, H1, Hx. }
    unfold stage_items. rewrite !flat_map_app. fold (stage_items StConst es) (stage_items StSimple es)
      (stage_items StBefore es) (stage_items StAfter es). cbn [flat_map].
    rewrite !app_nil_r.
    destruct sh as [| |bf af]; cbn [push push_const push_simple push_general] in Hp; injection Hp as <- <-;
      cbn [c_const_order c_simple_order c_before_order c_after_order c_const c_simple] in *;
      unfold stage_item, el_name, el_type; cbn [el_b el_idx el_entry el_shape opt_list reg_before reg_after reg_param];
      rewrite ?app_nil_r.
    + split; [|split; [|split]]; try assumption.
      * intros cf Hcf. rewrite map_app. apply options_app; [apply I1; exact (T _ _ _ V1 Hcf)|].
        cbn [map options]. unfold const_item. cbn [fst snd].
        rewrite (Hcf (pb_type b) (length (c_const c (pb_type b))) e).
        { rewrite Hnm. reflexivity. }
        rewrite at_type_same, nth_error_app2, Nat.sub_diag by lia. reflexivity.
    + split; [|split; [|split]]; try assumption.
      * intros cf Hcf. rewrite map_app. apply options_app; [apply I2; exact (T _ _ _ V2 Hcf)|].
        cbn [map options]. unfold simple_item. cbn [fst snd].
        rewrite (Hcf (pb_type b) (length (c_simple c (pb_type b))) e).
        { rewrite Hnm. reflexivity. }
        rewrite at_type_same, nth_error_app2, Nat.sub_diag by lia. reflexivity.
    + split; [|split; [|split]]; try assumption.
      * destruct bf; cbn [opt_list]; [|rewrite app_nil_r; exact I3]. rewrite map_app, I3. cbn [map].
        unfold before_item. cbn. rewrite Hnm. reflexivity.
      * destruct af as [o|]; cbn [opt_list]; [|rewrite app_nil_r; exact I4]. rewrite map_app, I4. cbn [map].
        unfold after_item. cbn. rewrite Hnm. reflexivity.
Qed.

(** ** What the metrics of a parameter read. *)

Definition metric_slot (mt : metric) : option slot :=
  match mt with
  | MConstP a i => Some (StConst, access_type a, i)
  | MSimpleP a i => Some (StSimple, access_type a, i)
  | MBeforeP a i => Some (StBefore, access_type a, i)
  | MAfterP a i => Some (StAfter, access_type a, i)
  | _ => None
  end.

Definition plain_metric (mt : metric) : Prop :=
  match mt with MNodeMaxFlow _ => False | _ => True end.

Definition rv_slot (rv : return_value) (el : elem) : option slot :=
  match rv with RVBefore => val_slot el | _ => after_slot el end.

Lemma ref_access_type : forall u t, (exists n, names_param u n) -> accepts u t ->
  access_type (ref_access u t) = t.
Proof.
  intros [k rv|k rv|k key rv|k|k|k] t [n Hn] Ha; cbn in *; try (destruct Hn; fail).
  - destruct Ha as [->| ->]; reflexivity.
  - subst. reflexivity.
  - subst. reflexivity.
Qed.

Lemma resolve_index_slot : forall n a idx rv ph mt t,
  resolve_index n a idx rv ph = Ok mt -> access_type a = t ->
  metric_slot mt = (match rv with RVBefore => val_slot_of t idx | _ => after_slot_of t idx end) /\
  metric_slot mt <> None /\
  (exists s i, metric_slot mt = Some (s, t, i)) /\ plain_metric mt.
Proof.
  intros n a idx rv ph mt t H <-. unfold resolve_index in H.
  destruct idx as [i|i|r].
  - destruct rv; try discriminate H. injection H as <-. cbn. repeat split; try discriminate. eauto.
  - destruct rv; try discriminate H. injection H as <-. cbn. repeat split; try discriminate. eauto.
  - cbn [val_slot_of after_slot_of].
    destruct rv; destruct ph; try discriminate H;
      first [destruct (reg_before r) eqn:E | destruct (reg_after r) eqn:E]; try discriminate H;
      first [injection H as <-; cbn; rewrite ?E; repeat split; try discriminate; eauto
            |destruct (reg_after r) eqn:E2; try discriminate H; injection H as <-; cbn; rewrite ?E; repeat split; try discriminate; eauto].
Qed.

Lemma trace_maps : forall nodes other es c m, trace nodes other es c m ->
  mp_nodes m = nodes /\ mp_other m = other.
Proof.
  intros nodes other es c m H. induction H as [|es c m b e sh c' idx Ht IH Hn Hb Hp]; [auto|].
  destruct (pb_type b); exact IH.
Qed.

Lemma NoDup_map_inj : forall {A B} (f : A -> B) l x y,
  NoDup (map f l) -> In x l -> In y l -> f x = f y -> x = y.
Proof.
  intros A B f l x y Hnd Hx Hy Hf. apply in_split in Hx. destruct Hx as (l1 & l2 & ->).
  rewrite map_app in Hnd. cbn [map] in Hnd. apply NoDup_remove_2 in Hnd.
  apply in_app_iff in Hy. destruct Hy as [Hy|[Hy|Hy]]; [|exact Hy|]; exfalso; apply Hnd; rewrite Hf;
    apply in_app_iff; [left|right]; apply in_map; exact Hy.
Qed.

Lemma trace_name_inj : forall nodes other es c m e1 e2, trace nodes other es c m ->
  In e1 es -> In e2 es -> el_name e1 = el_name e2 -> e1 = e2.
Proof.
  intros nodes other es c m e1 e2 Ht. apply NoDup_map_inj. exact (trace_NoDup _ _ _ _ _ Ht).
Qed.

Lemma resolve_by_elem : forall nodes other es c m el u ph,
  trace nodes other es c m -> In el es -> names_param u (el_name el) -> accepts u (el_type el) ->
  resolve m u ph =
  resolve_index (el_name el) (ref_access u (el_type el)) (el_idx el) (ref_rv u) ph.
Proof.
  intros nodes other es c m el u ph Ht Hin Hn Ha.
  pose proof (trace_lookup _ _ _ _ _ Ht) as Hl.
  assert (Hs : lookup (map_of (el_type el) m) (el_name el) = Some (el_idx el)).
  { apply Hl. exists el. auto. }
  destruct u as [k rv|k rv|k key rv|k|k|k]; cbn [names_param] in Hn; try contradiction; subst k; cbn [resolve accepts] in *.
  - destruct Ha as [Ha|Ha]; rewrite Ha in Hs; cbn [map_of] in Hs.
    + rewrite Hs, Ha. reflexivity.
    + destruct (lookup (mp_f64 m) (el_name el)) as [i|] eqn:E.
      * apply (Hl PF64) in E. destruct E as (el2 & H1 & H2 & H3 & H4).
        exfalso. assert (el2 = el) by (apply (trace_name_inj _ _ _ _ _ _ _ Ht); assumption).
        subst el2. congruence.
      * rewrite Hs, Ha. reflexivity.
  - rewrite Ha in Hs. cbn [map_of] in Hs. rewrite Hs. reflexivity.
  - rewrite Ha in Hs. cbn [map_of] in Hs. rewrite Hs. reflexivity.
Qed.

Lemma names_param_dec : forall u, (exists n, names_param u n) \/ (forall n, ~ names_param u n).
Proof. intros [k rv|k rv|k key rv|k|k|k]; cbn; eauto. Qed.

Lemma resolve_stable : forall nodes other pre post c0 m0 c m u ph mt,
  trace nodes other pre c0 m0 -> trace nodes other (pre ++ post) c m ->
  resolve m0 u ph = Ok mt -> resolve m u ph = Ok mt.
Proof.
  intros nodes other pre post c0 m0 c m u ph mt Ht0 Ht H.
  destruct (names_param_dec u) as [[n Hn]|Hn].
  - destruct (resolve_found _ _ _ _ _ _ _ _ _ Ht0 Hn H) as (el & H1 & H2 & H3 & H4).
    rewrite (resolve_by_elem _ _ _ _ _ el _ _ Ht); try (rewrite ?H2; assumption).
    apply in_app_iff. auto.
  - destruct (trace_maps _ _ _ _ _ Ht0) as [E1 E2]. destruct (trace_maps _ _ _ _ _ Ht) as [E3 E4].
    destruct u as [k rv|k rv|k key rv|k|k|k]; cbn [resolve names_param] in *;
      try (exfalso; exact (Hn _ eq_refl)).
    + exact H.
    + rewrite E3. rewrite E1 in H. exact H.
    + rewrite E4. rewrite E2 in H. exact H.
Qed.

(** The resolved metrics of a built parameter. *)
Lemma trace_metrics : forall nodes other es c m el, trace nodes other es c m -> In el es ->
  Forall2 (fun r p => resolve m (fst r) (snd r) = Ok (fst p) /\ snd p = snd r)
    (pb_refs (el_b el)) (e_metrics (el_entry el)).
Proof.
  intros nodes other es c m el Ht Hin.
  destruct (trace_split _ _ _ _ _ _ Ht Hin) as (pre & post & c0 & m0 & -> & Ht0 & Hb0).
  apply build1_Ok in Hb0. destruct Hb0 as (_ & _ & Hr & _). apply resolve_refs_Ok in Hr.
  clear Hin. induction Hr as [|r p rs mts [H1 H2] Hr IH]; constructor; [|exact IH].
  split; [|exact H2]. exact (resolve_stable _ _ _ _ _ _ _ _ _ _ _ Ht0 Ht H1).
Qed.

(** The metrics of a parameter read slots of parameters built before it. *)
Lemma trace_metric_slots : forall nodes other pre el post c m mt s,
  trace nodes other (pre ++ el :: post) c m ->
  In mt (map fst (e_metrics (el_entry el))) -> metric_slot mt = Some s ->
  exists el', In el' pre /\ (val_slot el' = Some s \/ after_slot el' = Some s).
Proof.
  intros nodes other pre el post c m mt s Ht Hin Hs.
  assert (Hel : In el (pre ++ el :: post)) by (apply in_app_iff; right; left; reflexivity).
  destruct (trace_split _ _ _ _ _ _ Ht Hel) as (pre2 & post2 & c0 & m0 & Heq & Ht0 & Hb0).
  assert (Hpre : pre = pre2).
  { apply (split_unique el_name pre el post pre2 el post2); [exact (trace_NoDup _ _ _ _ _ Ht)|exact Heq|reflexivity]. }
  subst pre2. apply build1_Ok in Hb0. destruct Hb0 as (_ & _ & Hr & _). apply resolve_refs_Ok in Hr.
  apply in_map_iff in Hin. destruct Hin as ([mt' ph] & E & Hin). cbn in E. subst mt'.
  clear Hel Heq Ht. induction Hr as [|[u ph'] [mt2 ph2] rs mts [H1 H2] Hr IH]; [destruct Hin|].
  destruct Hin as [Hin|Hin]; [|auto]. injection Hin as -> ->. cbn [fst snd] in *.
  destruct (names_param_dec u) as [[n Hn]|Hn].
  - destruct (resolve_found _ _ _ _ _ _ _ _ _ Ht0 Hn H1) as (el' & G1 & G2 & G3 & G4).
    exists el'. split; [exact G1|].
    destruct (resolve_index_slot _ _ _ _ _ _ _ G4 (ref_access_type u _ (ex_intro _ n Hn) G3)) as [G5 _].
    rewrite Hs in G5. unfold val_slot, after_slot. destruct (ref_rv u); [left|right|right]; symmetry; exact G5.
  - exfalso. destruct u as [k rv|k rv|k key rv|k|k|k]; cbn [resolve names_param] in *;
      try (exact (Hn _ eq_refl)).
    + injection H1 as <-. discriminate Hs.
    + destruct (existsb _ _); [|discriminate H1]. injection H1 as <-. discriminate Hs.
    + destruct (existsb _ _); [|discriminate H1]. injection H1 as <-. discriminate Hs.
Qed.

Lemma resolve_plain : forall m u ph mt, plain u -> resolve m u ph = Ok mt -> plain_metric mt.
Proof.
  intros m u ph mt Hp H. destruct u as [k rv|k rv|k key rv|k|k|k]; cbn [resolve plain] in *.
  - destruct (lookup (mp_f64 m) k).
    + exact (proj2 (proj2 (proj2 (resolve_index_slot _ _ _ _ _ _ _ H eq_refl)))).
    + destruct (lookup (mp_u64 m) k); [|discriminate H].
      exact (proj2 (proj2 (proj2 (resolve_index_slot _ _ _ _ _ _ _ H eq_refl)))).
  - destruct (lookup (mp_u64 m) k); [|discriminate H].
    exact (proj2 (proj2 (proj2 (resolve_index_slot _ _ _ _ _ _ _ H eq_refl)))).
  - destruct (lookup (mp_multi m) k); [|discriminate H].
    exact (proj2 (proj2 (proj2 (resolve_index_slot _ _ _ _ _ _ _ H eq_refl)))).
  - injection H as <-. exact I.
  - destruct Hp.
  - destruct (existsb _ _); [|discriminate H]. injection H as <-. exact I.
Qed.

Lemma type_of_In : forall bs b, unique_names bs -> In b bs -> type_of bs (pb_name b) = Some (pb_type b).
Proof.
  intros bs b Hu Hin. unfold type_of. destruct (find (fun b0 => pb_name b0 =? pb_name b) bs) as [b'|] eqn:E.
  - apply find_some in E. destruct E as [H1 H2].
    assert (b' = b) by (apply (NoDup_map_inj pb_name bs); [exact Hu|assumption|assumption|lia]).
    subst. reflexivity.
  - exfalso. apply (find_none _ _ E) in Hin. lia.
Qed.

(** ** Evaluating a list of items. *)

Section Run.

Context {V St Env Net Er : Type}.
Variable sm : sem V St Env Net Er.
Variable nw : network.

Notation pst := (pstate V St Net).

Definition get (st : pst) (s : slot) : V :=
  match s with (k, t, i) => ps_val st k t i end.

Definition get_int (st : pst) (s : islot) : St :=
  match s with (k, t, i) => ps_int st k t i end.

Definition st_eq (a b : pst) : Prop :=
  (forall s, get a s = get b s) /\ (forall s, get_int a s = get_int b s) /\ ps_net a = ps_net b.

Lemma get_set_val : forall k t i v (st : pst) s,
  get (set_val k t i v st) s = if slot_eqb (k, t, i) s then v else get st s.
Proof. intros k t i v st [[k' t'] i']. reflexivity. Qed.

Lemma get_int_set_int : forall k t i x (st : pst) s,
  get_int (set_int k t i x st) s = if islot_eqb (k, t, i) s then x else get_int st s.
Proof. intros k t i v st [[k' t'] i']. reflexivity. Qed.

Definition it_slot (it : item) : option slot :=
  match it_out it with Some o => Some (it_stage it, it_type it, o) | None => None end.

Definition it_islot (it : item) : islot := (it_class it, it_type it, it_index it).

Lemma read_plain : forall mt (st : pst), plain_metric mt ->
  read_metric sm nw st mt =
  match mt with
  | MLit k => Ok (sm_lit sm k)
  | MConstP a _ | MSimpleP a _ | MBeforeP a _ | MAfterP a _ =>
      match metric_slot mt with Some s => sm_view sm a (get st s) | None => Err (sm_missing sm) end
  | MOther k => sm_observe sm (ps_net st) k
  | MNodeMaxFlow _ => Err (sm_missing sm)
  end.
Proof. intros mt st Hp. destruct mt; cbn in Hp; try reflexivity. destruct Hp. Qed.

Lemma read_frame : forall mt (a b : pst), plain_metric mt ->
  (forall s, metric_slot mt = Some s -> get a s = get b s) -> ps_net a = ps_net b ->
  read_metric sm nw a mt = read_metric sm nw b mt.
Proof.
  intros mt a b Hp Hs Hn. rewrite !read_plain by exact Hp.
  destruct mt; cbn [metric_slot] in *; try reflexivity; try (rewrite (Hs _ eq_refl); reflexivity).
  rewrite Hn. reflexivity.
Qed.

Definition items_ok (its : list item) : Prop :=
  (forall it mt, In it its -> In mt (it_metrics it) -> plain_metric mt) /\
  (forall pre it post, its = pre ++ it :: post ->
     (forall mt s it', In mt (it_metrics it) -> metric_slot mt = Some s ->
        In it' (it :: post) -> it_slot it' <> Some s) /\
     (forall it', In it' post -> it_islot it' <> it_islot it) /\
     (forall it' s, In it' post -> it_slot it = Some s -> it_slot it' <> Some s)).

Lemma items_ok_tail : forall it its, items_ok (it :: its) -> items_ok its.
Proof.
  intros it its [H1 H2]. split.
  - intros it' mt Hi. apply H1. right. exact Hi.
  - intros pre it' post E. apply (H2 (it :: pre) it' post). rewrite E. reflexivity.
Qed.

Variable f : item -> pname -> list (res Er V) -> St -> res Er (option V * St).

(** The value an item computes goes with whether it has an output. *)
Definition f_ok (its : list item) : Prop :=
  forall it n l x v x', In it its -> f it n l x = Ok (v, x') -> (v = None <-> it_out it = None).

Definition holds (st0 : pst) (rd : pst) (st1 : pst) (it : item) : Prop :=
  exists v, f it (it_name it) (map (read_metric sm nw rd) (it_metrics it)) (get_int st0 (it_islot it))
              = Ok (v, get_int st1 (it_islot it)) /\
    match it_slot it with
    | Some s => v = Some (get st1 s)
    | None => v = None
    end.

Lemma eval_item_Ok : forall it (st st' : pst),
  (forall n l x v x', f it n l x = Ok (v, x') -> (v = None <-> it_out it = None)) ->
  eval_item sm nw (f it) it st = Ok st' ->
  exists v, f it (it_name it) (map (read_metric sm nw st) (it_metrics it)) (get_int st (it_islot it))
      = Ok (v, get_int st' (it_islot it)) /\
    (match it_slot it with Some s => v = Some (get st' s) | None => v = None end) /\
    (forall s, it_slot it <> Some s -> get st' s = get st s) /\
    (forall s, it_islot it <> s -> get_int st' s = get_int st s) /\
    ps_net st' = ps_net st.
Proof.
  intros it st st' Hf H. unfold eval_item in H.
  change (ps_int st (it_class it) (it_type it) (it_index it)) with (get_int st (it_islot it)) in H.
  destruct (f it (it_name it) _ (get_int st (it_islot it))) as [[v x]|e|] eqn:E; [|discriminate H|discriminate H].
  pose proof (Hf _ _ _ _ _ E) as Hv. cbn zeta in H.
  assert (Hi : forall s, it_islot it <> s ->
    get_int (set_int (it_class it) (it_type it) (it_index it) x st) s = get_int st s).
  { intros s Hs. rewrite get_int_set_int. destruct (islot_eqb _ s) eqn:Es; [|reflexivity].
    apply islot_eqb_spec in Es. contradiction. }
  assert (Hi2 : get_int (set_int (it_class it) (it_type it) (it_index it) x st) (it_islot it) = x).
  { rewrite get_int_set_int. rewrite (proj2 (islot_eqb_spec _ _) eq_refl). reflexivity. }
  exists v. unfold it_slot in *. destruct v as [v|], (it_out it) as [o|].
  - injection H as <-. split; [f_equal; f_equal; symmetry; exact Hi2|].
    split; [rewrite get_set_val, (proj2 (slot_eqb_spec _ _) eq_refl); reflexivity|].
    split; [|split; [|reflexivity]].
    + intros s Hs. rewrite get_set_val. destruct (slot_eqb _ s) eqn:Es; [|reflexivity].
      apply slot_eqb_spec in Es. exfalso. apply Hs. f_equal. exact Es.
    + exact Hi.
  - exfalso. destruct Hv as [_ Hv]. specialize (Hv eq_refl). discriminate Hv.
  - exfalso. destruct Hv as [Hv _]. specialize (Hv eq_refl). discriminate Hv.
  - injection H as <-. split; [f_equal; f_equal; symmetry; exact Hi2|]. split; [reflexivity|].
    split; [reflexivity|]. split; [exact Hi|reflexivity].
Qed.

Lemma run_items_sound : forall its (st st' : pst),
  items_ok its -> f_ok its -> run_items sm nw f its st = Ok st' ->
  (forall it, In it its -> holds st st' st' it) /\
  (forall s, (forall it, In it its -> it_slot it <> Some s) -> get st' s = get st s) /\
  (forall s, (forall it, In it its -> it_islot it <> s) -> get_int st' s = get_int st s) /\
  ps_net st' = ps_net st.
Proof.
  induction its as [|it its IH]; intros st st' Hok Hf H; cbn [run_items] in H.
  - injection H as <-. split; [intros it []|]. auto.
  - destruct (eval_item sm nw (f it) it st) as [st1|e|] eqn:E; [|discriminate H|discriminate H].
    apply eval_item_Ok in E; [|intros n l x v x'; apply Hf; left; reflexivity].
    destruct E as (v & E1 & E2 & E3 & E4 & E5).
    destruct (IH st1 st' (items_ok_tail _ _ Hok)) as (I1 & I2 & I3 & I4).
    { intros it' n l x v' x' Hin. apply Hf. right. exact Hin. }
    { exact H. }
    destruct Hok as [Hpl Hord]. destruct (Hord [] it its eq_refl) as (O1 & O2 & O3).
    assert (Hrd : map (read_metric sm nw st) (it_metrics it) = map (read_metric sm nw st') (it_metrics it)).
    { apply map_ext_in. intros mt Hmt. apply read_frame.
      - apply (Hpl it); [left; reflexivity|exact Hmt].
      - intros s Hs. rewrite I2, E3; [reflexivity| |].
        + apply (O1 mt); [exact Hmt|exact Hs|left; reflexivity].
        + intros it' Hin. apply (O1 mt); [exact Hmt|exact Hs|right; exact Hin].
      - congruence. }
    split; [|split; [|split]].
    + intros it' [<-|Hin].
      * exists v. rewrite <- Hrd, E1. split.
        { f_equal. f_equal. symmetry. apply I3. intros it' Hin. apply O2. exact Hin. }
        destruct (it_slot it) as [s|] eqn:Es; [|exact E2]. rewrite E2. f_equal. symmetry. apply I2.
        intros it' Hin. exact (O3 it' s Hin eq_refl).
      * destruct (I1 it' Hin) as (v' & J1 & J2). exists v'. split; [|exact J2].
        rewrite <- (E4 (it_islot it')); [exact J1|]. intro Heq. exact (O2 it' Hin (eq_sym Heq)).
    + intros s Hs. rewrite I2, E3; [reflexivity| |].
      * apply Hs. left. reflexivity.
      * intros it' Hin. apply Hs. right. exact Hin.
    + intros s Hs. rewrite I3, E4; [reflexivity| |].
      * apply Hs. left. reflexivity.
      * intros it' Hin. apply Hs. right. exact Hin.
    + congruence.
Qed.

Lemma slot_opt_dec : forall (o : option slot) s, o = Some s \/ o <> Some s.
Proof.
  intros [x|] s; [|right; discriminate]. destruct (slot_eqb x s) eqn:E.
  - left. f_equal. apply slot_eqb_spec. exact E.
  - right. intro H. injection H as ->. rewrite (proj2 (slot_eqb_spec s s) eq_refl) in E. discriminate E.
Qed.

Lemma islot_dec : forall a b : islot, a = b \/ a <> b.
Proof.
  intros a b. destruct (islot_eqb a b) eqn:E; [left; apply islot_eqb_spec; exact E|].
  right. intros ->. rewrite (proj2 (islot_eqb_spec b b) eq_refl) in E. discriminate E.
Qed.

Lemma run_items_complete : forall its (st tgt : pst),
  items_ok its ->
  (forall it, In it its -> holds st tgt tgt it) ->
  (forall s, (forall it, In it its -> it_slot it <> Some s) -> get tgt s = get st s) ->
  (forall s, (forall it, In it its -> it_islot it <> s) -> get_int tgt s = get_int st s) ->
  ps_net tgt = ps_net st ->
  exists st', run_items sm nw f its st = Ok st' /\ st_eq st' tgt.
Proof.
  induction its as [|it its IH]; intros st tgt Hok Hh Hs Hi Hn; cbn [run_items].
  - exists st. split; [reflexivity|]. split; [|split].
    + intro s. symmetry. apply Hs. intros it [].
    + intro s. symmetry. apply Hi. intros it [].
    + congruence.
  - pose proof (items_ok_tail _ _ Hok) as Hok'.
    destruct Hok as [Hpl Hord]. destruct (Hord [] it its eq_refl) as (O1 & O2 & O3).
    destruct (Hh it (or_introl eq_refl)) as (v & G1 & G2).
    assert (Hrd : map (read_metric sm nw st) (it_metrics it) = map (read_metric sm nw tgt) (it_metrics it)).
    { apply map_ext_in. intros mt Hmt. apply read_frame.
      - apply (Hpl it); [left; reflexivity|exact Hmt].
      - intros s Hms. symmetry. apply Hs. intros it' Hin. exact (O1 mt s it' Hmt Hms Hin).
      - congruence. }
    unfold eval_item.
    change (ps_int st (it_class it) (it_type it) (it_index it)) with (get_int st (it_islot it)).
    rewrite Hrd, G1. cbn zeta.
    pose (stx := set_int (it_class it) (it_type it) (it_index it) (get_int tgt (it_islot it)) st).
    assert (Hix : forall s, get_int stx s = if islot_eqb (it_islot it) s then get_int tgt s else get_int st s).
    { intro s. unfold stx. rewrite get_int_set_int. change (it_class it, it_type it, it_index it) with (it_islot it).
      destruct (islot_eqb (it_islot it) s) eqn:Es; [|reflexivity]. apply islot_eqb_spec in Es. congruence. }
    assert (Hst1 : exists st1, match v with
        | Some v0 => match it_out it with
            | Some o => @Ok Er pst (set_val (it_stage it) (it_type it) o v0 stx)
            | None => Ok stx end
        | None => Ok stx end = Ok st1 /\
        (forall s, get st1 s = get tgt s \/ (it_slot it <> Some s /\ get st1 s = get st s)) /\
        (forall s, get_int st1 s = get_int stx s) /\ ps_net st1 = ps_net st).
    { unfold it_slot in *. destruct (it_out it) as [o|].
      - subst v. exists (set_val (it_stage it) (it_type it) o (get tgt (it_stage it, it_type it, o)) stx).
        split; [reflexivity|]. split; [|split; [|reflexivity]].
        + intro s. rewrite get_set_val. destruct (slot_eqb _ s) eqn:Es.
          * left. apply slot_eqb_spec in Es. congruence.
          * right. split; [|reflexivity]. intro E. injection E as E.
            rewrite (proj2 (slot_eqb_spec _ _) E) in Es. discriminate Es.
        + intros [[k t] i]. reflexivity.
      - subst v. exists stx. split; [reflexivity|]. split; [|split; [reflexivity|reflexivity]].
        intro s. right. split; [discriminate|]. destruct s as [[k t] i]. reflexivity. }
    destruct Hst1 as (st1 & E0 & E1 & E2 & E3). fold stx. rewrite E0.
    apply (IH st1 tgt Hok').
    + intros it' Hin. destruct (Hh it' (or_intror Hin)) as (v' & J1 & J2). exists v'. split; [|exact J2].
      replace (get_int st1 (it_islot it')) with (get_int st (it_islot it')); [exact J1|].
      rewrite E2, Hix. destruct (islot_eqb _ _) eqn:Es; [|reflexivity].
      apply islot_eqb_spec in Es. exfalso. exact (O2 it' Hin (eq_sym Es)).
    + intros s Hns. destruct (E1 s) as [H1|[H1 H2]]; [symmetry; exact H1|]. rewrite H2. apply Hs.
      intros it' [<-|Hin]; [exact H1|apply Hns; exact Hin].
    + intros s Hns. rewrite E2, Hix. destruct (islot_eqb _ _) eqn:Es; [reflexivity|].
      apply Hi. intros it' [<-|Hin]; [|apply Hns; exact Hin]. intro E.
      rewrite (proj2 (islot_eqb_spec _ _) E) in Es. discriminate Es.
    + congruence.
Qed.

End Run.
