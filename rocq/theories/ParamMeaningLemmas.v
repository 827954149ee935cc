From Verif Require Import Base ParamBuild ParamBuildSpec ParamBuildLemmas ParamEval ParamEvalSpec ParamEvalLemmas.
From Coq Require Import Permutation.

(** ** Items of a stage. *)

Lemma flat_opt_split : forall {A B} (g : A -> option B) (l : list A) pre x post,
  flat_map (fun a => opt_list (g a)) l = pre ++ x :: post ->
  exists l1 a l2, l = l1 ++ a :: l2 /\ g a = Some x /\
    flat_map (fun a => opt_list (g a)) l1 = pre /\ flat_map (fun a => opt_list (g a)) l2 = post.
Proof.
  intros A B g l. induction l as [|a l IH]; intros pre x post H; cbn [flat_map] in H.
  - destruct pre; discriminate H.
  - destruct (g a) as [y|] eqn:E; cbn [opt_list app] in H.
    + destruct pre as [|p pre].
      * injection H as -> <-. exists [], a, l. auto.
      * injection H as -> H. destruct (IH _ _ _ H) as (l1 & a' & l2 & -> & H1 & H2 & H3).
        exists (a :: l1), a', l2. cbn [flat_map app]. rewrite E. cbn [opt_list app]. rewrite H2. auto.
    + destruct (IH _ _ _ H) as (l1 & a' & l2 & -> & H1 & H2 & H3).
      exists (a :: l1), a', l2. cbn [flat_map app]. rewrite E. cbn [opt_list app]. auto.
Qed.

Lemma in_stage_items : forall k es it,
  In it (stage_items k es) <-> exists el, In el es /\ stage_item k el = Some it.
Proof.
  intros k es it. unfold stage_items. rewrite in_flat_map. split.
  - intros (el & H1 & H2). exists el. split; [exact H1|].
    destruct (stage_item k el); cbn in H2; [|destruct H2]. destruct H2 as [<-|[]]. reflexivity.
  - intros (el & H1 & H2). exists el. split; [exact H1|]. rewrite H2. left. reflexivity.
Qed.

Definition stage_slot (k : stage) (el : elem) : option slot :=
  match k with StAfter => after_slot el | _ => val_slot el end.

Lemma before_metrics_incl : forall e mt, In mt (before_metrics e) -> In mt (map fst (e_metrics e)).
Proof.
  intros e mt H. unfold before_metrics in H. apply in_map_iff in H. destruct H as (p & E & H).
  apply filter_In in H. apply in_map_iff. exists p. tauto.
Qed.

Lemma stage_item_facts : forall k el it, stage_item k el = Some it ->
  it_name it = el_name el /\ it_stage it = k /\ it_slot it = stage_slot k el /\
  it_islot it = int_slot el /\
  (forall mt, In mt (it_metrics it) -> In mt (map fst (e_metrics (el_entry el)))).
Proof.
  intros k el it H. unfold stage_item in H. unfold stage_slot, val_slot, after_slot, int_slot.
  destruct k; destruct (el_idx el) as [i|i|r] eqn:E; try discriminate H.
  - injection H as <-. repeat split; auto.
  - injection H as <-. repeat split; auto.
  - cbn [val_slot_of]. destruct (reg_before r); [|discriminate H]. injection H as <-.
    repeat split. intros mt Hmt. apply before_metrics_incl. exact Hmt.
  - cbn [after_slot_of]. destruct (el_shape el) as [| |bf [o|]]; try discriminate H. injection H as <-.
    repeat split; auto.
Qed.

Lemma stage_slot_stage : forall k el it s, stage_item k el = Some it -> it_slot it = Some s ->
  fst (fst s) = k.
Proof.
  intros k el it s H Hs. pose proof (stage_item_facts _ _ _ H) as (_ & H1 & _).
  unfold it_slot in Hs. destruct (it_out it); [|discriminate Hs]. injection Hs as <-. exact H1.
Qed.

Definition stage_class (k : stage) : pclass :=
  match k with StConst => ClConst | StSimple => ClSimple | _ => ClGeneral end.

Lemma stage_item_class : forall k el it, stage_item k el = Some it -> it_class it = stage_class k.
Proof.
  intros k el it H. unfold stage_item in H.
  destruct k; destruct (el_idx el) as [i|i|r] eqn:E; try discriminate H.
  - injection H as <-. reflexivity.
  - injection H as <-. reflexivity.
  - destruct (reg_before r); [|discriminate H]. injection H as <-. reflexivity.
  - destruct (el_shape el) as [| |bf [o|]]; try discriminate H. injection H as <-. reflexivity.
Qed.

Definition builders_plain (es : list elem) : Prop :=
  forall el u ph, In el es -> In (u, ph) (pb_refs (el_b el)) -> plain u.

Lemma trace_metrics_plain : forall nodes other es c m el mt,
  trace nodes other es c m -> builders_plain es -> In el es ->
  In mt (map fst (e_metrics (el_entry el))) -> plain_metric mt.
Proof.
  intros nodes other es c m el mt Ht Hp Hin Hmt.
  pose proof (trace_metrics _ _ _ _ _ _ Ht Hin) as HF.
  apply in_map_iff in Hmt. destruct Hmt as (p & <- & Hmt).
  assert (Hp' : forall u ph, In (u, ph) (pb_refs (el_b el)) -> plain u) by (intros u ph; apply Hp; exact Hin).
  clear Hin. induction HF as [|[u ph] p' rs mts [H1 H2] HF IH]; [destruct Hmt|].
  destruct Hmt as [->|Hmt].
  - apply (resolve_plain m u ph); [apply (Hp' u ph); left; reflexivity|exact H1].
  - apply IH; [exact Hmt|]. intros u' ph' Hi. apply (Hp' u' ph'). right. exact Hi.
Qed.

Lemma stage_items_ok : forall nodes other es c m k,
  trace nodes other es c m -> builders_plain es -> items_ok (stage_items k es).
Proof.
  intros nodes other es c m k Ht Hp. split.
  - intros it mt Hit Hmt. apply in_stage_items in Hit. destruct Hit as (el & Hin & Hit).
    apply (trace_metrics_plain _ _ _ _ _ el mt Ht Hp Hin).
    destruct (stage_item_facts _ _ _ Hit) as (_ & _ & _ & _ & H). apply H. exact Hmt.
  - intros pre it post E. apply flat_opt_split in E.
    destruct E as (l1 & el & l2 & -> & Hit & _ & <-).
    change (flat_map (fun a => opt_list (stage_item k a)) l2) with (stage_items k l2).
    pose proof (trace_NoDup _ _ _ _ _ Ht) as Hnd. rewrite map_app in Hnd. cbn [map] in Hnd.
    destruct (stage_item_facts _ _ _ Hit) as (F1 & F2 & F3 & F4 & F5).
    assert (Hpost : forall it', In it' (stage_items k l2) ->
      exists el', In el' l2 /\ stage_item k el' = Some it' /\ el' <> el).
    { intros it' Hin. apply in_stage_items in Hin. destruct Hin as (el' & H1 & H2). exists el'.
      split; [exact H1|]. split; [exact H2|]. intros ->. apply NoDup_remove_2 in Hnd. apply Hnd.
      apply in_app_iff. right. apply in_map. exact H1. }
    assert (Hin1 : In el (l1 ++ el :: l2)) by (apply in_app_iff; right; left; reflexivity).
    assert (Hin2 : forall el', In el' l2 -> In el' (l1 ++ el :: l2))
      by (intros; apply in_app_iff; right; right; assumption).
    split; [|split].
    + intros mt s it' Hmt Hs Hin'.
      destruct (trace_metric_slots _ _ _ _ _ _ _ mt s Ht (F5 _ Hmt) Hs) as (el0 & H0 & Hor).
      assert (Hel' : exists el', In el' (el :: l2) /\ stage_item k el' = Some it').
      { destruct Hin' as [<-|Hin']; [exists el; split; [left; reflexivity|exact Hit]|].
        destruct (Hpost _ Hin') as (el' & H1 & H2 & _). exists el'. split; [right; exact H1|exact H2]. }
      destruct Hel' as (el' & H1 & H2). destruct (stage_item_facts _ _ _ H2) as (_ & _ & G3 & _ & _).
      rewrite G3. intro Heq.
      assert (Hi0 : In el0 (l1 ++ el :: l2)) by (apply in_app_iff; left; exact H0).
      assert (Hi' : In el' (l1 ++ el :: l2)) by (apply in_app_iff; right; exact H1).
      destruct (trace_slots_inj _ _ _ _ _ Ht _ _ Hi0 Hi') as (J1 & J2 & _).
      assert (Hee : el0 = el').
      { assert (Hst : fst (fst s) = k).
        { apply (stage_slot_stage _ _ _ _ H2). rewrite G3. exact Heq. }
        assert (Hvs : forall x, val_slot x = Some s -> fst (fst s) <> StAfter).
        { intros x Hx. unfold val_slot, val_slot_of in Hx.
          destruct (el_idx x) as [i|i|r]; [injection Hx as <-; discriminate|injection Hx as <-; discriminate|].
          destruct (reg_before r); [|discriminate Hx]. injection Hx as <-. discriminate. }
        assert (Has : forall x, after_slot x = Some s -> fst (fst s) = StAfter).
        { intros x Hx. unfold after_slot, after_slot_of in Hx.
          destruct (el_idx x) as [i|i|r]; [discriminate Hx|discriminate Hx|].
          destruct (reg_after r); [|discriminate Hx]. injection Hx as <-. reflexivity. }
        unfold stage_slot in Heq. destruct Hor as [Ho|Ho].
        - pose proof (Hvs _ Ho) as Hne. apply (J1 s Ho). destruct k; try exact Heq.
          exfalso. apply Hne. exact Hst.
        - pose proof (Has _ Ho) as Hse. apply (J2 s Ho). destruct k; try exact Heq; rewrite Hst in Hse; discriminate Hse. }
      subst el'. assert (Hm : In (el_name el0) (map el_name (el :: l2))) by (apply in_map; exact H1).
      clear - Hnd H0 Hm. apply in_split in H0. destruct H0 as (a & b & ->).
      rewrite map_app in Hnd. cbn [map] in Hnd. rewrite <- app_assoc in Hnd. cbn [app] in Hnd.
      apply NoDup_remove_2 in Hnd. apply Hnd. apply in_app_iff. right. apply in_app_iff. right. exact Hm.
    + intros it' Hin'. destruct (Hpost _ Hin') as (el' & H1 & H2 & H3).
      destruct (stage_item_facts _ _ _ H2) as (_ & _ & _ & G4 & _). rewrite F4, G4. intro Heq.
      apply H3. apply (trace_slots_inj _ _ _ _ _ Ht _ _ (Hin2 _ H1) Hin1). exact Heq.
    + intros it' s Hin' Hs Hs'. destruct (Hpost _ Hin') as (el' & H1 & H2 & H3).
      destruct (stage_item_facts _ _ _ H2) as (_ & _ & G3 & _ & _). rewrite F3 in Hs. rewrite G3 in Hs'.
      apply H3. destruct (trace_slots_inj _ _ _ _ _ Ht _ _ (Hin2 _ H1) Hin1) as (J1 & J2 & _).
      unfold stage_slot in *. destruct k; [apply (J1 s)|apply (J1 s)|apply (J1 s)|apply (J2 s)]; assumption.
Qed.

(** Where the entry of a parameter is. *)
Definition entry_at (c : collection) (el : elem) : option entry :=
  match el_idx el with
  | IConst i => nth_error (c_const c (el_type el)) i
  | ISimple i => nth_error (c_simple c (el_type el)) i
  | IGeneral r => nth_error (c_general c (el_type el)) (reg_param r)
  end.

Lemma trace_entries : forall nodes other es c m, trace nodes other es c m ->
  forall el, In el es -> entry_at c el = Some (el_entry el).
Proof.
  intros nodes other es c m H. induction H as [|es c m b e sh c' idx Ht IH Hn Hb Hp]; intros el Hin.
  - destruct Hin.
  - apply in_app_iff in Hin. destruct Hin as [Hin|[<-|[]]].
    + destruct (push_vec _ _ _ _ _ _ Hp) as (V1 & V2 & V3). specialize (IH _ Hin).
      unfold entry_at in *. destruct (el_idx el); [apply V1|apply V2|apply V3]; exact IH.
    + unfold entry_at, el_type. cbn [el_idx el_b el_entry].
      destruct sh as [| |bf af]; cbn [push push_const push_simple push_general] in Hp; injection Hp as <- <-;
        cbn [c_const c_simple c_general reg_param];
        rewrite at_type_same, nth_error_app2, Nat.sub_diag by lia; reflexivity.
Qed.

(** ** Shapes. *)

Definition find_el (es : list elem) (n : pname) : option elem :=
  find (fun el => el_name el =? n) es.

Lemma find_el_In : forall es el, NoDup (map el_name es) -> In el es -> find_el es (el_name el) = Some el.
Proof.
  intros es el Hnd Hin. unfold find_el. destruct (find (fun e => el_name e =? el_name el) es) as [e|] eqn:E.
  - apply find_some in E. destruct E as [H1 H2]. f_equal. apply (NoDup_map_inj el_name es); try assumption. lia.
  - exfalso. apply (find_none _ _ E) in Hin. lia.
Qed.

Definition shape_in (es : list elem) (n : pname) : shape :=
  match find_el es n with Some el => el_shape el | None => ShConst end.

Definition shape_class (sh : shape) : mclass :=
  match sh with ShConst => KConst | ShSimple => KSimple | ShGeneral _ _ => KGeneral end.

Lemma resolve_index_class : forall n a idx rv ph mt sh,
  resolve_index n a idx rv ph = Ok mt -> idx_shape idx sh -> metric_class mt = shape_class sh.
Proof.
  intros n a idx rv ph mt sh H Hs. unfold resolve_index in H. destruct idx as [i|i|r].
  - destruct rv; try discriminate H. injection H as <-. destruct sh; try destruct Hs. reflexivity.
  - destruct rv; try discriminate H. injection H as <-. destruct sh; try destruct Hs. reflexivity.
  - destruct sh; try (destruct Hs; fail).
    destruct rv; destruct ph; try discriminate H;
      first [destruct (reg_before r) | destruct (reg_after r)]; try discriminate H;
      first [injection H as <-; reflexivity
            |destruct (reg_after r); try discriminate H; injection H as <-; reflexivity].
Qed.

Lemma metric_class_ref : forall nodes other es c m u ph mt sh,
  trace nodes other es c m -> resolve m u ph = Ok mt ->
  (forall el, In el es -> names_param u (el_name el) -> sh (el_name el) = el_shape el) ->
  metric_class mt = ref_class sh u.
Proof.
  intros nodes other es c m u ph mt sh Ht H Hsh.
  destruct (names_param_dec u) as [[n Hn]|Hn].
  - destruct (resolve_found _ _ _ _ _ _ _ _ _ Ht Hn H) as (el & H1 & H2 & H3 & H4). subst n.
    rewrite (resolve_index_class _ _ _ _ _ _ _ H4 (trace_shape _ _ _ _ _ Ht _ H1)).
    specialize (Hsh _ H1 Hn).
    destruct u as [k rv|k rv|k key rv|k|k|k]; cbn [names_param] in Hn; try destruct Hn;
      cbn [ref_class]; rewrite Hsh; reflexivity.
  - destruct u as [k rv|k rv|k key rv|k|k|k]; cbn [resolve names_param] in *;
      try (exfalso; exact (Hn _ eq_refl)).
    + injection H as <-. reflexivity.
    + destruct (existsb _ _); [|discriminate H]. injection H as <-. reflexivity.
    + destruct (existsb _ _); [|discriminate H]. injection H as <-. reflexivity.
Qed.

Lemma classes_refs : forall nodes other es c m rs mts sh,
  trace nodes other es c m ->
  Forall2 (fun r p => resolve m (fst r) (snd r) = Ok (fst p) /\ snd p = snd r) rs mts ->
  (forall el, In el es -> (exists u ph, In (u, ph) rs /\ names_param u (el_name el)) ->
     sh (el_name el) = el_shape el) ->
  map (fun p : metric * consumer_phase => metric_class (fst p)) mts =
  map (fun r : uref * consumer_phase => ref_class sh (fst r)) rs.
Proof.
  intros nodes other es c m rs mts sh Ht HF. induction HF as [|[u ph] [mt ph'] rs mts [H1 H2] HF IH]; intro Hsh.
  - reflexivity.
  - cbn [map fst snd] in *. f_equal.
    + apply (metric_class_ref _ _ _ _ _ _ _ _ _ Ht H1). intros el Hin Hn. apply Hsh; [exact Hin|].
      exists u, ph. split; [left; reflexivity|exact Hn].
    + apply IH. intros el Hin (u' & ph'' & Hi & Hn). apply Hsh; [exact Hin|].
      exists u', ph''. split; [right; exact Hi|exact Hn].
Qed.

Lemma trace_shapes_ok : forall nodes other es c m bs,
  trace nodes other es c m -> Permutation bs (map el_b es) -> shapes_ok bs (shape_in es).
Proof.
  intros nodes other es c m bs Ht HP b Hb.
  apply (Permutation_in _ HP) in Hb. apply in_map_iff in Hb. destruct Hb as (el & <- & Hin).
  pose proof (trace_NoDup _ _ _ _ _ Ht) as Hnd.
  assert (Hs : forall e, In e es -> shape_in es (el_name e) = el_shape e).
  { intros e He. unfold shape_in. rewrite find_el_In by assumption. reflexivity. }
  change (pb_name (el_b el)) with (el_name el). rewrite Hs by exact Hin.
  rewrite <- (classes_refs _ _ _ _ _ _ _ (shape_in es) Ht (trace_metrics _ _ _ _ _ _ Ht Hin)).
  - destruct (trace_split _ _ _ _ _ _ Ht Hin) as (pre & post & c0 & m0 & -> & Ht0 & Hb0).
    apply build1_Ok in Hb0. apply Hb0.
  - intros e He _. apply Hs. exact He.
Qed.

Lemma shapes_unique : forall nodes other es c m bs sh,
  trace nodes other es c m -> (forall el, In el es -> In (el_b el) bs) -> shapes_ok bs sh ->
  forall el, In el es -> sh (el_name el) = el_shape el.
Proof.
  intros nodes other es c m bs sh H. induction H as [|es c m b e s c' idx Ht IH Hn Hb Hp]; intros Hin Hsh el Hel.
  - destruct Hel.
  - apply in_app_iff in Hel. destruct Hel as [Hel|[<-|[]]].
    + apply IH; [|exact Hsh|exact Hel]. intros x Hx. apply Hin. apply in_app_iff. left. exact Hx.
    + unfold el_name. cbn [el_b el_shape].
      assert (Hib : In b bs) by (apply (Hin (Elem b e s idx)); apply in_app_iff; right; left; reflexivity).
      pose proof (Hsh b Hib) as Hs. apply build1_Ok in Hb. destruct Hb as (_ & _ & Hr & Hshape).
      apply resolve_refs_Ok in Hr.
      rewrite (classes_refs _ _ _ _ _ _ _ sh Ht Hr) in Hshape.
      * rewrite Hs in Hshape. injection Hshape as ->. reflexivity.
      * intros x Hx _. apply IH; [|exact Hsh|exact Hx]. intros y Hy. apply Hin. apply in_app_iff. left. exact Hy.
Qed.

Definition builders_typed (es : list elem) : Prop := forall el, In el es -> well_typed (el_b el).

(** A simple parameter reads only constant and simple values. *)
Lemma simple_slots : forall nodes other es c m el mt s,
  trace nodes other es c m -> builders_typed es -> In el es ->
  el_shape el = ShSimple \/ el_shape el = ShConst ->
  In mt (map fst (e_metrics (el_entry el))) -> metric_slot mt = Some s ->
  (fst (fst s) = StConst \/ fst (fst s) = StSimple) /\
  (el_shape el = ShConst -> fst (fst s) = StConst).
Proof.
  intros nodes other es c m el mt s Ht Hty Hin Hsh Hmt Hs.
  destruct (trace_split _ _ _ _ _ _ Ht Hin) as (pre & post & c0 & m0 & -> & Ht0 & Hb0).
  apply build1_Ok in Hb0. destruct Hb0 as (_ & _ & _ & Hshape).
  apply (Hty el Hin) in Hshape.
  apply in_map_iff in Hmt. destruct Hmt as (p & <- & Hmt).
  assert (Hc : In (metric_class (fst p)) (map (fun p => metric_class (fst p)) (e_metrics (el_entry el))))
    by (apply in_map_iff; exists p; auto).
  destruct Hsh as [E|E]; rewrite E in *; rewrite Forall_forall in Hshape; specialize (Hshape _ Hc);
    destruct (fst p); cbn in Hs, Hshape; try discriminate Hs; try (exfalso; apply Hshape; reflexivity);
    try discriminate Hshape; injection Hs as <-; cbn; split; auto; intro H; discriminate H.
Qed.

Lemma simple_no_net : forall nodes other es c m el mt k,
  trace nodes other es c m -> builders_typed es -> In el es ->
  el_shape el = ShSimple \/ el_shape el = ShConst ->
  In mt (map fst (e_metrics (el_entry el))) -> mt <> MOther k.
Proof.
  intros nodes other es c m el mt k Ht Hty Hin Hsh Hmt ->.
  destruct (trace_split _ _ _ _ _ _ Ht Hin) as (pre & post & c0 & m0 & -> & Ht0 & Hb0).
  apply build1_Ok in Hb0. destruct Hb0 as (_ & _ & _ & Hshape).
  apply (Hty el Hin) in Hshape.
  apply in_map_iff in Hmt. destruct Hmt as (p & E0 & Hmt).
  assert (Hc : In KGeneral (map (fun p => metric_class (fst p)) (e_metrics (el_entry el))))
    by (apply in_map_iff; exists p; split; [rewrite E0; reflexivity|exact Hmt]).
  destruct Hsh as [E|E]; rewrite E in *; rewrite Forall_forall in Hshape; specialize (Hshape _ Hc).
  - apply Hshape. reflexivity.
  - discriminate Hshape.
Qed.
