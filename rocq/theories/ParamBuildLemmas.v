From Verif Require Import Base ParamBuild ParamBuildSpec.
From Coq Require Import Relations Permutation.

(** ** The history of a build. *)

Record elem := Elem {
  el_b : pbuilder;
  el_entry : entry;
  el_shape : shape;
  el_idx : pindex }.

Definition el_name (e : elem) : pname := pb_name (el_b e).
Definition el_type (e : elem) : ptype := pb_type (el_b e).

Inductive trace (nodes other : list nat) : list elem -> collection -> maps -> Prop :=
| tr_nil : trace nodes other [] empty_collection (initial_maps nodes other)
| tr_snoc : forall es c m b e sh c' idx,
    trace nodes other es c m ->
    ~ In (pb_name b) (map el_name es) ->
    build1 m b = Ok (e, sh) ->
    push (pb_type b) e sh c = (c', idx) ->
    trace nodes other (es ++ [Elem b e sh idx]) c'
      (insert (pb_type b) (pb_name b) idx m).

Lemma snoc_nil : forall {A} (l : list A) x, l ++ [x] = [] -> False.
Proof. intros A l x H. apply app_eq_nil in H. destruct H as [_ H]. discriminate H. Qed.

Lemma trace_inv : forall nodes other es e c m,
  trace nodes other (es ++ [e]) c m ->
  exists c0 m0, trace nodes other es c0 m0 /\
    ~ In (el_name e) (map el_name es) /\
    build1 m0 (el_b e) = Ok (el_entry e, el_shape e) /\
    push (el_type e) (el_entry e) (el_shape e) c0 = (c, el_idx e) /\
    m = insert (el_type e) (el_name e) (el_idx e) m0.
Proof.
  intros nodes other es e c m H. inversion H as [H0|es0 c0 m0 b en sh c' idx Ht Hn Hb Hp H0]; subst.
  - symmetry in H0. apply snoc_nil in H0. destruct H0.
  - apply app_inj_tail in H0. destruct H0 as [-> <-]. exists c0, m0. repeat split; assumption.
Qed.

Lemma trace_det : forall nodes other es c m c2 m2,
  trace nodes other es c m -> trace nodes other es c2 m2 -> c = c2 /\ m = m2.
Proof.
  intros nodes other es c m c2 m2 H. revert c2 m2.
  induction H as [|es c m b e sh c' idx Ht IH Hn Hb Hp]; intros c2 m2 H2.
  - inversion H2 as [|es0 c0 m0 b en sh c' idx Ht Hn Hb Hp H0]; [auto|].
    apply snoc_nil in H0. destruct H0.
  - apply trace_inv in H2. destruct H2 as (c0 & m0 & Ht0 & _ & Hb0 & Hp0 & ->).
    destruct (IH _ _ Ht0) as [<- <-]. cbn [el_b el_type el_entry el_shape el_idx el_name] in *.
    unfold el_type, el_name in *. cbn [el_b] in *. rewrite Hp in Hp0. injection Hp0 as <-. auto.
Qed.

Lemma trace_prefix : forall nodes other es2 es1 c m,
  trace nodes other (es1 ++ es2) c m -> exists c0 m0, trace nodes other es1 c0 m0.
Proof.
  intros nodes other es2. induction es2 as [|x es2 IH] using rev_ind; intros es1 c m H.
  - rewrite app_nil_r in H. eauto.
  - rewrite app_assoc in H. apply trace_inv in H. destruct H as (c0 & m0 & H & _). eauto.
Qed.

Lemma trace_NoDup : forall nodes other es c m,
  trace nodes other es c m -> NoDup (map el_name es).
Proof.
  intros nodes other es c m H. induction H as [|es c m b e sh c' idx Ht IH Hn Hb Hp].
  - constructor.
  - rewrite map_app. cbn [map].
    apply (Permutation_NoDup (l := el_name (Elem b e sh idx) :: map el_name es)).
    + apply Permutation_cons_append.
    + constructor; assumption.
Qed.

(** What was built when [el] was, splitting the history there. *)
Lemma trace_split : forall nodes other es c m el,
  trace nodes other es c m -> In el es ->
  exists pre post c0 m0, es = pre ++ el :: post /\
    trace nodes other pre c0 m0 /\
    build1 m0 (el_b el) = Ok (el_entry el, el_shape el).
Proof.
  intros nodes other es c m el H. induction H as [|es c m b e sh c' idx Ht IH Hn Hb Hp]; intro Hin.
  - destruct Hin.
  - apply in_app_iff in Hin. destruct Hin as [Hin|[<-|[]]].
    + destruct (IH Hin) as (pre & post & c0 & m0 & -> & Ht0 & Hb0).
      exists pre, (post ++ [Elem b e sh idx]), c0, m0. split; [|auto].
      rewrite <- app_assoc. reflexivity.
    + exists es, [], c, m. auto.
Qed.

(** ** Names and lookups. *)

Lemma ptype_eqb_spec : forall a b, ptype_eqb a b = true <-> a = b.
Proof. intros [] []; cbn; split; intro H; try reflexivity; discriminate H. Qed.

Lemma ptype_eqb_refl : forall a, ptype_eqb a a = true.
Proof. intros []; reflexivity. Qed.

Lemma map_of_insert : forall t n i m t',
  map_of t' (insert t n i m) = if ptype_eqb t t' then (n, i) :: map_of t' m else map_of t' m.
Proof. intros [] n i m []; reflexivity. Qed.

Lemma trace_lookup : forall nodes other es c m,
  trace nodes other es c m -> forall t n idx,
  lookup (map_of t m) n = Some idx <->
  exists el, In el es /\ el_name el = n /\ el_type el = t /\ el_idx el = idx.
Proof.
  intros nodes other es c m H. induction H as [|es c m b e sh c' idx Ht IH Hn Hb Hp]; intros t n j.
  - split.
    + intro H. destruct t; discriminate H.
    + intros (el & [] & _).
  - rewrite map_of_insert. split.
    + intro H. destruct (ptype_eqb (pb_type b) t) eqn:E.
      * cbn [lookup] in H. destruct (pb_name b =? n) eqn:En.
        -- injection H as <-. exists (Elem b e sh idx). rewrite in_app_iff.
           split; [right; left; reflexivity|]. unfold el_name, el_type. cbn [el_b el_idx].
           apply ptype_eqb_spec in E. repeat split; [lia|assumption].
        -- apply IH in H. destruct H as (el & H1 & H2). exists el. rewrite in_app_iff. auto.
      * apply IH in H. destruct H as (el & H1 & H2). exists el. rewrite in_app_iff. auto.
    + intros (el & Hin & Hnm & Hty & Hix). apply in_app_iff in Hin.
      destruct Hin as [Hin|[<-|[]]].
      * assert (Hl : lookup (map_of t m) n = Some j) by (apply IH; exists el; auto).
        destruct (ptype_eqb (pb_type b) t); [|exact Hl]. cbn [lookup].
        destruct (pb_name b =? n) eqn:En; [|exact Hl].
        exfalso. apply Hn. apply in_map_iff. exists el. split; [lia|exact Hin].
      * unfold el_name, el_type in *. cbn [el_b el_idx] in *. subst.
        rewrite ptype_eqb_refl. cbn [lookup]. rewrite Nat.eqb_refl. reflexivity.
Qed.

Lemma at_type_same : forall {A} t g (f : ptype -> A), at_type t g f t = g (f t).
Proof. intros. unfold at_type. rewrite ptype_eqb_refl. reflexivity. Qed.

Lemma at_type_other : forall {A} t t' g (f : ptype -> A), t <> t' -> at_type t g f t' = f t'.
Proof.
  intros. unfold at_type. destruct (ptype_eqb t t') eqn:E; [|reflexivity].
  apply ptype_eqb_spec in E. contradiction.
Qed.

Definition has_entry (c : collection) (n : pname) : Prop :=
  exists t e, In e (c_const c t ++ c_simple c t ++ c_general c t) /\ e_name e = n.

Lemma has_name_iff : forall c n, has_name c n = true <-> has_entry c n.
Proof.
  intros c n. unfold has_name, has_entry. rewrite existsb_exists. split.
  - intros (t & _ & H). apply existsb_exists in H. destruct H as (e & H1 & H2).
    exists t, e. split; [exact H1|lia].
  - intros (t & e & H1 & H2). exists t. split.
    + destruct t; cbn; auto.
    + apply existsb_exists. exists e. split; [exact H1|lia].
Qed.

Lemma push_entries : forall t e sh c c' idx, push t e sh c = (c', idx) -> forall t' x,
  In x (c_const c' t' ++ c_simple c' t' ++ c_general c' t') <->
  In x (c_const c t' ++ c_simple c t' ++ c_general c t') \/ (t = t' /\ x = e).
Proof.
  intros t e sh c c' idx H t' x.
  assert (Haux : forall l : list entry, In x (l ++ [e]) <-> In x l \/ x = e).
  { intro l. rewrite in_app_iff. cbn. intuition congruence. }
  assert (Hd : t = t' \/ t <> t') by (destruct t, t'; (left; reflexivity) || (right; discriminate)).
  destruct sh as [| |bf af]; cbn [push push_const push_simple push_general] in H;
    injection H as <- <-; cbn [c_const c_simple c_general];
    rewrite !in_app_iff; destruct Hd as [<-|Hd];
    rewrite ?at_type_same, ?(at_type_other _ _ _ _ Hd), ?Haux; intuition congruence.
Qed.

Lemma build1_name : forall m b e sh, build1 m b = Ok (e, sh) -> e_name e = pb_name b.
Proof.
  intros m b e sh H. unfold build1 in H. destruct (pb_precheck b); [|discriminate H].
  destruct (resolve_refs m (pb_refs b)) as [mts|err|]; [|discriminate H|discriminate H].
  destruct (pb_shape b _); [|discriminate H]. injection H as <- <-. reflexivity.
Qed.

Lemma trace_has_name : forall nodes other es c m,
  trace nodes other es c m -> forall n,
  has_name c n = true <-> In n (map el_name es).
Proof.
  intros nodes other es c m H. induction H as [|es c m b e sh c' idx Ht IH Hn Hb Hp]; intro n.
  - split; [intro H; discriminate H|intros []].
  - rewrite map_app, in_app_iff. cbn [map In]. rewrite <- IH, !has_name_iff.
    pose proof (build1_name _ _ _ _ Hb) as Hnm.
    unfold el_name. cbn [el_b]. unfold has_entry. split.
    + intros (t & x & H1 & H2). apply (push_entries _ _ _ _ _ _ Hp) in H1.
      destruct H1 as [H1|[_ ->]]; [left; eauto|right; left; congruence].
    + intros [(t & x & H1 & H2)|[H|[]]].
      * exists t, x. split; [|exact H2]. apply (push_entries _ _ _ _ _ _ Hp). auto.
      * exists (pb_type b), e. split; [|congruence]. apply (push_entries _ _ _ _ _ _ Hp). auto.
Qed.

(** ** One builder. *)

Lemma resolve_index_not_missing : forall n a idx rv ph k,
  resolve_index n a idx rv ph <> Err (RNotFound k).
Proof.
  intros n a idx rv ph k H. unfold resolve_index in H.
  destruct idx as [i|i|r]; destruct rv; destruct ph; try discriminate H;
    try (destruct (reg_before r); discriminate H); destruct (reg_after r); discriminate H.
Qed.

Lemma resolve_index_no_panic : forall n a idx rv ph, resolve_index n a idx rv ph <> Panic.
Proof.
  intros n a idx rv ph H. unfold resolve_index in H.
  destruct idx as [i|i|r]; destruct rv; destruct ph; try discriminate H;
    try (destruct (reg_before r); discriminate H); destruct (reg_after r); discriminate H.
Qed.

Lemma resolve_no_panic : forall m u ph, resolve m u ph <> Panic.
Proof.
  intros m u ph H. destruct u; cbn [resolve] in H.
  - destruct (lookup (mp_f64 m) n); [exact (resolve_index_no_panic _ _ _ _ _ H)|].
    destruct (lookup (mp_u64 m) n); [exact (resolve_index_no_panic _ _ _ _ _ H)|discriminate H].
  - destruct (lookup (mp_u64 m) n); [exact (resolve_index_no_panic _ _ _ _ _ H)|discriminate H].
  - destruct (lookup (mp_multi m) n); [exact (resolve_index_no_panic _ _ _ _ _ H)|discriminate H].
  - discriminate H.
  - destruct (existsb _ _); discriminate H.
  - destruct (existsb _ _); discriminate H.
Qed.

Lemma resolve_refs_no_panic : forall m rs, resolve_refs m rs <> Panic.
Proof.
  intros m rs. induction rs as [|[u ph] rs IH]; cbn [resolve_refs]; [discriminate|].
  destruct (resolve m u ph) as [mt|[n|n|]|] eqn:E; try discriminate.
  - destruct (resolve_refs m rs); [discriminate|discriminate|contradiction].
  - exfalso. exact (resolve_no_panic _ _ _ E).
Qed.

Lemma build1_no_panic : forall m b, build1 m b <> Panic.
Proof.
  intros m b H. unfold build1 in H. destruct (pb_precheck b); [|discriminate H].
  destruct (resolve_refs m (pb_refs b)) as [mts|err|] eqn:E.
  - destruct (pb_shape b _); discriminate H.
  - discriminate H.
  - exact (resolve_refs_no_panic _ _ E).
Qed.

Lemma lookup_none : forall nodes other es c m t n,
  trace nodes other es c m -> lookup (map_of t m) n = None ->
  forall el, In el es -> el_name el = n -> el_type el <> t.
Proof.
  intros nodes other es c m t n Ht Hl el Hin Hnm Hty.
  assert (H : lookup (map_of t m) n = Some (el_idx el)).
  { apply (trace_lookup _ _ _ _ _ Ht). exists el. auto. }
  rewrite Hl in H. discriminate H.
Qed.

Lemma resolve_missing : forall nodes other es c m u ph n,
  trace nodes other es c m -> resolve m u ph = Err (RNotFound n) ->
  names_param u n /\
  forall el, In el es -> el_name el = n -> ~ accepts u (el_type el).
Proof.
  intros nodes other es c m u ph n Ht H.
  pose proof (fun t k => lookup_none _ _ _ _ _ t k Ht) as Hl.
  destruct u as [k rv|k rv|k key rv|k|k|k]; cbn [resolve] in H.
  - destruct (lookup (mp_f64 m) k) as [i|] eqn:E1;
      [exfalso; exact (resolve_index_not_missing _ _ _ _ _ _ H)|].
    destruct (lookup (mp_u64 m) k) as [i|] eqn:E2;
      [exfalso; exact (resolve_index_not_missing _ _ _ _ _ _ H)|].
    injection H as <-. split; [reflexivity|]. intros el Hin Hnm [Ha|Ha].
    + exact (Hl PF64 k E1 el Hin Hnm Ha).
    + exact (Hl PU64 k E2 el Hin Hnm Ha).
  - destruct (lookup (mp_u64 m) k) as [i|] eqn:E2;
      [exfalso; exact (resolve_index_not_missing _ _ _ _ _ _ H)|].
    injection H as <-. split; [reflexivity|]. intros el Hin Hnm Ha.
    exact (Hl PU64 k E2 el Hin Hnm Ha).
  - destruct (lookup (mp_multi m) k) as [i|] eqn:E2;
      [exfalso; exact (resolve_index_not_missing _ _ _ _ _ _ H)|].
    injection H as <-. split; [reflexivity|]. intros el Hin Hnm Ha.
    exact (Hl PMulti k E2 el Hin Hnm Ha).
  - discriminate H.
  - destruct (existsb _ _); discriminate H.
  - destruct (existsb _ _); discriminate H.
Qed.

(** How a reference that resolves is answered. *)
Definition ref_access (u : uref) (t : ptype) : access :=
  match u with
  | UF64 _ _ => match t with PU64 => AcU64asF64 | _ => AcF64 end
  | UU64 _ _ => AcU64
  | UMulti _ k _ => AcMulti k
  | _ => AcF64
  end.

Definition ref_rv (u : uref) : return_value :=
  match u with
  | UF64 _ rv | UU64 _ rv | UMulti _ _ rv => rv
  | _ => RVBefore
  end.

Lemma resolve_found : forall nodes other es c m u ph n mt,
  trace nodes other es c m -> names_param u n -> resolve m u ph = Ok mt ->
  exists el, In el es /\ el_name el = n /\ accepts u (el_type el) /\
    resolve_index n (ref_access u (el_type el)) (el_idx el) (ref_rv u) ph = Ok mt.
Proof.
  intros nodes other es c m u ph n mt Ht Hn H.
  pose proof (trace_lookup _ _ _ _ _ Ht) as Hl.
  destruct u as [k rv|k rv|k key rv|k|k|k]; cbn [names_param] in Hn; try destruct Hn; cbn [resolve] in H.
  - destruct (lookup (mp_f64 m) k) as [i|] eqn:E1.
    + apply (Hl PF64) in E1. destruct E1 as (el & H1 & H2 & H3 & H4). exists el.
      rewrite H3. cbn. subst i. auto.
    + destruct (lookup (mp_u64 m) k) as [i|] eqn:E2; [|discriminate H].
      apply (Hl PU64) in E2. destruct E2 as (el & H1 & H2 & H3 & H4). exists el.
      rewrite H3. cbn. subst i. auto.
  - destruct (lookup (mp_u64 m) k) as [i|] eqn:E2; [|discriminate H].
    apply (Hl PU64) in E2. destruct E2 as (el & H1 & H2 & H3 & H4). exists el.
    rewrite H3. cbn. subst i. auto.
  - destruct (lookup (mp_multi m) k) as [i|] eqn:E2; [|discriminate H].
    apply (Hl PMulti) in E2. destruct E2 as (el & H1 & H2 & H3 & H4). exists el.
    rewrite H3. cbn. subst i. auto.
Qed.

Lemma resolve_refs_retry : forall m rs n,
  resolve_refs m rs = Err (B1Retry n) ->
  exists u ph, In (u, ph) rs /\ resolve m u ph = Err (RNotFound n).
Proof.
  intros m rs n. induction rs as [|[u ph] rs IH]; cbn [resolve_refs]; intro H; [discriminate H|].
  destruct (resolve m u ph) as [mt|[k|k|]|] eqn:E.
  - destruct (resolve_refs m rs) as [mts|e|]; [discriminate H| |discriminate H].
    destruct (IH H) as (u' & ph' & H1 & H2). exists u', ph'. cbn. auto.
  - injection H as <-. exists u, ph. cbn. auto.
  - discriminate H.
  - discriminate H.
  - discriminate H.
Qed.

Lemma build1_retry : forall m b n,
  build1 m b = Err (B1Retry n) ->
  exists u ph, In (u, ph) (pb_refs b) /\ resolve m u ph = Err (RNotFound n).
Proof.
  intros m b n H. unfold build1 in H. destruct (pb_precheck b); [|discriminate H].
  destruct (resolve_refs m (pb_refs b)) as [mts|e|] eqn:E.
  - destruct (pb_shape b _); discriminate H.
  - injection H as ->. exact (resolve_refs_retry _ _ _ E).
  - discriminate H.
Qed.

Lemma resolve_refs_Ok : forall m rs mts,
  resolve_refs m rs = Ok mts ->
  Forall2 (fun r p => resolve m (fst r) (snd r) = Ok (fst p) /\ snd p = snd r) rs mts.
Proof.
  intros m rs. induction rs as [|[u ph] rs IH]; cbn [resolve_refs]; intros mts H.
  - injection H as <-. constructor.
  - destruct (resolve m u ph) as [mt|[n|n|]|] eqn:E; try discriminate H.
    destruct (resolve_refs m rs) as [l|e|]; [|discriminate H|discriminate H].
    injection H as <-. constructor; [cbn; auto|apply IH; reflexivity].
Qed.

Lemma build1_Ok : forall m b e sh,
  build1 m b = Ok (e, sh) ->
  pb_precheck b = true /\ e_name e = pb_name b /\
  resolve_refs m (pb_refs b) = Ok (e_metrics e) /\
  pb_shape b (map (fun p => metric_class (fst p)) (e_metrics e)) = Some sh.
Proof.
  intros m b e sh H. unfold build1 in H. destruct (pb_precheck b); [|discriminate H].
  destruct (resolve_refs m (pb_refs b)) as [mts|err|]; [|discriminate H|discriminate H].
  destruct (pb_shape b _) eqn:E; [|discriminate H]. injection H as <- <-. auto.
Qed.

Lemma build1_refs : forall nodes other es c m b e sh u ph n,
  trace nodes other es c m -> build1 m b = Ok (e, sh) ->
  In (u, ph) (pb_refs b) -> names_param u n ->
  exists el, In el es /\ el_name el = n /\ accepts u (el_type el).
Proof.
  intros nodes other es c m b e sh u ph n Ht Hb Hin Hn.
  apply build1_Ok in Hb. destruct Hb as (_ & _ & Hr & _). apply resolve_refs_Ok in Hr.
  clear - Ht Hr Hin Hn. induction Hr as [|[u' ph'] [mt ph2] rs mts [H1 H2] Hr IH]; [destruct Hin|].
  destruct Hin as [Hin|Hin]; [|auto]. injection Hin as -> ->. cbn [fst snd] in H1.
  destruct (resolve_found _ _ _ _ _ _ _ _ _ Ht Hn H1) as (el & E1 & E2 & E3 & _). exists el. auto.
Qed.

(** ** The loops. *)

Definition in_names (es : list elem) (bs : list pbuilder) : Prop :=
  NoDup (map el_name es ++ map pb_name bs).

Lemma in_names_head : forall es b bs, in_names es (b :: bs) -> ~ In (pb_name b) (map el_name es).
Proof.
  intros es b bs H Hin. unfold in_names in H. cbn [map] in H.
  apply NoDup_remove_2 in H. apply H. apply in_app_iff. auto.
Qed.

Lemma in_names_skip : forall es b bs, in_names es (b :: bs) -> in_names es bs.
Proof. intros es b bs H. unfold in_names in *. cbn [map] in H. apply NoDup_remove_1 in H. exact H. Qed.

Lemma in_names_move : forall es b bs e sh idx,
  in_names es (b :: bs) -> in_names (es ++ [Elem b e sh idx]) bs.
Proof.
  intros es b bs e sh idx H. unfold in_names in *. rewrite map_app, <- app_assoc. exact H.
Qed.

Definition pass_result (nodes other : list nat) (es : list elem) (bs : list pbuilder)
    (r : res build_err (collection * maps * list (pbuilder * pname))) : Prop :=
  match r with
  | Ok (c', m', failed) =>
      exists es', trace nodes other (es ++ es') c' m' /\
        Permutation bs (map el_b es' ++ map fst failed) /\
        forall b n, In (b, n) failed ->
        exists pre post c0 m0, es' = pre ++ post /\
          trace nodes other (es ++ pre) c0 m0 /\ build1 m0 b = Err (B1Retry n)
  | Err (BuildFailed n) =>
      exists b es' c0 m0, In b bs /\ pb_name b = n /\ incl (map el_b es') bs /\
        trace nodes other (es ++ es') c0 m0 /\ build1 m0 b = Err B1Fail
  | Err _ => False
  | Panic => False
  end.

Lemma pass_spec : forall nodes other bs es c m,
  trace nodes other es c m -> in_names es bs ->
  pass_result nodes other es bs (pass bs c m).
Proof.
  intros nodes other bs. induction bs as [|b bs IH]; intros es c m Ht Hn; cbn [pass].
  - cbn [pass_result]. exists []. rewrite app_nil_r. split; [exact Ht|]. split; [constructor|].
    intros b n [].
  - pose proof (in_names_head _ _ _ Hn) as Hnew.
    destruct (has_name c (pb_name b)) eqn:Eh.
    { apply (trace_has_name _ _ _ _ _ Ht) in Eh. contradiction. }
    destruct (build1 m b) as [[e sh]|[k|]|] eqn:Eb.
    + destruct (push (pb_type b) e sh c) as [c' idx] eqn:Ep.
      pose proof (tr_snoc _ _ _ _ _ _ _ _ _ _ Ht Hnew Eb Ep) as Ht'.
      specialize (IH _ _ _ Ht' (in_names_move _ _ _ e sh idx Hn)).
      destruct (pass bs c' _) as [[[c2 m2] failed]|err|]; cbn [pass_result] in *.
      * destruct IH as (es' & H1 & H2 & H3). exists (Elem b e sh idx :: es').
        rewrite <- app_assoc in H1. split; [exact H1|]. split.
        { cbn [map]. cbn [el_b app]. constructor. exact H2. }
        intros b0 n Hin. destruct (H3 _ _ Hin) as (pre & post & c0 & m0 & -> & H4 & H5).
        exists (Elem b e sh idx :: pre), post, c0, m0. rewrite <- app_assoc in H4. auto.
      * destruct err as [n|n|n|ns]; try contradiction.
        destruct IH as (b0 & es' & c0 & m0 & H1 & H2 & H3 & H4 & H5).
        exists b0, (Elem b e sh idx :: es'), c0, m0. rewrite <- app_assoc in H4.
        split; [right; exact H1|]. split; [exact H2|]. split; [|auto].
        cbn [map el_b]. intros x [<-|Hx]; [left; reflexivity|right; apply H3; exact Hx].
      * exact IH.
    + specialize (IH _ _ _ Ht (in_names_skip _ _ _ Hn)).
      destruct (pass bs c m) as [[[c2 m2] failed]|err|]; cbn [pass_result] in *.
      * destruct IH as (es' & H1 & H2 & H3). exists es'. split; [exact H1|]. split.
        { cbn [map fst]. apply Permutation_cons_app. exact H2. }
        intros b0 n [Hin|Hin].
        { injection Hin as <- <-. exists [], es', c, m. rewrite app_nil_r. auto. }
        apply H3. exact Hin.
      * destruct err as [n|n|n|ns]; try contradiction.
        destruct IH as (b0 & es' & c0 & m0 & H1 & H2 & H3 & H4 & H5).
        exists b0, es', c0, m0. split; [right; exact H1|]. split; [exact H2|]. split; [|auto].
        intros x Hx. right. apply H3. exact Hx.
      * exact IH.
    + cbn [pass_result]. exists b, [], c, m. rewrite app_nil_r.
      split; [left; reflexivity|]. split; [reflexivity|]. split; [intros x []|auto].
    + exact (build1_no_panic _ _ Eb).
Qed.

Definition loop_result (nodes other : list nat) (es : list elem) (bs : list pbuilder)
    (r : res build_err (collection * maps)) : Prop :=
  match r with
  | Ok (c', m') =>
      exists es', trace nodes other (es ++ es') c' m' /\ Permutation bs (map el_b es')
  | Err (DuplicateName _) => False
  | Err (BuildFailed n) =>
      exists b es' c0 m0, In b bs /\ pb_name b = n /\ incl (map el_b es') bs /\
        trace nodes other (es ++ es') c0 m0 /\ build1 m0 b = Err B1Fail
  | Err e =>
      exists es' c0 m0 left, trace nodes other (es ++ es') c0 m0 /\
        Permutation bs (map el_b es' ++ map fst left) /\ left <> [] /\
        (forall b n, In (b, n) left -> build1 m0 b = Err (B1Retry n)) /\
        e = stuck_error left
  | Panic => False
  end.

Lemma names_perm : forall es es' bs failed,
  in_names es bs -> Permutation bs (map el_b es' ++ map (@fst pbuilder pname) failed) ->
  in_names (es ++ es') (map fst failed).
Proof.
  intros es es' bs failed H HP. unfold in_names in *. rewrite map_app, <- app_assoc.
  eapply Permutation_NoDup; [|exact H]. apply Permutation_app_head.
  eapply perm_trans; [apply Permutation_map; exact HP|]. rewrite map_app, map_map.
  apply Permutation_refl.
Qed.

Lemma build_loop_spec : forall nodes other fuel bs es c m,
  trace nodes other es c m -> in_names es bs -> length bs < fuel ->
  exists r, build_loop fuel bs (length bs) c m = Some r /\ loop_result nodes other es bs r.
Proof.
  intros nodes other fuel. induction fuel as [|fuel IH]; intros bs es c m Ht Hn Hf; [lia|].
  cbn [build_loop]. destruct bs as [|b0 bs0] eqn:Ebs.
  - exists (Ok (c, m)). split; [reflexivity|]. exists []. rewrite app_nil_r. split; [exact Ht|constructor].
  - rewrite <- Ebs in *. assert (Hpos : bs <> []) by (rewrite Ebs; discriminate). clear b0 bs0 Ebs.
    pose proof (pass_spec _ _ bs _ _ _ Ht Hn) as Hp.
    destruct (pass bs c m) as [[[c' m'] failed]|err|]; cbn [pass_result] in Hp.
    + destruct Hp as (es' & H1 & H2 & H3).
      pose proof (Permutation_length H2) as Hlen. rewrite app_length, !map_length in Hlen.
      destruct (length bs =? length failed) eqn:El.
      * exists (Err (stuck_error failed)). split; [reflexivity|].
        assert (Hes : es' = []) by (destruct es'; [reflexivity|cbn [length] in Hlen; lia]). subst es'.
        assert (Hr : exists es' c0 m0 left, trace nodes other (es ++ es') c0 m0 /\
          Permutation bs (map el_b es' ++ map fst left) /\ left <> [] /\
          (forall b n, In (b, n) left -> build1 m0 b = Err (B1Retry n)) /\
          stuck_error failed = stuck_error left).
        { exists [], c', m', failed. split; [exact H1|]. split; [exact H2|]. split.
          { intro E. subst failed. cbn in El. destruct bs; [contradiction|cbn in El; lia]. }
          split; [|reflexivity]. intros b n Hin. destruct (H3 _ _ Hin) as (pre & post & c0 & m0 & Hpp & H4 & H5).
          symmetry in Hpp. apply app_eq_nil in Hpp. destruct Hpp as [-> ->].
          destruct (trace_det _ _ _ _ _ _ _ H1 H4) as [_ ->]. exact H5. }
        unfold stuck_error in *. destruct (find _ _); exact Hr.
      * destruct (IH (map fst failed) (es ++ es') c' m' H1 (names_perm _ _ _ _ Hn H2)) as (r & Hr1 & Hr2).
        { rewrite map_length. lia. }
        rewrite map_length in Hr1. exists r. split; [exact Hr1|].
        assert (Hmv : forall l l2 : list pbuilder, Permutation (map fst failed) (l ++ l2) ->
          Permutation bs ((map el_b es' ++ l) ++ l2)).
        { intros l l2 HP. eapply perm_trans; [exact H2|]. rewrite <- app_assoc.
          apply Permutation_app_head. exact HP. }
        assert (Hincl : incl (map fst failed) bs).
        { intros x Hx. apply (Permutation_in x (Permutation_sym H2)). apply in_app_iff. auto. }
        assert (Hincl2 : incl (map el_b es') bs).
        { intros x Hx. apply (Permutation_in x (Permutation_sym H2)). apply in_app_iff. auto. }
        destruct r as [[c2 m2]|[n|n|n|ns]|]; cbn [loop_result] in *.
        -- destruct Hr2 as (es2 & H4 & H5). exists (es' ++ es2). rewrite app_assoc, map_app.
           split; [exact H4|]. specialize (Hmv (map el_b es2) []). rewrite !app_nil_r in Hmv. auto.
        -- exact Hr2.
        -- destruct Hr2 as (b & es2 & c0 & m0 & H4 & H5 & H6 & H7 & H8).
           exists b, (es' ++ es2), c0, m0. rewrite app_assoc, map_app.
           split; [apply Hincl; exact H4|]. split; [exact H5|]. split; [|auto].
           apply incl_app; [exact Hincl2|]. intros x Hx. apply Hincl, H6, Hx.
        -- destruct Hr2 as (es2 & c0 & m0 & lf & H4 & H5 & H6). exists (es' ++ es2), c0, m0, lf.
           rewrite app_assoc, map_app. split; [exact H4|]. split; [apply Hmv; exact H5|exact H6].
        -- destruct Hr2 as (es2 & c0 & m0 & lf & H4 & H5 & H6). exists (es' ++ es2), c0, m0, lf.
           rewrite app_assoc, map_app. split; [exact H4|]. split; [apply Hmv; exact H5|exact H6].
        -- exact Hr2.
    + exists (Err err). split; [reflexivity|]. destruct err as [n|n|n|ns]; try contradiction. exact Hp.
    + contradiction.
Qed.

(** ** Names. *)

Lemma first_duplicate_none : forall ns seen,
  first_duplicate seen ns = None <-> (NoDup ns /\ forall n, In n ns -> ~ In n seen).
Proof.
  induction ns as [|n ns IH]; intro seen; cbn [first_duplicate].
  - split; [intros _; split; [constructor|intros n []]|reflexivity].
  - destruct (existsb (Nat.eqb n) seen) eqn:E.
    + split; [intro H; discriminate H|]. intros [_ H]. exfalso.
      apply existsb_exists in E. destruct E as (x & Hx & Ex). apply (H n); [left; reflexivity|].
      replace n with x by lia. exact Hx.
    + rewrite IH. assert (Hns : ~ In n seen).
      { intro Hin. assert (existsb (Nat.eqb n) seen = true); [|congruence].
        apply existsb_exists. exists n. split; [exact Hin|lia]. }
      split.
      * intros [H1 H2]. split.
        { constructor; [|exact H1]. intro Hin. apply (H2 n Hin). left. reflexivity. }
        intros k [<-|Hk]; [exact Hns|]. intro. apply (H2 k Hk). right. assumption.
      * intros [H1 H2]. inversion H1 as [|? ? Hni Hnd]; subst. split; [exact Hnd|].
        intros k Hk [<-|Hin]; [contradiction|]. apply (H2 k); [right; exact Hk|exact Hin].
Qed.

Lemma first_duplicate_some : forall ns seen n,
  first_duplicate seen ns = Some n ->
  exists l1 l2, ns = l1 ++ n :: l2 /\ (In n seen \/ In n l1).
Proof.
  induction ns as [|k ns IH]; intros seen n; cbn [first_duplicate]; intro H; [discriminate H|].
  destruct (existsb (Nat.eqb k) seen) eqn:E.
  - injection H as <-. apply existsb_exists in E. destruct E as (x & Hx & Ex).
    exists [], ns. split; [reflexivity|]. left. replace k with x by lia. exact Hx.
  - destruct (IH _ _ H) as (l1 & l2 & -> & Hor). exists (k :: l1), l2. split; [reflexivity|].
    destruct Hor as [[<-|Hs]|Hl]; [right; left; reflexivity|left; exact Hs|right; right; exact Hl].
Qed.

(** ** Success gives well-formedness. *)

Lemma split_unique : forall {A B} (f : A -> B) p1 e1 q1 p2 e2 q2,
  NoDup (map f (p1 ++ e1 :: q1)) -> p1 ++ e1 :: q1 = p2 ++ e2 :: q2 -> f e1 = f e2 ->
  p1 = p2 /\ e1 = e2 /\ q1 = q2.
Proof.
  intros A B f p1. induction p1 as [|x p1 IH]; intros e1 q1 [|y p2] e2 q2 Hnd Heq Hf; cbn [app] in *.
  - injection Heq as <- <-. auto.
  - exfalso. injection Heq as <- ->. cbn [map] in Hnd. inversion Hnd as [|? ? Hni _]; subst.
    apply Hni. rewrite map_app, in_app_iff. right. left. symmetry. exact Hf.
  - exfalso. injection Heq as -> <-. cbn [map] in Hnd. inversion Hnd as [|? ? Hni _]; subst.
    apply Hni. rewrite map_app, in_app_iff. right. left. exact Hf.
  - injection Heq as <- Heq. cbn [map] in Hnd. inversion Hnd as [|? ? _ Hnd']; subst.
    destruct (IH _ _ _ _ _ Hnd' Heq Hf) as (-> & -> & ->). auto.
Qed.

Definition comes_before (es : list elem) (y x : pname) : Prop :=
  exists pre e post, es = pre ++ e :: post /\ el_name e = x /\ In y (map el_name pre).

Lemma comes_before_trans : forall es z y x, NoDup (map el_name es) ->
  comes_before es z y -> comes_before es y x -> comes_before es z x.
Proof.
  intros es z y x Hnd (p2 & e2 & q2 & E2 & H2 & Hz) (p1 & e1 & q1 & E1 & H1 & Hy).
  exists p1, e1, q1. split; [exact E1|]. split; [exact H1|].
  apply in_map_iff in Hy. destruct Hy as (e' & He' & Hin).
  apply in_split in Hin. destruct Hin as (a & b & ->).
  assert (E3 : es = a ++ e' :: (b ++ e1 :: q1)) by (rewrite E1, <- app_assoc; reflexivity).
  assert (Hs : p2 = a /\ e2 = e' /\ q2 = b ++ e1 :: q1).
  { apply (split_unique el_name); [rewrite <- E2; exact Hnd|congruence|congruence]. }
  destruct Hs as (-> & _ & _). rewrite map_app, in_app_iff. auto.
Qed.

Lemma comes_before_irrefl : forall es x, NoDup (map el_name es) -> ~ comes_before es x x.
Proof.
  intros es x Hnd (p & e & q & -> & Hx & Hin). rewrite map_app in Hnd. cbn [map] in Hnd.
  apply NoDup_remove_2 in Hnd. apply Hnd. apply in_app_iff. left. rewrite Hx. exact Hin.
Qed.

Lemma trace_depends : forall nodes other es c m x y,
  trace nodes other es c m -> depends (map el_b es) x y -> comes_before es y x.
Proof.
  intros nodes other es c m x y Ht (b & Hb & Hx & u & ph & Hin & Hn).
  apply in_map_iff in Hb. destruct Hb as (el & <- & Hel).
  destruct (trace_split _ _ _ _ _ _ Ht Hel) as (pre & post & c0 & m0 & -> & Ht0 & Hb0).
  destruct (build1_refs _ _ _ _ _ _ _ _ _ _ _ Ht0 Hb0 Hin Hn) as (el' & H1 & H2 & _).
  exists pre, el, post. split; [reflexivity|]. split; [exact Hx|].
  apply in_map_iff. exists el'. auto.
Qed.

Lemma trace_acyclic : forall nodes other es c m,
  trace nodes other es c m -> acyclic (map el_b es).
Proof.
  intros nodes other es c m Ht x Hc.
  pose proof (trace_NoDup _ _ _ _ _ Ht) as Hnd.
  assert (H : forall a b, clos_trans _ (depends (map el_b es)) a b -> comes_before es b a).
  { intros a b H. induction H as [a b H|a b d H1 IH1 H2 IH2].
    - exact (trace_depends _ _ _ _ _ _ _ Ht H).
    - exact (comes_before_trans _ _ _ _ Hnd IH2 IH1). }
  exact (comes_before_irrefl _ _ Hnd (H _ _ Hc)).
Qed.

Lemma trace_all_defined : forall nodes other es c m,
  trace nodes other es c m -> all_defined (map el_b es).
Proof.
  intros nodes other es c m Ht b u ph Hb Hin n Hn.
  apply in_map_iff in Hb. destruct Hb as (el & <- & Hel).
  destruct (trace_split _ _ _ _ _ _ Ht Hel) as (pre & post & c0 & m0 & -> & Ht0 & Hb0).
  destruct (build1_refs _ _ _ _ _ _ _ _ _ _ _ Ht0 Hb0 Hin Hn) as (el' & H1 & H2 & H3).
  exists (el_b el'). split; [|auto]. apply in_map. apply in_app_iff. auto.
Qed.

Lemma depends_perm : forall bs bs' x y, Permutation bs bs' -> depends bs x y -> depends bs' x y.
Proof. intros bs bs' x y HP (b & H & H'). exists b. split; [exact (Permutation_in _ HP H)|exact H']. Qed.

Lemma clos_trans_mono : forall (R R2 : pname -> pname -> Prop) a b,
  (forall x y, R x y -> R2 x y) -> clos_trans _ R a b -> clos_trans _ R2 a b.
Proof.
  intros R R2 a b H Hc. induction Hc as [a b Hd|a b d _ IH1 _ IH2].
  - apply t_step. auto.
  - eapply t_trans; eassumption.
Qed.

Lemma acyclic_perm : forall bs bs', Permutation bs bs' -> acyclic bs -> acyclic bs'.
Proof.
  intros bs bs' HP H x Hc. apply (H x). revert Hc. apply clos_trans_mono.
  intros a b. apply depends_perm. apply Permutation_sym. exact HP.
Qed.

Lemma all_defined_perm : forall bs bs', Permutation bs bs' -> all_defined bs -> all_defined bs'.
Proof.
  intros bs bs' HP H b u ph Hb Hin n Hn.
  destruct (H b u ph (Permutation_in _ (Permutation_sym HP) Hb) Hin n Hn) as (b' & H1 & H2).
  exists b'. split; [exact (Permutation_in _ HP H1)|exact H2].
Qed.

(** ** Being stuck. *)

Inductive walk (R : nat -> nat -> Prop) : list nat -> Prop :=
| walk1 : forall x, walk R [x]
| walk_cons : forall x y w, R x y -> walk R (y :: w) -> walk R (x :: y :: w).

Lemma walk_reach : forall R w, walk R w -> forall x w', w = x :: w' -> forall y, In y w' ->
  clos_trans _ R x y.
Proof.
  intros R w H. induction H as [x|x y w Hxy Hw IH]; intros x0 w' E z Hz; injection E as <- <-.
  - destruct Hz.
  - destruct Hz as [<-|Hz]; [apply t_step; exact Hxy|].
    eapply t_trans; [apply t_step; exact Hxy|]. exact (IH y w eq_refl z Hz).
Qed.

Lemma walk_tail : forall R l x w, walk R (l ++ x :: w) -> walk R (x :: w).
Proof.
  intros R l. induction l as [|a l IH]; intros x w H; [exact H|]. apply IH. cbn [app] in H.
  inversion H as [z Hz|? ? ? _ Hw]; subst.
  - destruct l; discriminate.
  - destruct l; cbn [app] in *; congruence.
Qed.

Lemma walk_exists : forall (R : nat -> nat -> Prop) ns,
  (forall x, In x ns -> exists y, In y ns /\ R x y) ->
  forall k x, In x ns -> exists w, walk R (x :: w) /\ length w = k /\ incl (x :: w) ns.
Proof.
  intros R ns H k. induction k as [|k IH]; intros x Hx.
  - exists []. split; [constructor|]. split; [reflexivity|]. intros y [<-|[]]. exact Hx.
  - destruct (H x Hx) as (y & Hy & HR). destruct (IH y Hy) as (w & Hw & Hl & Hi).
    exists (y :: w). split; [constructor; assumption|]. split; [cbn; lia|].
    intros z [<-|Hz]; [exact Hx|apply Hi; exact Hz].
Qed.

Lemma not_NoDup_split : forall (l : list nat), ~ NoDup l ->
  exists l1 x l2, l = l1 ++ x :: l2 /\ In x l2.
Proof.
  induction l as [|a l IH]; intro H.
  - exfalso. apply H. constructor.
  - destruct (in_dec Nat.eq_dec a l) as [Hin|Hin].
    + exists [], a, l. auto.
    + destruct IH as (l1 & x & l2 & -> & Hx).
      { intro Hnd. apply H. constructor; assumption. }
      exists (a :: l1), x, l2. auto.
Qed.

Lemma finite_cycle : forall (R : nat -> nat -> Prop) ns, ns <> [] ->
  (forall x, In x ns -> exists y, In y ns /\ R x y) ->
  exists x, In x ns /\ clos_trans _ R x x.
Proof.
  intros R ns Hne H. destruct ns as [|x0 ns0] eqn:E; [contradiction|]. rewrite <- E in *.
  assert (Hx0 : In x0 ns) by (rewrite E; left; reflexivity).
  destruct (walk_exists R ns H (length ns) x0 Hx0) as (w & Hw & Hl & Hi).
  destruct (not_NoDup_split (x0 :: w)) as (l1 & x & l2 & Heq & Hin).
  { intro Hnd. pose proof (NoDup_incl_length Hnd Hi) as Hle. cbn [length] in Hle. lia. }
  exists x. split.
  - apply Hi. rewrite Heq. apply in_app_iff. right. left. reflexivity.
  - rewrite Heq in Hw. apply walk_tail in Hw. exact (walk_reach _ _ Hw _ _ eq_refl _ Hin).
Qed.

Lemma stuck_not_found : forall lf n, stuck_error lf = NotFound n ->
  exists b, In (b, n) lf /\ ~ In n (map (fun p => pb_name (fst p)) lf).
Proof.
  intros lf n H. unfold stuck_error in H. destruct (find _ _) as [k|] eqn:E; [|discriminate H].
  injection H as ->. apply find_some in E. destruct E as [H1 H2].
  apply in_map_iff in H1. destruct H1 as ([b k] & E1 & H1). cbn in E1. subst k.
  exists b. split; [exact H1|]. intro Hin. rewrite negb_true_iff in H2.
  assert (existsb (Nat.eqb n) (map (fun p => pb_name (fst p)) lf) = true); [|congruence].
  apply existsb_exists. exists n. split; [exact Hin|lia].
Qed.

Lemma stuck_circular : forall lf ns, stuck_error lf = Circular ns ->
  ns = map (fun p => pb_name (fst p)) lf /\ forall b n, In (b, n) lf -> In n ns.
Proof.
  intros lf ns H. unfold stuck_error in H. destruct (find _ _) as [k|] eqn:E; [discriminate H|].
  injection H as <-. split; [reflexivity|]. intros b n Hin.
  assert (Hf := find_none _ _ E n). rewrite negb_false_iff in Hf.
  assert (Hn : In n (map snd lf)) by (apply in_map_iff; exists (b, n); auto).
  apply Hf in Hn. apply existsb_exists in Hn. destruct Hn as (x & Hx & Ex).
  replace n with x by lia. exact Hx.
Qed.

(** ** The whole build. *)

Definition build_spec (nodes other : list nat) (bs : list pbuilder)
    (r : res build_err (collection * maps)) : Prop :=
  match r with
  | Err (DuplicateName n) =>
      exists l1 l2, map pb_name bs = l1 ++ n :: l2 /\ In n l1
  | _ => unique_names bs /\ loop_result nodes other [] bs r
  end.

Lemma build_cases : forall nodes other bs,
  exists r, build_fuel (S (length bs)) nodes other bs = Some r /\ build_spec nodes other bs r.
Proof.
  intros nodes other bs. unfold build_fuel.
  destruct (first_duplicate [] (map pb_name bs)) as [n|] eqn:E.
  - exists (Err (DuplicateName n)). split; [reflexivity|]. cbn [build_spec].
    apply first_duplicate_some in E. destruct E as (l1 & l2 & H1 & [[]|H2]). eauto.
  - apply first_duplicate_none in E. destruct E as [Hnd _].
    destruct (build_loop_spec nodes other (S (length bs)) bs [] _ _ (tr_nil nodes other)) as (r & H1 & H2).
    + exact Hnd.
    + lia.
    + exists r. split; [exact H1|]. destruct r as [[c m]|[n|n|n|ns]|]; cbn [build_spec]; try (split; assumption).
      destruct H2.
Qed.

Lemma build_fuel_enough : forall nodes other bs fuel r,
  build_fuel (S (length bs)) nodes other bs = Some r -> length bs < fuel ->
  build_fuel fuel nodes other bs = Some r.
Proof.
  intros nodes other bs fuel r. unfold build_fuel. destruct (first_duplicate _ _); [auto|].
  generalize (length bs) at 2 4. generalize empty_collection (initial_maps nodes other).
  intros c m k H Hf.
  assert (G : forall f f2 bs k c m r, f <= f2 -> build_loop f bs k c m = Some r -> build_loop f2 bs k c m = Some r).
  { clear. induction f as [|f IH]; intros f2 bs k c m r Hle H; [discriminate H|].
    destruct f2 as [|f2]; [lia|]. cbn [build_loop] in *. destruct bs as [|b bs]; [exact H|].
    destruct (pass (b :: bs) c m) as [[[c' m'] failed]|e|]; [|exact H|exact H].
    destruct (k =? length failed); [exact H|]. apply IH; [lia|exact H]. }
  exact (G _ _ _ _ _ _ _ Hf H).
Qed.
