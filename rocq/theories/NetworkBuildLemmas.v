From Verif Require Import Base Calendar Network NetworkBuild NetworkSpec.
Open Scope nat_scope.

Lemma uname_eqb_eq a b : uname_eqb a b = true <-> a = b.
Proof.
  destruct a as [a1 [a2|]], b as [b1 [b2|]]; unfold uname_eqb; cbn [fst snd];
    rewrite andb_true_iff, ?String.eqb_eq; split; try intros [H1 H2]; try intros H; try congruence;
    try (injection H as -> ->; auto); try (injection H as ->; auto).
Qed.
Lemma uedge_eqb_eq a b : uedge_eqb a b = true <-> a = b.
Proof.
  destruct a, b; unfold uedge_eqb; cbn [fst snd]. rewrite andb_true_iff, !uname_eqb_eq.
  split; [intros [-> ->]; reflexivity | intros H; injection H as -> ->; auto].
Qed.

Section Assoc.
Context {K : Type} (eqb : K -> K -> bool) (eqb_eq : forall a b, eqb a b = true <-> a = b).

Lemma assoc_None {V} k (m : list (K * V)) : assoc eqb k m = None <-> ~ In k (map fst m).
Proof.
  induction m as [|[k' v] m IH]; cbn [assoc map fst In]; [tauto|].
  destruct (eqb k k') eqn:E.
  - apply eqb_eq in E. subst. split; [discriminate|]. intros H. exfalso. apply H. left. reflexivity.
  - rewrite IH. split; [|tauto]. intros H [->|H']; [|tauto].
    assert (eqb k k = true) by (apply eqb_eq; reflexivity). congruence.
Qed.

Lemma assoc_combine_seq (keys : list K) i k j :
  NoDup keys -> (assoc eqb k (combine keys (seq i (length keys))) = Some j
                 <-> i <= j /\ nth_error keys (j - i) = Some k).
Proof.
  revert i. induction keys as [|k0 keys IH]; intros i Hnd; cbn [combine seq length assoc].
  - split; [discriminate|]. intros [_ H]. destruct (j - i); discriminate.
  - inversion Hnd as [|? ? Hni Hnd']; subst.
    destruct (eqb k k0) eqn:E.
    + apply eqb_eq in E. subst k0. split.
      * intros H. injection H as <-. split; [lia|]. rewrite Nat.sub_diag. reflexivity.
      * intros [Hle H]. destruct (j - i) as [|d] eqn:Ed; [f_equal; lia|].
        cbn in H. apply nth_error_In in H. contradiction.
    + rewrite (IH (S i) Hnd'). split; intros [Hle H].
      * split; [lia|]. replace (j - i) with (S (j - S i)) by lia. exact H.
      * destruct (j - i) as [|d] eqn:Ed.
        -- cbn in H. injection H as ->.
           assert (eqb k k = true) by (apply eqb_eq; reflexivity). congruence.
        -- split; [lia|]. replace (j - S i) with d by lia. exact H.
Qed.

Lemma assoc_combine_seq_le (keys : list K) i k j :
  NoDup keys -> assoc eqb k (combine keys (seq i (length keys))) = Some j -> i <= j.
Proof. intros Hnd H. apply (assoc_combine_seq keys i k j Hnd) in H. tauto. Qed.

Lemma assoc_combine_seq0 (keys : list K) k j :
  NoDup keys -> (assoc eqb k (combine keys (seq 0 (length keys))) = Some j <-> nth_error keys j = Some k).
Proof.
  intros Hnd. rewrite (assoc_combine_seq keys 0 k j Hnd), Nat.sub_0_r. split; [tauto|]. split; [lia|tauto].
Qed.

Lemma map_fst_combine_seq {A} (l : list A) i : map fst (combine l (seq i (length l))) = l.
Proof. revert i. induction l as [|x l IH]; intros i; cbn; [reflexivity|]. f_equal. apply IH. Qed.

Lemma index_map_Ok (err : K -> build_error) i keys m m' :
  index_map eqb err i keys m = Ok m' <->
  m' = m ++ combine keys (seq i (length keys)) /\ NoDup keys /\ (forall k, In k keys -> ~ In k (map fst m)).
Proof.
  revert i m. induction keys as [|k keys IH]; intros i m; cbn [index_map].
  - cbn. rewrite app_nil_r. split.
    + intros H. injection H as <-. split; [reflexivity|]. split; [constructor|]. intros k [].
    + intros [-> _]. reflexivity.
  - destruct (assoc eqb k m) as [v|] eqn:E.
    + split; [discriminate|]. intros (_ & _ & H). exfalso.
      assert (Hn : assoc eqb k m = None) by (apply assoc_None, H; left; reflexivity). congruence.
    + apply assoc_None in E. rewrite IH. cbn [length seq combine]. rewrite <- app_assoc. cbn [app].
      split; intros (H1 & H2 & H3); (split; [exact H1|]).
      * assert (Hk : ~ In k keys).
        { intros Hin. apply (H3 k Hin). rewrite map_app. apply in_or_app. right. left. reflexivity. }
        split; [constructor; assumption|].
        intros k' [<-|Hin]; [exact E|]. intros Hc. apply (H3 k' Hin). rewrite map_app. apply in_or_app. left. exact Hc.
      * inversion H2 as [|? ? Hni Hnd]; subst. split; [exact Hnd|].
        intros k' Hin. rewrite map_app, in_app_iff. cbn. intros [Hc|[->|[]]]; [|contradiction].
        apply (H3 k' (or_intror Hin) Hc).
Qed.
Lemma index_map_not_Panic (err : K -> build_error) i keys m : index_map eqb err i keys m <> Panic.
Proof.
  revert i m. induction keys as [|k keys IH]; intros i m; cbn [index_map]; [discriminate|].
  destruct (assoc eqb k m); [discriminate | apply IH].
Qed.
End Assoc.

(** [push_at]/[get_list] *)
Lemma get_push_same k v m : get_list k (push_at k v m) = get_list k m ++ [v].
Proof.
  unfold get_list. induction m as [|[k' vs] m IH]; cbn [push_at assoc].
  - rewrite Nat.eqb_refl. reflexivity.
  - destruct (k =? k') eqn:E; cbn [assoc]; rewrite E; [reflexivity | exact IH].
Qed.
Lemma get_push_other k k' v m : k' <> k -> get_list k' (push_at k v m) = get_list k' m.
Proof.
  intros Hne. unfold get_list. induction m as [|[k0 vs] m IH]; cbn [push_at assoc].
  - destruct (k' =? k) eqn:E; [apply Nat.eqb_eq in E; contradiction | reflexivity].
  - destruct (k =? k0) eqn:E; cbn [assoc].
    + apply Nat.eqb_eq in E. subst k0. destruct (k' =? k) eqn:E'; [apply Nat.eqb_eq in E'; contradiction|reflexivity].
    + destruct (k' =? k0); [reflexivity | exact IH].
Qed.

Definition ix_of (b : net_builder) : list (uname * nat) :=
  combine (map nb_name (b_nodes b)) (seq 0 (length (map nb_name (b_nodes b)))).

Section Edges.
Variable ix : list (uname * nat).

(** Edges with resolved endpoints. *)
Lemma node_edge_maps_Ok es : forall i inc out inc' out',
  node_edge_maps ix i es inc out = Ok (inc', out') <->
  exists res, rmap (build_edge ix) es = Ok res /\
    (forall e, In e res -> e_from e <> e_to e) /\
    inc' = fold_left (fun m je => push_at (e_to (snd je)) (fst je) m) (combine (seq i (length res)) res) inc /\
    out' = fold_left (fun m je => push_at (e_from (snd je)) (fst je) m) (combine (seq i (length res)) res) out.
Proof.
  induction es as [|[f t] es IH]; intros i inc out inc' out'; cbn [node_edge_maps rmap].
  - split.
    + intros H. injection H as <- <-. exists []. repeat split. intros e [].
    + intros (res & H & _ & -> & ->). injection H as <-. reflexivity.
  - unfold build_edge at 1. cbn [fst snd].
    destruct (assoc uname_eqb f ix) as [fi|]; [|split; [discriminate|intros (? & ? & _); discriminate]].
    destruct (assoc uname_eqb t ix) as [ti|]; [|split; [discriminate|intros (? & ? & _); discriminate]].
    destruct (fi =? ti) eqn:E.
    + apply Nat.eqb_eq in E. subst ti. split; [discriminate|]. intros (res & H & Hne & _).
      destruct (rmap (build_edge ix) es); try discriminate. injection H as <-.
      exfalso. apply (Hne (mkEdge fi fi)); [left; reflexivity | reflexivity].
    + apply Nat.eqb_neq in E. rewrite IH. split.
      * intros (res & -> & Hne & -> & ->). exists (mkEdge fi ti :: res). split; [reflexivity|]. split.
        -- intros e [<-|He]; [exact E | apply Hne; exact He].
        -- cbn [length seq combine fold_left fst snd e_to e_from]. split; reflexivity.
      * intros (res & H & Hne & Hi & Ho). destruct (rmap (build_edge ix) es) as [res'| |]; try discriminate.
        injection H as <-. exists res'. split; [reflexivity|]. split; [intros e He; apply Hne; right; exact He|].
        cbn [length seq combine fold_left fst snd e_to e_from] in Hi, Ho. split; assumption.
Qed.
End Edges.

Lemma fold_push_get (sel : edge -> nat) n (es : list edge) i m :
  get_list n (fold_left (fun m je => push_at (sel (snd je)) (fst je) m) (combine (seq i (length es)) es) m)
  = get_list n m ++ filter (fun k => match nth_error es (k - i) with Some e => sel e =? n | None => false end)
                           (seq i (length es)).
Proof.
  revert i m. induction es as [|e es IH]; intros i m; cbn [length seq combine fold_left filter fst snd].
  - rewrite app_nil_r. reflexivity.
  - rewrite IH. rewrite Nat.sub_diag. cbn [nth_error].
    assert (Hf : filter (fun k => match nth_error (e :: es) (k - i) with Some e0 => sel e0 =? n | None => false end) (seq (S i) (length es))
               = filter (fun k => match nth_error es (k - S i) with Some e0 => sel e0 =? n | None => false end) (seq (S i) (length es))).
    { apply filter_ext_in. intros k Hk. apply in_seq in Hk. replace (k - i) with (S (k - S i)) by lia. reflexivity. }
    rewrite Hf. destruct (sel e =? n) eqn:E.
    + apply Nat.eqb_eq in E. subst n. rewrite get_push_same, <- app_assoc. reflexivity.
    + apply Nat.eqb_neq in E. rewrite get_push_other by auto. reflexivity.
Qed.

Lemma rbind_Ok {E A B} (x : res E A) (f : A -> res E B) y :
  rbind x f = Ok y <-> exists a, x = Ok a /\ f a = Ok y.
Proof.
  destruct x; cbn; split; try discriminate; try (intros (? & ? & ?); congruence); eauto.
Qed.

(** The edges resolved by a successful build. *)
Lemma build_edge_declared b ue e :
  NoDup (map nb_name (b_nodes b)) ->
  (build_edge (ix_of b) ue = Ok e <-> declared b (e_from e) (fst ue) /\ declared b (e_to e) (snd ue)).
Proof.
  intros Hnd. unfold build_edge, declared, ix_of.
  pose proof (assoc_combine_seq0 uname_eqb uname_eqb_eq _ (fst ue) (e_from e) Hnd) as H1.
  pose proof (assoc_combine_seq0 uname_eqb uname_eqb_eq _ (snd ue) (e_to e) Hnd) as H2.
  rewrite <- H1, <- H2. clear H1 H2.
  destruct (assoc uname_eqb (fst ue) _) as [fi|]; [|split; [discriminate|intros [H _]; discriminate]].
  destruct (assoc uname_eqb (snd ue) _) as [ti|]; [|split; [discriminate|intros [_ H]; discriminate]].
  destruct e as [ef et]; cbn. split.
  - intros H. injection H as -> ->. auto.
  - intros [H1 H2]. injection H1 as ->. injection H2 as ->. reflexivity.
Qed.

Lemma declared_inj b i u u' : declared b i u -> declared b i u' -> u = u'.
Proof. unfold declared. congruence. Qed.
Lemma declared_fun b i j u : NoDup (map nb_name (b_nodes b)) -> declared b i u -> declared b j u -> i = j.
Proof.
  unfold declared. intros Hnd Hi Hj. apply (proj1 (NoDup_nth_error _) Hnd).
  - apply nth_error_Some. congruence.
  - congruence.
Qed.

Lemma resolve_declared b u i :
  NoDup (map nb_name (b_nodes b)) -> (resolve (ix_of b) u = Ok i <-> declared b i u).
Proof.
  intros Hnd. unfold resolve, declared, ix_of.
  rewrite <- (assoc_combine_seq0 uname_eqb uname_eqb_eq _ u i Hnd).
  destruct (assoc uname_eqb u _); split; try discriminate; intros H; injection H as ->; reflexivity.
Qed.

Lemma rmap_Ok_ex {E A B} (f : A -> res E B) l :
  (exists ys, rmap f l = Ok ys) <-> (forall x, In x l -> exists y, f x = Ok y).
Proof.
  induction l as [|a l IH]; cbn [rmap].
  - split; [intros _ x [] | eexists; reflexivity].
  - split.
    + intros (ys & H). destruct (f a) as [y| |] eqn:Ea; try discriminate.
      destruct (rmap f l) as [zs| |]; try discriminate.
      intros x [<-|Hx]; [eauto|]. apply IH; [eauto | exact Hx].
    + intros H. destruct (H a (or_introl eq_refl)) as (y & ->).
      destruct IH as [_ IH]. destruct IH as (zs & ->); [|eauto].
      intros x Hx. apply H. right. exact Hx.
Qed.

Lemma vs_assoc_nodes_Ok ix vi us m :
  (exists m', vs_assoc_nodes ix vi us m = Ok m') <-> (forall u, In u us -> exists i, resolve ix u = Ok i).
Proof.
  revert m. induction us as [|u us IH]; intros m; cbn [vs_assoc_nodes].
  - split; [intros _ u [] | eexists; reflexivity].
  - unfold resolve. destruct (assoc uname_eqb u ix) as [i|] eqn:E.
    + rewrite IH. split.
      * intros H u' [<-|Hu]; [rewrite E; eauto | apply H; exact Hu].
      * intros H u' Hu. apply H. right. exact Hu.
    + split; [intros (? & ?); discriminate|]. intros H. destruct (H u (or_introl eq_refl)) as (i & Hi).
      rewrite E in Hi. discriminate.
Qed.
Lemma vs_assoc_all_Ok ix vss : forall vi m,
  (exists m', vs_assoc_all ix vi vss m = Ok m') <->
  (forall v u, In v vss -> In u (vb_nodes v) -> exists i, resolve ix u = Ok i).
Proof.
  induction vss as [|v vss IH]; intros vi m; cbn [vs_assoc_all].
  - split; [intros _ v u [] | eexists; reflexivity].
  - split.
    + intros (m' & H). apply rbind_Ok in H. destruct H as (m1 & H1 & H2).
      intros v' u [<-|Hv] Hu; [apply (proj1 (vs_assoc_nodes_Ok ix vi (vb_nodes v) m)); eauto|].
      apply (proj1 (IH (S vi) m1) (ex_intro _ m' H2) v' u Hv Hu).
    + intros H. destruct (proj2 (vs_assoc_nodes_Ok ix vi (vb_nodes v) m)) as (m1 & H1).
      { intros u Hu. apply (H v u (or_introl eq_refl) Hu). }
      destruct (proj2 (IH (S vi) m1)) as (m2 & H2).
      { intros v' u Hv Hu. apply (H v' u (or_intror Hv) Hu). }
      exists m2. rewrite H1. exact H2.
Qed.

(** Virtual storages recorded for a node: every reference appends the index. *)
Definition vs_uses (ix : list (uname * nat)) (i : nat) (us : list uname) : nat :=
  length (filter (fun u => match assoc uname_eqb u ix with Some j => j =? i | None => false end) us).
Lemma vs_assoc_nodes_get ix vi us : forall m m' i,
  vs_assoc_nodes ix vi us m = Ok m' -> get_list i m' = get_list i m ++ repeat vi (vs_uses ix i us).
Proof.
  unfold vs_uses. induction us as [|u us IH]; intros m m' i H; cbn [vs_assoc_nodes filter] in *.
  - injection H as <-. cbn. rewrite app_nil_r. reflexivity.
  - destruct (assoc uname_eqb u ix) as [j|]; [|discriminate]. rewrite (IH _ _ _ H).
    destruct (j =? i) eqn:E.
    + apply Nat.eqb_eq in E. subst j. rewrite get_push_same, <- app_assoc. reflexivity.
    + apply Nat.eqb_neq in E. rewrite get_push_other by auto. reflexivity.
Qed.
Lemma vs_assoc_all_get ix vss : forall vi m m' i,
  vs_assoc_all ix vi vss m = Ok m' ->
  get_list i m' = get_list i m ++
    flat_map (fun kv => repeat (fst kv) (vs_uses ix i (vb_nodes (snd kv)))) (combine (seq vi (length vss)) vss).
Proof.
  induction vss as [|v vss IH]; intros vi m m' i H; cbn [vs_assoc_all] in H.
  - injection H as <-. cbn. rewrite app_nil_r. reflexivity.
  - apply rbind_Ok in H. destruct H as (m1 & H1 & H2).
    rewrite (IH _ _ _ i H2), (vs_assoc_nodes_get _ _ _ _ _ i H1). cbn [length seq combine flat_map fst snd].
    rewrite app_assoc. reflexivity.
Qed.

Definition inc_of (es : list edge) : list (nat * list nat) :=
  fold_left (fun m je => push_at (e_to (snd je)) (fst je) m) (combine (seq 0 (length es)) es) [].
Definition out_of (es : list edge) : list (nat * list nat) :=
  fold_left (fun m je => push_at (e_from (snd je)) (fst je) m) (combine (seq 0 (length es)) es) [].

Lemma get_inc_of net i : get_list i (inc_of (net_edges net)) = in_edges net i.
Proof.
  unfold inc_of. rewrite (fold_push_get e_to). unfold in_edges, edge_ids, ends_at. cbn.
  apply filter_ext_in. intros k Hk. rewrite Nat.sub_0_r. reflexivity.
Qed.
Lemma get_out_of net i : get_list i (out_of (net_edges net)) = out_edges net i.
Proof.
  unfold out_of. rewrite (fold_push_get e_from). unfold out_edges, edge_ids, starts_at. cbn.
  apply filter_ext_in. intros k Hk. rewrite Nat.sub_0_r. reflexivity.
Qed.

Lemma build_network_inv b net :
  build_network b = Ok net <->
  NoDup (map nb_name (b_nodes b)) /\ NoDup (b_edges b) /\
  NoDup (map ab_name (b_aggs b)) /\ NoDup (map vb_name (b_vss b)) /\
  (forall e, In e (net_edges net) -> e_from e <> e_to e) /\
  rmap (build_edge (ix_of b)) (b_edges b) = Ok (net_edges net) /\
  rmap (build_agg (ix_of b)) (b_aggs b) = Ok (net_aggs net) /\
  rmap (build_vs (ix_of b)) (b_vss b) = Ok (net_vss net) /\
  exists vsm, vs_assoc_all (ix_of b) 0 (b_vss b) [] = Ok vsm /\
    rmap (build_node (ix_of b) (inc_of (net_edges net)) (out_of (net_edges net)) vsm) (b_nodes b)
      = Ok (net_nodes net).
Proof.
  unfold build_network, bres.
  split.
  - intros H. apply rbind_Ok in H. destruct H as (ix & Hix & H).
    apply (index_map_Ok uname_eqb uname_eqb_eq) in Hix. destruct Hix as (Hix & Hnd & _). cbn [app] in Hix. fold (ix_of b) in Hix. subst ix.
    apply rbind_Ok in H. destruct H as (? & He & H).
    apply (index_map_Ok uedge_eqb uedge_eqb_eq) in He. destruct He as (_ & Hee & _).
    apply rbind_Ok in H. destruct H as ([inc out] & Hio & H).
    apply node_edge_maps_Ok in Hio. destruct Hio as (es & Hes & Hne & -> & ->).
    apply rbind_Ok in H. destruct H as (? & Ha & H).
    apply (index_map_Ok uname_eqb uname_eqb_eq) in Ha. destruct Ha as (_ & Haa & _).
    apply rbind_Ok in H. destruct H as (? & Hv & H).
    apply (index_map_Ok uname_eqb uname_eqb_eq) in Hv. destruct Hv as (_ & Hvv & _).
    apply rbind_Ok in H. destruct H as (vsm & Hvsm & H).
    apply rbind_Ok in H. destruct H as (nodes & Hnodes & H).
    apply rbind_Ok in H. destruct H as (aggs & Haggs & H).
    apply rbind_Ok in H. destruct H as (vss & Hvss & H).
    apply rbind_Ok in H. destruct H as (edges & Hedges & H).
    rewrite Hes in Hedges. injection Hedges as <-. injection H as <-.
    cbn [net_nodes net_edges net_aggs net_vss fst snd] in *.
    repeat (split; [assumption|]). exists vsm. split; [exact Hvsm | exact Hnodes].
  - intros (Hnd & Hee & Haa & Hvv & Hne & Hes & Haggs & Hvss & vsm & Hvsm & Hnodes).
    rewrite rbind_Ok. exists (ix_of b). split.
    { apply (index_map_Ok uname_eqb uname_eqb_eq). split; [reflexivity|]. split; [exact Hnd | intros k _ []]. }
    rewrite rbind_Ok. eexists. split.
    { apply (index_map_Ok uedge_eqb uedge_eqb_eq). split; [reflexivity|]. split; [exact Hee | intros k _ []]. }
    rewrite rbind_Ok. exists (inc_of (net_edges net), out_of (net_edges net)). split.
    { apply node_edge_maps_Ok. exists (net_edges net). repeat split; assumption. }
    rewrite rbind_Ok. eexists. split.
    { apply (index_map_Ok uname_eqb uname_eqb_eq). split; [reflexivity|]. split; [exact Haa | intros k _ []]. }
    rewrite rbind_Ok. eexists. split.
    { apply (index_map_Ok uname_eqb uname_eqb_eq). split; [reflexivity|]. split; [exact Hvv | intros k _ []]. }
    rewrite Hvsm. cbn [rbind fst snd]. rewrite Hnodes. cbn [rbind]. rewrite Haggs. cbn [rbind].
    rewrite Hvss. cbn [rbind]. rewrite Hes. cbn [rbind]. destruct net; reflexivity.
Qed.

Lemma Forall2_impl' {A B} (P Q : A -> B -> Prop) l1 l2 :
  (forall a b, In a l1 -> In b l2 -> P a b -> Q a b) -> Forall2 P l1 l2 -> Forall2 Q l1 l2.
Proof.
  intros H HF. induction HF as [|a b l1 l2 Hab HF IH]; constructor.
  - apply H; [left; reflexivity | left; reflexivity | exact Hab].
  - apply IH. intros a' b' Ha Hb. apply H; right; assumption.
Qed.
Lemma Forall2_In_r {A B} (P : A -> B -> Prop) l1 l2 y :
  Forall2 P l1 l2 -> In y l2 -> exists x, In x l1 /\ P x y.
Proof.
  induction 1 as [|a b l1 l2 Hab HF IH]; intros Hy; [destruct Hy|].
  destruct Hy as [<-|Hy]; [exists a; split; [left; reflexivity|exact Hab]|].
  destruct (IH Hy) as (x & Hx & Hp). exists x. split; [right; exact Hx | exact Hp].
Qed.
Lemma Forall2_In_l {A B} (P : A -> B -> Prop) l1 l2 x :
  Forall2 P l1 l2 -> In x l1 -> exists y, In y l2 /\ P x y.
Proof.
  induction 1 as [|a b l1 l2 Hab HF IH]; intros Hx; [destruct Hx|].
  destruct Hx as [<-|Hx]; [exists b; split; [left; reflexivity|exact Hab]|].
  destruct (IH Hx) as (y & Hy & Hp). exists y. split; [right; exact Hy | exact Hp].
Qed.

(** What a successful build says about each edge, node, ... *)
Lemma built_edges b net : build_network b = Ok net ->
  Forall2 (fun ue e => declared b (e_from e) (fst ue) /\ declared b (e_to e) (snd ue) /\ e_from e <> e_to e)
          (b_edges b) (net_edges net).
Proof.
  intros H. apply build_network_inv in H. destruct H as (Hnd & _ & _ & _ & Hne & Hes & _).
  apply rmap_Ok_Forall2 in Hes. revert Hes. apply Forall2_impl'. intros ue e _ He Hb.
  apply (build_edge_declared b ue e Hnd) in Hb. destruct Hb as [H1 H2]. auto.
Qed.

Lemma declared_lt b i u : declared b i u -> i < length (b_nodes b).
Proof. unfold declared. intros H. apply nth_error_Some_lt in H. rewrite map_length in H. exact H. Qed.

Definition node_as_declared (net : network) (b : net_builder) (i : nat) (nb : node_builder) (n : node) : Prop :=
  n_type n = nb_type nb /\ n_in n = in_edges net i /\ n_out n = out_edges net i /\
  degrees_ok (n_type n) (n_in n) (n_out n) /\
  (nb_type nb <> TStorage -> n_min n = nb_min nb /\ n_max n = nb_max nb) /\
  (nb_type nb = TStorage -> n_minv n = nb_minv nb /\ n_maxv n = nb_maxv nb /\ Some (n_init n) = nb_init nb) /\
  c_local (n_cost n) = Some (match nb_cost nb with Some c => c | None => MConst 0 end) /\
  c_agg (n_cost n) = nb_cost_agg nb.

Lemma length_zero {A} (l : list A) : (length l =? 0) = true <-> l = [].
Proof. destruct l; cbn; split; congruence. Qed.
Lemma length_nonzero {A} (l : list A) : (length l =? 0) = false <-> l <> [].
Proof. destruct l; cbn; split; congruence. Qed.

Lemma built_nodes b net : build_network b = Ok net ->
  length (net_nodes net) = length (b_nodes b) /\
  forall i nb n, nth_error (b_nodes b) i = Some nb -> nth_error (net_nodes net) i = Some n ->
    node_as_declared net b i nb n.
Proof.
  intros H. apply build_network_inv in H.
  destruct H as (Hnd & _ & _ & _ & Hne & Hes & _ & _ & vsm & Hvsm & Hnodes).
  split; [apply (rmap_Ok_length _ _ _ Hnodes)|].
  apply rmap_Ok_Forall2 in Hnodes. intros i nb n Hb Hn.
  pose proof (Forall2_nth_error _ _ _ _ _ _ Hnodes Hb Hn) as Hbn. cbn in Hbn.
  unfold build_node in Hbn.
  assert (Hi : assoc uname_eqb (nb_name nb) (ix_of b) = Some i).
  { apply (assoc_combine_seq0 uname_eqb uname_eqb_eq); [exact Hnd|]. apply map_nth_error. exact Hb. }
  rewrite Hi in Hbn. rewrite get_inc_of, get_out_of in Hbn.
  unfold node_as_declared.
  destruct (nb_type nb) eqn:Ht.
  - destruct (length (out_edges net i) =? 0) eqn:E1; [discriminate|].
    destruct (length (in_edges net i) =? 0) eqn:E2; [|discriminate].
    cbn [negb] in Hbn. injection Hbn as <-. cbn [n_type n_in n_out n_min n_max n_cost c_local c_agg degrees_ok].
    apply length_nonzero in E1. apply length_zero in E2. rewrite E2.
    repeat split; try congruence; try (intros; congruence).
  - destruct (length (out_edges net i) =? 0) eqn:E1; [|discriminate].
    destruct (length (in_edges net i) =? 0) eqn:E2; [discriminate|].
    cbn [negb] in Hbn. injection Hbn as <-. cbn [n_type n_in n_out n_min n_max n_cost c_local c_agg degrees_ok].
    apply length_zero in E1. apply length_nonzero in E2. rewrite E1.
    repeat split; try congruence; try (intros; congruence).
  - destruct (length (out_edges net i) =? 0) eqn:E1; [discriminate|].
    destruct (length (in_edges net i) =? 0) eqn:E2; [discriminate|].
    injection Hbn as <-. cbn [n_type n_in n_out n_min n_max n_cost c_local c_agg degrees_ok].
    apply length_nonzero in E1. apply length_nonzero in E2.
    repeat split; try congruence; try (intros; congruence).
  - destruct (nb_init nb) as [iv|] eqn:Eiv; [|discriminate].
    injection Hbn as <-. cbn [n_type n_in n_out n_minv n_maxv n_init n_cost c_local c_agg degrees_ok].
    repeat split; try congruence; try (intros; congruence).
Qed.

Lemma built_agg_refs b net : build_network b = Ok net ->
  Forall2 (fun ab a => Forall2 (Forall2 (fun u i => declared b i u)) (ab_nodes ab) (a_nodes a) /\
                       a_min a = ab_min ab /\ a_max a = ab_max ab /\ a_rel a = ab_rel ab)
          (b_aggs b) (net_aggs net).
Proof.
  intros H. apply build_network_inv in H. destruct H as (Hnd & _ & _ & _ & _ & _ & Ha & _).
  apply rmap_Ok_Forall2 in Ha. revert Ha. apply Forall2_impl'. intros ab a _ _ Hb.
  unfold build_agg in Hb. apply rbind_Ok in Hb. destruct Hb as (ns & Hns & Hb). injection Hb as <-. cbn.
  split; [|auto]. apply rmap_Ok_Forall2 in Hns. revert Hns. apply Forall2_impl'. intros us is _ _ Hu.
  apply rmap_Ok_Forall2 in Hu. revert Hu. apply Forall2_impl'. intros u i _ _ Hr.
  apply (resolve_declared b u i Hnd). exact Hr.
Qed.

Lemma built_vs_refs b net : build_network b = Ok net ->
  Forall2 (fun vb v => Forall2 (fun u i => declared b i u) (vb_nodes vb) (v_nodes v) /\
                       v_factors v = match vb_factors vb with Some l => l | None => repeat 1%Q (length (vb_nodes vb)) end /\
                       v_init v = vb_init vb /\ v_minv v = vb_minv vb /\ v_maxv v = vb_maxv vb /\
                       v_reset v = vb_reset vb /\ v_reset_volume v = vb_reset_volume vb /\
                       v_window v = vb_window vb /\ v_period v = vb_period vb /\ v_cost v = vb_cost vb)
          (b_vss b) (net_vss net).
Proof.
  intros H. apply build_network_inv in H. destruct H as (Hnd & _ & _ & _ & _ & _ & _ & Hv & _).
  apply rmap_Ok_Forall2 in Hv. revert Hv. apply Forall2_impl'. intros vb v _ _ Hb.
  unfold build_vs in Hb. apply rbind_Ok in Hb. destruct Hb as (ns & Hns & Hb). injection Hb as <-. cbn.
  split; [|repeat split]. apply rmap_Ok_Forall2 in Hns. revert Hns. apply Forall2_impl'.
  intros u i _ _ Hr. apply (resolve_declared b u i Hnd). exact Hr.
Qed.

Lemma Forall2_NoDup_r {A B} (P : A -> B -> Prop) l1 l2 :
  (forall a a' b, P a b -> P a' b -> a = a') -> Forall2 P l1 l2 -> NoDup l1 -> NoDup l2.
Proof.
  intros Hinj HF. induction HF as [|a b l1 l2 Hab HF IH]; intros Hnd; [constructor|].
  inversion Hnd as [|? ? Hni Hnd']; subst. constructor; [|apply IH; exact Hnd'].
  intros Hin. destruct (Forall2_In_r _ _ _ _ HF Hin) as (a' & Ha' & Hp).
  apply Hni. rewrite (Hinj _ _ _ Hab Hp). exact Ha'.
Qed.

Lemma build_network_wf b net : build_network b = Ok net -> wf_network net.
Proof.
  intros H. pose proof (built_edges b net H) as He. pose proof (built_nodes b net H) as (Hl & Hn).
  pose proof (built_agg_refs b net H) as Ha. pose proof (built_vs_refs b net H) as Hv.
  pose proof H as H'. apply build_network_inv in H'. destruct H' as (Hnd & Hee & _).
  constructor.
  - intros e Hin. destruct (Forall2_In_r _ _ _ _ He Hin) as (ue & _ & H1 & H2 & H3).
    apply declared_lt in H1. apply declared_lt in H2. rewrite Hl. auto.
  - apply (Forall2_NoDup_r _ _ _ ) with (2 := He); [|exact Hee].
    intros [a1 a2] [c1 c2] e (H1 & H2 & _) (H3 & H4 & _). cbn [fst snd] in *.
    rewrite (declared_inj _ _ _ _ H1 H3), (declared_inj _ _ _ _ H2 H4). reflexivity.
  - intros i n Hi. destruct (nth_error_lt_Some (b_nodes b) i) as (nb & Hnb).
    { rewrite <- Hl. apply (nth_error_Some_lt _ _ _ Hi). }
    destruct (Hn i nb n Hnb Hi) as (_ & H1 & H2 & H3 & _). auto.
  - intros a ns i Hina Hns Hi. destruct (Forall2_In_r _ _ _ _ Ha Hina) as (ab & _ & Hab & _).
    destruct (Forall2_In_r _ _ _ _ Hab Hns) as (us & _ & Hus).
    destruct (Forall2_In_r _ _ _ _ Hus Hi) as (u & _ & Hu). rewrite Hl. apply (declared_lt _ _ _ Hu).
  - intros v i Hinv Hi. destruct (Forall2_In_r _ _ _ _ Hv Hinv) as (vb & _ & Hvb & _).
    destruct (Forall2_In_r _ _ _ _ Hvb Hi) as (u & _ & Hu). rewrite Hl. apply (declared_lt _ _ _ Hu).
Qed.

(** The virtual storages a node's cost looks at are those that list the node. *)
Lemma assoc_ix b u i : NoDup (map nb_name (b_nodes b)) ->
  (assoc uname_eqb u (ix_of b) = Some i <-> declared b i u).
Proof. intros Hnd. apply (assoc_combine_seq0 uname_eqb uname_eqb_eq _ _ _ Hnd). Qed.

Lemma vs_uses_pos ix i us :
  0 < vs_uses ix i us <-> exists u, In u us /\ assoc uname_eqb u ix = Some i.
Proof.
  unfold vs_uses.
  set (f := fun u => match assoc uname_eqb u ix with Some j => j =? i | None => false end).
  split.
  - intros H. destruct (filter f us) as [|u l] eqn:E; [cbn in H; lia|].
    assert (Hu : In u (filter f us)) by (rewrite E; left; reflexivity).
    apply filter_In in Hu. destruct Hu as [Hu Hf]. exists u. split; [exact Hu|]. subst f. cbn beta in Hf.
    destruct (assoc uname_eqb u ix) as [j|]; [|discriminate]. apply Nat.eqb_eq in Hf. congruence.
  - intros (u & Hu & Ha). assert (Hin : In u (filter f us)).
    { apply filter_In. split; [exact Hu|]. subst f. cbn beta. rewrite Ha. apply Nat.eqb_refl. }
    destruct (filter f us); [destruct Hin | cbn; lia].
Qed.

Lemma in_repeat {A} (x y : A) k : In x (repeat y k) <-> x = y /\ 0 < k.
Proof.
  split.
  - intros H. split; [apply (repeat_spec _ _ _ H)|]. destruct k; [destruct H | lia].
  - intros [-> Hk]. destruct k; [lia | left; reflexivity].
Qed.

Lemma combine_seq_In {A} (l : list A) i k x :
  In (k, x) (combine (seq i (length l)) l) <-> i <= k /\ nth_error l (k - i) = Some x.
Proof.
  revert i. induction l as [|a l IH]; intros i; cbn [length seq combine In].
  - split; [intros []|]. intros [_ H]. destruct (k - i); discriminate.
  - rewrite IH. split.
    + intros [H|[Hle H]].
      * injection H as -> ->. split; [lia|]. rewrite Nat.sub_diag. reflexivity.
      * split; [lia|]. replace (k - i) with (S (k - S i)) by lia. exact H.
    + intros [Hle H]. destruct (k - i) as [|d] eqn:E.
      * left. cbn in H. injection H as ->. f_equal. lia.
      * right. split; [lia|]. replace (k - S i) with d by lia. exact H.
Qed.

Lemma built_vs_backrefs b net : build_network b = Ok net ->
  forall i n k, nth_error (net_nodes net) i = Some n ->
    (In k (c_vs (n_cost n)) <-> exists v, nth_error (net_vss net) k = Some v /\ In i (v_nodes v)).
Proof.
  intros H i n k Hn. pose proof (built_vs_refs b net H) as Hv.
  apply build_network_inv in H. destruct H as (Hnd & _ & _ & _ & _ & _ & _ & _ & vsm & Hvsm & Hnodes).
  pose proof (rmap_Ok_length _ _ _ Hnodes) as Hlen.
  apply rmap_Ok_Forall2 in Hnodes.
  destruct (nth_error_lt_Some (b_nodes b) i) as (nb & Hnb).
  { rewrite <- Hlen. apply (nth_error_Some_lt _ _ _ Hn). }
  pose proof (Forall2_nth_error _ _ _ _ _ _ Hnodes Hnb Hn) as Hbn. cbn in Hbn.
  unfold build_node in Hbn.
  assert (Hi : assoc uname_eqb (nb_name nb) (ix_of b) = Some i).
  { apply (assoc_ix b _ _ Hnd). apply map_nth_error. exact Hnb. }
  rewrite Hi in Hbn.
  assert (Hc : c_vs (n_cost n) = get_list i vsm).
  { destruct (nb_type nb);
    repeat match type of Hbn with
    | (if ?c then _ else _) = _ => destruct c
    | match ?x with _ => _ end = _ => destruct x
    end; try discriminate; injection Hbn as <-; reflexivity. }
  rewrite Hc, (vs_assoc_all_get _ _ _ _ _ i Hvsm). cbn [get_list assoc app].
  unfold get_list. cbn [assoc app].
  rewrite in_flat_map. split.
  - intros ([k' vb] & Hin & Hr). cbn [fst snd] in Hr. apply in_repeat in Hr. destruct Hr as [-> Hpos].
    apply combine_seq_In in Hin. rewrite Nat.sub_0_r in Hin. destruct Hin as [_ Hk].
    apply vs_uses_pos in Hpos. destruct Hpos as (u & Hu & Ha). apply (assoc_ix b _ _ Hnd) in Ha.
    destruct (nth_error_lt_Some (net_vss net) k') as (v & Hvk).
    { rewrite <- (Forall2_length' _ _ _ Hv). apply (nth_error_Some_lt _ _ _ Hk). }
    exists v. split; [exact Hvk|].
    pose proof (Forall2_nth_error _ _ _ _ _ _ Hv Hk Hvk) as (Hr & _).
    destruct (Forall2_In_l _ _ _ _ Hr Hu) as (j & Hj & Hd).
    rewrite <- (declared_fun b j i u Hnd Hd Ha). exact Hj.
  - intros (v & Hvk & Hin).
    destruct (nth_error_lt_Some (b_vss b) k) as (vb & Hk).
    { rewrite (Forall2_length' _ _ _ Hv). apply (nth_error_Some_lt _ _ _ Hvk). }
    exists (k, vb). split; [apply combine_seq_In; rewrite Nat.sub_0_r; split; [lia|exact Hk]|].
    cbn [fst snd]. apply in_repeat. split; [reflexivity|]. apply vs_uses_pos.
    pose proof (Forall2_nth_error _ _ _ _ _ _ Hv Hk Hvk) as (Hr & _).
    destruct (Forall2_In_r _ _ _ _ Hr Hin) as (u & Hu & Hd).
    exists u. split; [exact Hu|]. apply (assoc_ix b _ _ Hnd). exact Hd.
Qed.

(** Success. *)
Lemma in_names b u : In u (map nb_name (b_nodes b)) <-> exists i, declared b i u.
Proof. unfold declared. split; [apply In_nth_error | intros (i & Hi); apply (nth_error_In _ _ Hi)]. Qed.

Lemma in_edges_nonempty b net i u : 
  NoDup (map nb_name (b_nodes b)) ->
  rmap (build_edge (ix_of b)) (b_edges b) = Ok (net_edges net) -> declared b i u ->
  (in_edges net i <> [] <-> Exists (enters u) (b_edges b)).
Proof.
  intros Hnd Hes Hd. apply rmap_Ok_Forall2 in Hes. rewrite Exists_exists. unfold enters. split.
  - intros H. destruct (in_edges net i) as [|k l] eqn:E; [congruence|].
    assert (Hk : In k (in_edges net i)) by (rewrite E; left; reflexivity).
    apply filter_In in Hk. destruct Hk as [_ Hk]. unfold ends_at in Hk.
    destruct (nth_error (net_edges net) k) as [e|] eqn:Ee; [|discriminate]. apply Nat.eqb_eq in Hk.
    destruct (Forall2_In_r _ _ _ _ Hes (nth_error_In _ _ Ee)) as (ue & Hue & Hb).
    apply (build_edge_declared b _ _ Hnd) in Hb. destruct Hb as [_ Hb]. rewrite Hk in Hb.
    exists ue. split; [exact Hue | apply (declared_inj _ _ _ _ Hb Hd)].
  - intros (ue & Hue & Hs). destruct (Forall2_In_l _ _ _ _ Hes Hue) as (e & He & Hb).
    apply (build_edge_declared b _ _ Hnd) in Hb. destruct Hb as [_ Hb]. rewrite Hs in Hb.
    pose proof (declared_fun b _ _ _ Hnd Hb Hd) as Hi.
    destruct (In_nth_error _ _ He) as (k & Hk). intros Hnil.
    assert (Hin : In k (in_edges net i)).
    { apply filter_In. split; [apply in_seq; apply nth_error_Some_lt in Hk; lia|].
      unfold ends_at. rewrite Hk. apply Nat.eqb_eq. exact Hi. }
    rewrite Hnil in Hin. destruct Hin.
Qed.
Lemma out_edges_nonempty b net i u : 
  NoDup (map nb_name (b_nodes b)) ->
  rmap (build_edge (ix_of b)) (b_edges b) = Ok (net_edges net) -> declared b i u ->
  (out_edges net i <> [] <-> Exists (leaves u) (b_edges b)).
Proof.
  intros Hnd Hes Hd. apply rmap_Ok_Forall2 in Hes. rewrite Exists_exists. unfold leaves. split.
  - intros H. destruct (out_edges net i) as [|k l] eqn:E; [congruence|].
    assert (Hk : In k (out_edges net i)) by (rewrite E; left; reflexivity).
    apply filter_In in Hk. destruct Hk as [_ Hk]. unfold starts_at in Hk.
    destruct (nth_error (net_edges net) k) as [e|] eqn:Ee; [|discriminate]. apply Nat.eqb_eq in Hk.
    destruct (Forall2_In_r _ _ _ _ Hes (nth_error_In _ _ Ee)) as (ue & Hue & Hb).
    apply (build_edge_declared b _ _ Hnd) in Hb. destruct Hb as [Hb _]. rewrite Hk in Hb.
    exists ue. split; [exact Hue | apply (declared_inj _ _ _ _ Hb Hd)].
  - intros (ue & Hue & Hs). destruct (Forall2_In_l _ _ _ _ Hes Hue) as (e & He & Hb).
    apply (build_edge_declared b _ _ Hnd) in Hb. destruct Hb as [Hb _]. rewrite Hs in Hb.
    pose proof (declared_fun b _ _ _ Hnd Hb Hd) as Hi.
    destruct (In_nth_error _ _ He) as (k & Hk). intros Hnil.
    assert (Hin : In k (out_edges net i)).
    { apply filter_In. split; [apply in_seq; apply nth_error_Some_lt in Hk; lia|].
      unfold starts_at. rewrite Hk. apply Nat.eqb_eq. exact Hi. }
    rewrite Hnil in Hin. destruct Hin.
Qed.

Lemma nil_dec {A} (l : list A) : l = [] \/ l <> [].
Proof. destruct l; [left; reflexivity | right; discriminate]. Qed.

Lemma build_valid b net : build_network b = Ok net -> valid_declaration b.
Proof.
  intros H. pose proof (built_edges b net H) as He. pose proof (built_nodes b net H) as (Hl & Hn).
  pose proof (built_agg_refs b net H) as Ha. pose proof (built_vs_refs b net H) as Hv.
  pose proof H as H'. apply build_network_inv in H'. destruct H' as (Hnd & Hee & Haa & Hvv & _ & Hes & _).
  constructor; try assumption.
  - intros ue Hue. destruct (Forall2_In_l _ _ _ _ He Hue) as (e & _ & H1 & H2 & H3).
    rewrite !in_names. split; [eauto|]. split; [eauto|]. intros Heq. apply H3.
    rewrite Heq in H1. apply (declared_fun b _ _ _ Hnd H1 H2).
  - intros nb Hnb. destruct (In_nth_error _ _ Hnb) as (i & Hi).
    destruct (nth_error_lt_Some (net_nodes net) i) as (n & Hni).
    { rewrite Hl. apply (nth_error_Some_lt _ _ _ Hi). }
    destruct (Hn i nb n Hi Hni) as (Ht & Hin & Hout & Hdeg & _ & Hst & _).
    assert (Hd : declared b i (nb_name nb)) by (apply map_nth_error; exact Hi).
    pose proof (in_edges_nonempty b net i _ Hnd Hes Hd) as Qi.
    pose proof (out_edges_nonempty b net i _ Hnd Hes Hd) as Qo.
    rewrite Ht, Hin, Hout in Hdeg. unfold degrees_ok in Hdeg. destruct (nb_type nb) eqn:Et.
    + destruct Hdeg as [D1 D2]. split; [apply Qo; exact D2|]. intros Hc. apply Qi in Hc. contradiction.
    + destruct Hdeg as [D1 D2]. split; [apply Qi; exact D1|]. intros Hc. apply Qo in Hc. contradiction.
    + destruct Hdeg as [D1 D2]. split; [apply Qi; exact D1 | apply Qo; exact D2].
    + destruct (Hst eq_refl) as (_ & _ & Hs). rewrite <- Hs. discriminate.
  - intros a us u H1 H2 H3. destruct (Forall2_In_l _ _ _ _ Ha H1) as (a' & _ & Hab & _).
    destruct (Forall2_In_l _ _ _ _ Hab H2) as (is & _ & Hus).
    destruct (Forall2_In_l _ _ _ _ Hus H3) as (i & _ & Hi). rewrite in_names. eauto.
  - intros v u H1 H2. destruct (Forall2_In_l _ _ _ _ Hv H1) as (v' & _ & Hvb & _).
    destruct (Forall2_In_l _ _ _ _ Hvb H2) as (i & _ & Hi). rewrite in_names. eauto.
Qed.

Lemma valid_builds b : valid_declaration b -> exists net, build_network b = Ok net.
Proof.
  intros [Hnd Haa Hvv Hee Hep Hnodes Hagg Hvs].
  assert (Hres : forall u, In u (map nb_name (b_nodes b)) -> exists i, resolve (ix_of b) u = Ok i).
  { intros u Hu. apply in_names in Hu. destruct Hu as (i & Hi). exists i. apply (resolve_declared b u i Hnd). exact Hi. }
  destruct (proj2 (rmap_Ok_ex (build_edge (ix_of b)) (b_edges b))) as (es & Hes).
  { intros ue Hue. destruct (Hep ue Hue) as (H1 & H2 & _). apply in_names in H1. apply in_names in H2.
    destruct H1 as (i & Hi). destruct H2 as (j & Hj). exists (mkEdge i j).
    apply (build_edge_declared b ue (mkEdge i j) Hnd). split; assumption. }
  destruct (proj2 (rmap_Ok_ex (build_agg (ix_of b)) (b_aggs b))) as (aggs & Haggs).
  { intros ab Hab. destruct (proj2 (rmap_Ok_ex (fun us => rmap (resolve (ix_of b)) us) (ab_nodes ab))) as (ns & Hns).
    { intros us Hus. apply rmap_Ok_ex. intros u Hu. apply Hres. apply (Hagg ab us u Hab Hus Hu). }
    unfold build_agg. rewrite Hns. eexists. reflexivity. }
  destruct (proj2 (rmap_Ok_ex (build_vs (ix_of b)) (b_vss b))) as (vss & Hvss).
  { intros vb Hvb. destruct (proj2 (rmap_Ok_ex (resolve (ix_of b)) (vb_nodes vb))) as (ns & Hns).
    { intros u Hu. apply Hres. apply (Hvs vb u Hvb Hu). }
    unfold build_vs. rewrite Hns. eexists. reflexivity. }
  destruct (proj2 (vs_assoc_all_Ok (ix_of b) (b_vss b) 0 [])) as (vsm & Hvsm).
  { intros v u Hv Hu. apply Hres. apply (Hvs v u Hv Hu). }
  set (net0 := mkNet [] es aggs vss).
  destruct (proj2 (rmap_Ok_ex (build_node (ix_of b) (inc_of es) (out_of es) vsm) (b_nodes b))) as (nodes & Hns).
  { intros nb Hnb. destruct (In_nth_error _ _ Hnb) as (i & Hi).
    assert (Hd : declared b i (nb_name nb)) by (apply map_nth_error; exact Hi).
    pose proof (in_edges_nonempty b net0 i _ Hnd Hes Hd) as Qi.
    pose proof (out_edges_nonempty b net0 i _ Hnd Hes Hd) as Qo.
    pose proof (Hnodes nb Hnb) as Hrule.
    unfold build_node. rewrite (proj2 (assoc_ix b _ _ Hnd) Hd).
    change es with (net_edges net0). rewrite get_inc_of, get_out_of.
    destruct (nb_type nb).
    - destruct Hrule as [R1 R2]. apply Qo in R1. apply length_nonzero in R1. rewrite R1.
      destruct (nil_dec (in_edges net0 i)) as [E|E]; [|exfalso; apply R2, Qi, E].
      apply length_zero in E. rewrite E. eexists. reflexivity.
    - destruct Hrule as [R1 R2]. apply Qi in R1. apply length_nonzero in R1. rewrite R1.
      destruct (nil_dec (out_edges net0 i)) as [E|E]; [|exfalso; apply R2, Qo, E].
      apply length_zero in E. rewrite E. eexists. reflexivity.
    - destruct Hrule as [R1 R2]. apply Qi in R1. apply Qo in R2. apply length_nonzero in R1. apply length_nonzero in R2.
      rewrite R1, R2. eexists. reflexivity.
    - destruct (nb_init nb); [eexists; reflexivity | congruence]. }
  exists (mkNet nodes es aggs vss). apply build_network_inv. cbn [net_edges net_nodes net_aggs net_vss].
  repeat (split; [assumption|]). split.
  { intros e He Heq. apply rmap_Ok_Forall2 in Hes.
    destruct (Forall2_In_r _ _ _ _ Hes He) as (ue & Hue & Hb).
    apply (build_edge_declared b _ _ Hnd) in Hb. destruct Hb as [H1 H2]. rewrite Heq in H1.
    destruct (Hep ue Hue) as (_ & _ & Hne). apply Hne. apply (declared_inj _ _ _ _ H1 H2). }
  repeat (split; [assumption|]). exists vsm. split; assumption.
Qed.

Lemma build_iff_valid b : (exists net, build_network b = Ok net) <-> valid_declaration b.
Proof. split; [intros (net & H); apply (build_valid _ _ H) | apply valid_builds]. Qed.

Lemma rbind_not_Panic {E A B} (x : res E A) (f : A -> res E B) :
  x <> Panic -> (forall a, x = Ok a -> f a <> Panic) -> rbind x f <> Panic.
Proof. destruct x; cbn; intros H1 H2; [apply H2; reflexivity | discriminate | congruence]. Qed.
Lemma rmap_not_Panic {E A B} (f : A -> res E B) l : (forall x, f x <> Panic) -> rmap f l <> Panic.
Proof.
  intros H. induction l as [|a l IH]; cbn [rmap]; [discriminate|].
  destruct (f a) eqn:Ea; [|discriminate | exfalso; apply (H a Ea)].
  destruct (rmap f l); [discriminate | discriminate | congruence].
Qed.
Lemma resolve_not_Panic ix u : resolve ix u <> Panic.
Proof. unfold resolve. destruct (assoc uname_eqb u ix); discriminate. Qed.

Lemma build_not_Panic b : build_network b <> Panic.
Proof.
  unfold build_network, bres. apply rbind_not_Panic; [apply index_map_not_Panic|]. intros ix _.
  apply rbind_not_Panic; [apply index_map_not_Panic|]. intros _ _.
  apply rbind_not_Panic.
  { generalize 0 as i. generalize (@nil (nat * list nat)) at 1 as inc. generalize (@nil (nat * list nat)) as out.
    induction (b_edges b) as [|[f t] es IH]; intros out inc i; cbn [node_edge_maps]; [discriminate|].
    destruct (assoc uname_eqb f ix); [|discriminate]. destruct (assoc uname_eqb t ix); [|discriminate].
    destruct (_ =? _); [discriminate | apply IH]. }
  intros io _. apply rbind_not_Panic; [apply index_map_not_Panic|]. intros _ _.
  apply rbind_not_Panic; [apply index_map_not_Panic|]. intros _ _.
  apply rbind_not_Panic.
  { generalize 0 as vi. generalize (@nil (nat * list nat)) as m.
    induction (b_vss b) as [|v vss IH]; intros m vi; cbn [vs_assoc_all]; [discriminate|].
    apply rbind_not_Panic; [|intros m' _; apply IH].
    revert m. induction (vb_nodes v) as [|u us IHu]; intros m; cbn [vs_assoc_nodes]; [discriminate|].
    destruct (assoc uname_eqb u ix); [apply IHu | discriminate]. }
  intros vsm _. apply rbind_not_Panic.
  { apply rmap_not_Panic. intros nb. unfold build_node. destruct (assoc uname_eqb (nb_name nb) ix); [|discriminate].
    destruct (nb_type nb); repeat match goal with
      | |- (if ?c then _ else _) <> _ => destruct c
      | |- match ?x with _ => _ end <> _ => destruct x
      end; discriminate. }
  intros nodes _. apply rbind_not_Panic.
  { apply rmap_not_Panic. intros ab. unfold build_agg. apply rbind_not_Panic; [|discriminate].
    apply rmap_not_Panic. intros us. apply rmap_not_Panic, resolve_not_Panic. }
  intros aggs _. apply rbind_not_Panic.
  { apply rmap_not_Panic. intros vb. unfold build_vs. apply rbind_not_Panic; [|discriminate].
    apply rmap_not_Panic, resolve_not_Panic. }
  intros vss _. apply rbind_not_Panic; [|discriminate].
  apply rmap_not_Panic. intros ue. unfold build_edge.
  destruct (assoc uname_eqb (fst ue) ix); [|discriminate]. destruct (assoc uname_eqb (snd ue) ix); discriminate.
Qed.

Lemma lookup_declared b net u i : build_network b = Ok net ->
  (get_node_index_by_name b u = Some i <-> declared b i u).
Proof.
  intros H. apply build_network_inv in H. destruct H as (Hnd & _). unfold get_node_index_by_name. split.
  - intros Hp. apply position_Some in Hp. destruct Hp as (x & Hx & He & _). apply uname_eqb_eq in He. subst x. exact Hx.
  - intros Hd. destruct (position (uname_eqb u) (map nb_name (b_nodes b))) as [j|] eqn:E.
    + pose proof E as E'. apply position_Some in E. destruct E as (x & Hx & He & _). apply uname_eqb_eq in He. subst x.
      f_equal. apply (declared_fun b _ _ _ Hnd Hx Hd).
    + exfalso. pose proof (proj1 (position_None _ _) E u (nth_error_In _ _ Hd)) as Hc. cbn in Hc.
      rewrite (proj2 (uname_eqb_eq u u) eq_refl) in Hc. discriminate.
Qed.
