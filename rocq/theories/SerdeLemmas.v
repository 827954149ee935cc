(** Reading undoes writing, for declarations that pass the check. *)
From Coq Require Import Ascii String.
From Coq Require Import List Bool ZArith QArith Permutation Sorted Lia.
From Verif Require Import Serde SerdeSpec SerdeCheck.
Import ListNotations.
Open Scope string_scope.
Open Scope list_scope.
Open Scope nat_scope.

Scheme writes_mind := Minimality for writes Sort Prop
  with writes_all_mind := Minimality for writes_all Sort Prop
  with writes_each_mind := Minimality for writes_each Sort Prop
  with writes_entries_mind := Minimality for writes_entries Sort Prop
  with writes_fields_mind := Minimality for writes_fields Sort Prop.
Combined Scheme writes_mutual from
  writes_mind, writes_all_mind, writes_each_mind, writes_entries_mind, writes_fields_mind.

(** ** Small facts *)

Lemma nodupb_NoDup : forall l, nodupb l = true -> NoDup l.
Proof.
  induction l as [|k l IH]; cbn; intros H; constructor; apply andb_true_iff in H; destruct H as (A & B).
  - apply negb_true_iff in A. now apply mem_not.
  - now apply IH.
Qed.

Lemma kind_eqb_eq : forall a b, kind_eqb a b = true <-> a = b.
Proof. intros a b. destruct a, b; cbn; split; congruence. Qed.

Lemma disjoint_not : forall a b, disjoint a b = true -> forall x, In x a -> In x b -> False.
Proof.
  intros a b H x A B. unfold disjoint in H. rewrite forallb_forall in H. specialize (H x A).
  apply negb_true_iff in H. assert (E : existsb (kind_eqb x) b = true).
  { apply existsb_exists. exists x. split; [exact B | now apply kind_eqb_eq]. }
  congruence.
Qed.

Lemma members_app : forall ns l l', members ns (l ++ l') = members ns l ++ members ns l'.
Proof. intros. unfold members. rewrite filter_app, map_app. reflexivity. Qed.

Lemma members_none : forall ns l, (forall k, In k (keys l) -> ~ In k ns) -> members ns l = [].
Proof.
  intros ns l. unfold members, keys. induction l as [|(k, x) l IH]; cbn; intros H; [reflexivity |].
  destruct (mem k ns) eqn:E.
  - apply mem_In in E. exfalso. exact (H k (or_introl eq_refl) E).
  - apply IH. intros k' I. apply H. now right.
Qed.

Lemma members_In : forall ns l x, In x (members ns l) -> exists k, In k ns /\ In (k, x) l.
Proof.
  intros ns l x H. unfold members in H. apply in_map_iff in H. destruct H as ((k, y) & E & I).
  apply filter_In in I. destruct I as (I & M). cbn in *. subst. exists k. split; [now apply mem_In | exact I].
Qed.

Lemma In_members : forall ns l k x, In k ns -> In (k, x) l -> In x (members ns l).
Proof.
  intros ns l k x I J. unfold members. apply in_map_iff. exists (k, x). split; [reflexivity |].
  apply filter_In. split; [exact J | now apply mem_In].
Qed.

Lemma like_length : forall pat s, like pat s = true -> String.length s = String.length pat.
Proof.
  induction pat as [|p pat IH]; intros [|c s] H; cbn in *; try discriminate; [reflexivity |].
  apply andb_true_iff in H. destruct H as (_ & H). f_equal. now apply IH.
Qed.

(** The greatest depth of the members of an object. *)
Definition deep (l : list (string * json)) : nat := fold_right (fun kx m => Nat.max (depth (snd kx)) m) 0 l.

Lemma deep_In : forall l k x, In (k, x) l -> depth x <= deep l.
Proof.
  unfold deep. induction l as [|(k', x') l IH]; cbn; intros k x H; [contradiction |].
  destruct H as [H | H]; [injection H as -> ->; lia |]. specialize (IH k x H). lia.
Qed.

Lemma deep_le : forall l n, (forall k x, In (k, x) l -> depth x <= n) -> deep l <= n.
Proof.
  unfold deep. induction l as [|(k, x) l IH]; cbn; intros n H; [lia |].
  pose proof (H k x (or_introl eq_refl)). specialize (IH n (fun a b c => H a b (or_intror c))). lia.
Qed.

Lemma deep_filter : forall f l, deep (filter f l) <= deep l.
Proof.
  intros f l. apply deep_le. intros k x H. apply filter_In in H. destruct H as (H & _).
  eapply deep_In; eauto.
Qed.

Lemma arr_In : forall l x, In x l -> depth x <= fold_right (fun x m => Nat.max (depth x) m) 0 l.
Proof.
  induction l as [|y l IH]; cbn; intros x H; [contradiction |].
  destruct H as [-> | H]; [lia |]. specialize (IH x H). lia.
Qed.

Section Lemmas.
  Variable S0 : types.
  Hypothesis Hwf : wf_types S0 = true.

  Notation read := (read S0).
  Notation writes := (writes S0).

  Lemma assoc_In : forall {A} n (l : list (string * A)) t, assoc n l = Some t -> In (n, t) l.
  Proof.
    intros A n l t. induction l as [|(k, a) l IH]; cbn; intros H; [discriminate |].
    destruct (String.eqb n k) eqn:E.
    - apply String.eqb_eq in E. injection H as ->. subst. now left.
    - right. now apply IH.
  Qed.

  Lemma assoc_wf : forall n t, assoc n S0 = Some t -> wf S0 t = true.
  Proof.
    intros n t H. apply assoc_In in H. unfold wf_types in Hwf. rewrite forallb_forall in Hwf.
    exact (Hwf (n, t) H).
  Qed.

  Lemma wf_rank : forall t, wf S0 t = true -> rankb S0 6 t = true.
  Proof. intros t H. destruct t; cbn [wf] in H; apply andb_true_iff in H; destruct H as (H & _); exact H. Qed.

  (** ** Kinds *)

  Lemma all_kinds_In : forall k, In k all_kinds.
  Proof. intros k. destruct k; cbn; intuition. Qed.

  Lemma read_variant_Some : forall rd n j i vs v, read_variant rd n j i vs = Some v ->
    exists p t w, nth_error vs p = Some (n, t) /\ rd t j = Some w /\ v = VVar (i + p) w /\
      (forall q t', q < p -> nth_error vs q = Some (n, t') -> False).
  Proof.
    intros rd n j i vs. revert i. induction vs as [|(m, t) vs IH]; cbn; intros i v H; [discriminate |].
    destruct (String.eqb n m) eqn:E.
    - apply String.eqb_eq in E. subst m. destruct (rd t j) as [w|] eqn:R; [| discriminate].
      cbn in H. injection H as <-. exists 0, t, w. rewrite Nat.add_0_r. repeat split; auto.
      intros q t' L. lia.
    - destruct (IH (S i) v H) as (p & t' & w & A & B & C & D). exists (S p), t', w.
      repeat split; auto; [rewrite C; f_equal; lia |].
      intros [|q] t'' L N; cbn in N.
      + injection N as N1 N2. apply String.eqb_neq in E. congruence.
      + apply (D q t''); [lia | exact N].
  Qed.

  Lemma read_first_Some : forall rd j i ts v, read_first rd j i ts = Some v ->
    exists p t w, nth_error ts p = Some t /\ rd t j = Some w /\ v = VVar (i + p) w.
  Proof.
    intros rd j i ts. revert i. induction ts as [|t ts IH]; cbn; intros i v H; [discriminate |].
    destruct (rd t j) as [w|] eqn:R.
    - injection H as <-. exists 0, t, w. rewrite Nat.add_0_r. auto.
    - destruct (IH (S i) v H) as (p & t' & w & A & B & C). exists (S p), t', w.
      repeat split; auto. rewrite C. f_equal. lia.
  Qed.

  (** The steps of [read], one by one. *)
  Lemma read_opt : forall f t j, read f (TOpt t) j =
    match j with JNull => Some VNone | _ => option_map VSome (read f t j) end.
  Proof. intros [|f]; reflexivity. Qed.
  Lemma read_vec : forall f t j, read f (TVec t) j =
    match j with JArr l => option_map VList (read_all (read f t) l) | _ => None end.
  Proof. intros [|f]; reflexivity. Qed.
  Lemma read_tuple : forall f ts j, read f (TTuple ts) j =
    match j with JArr l => option_map VRec (read_each (read f) ts l) | _ => None end.
  Proof. intros [|f]; reflexivity. Qed.
  Lemma read_tmap : forall f t j, read f (TMap t) j =
    match j with JObj l => option_map (fun m => VMap (to_map m)) (read_entries (read f t) l) | _ => None end.
  Proof. intros [|f]; reflexivity. Qed.
  Lemma read_struct : forall f d fs j, read f (TStruct d fs) j =
    match j with
    | JObj l => if d && negb (forallb (fun k => mem k (known fs)) (keys l)) then None
                else option_map VRec (read_fields (read f) l fs)
    | _ => None
    end.
  Proof. intros [|f]; reflexivity. Qed.
  Lemma read_ext : forall f vs j, read f (TExt vs) j =
    match j with JObj [(n, x)] => read_variant (read f) n x 0 vs | _ => None end.
  Proof. intros [|f]; reflexivity. Qed.
  Lemma read_tag : forall f tag vs j, read f (TTag tag vs) j =
    match j with
    | JObj l =>
        match members [tag] l with
        | [JStr n] => read_variant (read f) n (JObj (filter (fun kx => negb (mem (fst kx) [tag])) l)) 0 vs
        | _ => None
        end
    | _ => None
    end.
  Proof. intros [|f]; reflexivity. Qed.
  Lemma read_untag : forall f ts j, read f (TUntag ts) j = read_first (read f) j 0 ts.
  Proof. intros [|f]; reflexivity. Qed.
  Lemma read_ref : forall f n j, read f (TRef n) j =
    match f with
    | 0 => None
    | S f' => match assoc n S0 with Some t' => read f' t' j | None => None end
    end.
  Proof. intros [|f]; reflexivity. Qed.

  Lemma kinds_untag : forall n ts, kinds S0 n (TUntag ts) = flat_map (kinds S0 n) ts.
  Proof. intros [|n]; reflexivity. Qed.

  Lemma kinds_read : forall f n t j v, read f t j = Some v -> In (kind_of j) (kinds S0 n t).
  Proof.
    induction f as [f IHf] using lt_wf_ind. intros n t. revert n.
    induction t as [| |lo hi z| | | |t IH|t IH|ts IH|t IH|d fs IH|vs|vs IH|tag vs IH|ts IH|r] using ty_ind';
      intros n j v H.
    - destruct f, j; cbn in H; try discriminate; destruct n; cbn; auto.
    - destruct f, j; cbn in H; try discriminate; destruct n; cbn; auto.
    - destruct f, j; cbn in H; try discriminate; destruct n; cbn; auto.
    - destruct f, j; cbn in H; try discriminate; destruct n; cbn; auto.
    - destruct f, j; cbn in H; try discriminate; destruct n; cbn; auto.
    - destruct n; cbn [kinds]; apply all_kinds_In.
    - rewrite read_opt in H. assert (K : kinds S0 n (TOpt t) = KNull :: kinds S0 n t) by (destruct n; reflexivity).
      rewrite K. destruct j; try (now left); right;
        (destruct (read f t _) as [w|] eqn:R in H; [| discriminate]; now apply (IH n _ w)).
    - rewrite read_vec in H. destruct j; try discriminate; destruct n; cbn; auto.
    - rewrite read_tuple in H. destruct j; try discriminate; destruct n; cbn; auto.
    - rewrite read_tmap in H. destruct j; try discriminate; destruct n; cbn; auto.
    - rewrite read_struct in H. destruct j; try discriminate; destruct n; cbn; auto.
    - destruct f, j; cbn in H; try discriminate; destruct n; cbn; auto.
    - rewrite read_ext in H. destruct j; try discriminate; destruct n; cbn; auto.
    - rewrite read_tag in H. destruct j; try discriminate; destruct n; cbn; auto.
    - rewrite read_untag in H. rewrite kinds_untag.
      destruct (read_first_Some _ _ _ _ _ H) as (p & t & w & A & B & _).
      apply nth_error_In in A. apply in_flat_map. exists t. split; [exact A |].
      rewrite Forall_forall in IH. now apply (IH t A n j w).
    - rewrite read_ref in H. destruct f as [|f]; [discriminate |].
      destruct (assoc r S0) as [t|] eqn:E; [| discriminate].
      destruct n as [|n].
      + apply all_kinds_In.
      + cbn [kinds]. rewrite E. apply (IHf f (Nat.lt_succ_diag_r f) n t j v H).
  Qed.

  (** ** Enough fuel *)

  Lemma read_all_ext : forall (f g : json -> option val) l, (forall x, In x l -> f x = g x) ->
    read_all f l = read_all g l.
  Proof.
    intros f g l. induction l as [|x l IH]; cbn; intros H; [reflexivity |].
    rewrite (H x (or_introl eq_refl)), IH; [reflexivity | intros y I; apply H; now right].
  Qed.

  Lemma read_entries_ext : forall (f g : json -> option val) l, (forall k x, In (k, x) l -> f x = g x) ->
    read_entries f l = read_entries g l.
  Proof.
    intros f g l. induction l as [|(k, x) l IH]; cbn; intros H; [reflexivity |].
    rewrite (H k x (or_introl eq_refl)), IH; [reflexivity | intros k' y I; apply (H k'); now right].
  Qed.

  Lemma read_each_ext : forall (f g : ty -> json -> option val) ts l,
    (forall t x, In t ts -> In x l -> f t x = g t x) -> read_each f ts l = read_each g ts l.
  Proof.
    intros f g ts. induction ts as [|t ts IH]; intros [|x l] H; cbn; try reflexivity.
    rewrite (H t x (or_introl eq_refl) (or_introl eq_refl)), (IH l); [reflexivity |].
    intros t' y I J. apply H; now right.
  Qed.

  Lemma read_fields_ext : forall (f g : ty -> json -> option val) l fs,
    (forall m t k x, In (m, t) fs -> In (k, x) l -> f t x = g t x) ->
    read_fields f l fs = read_fields g l fs.
  Proof.
    intros f g l fs. induction fs as [|(m, t) fs IH]; cbn [read_fields]; intros H; [reflexivity |].
    rewrite IH by (intros m' t' k x I J; apply (H m' t' k x); [now right | exact J]).
    destruct (members (spellings m) l) as [|x [|? ?]] eqn:M; try reflexivity.
    assert (I : In x (members (spellings m) l)) by (rewrite M; now left).
    destruct (members_In _ _ _ I) as (k & _ & J).
    rewrite (H m t k x (or_introl eq_refl) J). reflexivity.
  Qed.

  Lemma read_variant_ext : forall (f g : ty -> json -> option val) n j vs i,
    (forall m t, In (m, t) vs -> f t j = g t j) -> read_variant f n j i vs = read_variant g n j i vs.
  Proof.
    intros f g n j vs. induction vs as [|(m, t) vs IH]; cbn; intros i H; [reflexivity |].
    rewrite (H m t (or_introl eq_refl)). rewrite IH; [reflexivity |].
    intros m' t' I. apply (H m'). now right.
  Qed.

  Lemma read_first_ext : forall (f g : ty -> json -> option val) j ts i,
    (forall t, In t ts -> f t j = g t j) -> read_first f j i ts = read_first g j i ts.
  Proof.
    intros f g j ts. induction ts as [|t ts IH]; cbn; intros i H; [reflexivity |].
    rewrite (H t (or_introl eq_refl)). rewrite IH; [reflexivity |]. intros t' I. apply H. now right.
  Qed.

  Lemma rank_tag : forall n tag vs, rankb S0 n (TTag tag vs) = forallb (fun v => rankb S0 n (snd v)) vs.
  Proof. intros [|n]; reflexivity. Qed.
  Lemma rank_untag : forall n ts, rankb S0 n (TUntag ts) = forallb (rankb S0 n) ts.
  Proof. intros [|n]; reflexivity. Qed.
  Lemma rank_opt : forall n t, rankb S0 n (TOpt t) = rankb S0 n t.
  Proof. intros [|n]; reflexivity. Qed.

  Lemma fuel_enough : forall f t j n g, wf S0 t = true -> rankb S0 n t = true ->
    n + 8 * depth j <= f -> n + 8 * depth j <= g -> read f t j = read g t j.
  Proof.
    induction f as [f IHf] using lt_wf_ind. intros t.
    induction t as [| |lo hi z| | | |t IH|t IH|ts IH|t IH|d fs IH|vs|vs IH|tag vs IH|ts IH|r] using ty_ind';
      intros j n g W R F G; cbn [wf] in W; apply andb_true_iff in W; destruct W as (_ & W).
    - destruct f, g; reflexivity.
    - destruct f, g; reflexivity.
    - destruct f, g; reflexivity.
    - destruct f, g; reflexivity.
    - destruct f, g; reflexivity.
    - destruct f, g; reflexivity.
    - apply andb_true_iff in W. destruct W as (_ & W). rewrite rank_opt in R. rewrite !read_opt.
      destruct j; try reflexivity; rewrite (IH _ n g W R F G); reflexivity.
    - rewrite !read_vec. destruct j; try reflexivity. f_equal. apply read_all_ext. intros x I.
      apply arr_In in I. cbn [depth] in F, G. apply (IH x 6 g W (wf_rank _ W)); lia.
    - rewrite !read_tuple. destruct j; try reflexivity. f_equal. apply read_each_ext. intros t x I J.
      apply arr_In in J. cbn [depth] in F, G. rewrite Forall_forall in IH. rewrite forallb_forall in W.
      apply (IH t I x 6 g (W t I) (wf_rank _ (W t I))); lia.
    - rewrite !read_tmap. destruct j; try reflexivity. f_equal. apply read_entries_ext. intros k x I.
      apply deep_In in I. unfold deep in I. cbn [depth] in F, G. apply (IH x 6 g W (wf_rank _ W)); lia.
    - rewrite !read_struct. destruct j; try reflexivity.
      destruct (d && _); [reflexivity |]. f_equal. apply read_fields_ext. intros m t k x I J.
      apply deep_In in J. unfold deep in J. cbn [depth] in F, G. rewrite Forall_forall in IH.
      apply andb_true_iff in W. destruct W as (_ & W). rewrite forallb_forall in W. specialize (W _ I).
      apply andb_true_iff in W. destruct W as (W & _). apply (IH _ I x 6 g W (wf_rank _ W)); lia.
    - destruct f, g; reflexivity.
    - rewrite !read_ext. destruct j as [| | | | | |[|(n0, x) [|? ?]]]; try reflexivity.
      apply read_variant_ext. intros m t I. rewrite Forall_forall in IH.
      apply andb_true_iff in W. destruct W as (_ & W). rewrite forallb_forall in W. specialize (W _ I).
      cbn in F, G. apply (IH _ I x 6 g W (wf_rank _ W)); lia.
    - rewrite !read_tag. destruct j; try reflexivity. destruct (members [tag] l) as [|[] [|? ?]]; try reflexivity.
      apply read_variant_ext. intros m t I. rewrite Forall_forall in IH.
      apply andb_true_iff in W. destruct W as (_ & W). rewrite forallb_forall in W. specialize (W _ I).
      apply andb_true_iff in W. destruct W as (W & _). rewrite rank_tag in R. rewrite forallb_forall in R.
      specialize (R _ I). cbn [depth] in F, G.
      pose proof (deep_filter (fun kx => negb (mem (fst kx) [tag])) l) as D. unfold deep in D.
      apply (IH _ I _ n g W R); cbn [depth]; lia.
    - rewrite !read_untag. apply read_first_ext. intros t I. rewrite Forall_forall in IH.
      apply andb_true_iff in W. destruct W as (_ & W). rewrite forallb_forall in W.
      rewrite rank_untag, forallb_forall in R. apply (IH t I j n g (W t I) (R t I) F G).
    - rewrite !read_ref. destruct n as [|n]; [discriminate |]. destruct f as [|f]; [lia |]. destruct g as [|g]; [lia |].
      cbn [rankb] in R. destruct (assoc r S0) as [t|] eqn:E; [| reflexivity].
      apply (IHf f (Nat.lt_succ_diag_r f) t j n g (assoc_wf _ _ E) R); lia.
  Qed.

  (** ** Reading what was written *)

  Lemma fields_keys : forall fs vs l, writes_fields S0 fs vs l -> forall k, In k (keys l) -> In k (known fs).
  Proof.
    intros fs vs l H. induction H as [|m t v fs vs l Sk H IH|m t v j fs vs l Sk W H IH]; intros k I.
    - exact I.
    - unfold known. cbn. right. apply in_or_app. right. now apply IH.
    - unfold known. cbn. destruct I as [<- | I]; [now left |]. right. apply in_or_app. right. now apply IH.
  Qed.

  Lemma payload_obj : forall n t d fs v j, payload S0 n t = Some (d, fs) -> writes t v j ->
    exists vs l, v = VRec vs /\ j = JObj l /\ writes_fields S0 fs vs l.
  Proof.
    induction n as [|n IH]; intros t d fs v j P W.
    - destruct t; try discriminate. injection P as -> ->. inversion W; subst. eauto.
    - destruct t; try discriminate.
      + injection P as -> ->. inversion W; subst. eauto.
      + cbn [payload] in P. inversion W as [| | | | | | | | | | | | | | | |? t' ? ? A W']; subst.
        rewrite A in P. now apply (IH t' d fs v j).
  Qed.

  Lemma unit_variant_nth : forall vs i p n al, NoDup (flat_map (fun v => fst v :: snd v) vs) ->
    nth_error vs p = Some (n, al) -> unit_variant n i vs = Some (VVar (i + p) VUnit).
  Proof.
    induction vs as [|(m, al') vs IH]; intros i p n al N E; [destruct p; discriminate |].
    cbn [unit_variant flat_map fst snd] in *. destruct p as [|p]; cbn in E.
    - injection E as -> ->. rewrite (proj2 (mem_In n (n :: al))) by now left.
      now rewrite Nat.add_0_r.
    - destruct (mem n (m :: al')) eqn:M.
      + exfalso. apply mem_In in M.
        assert (I : In n (flat_map (fun v => fst v :: snd v) vs)).
        { apply in_flat_map. exists (n, al). split; [now apply nth_error_In with p | now left]. }
        change (m :: al' ++ ?x) with ((m :: al') ++ x) in N.
        revert N M I. generalize (m :: al') as a. generalize (flat_map (fun v : string * list string => fst v :: snd v) vs) as b.
        clear. intros b a N M I. induction a as [|x a IHa]; [contradiction |].
        cbn in N. inversion N as [|? ? N1 N2]; subst. destruct M as [-> | M].
        * apply N1. apply in_or_app. now right.
        * now apply IHa.
      + rewrite (IH (S i) p n al); [f_equal; f_equal; lia | | exact E].
        change (m :: al' ++ ?x) with ((m :: al') ++ x) in N.
        revert N. generalize (m :: al') as a. clear. intros a N. induction a as [|x a IHa]; [exact N |].
        cbn in N. inversion N. now apply IHa.
  Qed.

  Lemma read_variant_nth : forall rd n j vs i p t w, NoDup (keys vs) ->
    nth_error vs p = Some (n, t) -> rd t j = Some w -> read_variant rd n j i vs = Some (VVar (i + p) w).
  Proof.
    intros rd n j vs. induction vs as [|(m, t') vs IH]; intros i p t w N E R; [destruct p; discriminate |].
    cbn [read_variant keys map fst] in *. inversion N as [|? ? N1 N2]; subst. destruct p as [|p]; cbn in E.
    - injection E as -> ->. rewrite String.eqb_refl, R. cbn. now rewrite Nat.add_0_r.
    - destruct (String.eqb n m) eqn:B.
      + apply String.eqb_eq in B. subst m. exfalso. apply N1. apply in_map_iff. exists (n, t).
        split; [reflexivity | now apply nth_error_In with p].
      + rewrite (IH (S i) p t w N2 E R). f_equal. f_equal. lia.
  Qed.

  Lemma read_first_nth : forall (rd : ty -> json -> option val) j ts i p t w,
    pairwise (fun a b => disjoint (kinds S0 6 a) (kinds S0 6 b)) ts = true ->
    (forall t v, rd t j = Some v -> In (kind_of j) (kinds S0 6 t)) ->
    nth_error ts p = Some t -> rd t j = Some w -> read_first rd j i ts = Some (VVar (i + p) w).
  Proof.
    intros rd j ts. induction ts as [|t' ts IH]; intros i p t w P K E R; [destruct p; discriminate |].
    cbn [pairwise read_first] in *. apply andb_true_iff in P. destruct P as (P1 & P2).
    destruct p as [|p]; cbn in E.
    - injection E as ->. rewrite R. now rewrite Nat.add_0_r.
    - destruct (rd t' j) as [w'|] eqn:R'.
      + exfalso. rewrite forallb_forall in P1. specialize (P1 t (nth_error_In _ _ E)).
        exact (disjoint_not _ _ P1 (kind_of j) (K _ _ R') (K _ _ R)).
      + rewrite (IH (S i) p t w P2 K E R). f_equal. f_equal. lia.
  Qed.

  Lemma keys_app_NoDup : forall (a b : list string), NoDup (a ++ b) ->
    NoDup b /\ forall x, In x a -> ~ In x b.
  Proof.
    induction a as [|x a IH]; cbn; intros b N; [split; [exact N | intros x []] |].
    inversion N as [|? ? N1 N2]; subst. destruct (IH b N2) as (A & B). split; [exact A |].
    intros y [<- | I]; [| now apply B]. intros J. apply N1. apply in_or_app. now right.
  Qed.

  Definition fields_wf (fs : list (fmeta * ty)) : Prop :=
    NoDup (known fs) /\ forall f, In f fs -> wf S0 (snd f) = true /\ field_ok S0 f = true.

  Lemma struct_wf : forall d fs, wf S0 (TStruct d fs) = true -> fields_wf fs.
  Proof.
    intros d fs H. cbn [wf] in H. apply andb_true_iff in H. destruct H as (_ & H).
    apply andb_true_iff in H. destruct H as (A & B). split; [now apply nodupb_NoDup |].
    intros f I. rewrite forallb_forall in B. specialize (B f I). now apply andb_true_iff in B.
  Qed.

  Lemma entries_keys : forall t m e, writes_entries S0 t m e -> keys m = keys e.
  Proof. intros t m e H. induction H; cbn; [reflexivity |]. f_equal. exact IHwrites_entries. Qed.

  Lemma read_entries_map : forall (rd : json -> option val) l m, read_entries rd l = Some m ->
    forall l', Permutation l l' -> exists m', read_entries rd l' = Some m' /\ Permutation m m'.
  Proof.
    intros rd l m H l' P. revert m H. induction P as [|(k, x) l l' P IH|(k, x) (k', x') l|a b c P1 IH1 P2 IH2]; intros m H.
    - exists m. split; [exact H | apply Permutation_refl].
    - cbn in H. destruct (rd x) as [v|] eqn:R; [| discriminate].
      destruct (read_entries rd l) as [m0|] eqn:E; [| discriminate]. injection H as <-.
      destruct (IH m0 eq_refl) as (m1 & A & B). exists ((k, v) :: m1). cbn. rewrite R, A. split; [reflexivity |].
      now constructor.
    - cbn in H. destruct (rd x') as [v'|] eqn:R'; [| discriminate].
      destruct (rd x) as [v|] eqn:R; [| destruct (read_entries rd l); discriminate].
      destruct (read_entries rd l) as [m0|] eqn:E; [| discriminate]. injection H as <-.
      exists ((k, v) :: (k', v') :: m0). cbn. rewrite R, R', E. split; [reflexivity | apply perm_swap].
    - destruct (IH1 m H) as (m1 & A & B). destruct (IH2 m1 A) as (m2 & C & D).
      exists m2. split; [exact C | now apply Permutation_trans with m1].
  Qed.

  Lemma deep_perm : forall l l', Permutation l l' -> deep l = deep l'.
  Proof.
    unfold deep. intros l l' P.
    induction P as [|(k, x) l l' P IH|(k, x) (k', x') l|a b c P1 IH1 P2 IH2]; cbn; lia.
  Qed.

  Theorem read_writes_all :
    (forall t v j, writes t v j -> wf S0 t = true ->
       forall n f, rankb S0 n t = true -> n + 8 * depth j <= f -> read f t j = Some v) /\
    (forall t vs js, writes_all S0 t vs js -> wf S0 t = true ->
       forall f, 6 + 8 * fold_right (fun x m => Nat.max (depth x) m) 0 js <= f ->
       read_all (read f t) js = Some vs) /\
    (forall ts vs js, writes_each S0 ts vs js -> forallb (wf S0) ts = true ->
       forall f, 6 + 8 * fold_right (fun x m => Nat.max (depth x) m) 0 js <= f ->
       read_each (read f) ts js = Some vs) /\
    (forall t m e, writes_entries S0 t m e -> wf S0 t = true ->
       forall f, 6 + 8 * deep e <= f -> read_entries (read f t) e = Some m) /\
    (forall fs vs l, writes_fields S0 fs vs l -> fields_wf fs ->
       forall pre, (forall k, In k (keys pre) -> ~ In k (known fs)) ->
       forall f, 6 + 8 * deep l <= f -> read_fields (read f) (pre ++ l) fs = Some vs).
  Proof.
    apply writes_mutual.
    - intros b _ n f _ _. destruct f; reflexivity.
    - intros q _ n f _ _. destruct f; reflexivity.
    - intros lo hi z x H _ n f _ _. destruct f; cbn; now rewrite H.
    - intros s _ n f _ _. destruct f; reflexivity.
    - intros s H _ n f _ _.
      assert (E : read_date s = Some s).
      { unfold read_date. rewrite H. destruct (like "0000-00-00" s) eqn:D; [| reflexivity]. exfalso.
        apply like_length in D. apply like_length in H.
        rewrite H in D. discriminate D. }
      destruct f; cbn [Serde.read]; rewrite E; reflexivity.
    - intros j H _ n f _ _. destruct f; cbn; now rewrite H.
    - intros t _ n f _ _. destruct f; reflexivity.
    - intros t v j W IH H n f R F. cbn [wf] in H. apply andb_true_iff in H. destruct H as (_ & H).
      apply andb_true_iff in H. destruct H as (K & H). rewrite rank_opt in R.
      pose proof (IH H n f R F) as E. rewrite read_opt. destruct j; try (now rewrite E).
      exfalso. apply negb_true_iff in K. apply (kinds_read f 6) in E.
      assert (X : existsb (kind_eqb KNull) (kinds S0 6 t) = true).
      { apply existsb_exists. exists KNull. split; [exact E | reflexivity]. }
      congruence.
    - intros t vs js W IH H n f R F. cbn [wf] in H. apply andb_true_iff in H. destruct H as (_ & H).
      rewrite read_vec. cbn [depth] in F. rewrite (IH H f); [reflexivity | lia].
    - intros ts vs js W IH H n f R F. cbn [wf] in H. apply andb_true_iff in H. destruct H as (_ & H).
      rewrite read_tuple. cbn [depth] in F. rewrite (IH H f); [reflexivity | lia].
    - intros t m e l O W IH P H n f R F. cbn [wf] in H. apply andb_true_iff in H. destruct H as (_ & H).
      rewrite read_tmap. cbn [depth] in F. fold (deep l) in F. rewrite <- (deep_perm _ _ P) in F.
      pose proof (IH H f ltac:(lia)) as E.
      destruct (read_entries_map _ _ _ E _ P) as (m' & A & B). rewrite A. cbn.
      now rewrite (to_map_perm m m' O B).
    - intros d fs vs l W IH H n f R F. rewrite read_struct.
      assert (K : forallb (fun k => mem k (known fs)) (keys l) = true).
      { apply forallb_forall. intros k I. apply mem_In. now apply (fields_keys fs vs l W). }
      rewrite K. rewrite andb_false_r. cbn [depth] in F. fold (deep l) in F.
      pose proof (IH (struct_wf _ _ H) [] (fun k i => match i with end) f ltac:(lia)) as E.
      cbn [app] in E. rewrite E. reflexivity.
    - intros vs i n al E H n0 f R F. cbn [wf] in H. apply andb_true_iff in H. destruct H as (_ & H).
      assert (X : forall g, read g (TUnits vs) (JStr n) = unit_variant n 0 vs) by (intros []; reflexivity).
      rewrite X. rewrite (unit_variant_nth vs 0 i n al (nodupb_NoDup _ H) E). reflexivity.
    - intros vs i n t v j E W IH H n0 f R F. cbn [wf] in H. apply andb_true_iff in H. destruct H as (_ & H).
      apply andb_true_iff in H. destruct H as (N & H). rewrite forallb_forall in H.
      specialize (H _ (nth_error_In _ _ E)). cbn in H. rewrite read_ext.
      apply (read_variant_nth _ n j vs 0 i t v (nodupb_NoDup _ N) E).
      cbn in F. apply (IH H 6 f (wf_rank _ H)). lia.
    - intros tag vs i n t v l E W IH H n0 f R F. cbn [wf] in H. apply andb_true_iff in H. destruct H as (_ & H).
      apply andb_true_iff in H. destruct H as (N & H). rewrite forallb_forall in H.
      specialize (H _ (nth_error_In _ _ E)). cbn [snd] in H. apply andb_true_iff in H. destruct H as (H & T).
      destruct (payload S0 6 t) as [(d, fs)|] eqn:P; [| discriminate].
      apply negb_true_iff in T. apply mem_not in T.
      destruct (payload_obj 6 t d fs v (JObj l) P W) as (ws & l' & -> & El & Wf). injection El as <-.
      assert (K : forall k, In k (keys l) -> k <> tag).
      { intros k I ->. apply T. now apply (fields_keys fs ws l Wf). }
      rewrite read_tag.
      assert (M : members [tag] ((tag, JStr n) :: l) = [JStr n]).
      { change ((tag, JStr n) :: l) with ([(tag, JStr n)] ++ l). rewrite members_app.
        rewrite (members_none [tag] l); [unfold members; cbn; now rewrite String.eqb_refl |]. intros k I [J | []]. exact (K k I (eq_sym J)). }
      rewrite M.
      assert (G : filter (fun kx : string * json => negb (mem (fst kx) [tag])) ((tag, JStr n) :: l) = l).
      { cbn. rewrite String.eqb_refl. cbn. clear - K. induction l as [|(k, x) l IHl]; cbn; [reflexivity |].
        assert (X : String.eqb k tag = false) by (apply String.eqb_neq, K; now left).
        rewrite X. cbn. f_equal. apply IHl. intros k' I. apply K. now right. }
      rewrite G. apply (read_variant_nth _ n (JObj l) vs 0 i t (VRec ws) (nodupb_NoDup _ N) E).
      rewrite rank_tag, forallb_forall in R. specialize (R _ (nth_error_In _ _ E)). cbn [snd] in R.
      apply (IH H n0 f R). cbn [depth fold_right snd] in F. cbn [depth]. lia.
    - intros ts i t v j E W IH H n0 f R F. cbn [wf] in H. apply andb_true_iff in H. destruct H as (_ & H).
      apply andb_true_iff in H. destruct H as (N & H). rewrite forallb_forall in H.
      specialize (H _ (nth_error_In _ _ E)). rewrite rank_untag, forallb_forall in R.
      specialize (R _ (nth_error_In _ _ E)). rewrite read_untag.
      apply (read_first_nth _ j ts 0 i t v N); [| exact E | now apply (IH H n0 f R)].
      intros t' v'. apply kinds_read.
    - intros n t v j A W IH H n0 f R F. rewrite read_ref. destruct n0 as [|n0]; [discriminate |].
      destruct f as [|f]; [lia |]. cbn [rankb] in R. rewrite A in *.
      apply (IH (assoc_wf _ _ A) n0 f R). lia.
    - reflexivity.
    - intros t v vs j js W IH W' IH' H f F. cbn [fold_right] in F. cbn [read_all].
      rewrite (IH H 6 f (wf_rank _ H)) by lia. rewrite (IH' H f) by lia. reflexivity.
    - reflexivity.
    - intros t ts v vs j js W IH W' IH' H f F. cbn [fold_right] in F. cbn [forallb] in H.
      apply andb_true_iff in H. destruct H as (H & H'). cbn [read_each].
      rewrite (IH H 6 f (wf_rank _ H)) by lia. rewrite (IH' H' f) by lia. reflexivity.
    - reflexivity.
    - intros t k v m j l W IH W' IH' H f F. cbn [deep fold_right snd] in F. fold (deep l) in F.
      cbn [read_entries]. rewrite (IH H 6 f (wf_rank _ H)) by lia. rewrite (IH' H f) by lia. reflexivity.
    - reflexivity.
    - intros m t v fs vs l Sk W IH (N & Wf) pre Pre f F.
      unfold known in N. cbn [flat_map fst] in N. fold (known fs) in N.
      destruct (keys_app_NoDup _ _ N) as (N1 & N2).
      cbn [read_fields].
      assert (M : members (spellings m) (pre ++ l) = []).
      { apply members_none. intros k I J. unfold keys in I. rewrite map_app in I. apply in_app_or in I.
        destruct I as [I | I].
        - apply (Pre k I). unfold known. cbn [flat_map fst]. apply in_or_app. now left.
        - apply (N2 k J). now apply (fields_keys fs vs l W). }
      rewrite M. rewrite (IH (conj N1 (fun f i => Wf f (or_intror i))) pre).
      + destruct (Wf (m, t) (or_introl eq_refl)) as (_ & Ok). unfold field_ok in Ok. cbn [fst snd] in Ok.
        unfold missing. unfold skipped in Sk. destruct (f_skip m).
        * discriminate.
        * destruct v; try discriminate. destruct (f_default m); [discriminate |].
          destruct t; try discriminate. reflexivity.
        * destruct v as [| | | | | | | | |[|? ?]| |]; try discriminate.
          destruct (f_default m) as [[| | | | | | | | |[|? ?]| |]|]; try discriminate. reflexivity.
      + intros k I J. apply (Pre k I). unfold known. cbn [flat_map fst]. apply in_or_app. now right.
      + exact F.
    - intros m t v j fs vs l Sk W IHv Wl IH (N & Wf) pre Pre f F.
      unfold known in N. cbn [flat_map fst] in N. fold (known fs) in N.
      destruct (keys_app_NoDup _ _ N) as (N1 & N2).
      destruct (Wf (m, t) (or_introl eq_refl)) as (Wt & _). cbn [snd] in Wt.
      cbn [deep fold_right snd] in F. fold (deep l) in F.
      cbn [read_fields].
      assert (M : members (spellings m) (pre ++ (f_key m, j) :: l) = [j]).
      { rewrite members_app. rewrite (members_none (spellings m) pre).
        - cbn [app]. change ((f_key m, j) :: l) with ([(f_key m, j)] ++ l). rewrite members_app.
          rewrite (members_none (spellings m) l).
          + unfold members, spellings. cbn. rewrite String.eqb_refl. reflexivity.
          + intros k I J. apply (N2 k J). now apply (fields_keys fs vs l Wl).
        - intros k I J. apply (Pre k I). unfold known. cbn [flat_map fst]. apply in_or_app. now left. }
      rewrite M. rewrite (IHv Wt 6 f (wf_rank _ Wt)) by lia.
      change ((f_key m, j) :: l) with ([(f_key m, j)] ++ l). rewrite app_assoc.
      rewrite (IH (conj N1 (fun f i => Wf f (or_intror i))) (pre ++ [(f_key m, j)])).
      + reflexivity.
      + intros k I J. unfold keys in I. rewrite map_app in I. apply in_app_or in I. destruct I as [I | [<- | []]].
        * apply (Pre k I). unfold known. cbn [flat_map fst]. apply in_or_app. now right.
        * cbn in J. apply (N2 (f_key m)); [now left | exact J].
      + lia.
  Qed.

  Lemma read_writes : forall t v j, writes t v j -> wf S0 t = true ->
    forall f, 6 + 8 * depth j <= f -> read f t j = Some v.
  Proof. intros t v j W H f F. exact (proj1 read_writes_all t v j W H 6 f (wf_rank _ H) F). Qed.
End Lemmas.
