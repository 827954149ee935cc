(** A check of declarations under which reading undoes writing, and facts about
    sorted maps. Nothing here models code: the check is how the theorems of
    Props_Serde.v are proved. *)
From Coq Require Import Ascii String OrderedTypeEx.
From Coq Require Import List Bool ZArith QArith Permutation Sorted Lia.
From Verif Require Import Serde SerdeSpec.
Import ListNotations.
Open Scope string_scope.
Open Scope list_scope.
Open Scope nat_scope.

(** ** Induction principles *)

Section TyInd.
  Variable P : ty -> Prop.
  Hypothesis Hbool : P TBool.
  Hypothesis Hfloat : P TFloat.
  Hypothesis Hint : forall lo hi z, P (TInt lo hi z).
  Hypothesis Hstr : P TStr.
  Hypothesis Hdate : P TDateTime.
  Hypothesis Hvalue : P TValue.
  Hypothesis Hopt : forall t, P t -> P (TOpt t).
  Hypothesis Hvec : forall t, P t -> P (TVec t).
  Hypothesis Htuple : forall ts, Forall P ts -> P (TTuple ts).
  Hypothesis Hmap : forall t, P t -> P (TMap t).
  Hypothesis Hstruct : forall d fs, Forall (fun f => P (snd f)) fs -> P (TStruct d fs).
  Hypothesis Hunits : forall vs, P (TUnits vs).
  Hypothesis Hext : forall vs, Forall (fun f => P (snd f)) vs -> P (TExt vs).
  Hypothesis Htag : forall tag vs, Forall (fun f => P (snd f)) vs -> P (TTag tag vs).
  Hypothesis Huntag : forall ts, Forall P ts -> P (TUntag ts).
  Hypothesis Href : forall n, P (TRef n).

  Fixpoint ty_ind' (t : ty) : P t :=
    let each := fix each (ts : list ty) : Forall P ts :=
      match ts with [] => Forall_nil _ | t :: ts' => Forall_cons _ (ty_ind' t) (each ts') end in
    match t with
    | TBool => Hbool | TFloat => Hfloat | TInt lo hi z => Hint lo hi z | TStr => Hstr
    | TDateTime => Hdate | TValue => Hvalue
    | TOpt t => Hopt t (ty_ind' t) | TVec t => Hvec t (ty_ind' t)
    | TTuple ts => Htuple ts (each ts)
    | TMap t => Hmap t (ty_ind' t)
    | TStruct d fs => Hstruct d fs
        ((fix go (fs : list (fmeta * ty)) : Forall (fun f => P (snd f)) fs :=
            match fs with
            | [] => Forall_nil _
            | f :: fs' => Forall_cons f (match f as f0 return P (snd f0) with (_, t) => ty_ind' t end) (go fs')
            end) fs)
    | TUnits vs => Hunits vs
    | TExt vs => Hext vs
        ((fix go (fs : list (string * ty)) : Forall (fun f => P (snd f)) fs :=
            match fs with
            | [] => Forall_nil _
            | f :: fs' => Forall_cons f (match f as f0 return P (snd f0) with (_, t) => ty_ind' t end) (go fs')
            end) vs)
    | TTag tag vs => Htag tag vs
        ((fix go (fs : list (string * ty)) : Forall (fun f => P (snd f)) fs :=
            match fs with
            | [] => Forall_nil _
            | f :: fs' => Forall_cons f (match f as f0 return P (snd f0) with (_, t) => ty_ind' t end) (go fs')
            end) vs)
    | TUntag ts => Huntag ts (each ts)
    | TRef n => Href n
    end.
End TyInd.

Section JsonInd.
  Variable P : json -> Prop.
  Hypothesis Hnull : P JNull.
  Hypothesis Hbool : forall b, P (JBool b).
  Hypothesis Hint : forall z, P (JInt z).
  Hypothesis Hflt : forall q, P (JFlt q).
  Hypothesis Hstr : forall s, P (JStr s).
  Hypothesis Harr : forall l, Forall P l -> P (JArr l).
  Hypothesis Hobj : forall l, Forall (fun kx => P (snd kx)) l -> P (JObj l).

  Fixpoint json_ind' (j : json) : P j :=
    match j with
    | JNull => Hnull | JBool b => Hbool b | JInt z => Hint z | JFlt q => Hflt q | JStr s => Hstr s
    | JArr l => Harr l
        ((fix go (l : list json) : Forall P l :=
            match l with [] => Forall_nil _ | x :: l' => Forall_cons _ (json_ind' x) (go l') end) l)
    | JObj l => Hobj l
        ((fix go (l : list (string * json)) : Forall (fun kx => P (snd kx)) l :=
            match l with
            | [] => Forall_nil _
            | kx :: l' => Forall_cons kx (match kx as k0 return P (snd k0) with (_, x) => json_ind' x end) (go l')
            end) l)
    end.
End JsonInd.

(** ** Strings and membership *)

Lemma mem_In : forall k l, mem k l = true <-> In k l.
Proof.
  intros k l. unfold mem. rewrite existsb_exists. split.
  - intros (x & I & E). apply String.eqb_eq in E. now subst.
  - intros I. exists k. split; [exact I | apply String.eqb_refl].
Qed.

Lemma mem_not : forall k l, mem k l = false <-> ~ In k l.
Proof.
  intros k l. rewrite <- mem_In. destruct (mem k l); split; intro H; try congruence;
    exfalso; apply H; reflexivity.
Qed.

Lemma lt_trans : forall a b c, String.compare a b = Lt -> String.compare b c = Lt -> String.compare a c = Lt.
Proof.
  intros a b c A B. apply String_as_OT.cmp_lt. apply String_as_OT.lt_trans with b;
    apply String_as_OT.cmp_lt; assumption.
Qed.

Lemma compare_refl : forall a, String.compare a a = Eq.
Proof. intros a. now apply String_as_OT.cmp_eq. Qed.

Lemma compare_Gt : forall a b, String.compare a b = Gt -> String.compare b a = Lt.
Proof.
  intros a b H. pose proof (String_as_OT.cmp_antisym b a) as E. unfold String_as_OT.cmp in E.
  rewrite H in E. exact E.
Qed.

Lemma compare_Lt : forall a b, String.compare a b = Lt -> String.compare b a = Gt.
Proof.
  intros a b H. pose proof (String_as_OT.cmp_antisym b a) as E. unfold String_as_OT.cmp in E.
  rewrite H in E. exact E.
Qed.

Lemma compare_Eq : forall a b, String.compare a b = Eq -> a = b.
Proof. intros a b H. now apply String_as_OT.cmp_eq. Qed.

(** ** Maps *)

Lemma insert_keys : forall {A} k (a : A) m x, In x (keys (insert k a m)) <-> x = k \/ In x (keys m).
Proof.
  intros A k a m x. induction m as [|(k', a') m IH]; cbn.
  - intuition.
  - destruct (String.compare k k') eqn:E; cbn.
    + apply compare_Eq in E. subst. intuition.
    + intuition.
    + unfold keys in IH. rewrite IH. intuition.
Qed.

Lemma insert_order : forall {A} k (a : A) m, in_order m -> in_order (insert k a m).
Proof.
  intros A k a m. unfold in_order. induction m as [|(k', a') m IH]; cbn; intros O.
  - repeat constructor.
  - inversion O as [|? ? O1 F]; subst. destruct (String.compare k k') eqn:E; cbn.
    + apply compare_Eq in E. subst. constructor; assumption.
    + constructor; [exact O |]. constructor; [exact E |].
      apply Forall_forall. intros x I. rewrite Forall_forall in F. eapply lt_trans; eauto.
    + constructor; [now apply IH |]. apply Forall_forall. intros x I.
      apply (insert_keys k a m x) in I. destruct I as [-> | I].
      * now apply compare_Gt.
      * rewrite Forall_forall in F. now apply F.
Qed.

Lemma insert_last : forall {A} k (a : A) m,
  Forall (fun x => String.compare x k = Lt) (keys m) -> insert k a m = m ++ [(k, a)].
Proof.
  intros A k a m. induction m as [|(k', a') m IH]; cbn; intros F; [reflexivity |].
  inversion F as [|? ? F1 F2]; subst. rewrite (compare_Lt _ _ F1). now rewrite IH.
Qed.

Lemma insert_swap : forall {A} k (a : A) k' a' m, in_order m -> k <> k' ->
  insert k a (insert k' a' m) = insert k' a' (insert k a m).
Proof.
  intros A k a k' a' m O N.
  assert (C : (String.compare k k' = Lt /\ String.compare k' k = Gt) \/
              (String.compare k k' = Gt /\ String.compare k' k = Lt)).
  { destruct (String.compare k k') eqn:E.
    - apply compare_Eq in E. congruence.
    - left. split; [reflexivity | now apply compare_Lt].
    - right. split; [reflexivity | now apply compare_Gt]. }
  induction m as [|(x, b) m IH].
  - destruct C as [(C & C') | (C & C')]; cbn; rewrite C, C'; reflexivity.
  - inversion O as [|? ? O1 F]; subst. specialize (IH O1).
    destruct (String.compare k' x) eqn:E', (String.compare k x) eqn:E;
      cbn [insert]; rewrite E, E'; cbn [insert]; rewrite ?E, ?E'.
    + apply compare_Eq in E, E'. congruence.
    + apply compare_Eq in E'. subst x. destruct C as [(C & C') | (C & C')]; [| congruence].
      rewrite C, C'. cbn [insert]. rewrite ?compare_refl. reflexivity.
    + apply compare_Eq in E'. subst x. rewrite E. destruct C as [(C & C') | (C & C')]; [congruence |].
      cbn [insert]. rewrite ?compare_refl. reflexivity.
    + apply compare_Eq in E. subst x. destruct C as [(C & C') | (C & C')]; [congruence |].
      rewrite C, C'. cbn [insert]. rewrite ?compare_refl. reflexivity.
    + destruct C as [(C & C') | (C & C')]; rewrite C, C'; cbn [insert]; rewrite ?E, ?E'; reflexivity.
    + assert (X : String.compare k' k = Lt) by (eapply lt_trans; [exact E' | now apply compare_Gt]).
      destruct C as [(C & C') | (C & C')]; [congruence |]. rewrite C. cbn [insert]. rewrite ?E, ?E'. reflexivity.
    + apply compare_Eq in E. subst x. rewrite E'. cbn [insert]. rewrite ?compare_refl. reflexivity.
    + assert (X : String.compare k k' = Lt) by (eapply lt_trans; [exact E | now apply compare_Gt]).
      destruct C as [(C & C') | (C & C')]; [| congruence]. rewrite C'. cbn [insert]. rewrite ?E, ?E'. reflexivity.
    + now rewrite IH.
Qed.

Definition add {A} (m : list (string * A)) (ka : string * A) := insert (fst ka) (snd ka) m.

Lemma add_order : forall {A} (l : list (string * A)) m, in_order m -> in_order (fold_left add l m).
Proof.
  intros A l. induction l as [|ka l IH]; cbn; intros m O; [exact O |].
  apply IH. now apply insert_order.
Qed.

Lemma to_map_order : forall {A} (l : list (string * A)), in_order (to_map l).
Proof. intros A l. apply (add_order l []). constructor. Qed.

Lemma add_perm : forall {A} (l l' : list (string * A)), Permutation l l' -> NoDup (keys l) ->
  forall m, in_order m -> fold_left add l m = fold_left add l' m.
Proof.
  intros A l l' Pm. induction Pm as [|x l l' Pm IH|x y l|l l1 l2 P1 IH1 P2 IH2]; intros N m O.
  - reflexivity.
  - cbn. inversion N; subst. apply IH; [assumption | now apply insert_order].
  - cbn. f_equal. unfold add. apply insert_swap; [exact O |].
    inversion N as [|? ? N1 N2]; subst. cbn in N1. intros E. apply N1. now left.
  - rewrite (IH1 N m O). apply IH2; [| exact O].
    eapply Permutation_NoDup; [| exact N]. now apply Permutation_map.
Qed.

Lemma in_order_app : forall {A} (m1 m2 : list (string * A)), in_order (m1 ++ m2) ->
  in_order m1 /\ in_order m2 /\
  forall a b, In a (keys m1) -> In b (keys m2) -> String.compare a b = Lt.
Proof.
  intros A m1 m2. unfold in_order, keys. rewrite map_app.
  induction (map fst m1) as [|k l IH]; cbn; intros O.
  - split; [constructor | split; [exact O | intros a b []]].
  - inversion O as [|? ? O1 F]; subst. destruct (IH O1) as (A1 & A2 & A3).
    rewrite Forall_app in F. destruct F as (F1 & F2). split; [now constructor |].
    split; [exact A2 |]. intros a b [<- | I] J.
    + rewrite Forall_forall in F2. now apply F2.
    + now apply A3.
Qed.

Lemma add_sorted : forall {A} (l m : list (string * A)), in_order (m ++ l) -> fold_left add l m = m ++ l.
Proof.
  intros A l. induction l as [|(k, a) l IH]; intros m O.
  - cbn. now rewrite app_nil_r.
  - cbn [fold_left]. unfold add at 2. cbn [fst snd]. rewrite insert_last.
    + rewrite IH.
      * now rewrite <- app_assoc.
      * now rewrite <- app_assoc.
    + apply Forall_forall. intros x I. destruct (in_order_app _ _ O) as (_ & _ & H).
      apply H; [exact I | now left].
Qed.

Lemma to_map_sorted : forall {A} (m : list (string * A)), in_order m -> to_map m = m.
Proof. intros A m O. apply (add_sorted m []). exact O. Qed.

Lemma in_order_NoDup : forall {A} (m : list (string * A)), in_order m -> NoDup (keys m).
Proof.
  intros A m. unfold in_order. induction (keys m) as [|k l IH]; intros O; constructor;
    inversion O as [|? ? O1 F]; subst.
  - intros I. rewrite Forall_forall in F. specialize (F k I). rewrite compare_refl in F. discriminate.
  - now apply IH.
Qed.

(** Entries in any order give the map. *)
Lemma to_map_perm : forall {A} (m l : list (string * A)), in_order m -> Permutation m l -> to_map l = m.
Proof.
  intros A m l O Pm. rewrite <- (to_map_sorted m O). symmetry.
  apply add_perm; [exact Pm | now apply in_order_NoDup | constructor].
Qed.

Lemma insert_In : forall {A} k (a : A) m x, In x (insert k a m) -> x = (k, a) \/ In x m.
Proof.
  intros A k a m x. induction m as [|(k', a') m IH]; cbn.
  - intuition.
  - destruct (String.compare k k'); cbn; intuition.
Qed.

Lemma add_In : forall {A} (l : list (string * A)) m x, In x (fold_left add l m) -> In x l \/ In x m.
Proof.
  intros A l. induction l as [|(k, a) l IH]; cbn; intros m x I; [now right |].
  destruct (IH _ _ I) as [J | J]; [now left; right |].
  apply insert_In in J. cbn in J. destruct J as [-> | J]; [left; now left | now right].
Qed.

Lemma to_map_In : forall {A} (l : list (string * A)) x, In x (to_map l) -> In x l.
Proof. intros A l x I. destruct (add_In l [] x I) as [H | []]. exact H. Qed.

Lemma insert_keep : forall {A} k (a : A) m x, In x m -> fst x <> k -> In x (insert k a m).
Proof.
  intros A k a m x. induction m as [|(k', a') m IH]; cbn; intros I N; [contradiction |].
  destruct (String.compare k k') eqn:E; cbn.
  - destruct I as [<- | I]; [| now right]. cbn in N. apply compare_Eq in E. congruence.
  - now right.
  - destruct I as [<- | I]; [now left | right; now apply IH].
Qed.

Lemma insert_has : forall {A} k (a : A) m, In (k, a) (insert k a m).
Proof.
  intros A k a m. induction m as [|(k', a') m IH]; cbn; [now left |].
  destruct (String.compare k k'); cbn; intuition.
Qed.

Lemma add_keep : forall {A} (l : list (string * A)) m x, NoDup (keys l) ->
  (In x m /\ ~ In (fst x) (keys l)) \/ In x l -> In x (fold_left add l m).
Proof.
  intros A l. induction l as [|(k, a) l IH]; cbn; intros m x N H.
  - destruct H as [(H & _) | []]. exact H.
  - inversion N as [|? ? N1 N2]; subst. apply IH; [exact N2 |].
    destruct H as [(H & J) | [<- | H]].
    + left. split; [apply insert_keep; [exact H |] |]; intuition.
    + left. split; [apply insert_has | exact N1].
    + now right.
Qed.

(** With distinct keys nothing is lost. *)
Lemma In_to_map : forall {A} (l : list (string * A)) x, NoDup (keys l) -> In x l -> In x (to_map l).
Proof. intros A l x N I. apply (add_keep l [] x N). now right. Qed.

Lemma to_map_map : forall {A B} (f : A -> B) (l : list (string * A)),
  to_map (map (fun kx => (fst kx, f (snd kx))) l) = map (fun kx => (fst kx, f (snd kx))) (to_map l).
Proof.
  intros A B f l. unfold to_map.
  assert (H : forall m, fold_left (fun m ka => insert (fst ka) (snd ka) m)
      (map (fun kx => (fst kx, f (snd kx))) l) (map (fun kx => (fst kx, f (snd kx))) m) =
      map (fun kx => (fst kx, f (snd kx))) (fold_left (fun m ka => insert (fst ka) (snd ka) m) l m)).
  { induction l as [|(k, a) l IH]; cbn; intros m; [reflexivity |]. rewrite <- IH. f_equal.
    clear IH. induction m as [|(k', a') m IHm]; cbn; [reflexivity |].
    destruct (String.compare k k'); cbn; [reflexivity | reflexivity | now rewrite IHm]. }
  exact (H []).
Qed.

Lemma norm_norm : forall j, norm (norm j) = norm j.
Proof.
  induction j as [|b|z|q|s|l IH|l IH] using json_ind'; cbn; try reflexivity.
  - f_equal. rewrite map_map. apply map_ext_in. intros x I. rewrite Forall_forall in IH. now apply IH.
  - f_equal. rewrite (to_map_map norm l). rewrite map_map. cbn [fst snd].
    rewrite (map_ext_in _ (fun kx => (fst kx, norm (snd kx)))).
    + rewrite to_map_map. rewrite (to_map_sorted (to_map l)) by (apply to_map_order). reflexivity.
    + intros x I. apply to_map_In in I. rewrite Forall_forall in IH. now rewrite (IH x I).
Qed.

(** ** The check *)

Inductive kind : Type := KNull | KBool | KInt | KFlt | KStr | KArr | KObj.

Definition kind_of (j : json) : kind :=
  match j with
  | JNull => KNull | JBool _ => KBool | JInt _ => KInt | JFlt _ => KFlt
  | JStr _ => KStr | JArr _ => KArr | JObj _ => KObj
  end.

Definition kind_eqb (a b : kind) : bool :=
  match a, b with
  | KNull, KNull | KBool, KBool | KInt, KInt | KFlt, KFlt | KStr, KStr | KArr, KArr | KObj, KObj => true
  | _, _ => false
  end.

Definition all_kinds : list kind := [KNull; KBool; KInt; KFlt; KStr; KArr; KObj].

Definition nodupb := fix nodupb (l : list string) : bool :=
  match l with [] => true | k :: l' => negb (mem k l') && nodupb l' end.

Definition disjoint (a b : list kind) : bool :=
  forallb (fun x => negb (existsb (kind_eqb x) b)) a.

Fixpoint pairwise {A} (f : A -> A -> bool) (l : list A) : bool :=
  match l with [] => true | a :: l' => forallb (f a) l' && pairwise f l' end.

Section Check.
  Variable S0 : types.

  (** The kinds of trees a type may accept. *)
  Fixpoint kinds (n : nat) : ty -> list kind :=
    fix go (t : ty) : list kind :=
      match t with
      | TBool => [KBool]
      | TFloat => [KInt; KFlt]
      | TInt _ _ _ => [KInt]
      | TStr | TDateTime | TUnits _ => [KStr]
      | TValue => all_kinds
      | TOpt t' => KNull :: go t'
      | TVec _ | TTuple _ => [KArr]
      | TMap _ | TStruct _ _ | TExt _ | TTag _ _ => [KObj]
      | TUntag ts => flat_map go ts
      | TRef r =>
          match n with
          | 0 => all_kinds
          | S m => match assoc r S0 with Some t' => kinds m t' | None => all_kinds end
          end
      end.

  (** At most [n] names are looked up before the tree is entered. *)
  Fixpoint rankb (n : nat) : ty -> bool :=
    fix go (t : ty) : bool :=
      match t with
      | TOpt t' => go t'
      | TTag _ vs => forallb (fun v => go (snd v)) vs
      | TUntag ts => forallb go ts
      | TRef r =>
          match n with
          | 0 => false
          | S m => match assoc r S0 with Some t' => rankb m t' | None => false end
          end
      | _ => true
      end.

  (** The struct a type is a name of. *)
  Fixpoint payload (n : nat) (t : ty) : option (bool * list (fmeta * ty)) :=
    match t with
    | TStruct d fs => Some (d, fs)
    | TRef r =>
        match n with
        | 0 => None
        | S m => match assoc r S0 with Some t' => payload m t' | None => None end
        end
    | _ => None
    end.

  Section Each.
    Variable f : ty -> val -> option json.
    Fixpoint dflt_each (fs : list (fmeta * ty)) (vs : list val) : option (list (string * json)) :=
      match fs, vs with
      | [], [] => Some []
      | (m, t) :: fs', v :: vs' =>
          match f_skip m with
          | SNever =>
              match f t v, dflt_each fs' vs' with
              | Some j, Some l => Some ((f_key m, j) :: l)
              | _, _ => None
              end
          | _ => None
          end
      | _, _ => None
      end.
  End Each.

  (** The only form of a simple value. *)
  Fixpoint dflt (n : nat) : ty -> val -> option json :=
    fix go (t : ty) (v : val) {struct t} : option json :=
      match t, v with
      | TBool, VBool b => Some (JBool b)
      | TMap _, VMap [] => Some (JObj [])
      | TUnits vs, VVar i VUnit => option_map (fun x => JStr (fst x)) (nth_error vs i)
      | TStruct _ fs, VRec vs => option_map JObj (dflt_each go fs vs)
      | TRef r, _ =>
          match n with
          | 0 => None
          | S m => match assoc r S0 with Some t' => dflt m t' v | None => None end
          end
      | _, _ => None
      end.

  Definition is_opt (t : ty) : bool := match t with TOpt _ => true | _ => false end.

  Definition field_ok (f : fmeta * ty) : bool :=
    match f_skip (fst f), f_default (fst f) with
    | SNever, None => true
    | SNever, Some d => match dflt 6 (snd f) d with Some _ => true | None => false end
    | SNone, None => is_opt (snd f)
    | SEmpty, Some (VMap []) => match snd f with TMap _ => true | _ => false end
    | _, _ => false
    end.

  Fixpoint wf (t : ty) : bool :=
    rankb 6 t &&
    match t with
    | TOpt t' => negb (existsb (kind_eqb KNull) (kinds 6 t')) && wf t'
    | TVec t' | TMap t' => wf t'
    | TTuple ts => forallb wf ts
    | TStruct _ fs => nodupb (known fs) && forallb (fun f => wf (snd f) && field_ok f) fs
    | TUnits vs => nodupb (flat_map (fun v => fst v :: snd v) vs)
    | TExt vs => nodupb (keys vs) && forallb (fun v => wf (snd v)) vs
    | TTag tag vs =>
        nodupb (keys vs) &&
        forallb (fun v => wf (snd v) &&
          match payload 6 (snd v) with
          | Some (_, fs) => negb (mem tag (known fs))
          | None => false
          end) vs
    | TUntag ts => pairwise (fun a b => disjoint (kinds 6 a) (kinds 6 b)) ts && forallb wf ts
    | _ => true
    end.

  Definition wf_types : bool := forallb (fun nt => wf (snd nt)) S0.
End Check.
