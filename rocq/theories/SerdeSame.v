(** What was read can be written, and what is written says the same as what was
    read. *)
From Coq Require Import Ascii String.
From Coq Require Import List Bool ZArith QArith Permutation Sorted Lia.
From Verif Require Import Serde SerdeSpec SerdeCheck SerdeLemmas.
Import ListNotations.
Open Scope string_scope.
Open Scope list_scope.
Open Scope nat_scope.

(** ** Dates *)

Lemma like_app : forall p s p' s', like p s = true -> like p' s' = true -> like (p ++ p') (s ++ s') = true.
Proof.
  induction p as [|c p IH]; intros [|d s] p' s' A B; cbn in *; try discriminate; [exact B |].
  apply andb_true_iff in A. destruct A as (A1 & A2). rewrite A1. cbn. now apply IH.
Qed.

Lemma like_split : forall p p' s, like (p ++ p') s = true ->
  exists a b, s = (a ++ b)%string /\ like p a = true /\ like p' b = true.
Proof.
  induction p as [|c p IH]; intros p' s H; cbn in *.
  - exists "", s. auto.
  - destruct s as [|d s]; [discriminate |]. apply andb_true_iff in H. destruct H as (A & B).
    destruct (IH p' s B) as (a & b & -> & H1 & H2). exists (String d a), b. cbn. rewrite A, H1. auto.
Qed.

Lemma substring_app : forall a b, substring 0 (String.length a) (a ++ b) = a.
Proof. induction a as [|c a IH]; intros b; cbn; [destruct b; reflexivity |]. f_equal. apply IH. Qed.

Lemma substring_all : forall a, substring 0 (String.length a) a = a.
Proof. induction a as [|c a IH]; cbn; [reflexivity |]. f_equal. exact IH. Qed.

Lemma substring_skip : forall a b n, substring (String.length a) n (a ++ b) = substring 0 n b.
Proof. induction a as [|c a IH]; intros b n; cbn; [reflexivity |]. apply IH. Qed.

Lemma append_assoc : forall a b c, (a ++ (b ++ c))%string = ((a ++ b) ++ c)%string.
Proof. induction a as [|x a IH]; intros b c; cbn; [reflexivity |]. now rewrite IH. Qed.

Lemma read_date_cases : forall s s', read_date s = Some s' ->
  like "0000-00-00T00:00:00" s' = true /\
  (s' = s \/ s' = (s ++ "T00:00:00")%string \/
   exists d t, s = (d ++ " " ++ t)%string /\ s' = (d ++ "T" ++ t)%string).
Proof.
  intros s s' H. unfold read_date in H. destruct (like "0000-00-00" s) eqn:D.
  - injection H as <-. split; [| right; left; reflexivity].
    exact (like_app "0000-00-00" s "T00:00:00" midnight D eq_refl).
  - destruct (like "0000-00-00T00:00:00" s) eqn:E.
    + injection H as <-. split; [exact E | now left].
    + destruct (like "0000-00-00 00:00:00" s) eqn:G; [| discriminate]. injection H as <-.
      destruct (like_split "0000-00-00" " 00:00:00" s G) as (a & b & -> & A & B).
      pose proof (like_length _ _ A) as LA. pose proof (like_length _ _ B) as LB.
      destruct b as [|c b]; [discriminate |]. cbn [like] in B.
      apply andb_true_iff in B. destruct B as (C & B).
      assert (c = " "%char) by (symmetry; now apply Ascii.eqb_eq). subst c.
      cbn in LA, LB. injection LB as LB.
      assert (E1 : substring 0 10 (a ++ String " " b) = a) by (rewrite <- LA; apply substring_app).
      assert (E2 : substring 11 8 (a ++ String " " b) = b).
      { assert (X : (a ++ String " " b)%string = ((a ++ " ") ++ b)%string)
          by (rewrite <- append_assoc; reflexivity).
        rewrite X. assert (Y : String.length (a ++ " ")%string = 11).
        { clear - LA. do 10 (destruct a as [|? a]; [discriminate LA |]).
          destruct a; [reflexivity | discriminate LA]. }
        rewrite <- Y at 1. rewrite substring_skip. rewrite <- LB. apply substring_all. }
      rewrite E1, E2. split.
      * exact (like_app "0000-00-00" a "T00:00:00" (String "T" b) A B).
      * right. right. exists a, b. split; reflexivity.
Qed.

(** ** What is read can be written *)

Section Write.
  Variable S0 : types.
  Hypothesis Hwf : wf_types S0 = true.

  Notation read := (read S0).
  Notation writes := (writes S0).

  Lemma dflt_only : forall n t d j0, dflt S0 n t d = Some j0 ->
    writes t d j0 /\ forall j, writes t d j -> j = j0.
  Proof.
    induction n as [n IHn] using lt_wf_ind. intros t.
    induction t as [| |lo hi z| | | |t IH|t IH|ts IH|t IH|dn fs IH|vs|vs IH|tag vs IH|ts IH|r] using ty_ind';
      intros d j0 H;
      try (destruct n, d; discriminate H).
    - assert (X : exists b, d = VBool b /\ j0 = JBool b).
      { destruct n, d; try discriminate; injection H as <-; eauto. }
      destruct X as (b & -> & ->). split; [constructor |]. intros j W. now inversion W.
    - assert (X : d = VMap [] /\ j0 = JObj []).
      { destruct n; destruct d as [| | | | | | | | |[|? ?]| |]; try discriminate; injection H as <-; auto. }
      destruct X as (-> & ->). split.
      + apply w_map with []; constructor.
      + intros j W. inversion W as [| | | | | | | | | |? ? e l O E P| | | | | |]; subst.
        inversion E; subst. apply Permutation_nil in P. now subst.
    - assert (X : exists ws l, d = VRec ws /\ j0 = JObj l /\ dflt_each (dflt S0 n) fs ws = Some l).
      { destruct n; destruct d; try discriminate; cbn [dflt] in H.
        - destruct (dflt_each _ fs l) as [l'|] eqn:E in H; [| discriminate]. injection H as <-. eauto.
        - destruct (dflt_each _ fs l) as [l'|] eqn:E in H; [| discriminate]. injection H as <-. eauto. }
      destruct X as (ws & l & -> & -> & E). clear H.
      assert (G : writes_fields S0 fs ws l /\ forall l', writes_fields S0 fs ws l' -> l' = l).
      { revert ws l E. induction fs as [|(m, t) fs IHfs]; intros [|w ws] l E; cbn [dflt_each] in E; try discriminate.
        - injection E as <-. split; [constructor |]. intros l' W. now inversion W.
        - destruct (f_skip m) eqn:Sk; try discriminate.
          destruct (dflt S0 n t w) as [j|] eqn:D; [| discriminate].
          destruct (dflt_each (dflt S0 n) fs ws) as [l1|] eqn:D1; [| discriminate]. injection E as <-.
          inversion IH as [|? ? I1 I2]; subst. destruct (I1 w j D) as (A & B).
          destruct (IHfs I2 ws l1 D1) as (A1 & B1).
          assert (NS : skipped m w = false) by (unfold skipped; now rewrite Sk).
          split; [now constructor |]. intros l' W. inversion W as [|? ? ? ? ? ? K|? ? ? j' ? ? l2 K W1 W2]; subst.
          + congruence.
          + rewrite (B j' W1), (B1 l2 W2). reflexivity. }
      destruct G as (G1 & G2). split; [now constructor |]. intros j W. inversion W; subst. f_equal. now apply G2.
    - assert (X : exists i, d = VVar i VUnit /\ option_map (fun x => JStr (fst x)) (nth_error vs i) = Some j0).
      { destruct n; destruct d as [| | | | | | | | | | |i []]; try discriminate; cbn [dflt] in H; eauto. }
      destruct X as (i & -> & E). destruct (nth_error vs i) as [(nm, al)|] eqn:N; [| discriminate].
      injection E as <-. split; [now apply w_units with al |].
      intros j W. inversion W; subst. congruence.
    - destruct n as [|n]; [destruct d; discriminate |].
      assert (X : exists t, assoc r S0 = Some t /\ dflt S0 n t d = Some j0).
      { destruct d; cbn [dflt] in H; destruct (assoc r S0) as [t|]; try discriminate; eauto. }
      destruct X as (t & A & D). destruct (IHn n (Nat.lt_succ_diag_r n) t d j0 D) as (P & Q).
      split; [now apply w_ref with t |]. intros j W. inversion W as [| | | | | | | | | | | | | | | |? t' ? ? A' W']; subst.
      rewrite A in A'. injection A' as <-. now apply Q.
  Qed.

  Lemma read_all_Forall : forall (rd : json -> option val) l vs, read_all rd l = Some vs ->
    Forall2 (fun x v => rd x = Some v) l vs.
  Proof.
    intros rd l. induction l as [|x l IH]; cbn; intros vs H.
    - injection H as <-. constructor.
    - destruct (rd x) as [v|] eqn:R; [| discriminate]. destruct (read_all rd l) as [ws|]; [| discriminate].
      injection H as <-. constructor; [exact R | now apply IH].
  Qed.

  Lemma read_entries_Forall : forall (rd : json -> option val) l vs, read_entries rd l = Some vs ->
    Forall2 (fun kx kv => fst kx = fst kv /\ rd (snd kx) = Some (snd kv)) l vs.
  Proof.
    intros rd l. induction l as [|(k, x) l IH]; cbn; intros vs H.
    - injection H as <-. constructor.
    - destruct (rd x) as [v|] eqn:R; [| discriminate]. destruct (read_entries rd l) as [ws|]; [| discriminate].
      injection H as <-. constructor; [cbn; auto | now apply IH].
  Qed.

  Lemma entries_exist : forall t m, (forall k v, In (k, v) m -> exists j, writes t v j) ->
    exists e, writes_entries S0 t m e.
  Proof.
    intros t m. induction m as [|(k, v) m IH]; intros H.
    - exists []. constructor.
    - destruct (H k v (or_introl eq_refl)) as (j & W). destruct IH as (e & E).
      { intros k' v' I. apply (H k'). now right. }
      exists ((k, j) :: e). now constructor.
  Qed.

  Lemma missing_exist : forall m t v, field_ok S0 (m, t) = true -> missing m t = Some v ->
    skipped m v = true \/ exists j, writes t v j.
  Proof.
    intros m t v Ok M. unfold field_ok in Ok. cbn [fst snd] in Ok. unfold missing in M. unfold skipped.
    destruct (f_default m) as [d|] eqn:D.
    - injection M as <-. destruct (f_skip m).
      + destruct (dflt S0 6 t d) as [j|] eqn:E; [| discriminate].
        right. exists j. now apply (dflt_only 6 t d j).
      + discriminate.
      + destruct d as [| | | | | | | | |[|? ?]| |]; try discriminate. now left.
    - destruct t; try discriminate. injection M as <-. right. exists JNull. constructor.
  Qed.

  Theorem write_exists : forall f t j v, read f t j = Some v -> wf S0 t = true -> exists j', writes t v j'.
  Proof.
    induction f as [f IHf] using lt_wf_ind. intros t.
    induction t as [| |lo hi z| | | |t IH|t IH|ts IH|t IH|d fs IH|vs|vs IH|tag vs IH|ts IH|r] using ty_ind';
      intros j v H W.
    - destruct f, j; cbn in H; try discriminate; injection H as <-; eexists; constructor.
    - destruct f, j; cbn in H; try discriminate; injection H as <-; eexists; constructor.
    - assert (X : exists x, in_range lo hi z x = true /\ v = VInt x).
      { destruct f, j; cbn in H; try discriminate; destruct (in_range lo hi z z0) eqn:E; try discriminate;
          injection H as <-; eauto. }
      destruct X as (x & E & ->). exists (JInt x). now constructor.
    - destruct f, j; cbn in H; try discriminate; injection H as <-; eexists; constructor.
    - assert (X : exists s s', read_date s = Some s' /\ v = VStr s').
      { destruct f, j; cbn [Serde.read] in H; try discriminate; destruct (read_date s) as [s'|] eqn:E;
          try discriminate; injection H as <-; eauto. }
      destruct X as (s & s' & E & ->). exists (JStr s'). constructor. now apply (read_date_cases s).
    - assert (X : v = VJson (norm j)) by (destruct f; cbn in H; congruence). subst v.
      exists (norm j). constructor. apply norm_norm.
    - rewrite read_opt in H. cbn [wf] in W. apply andb_true_iff in W. destruct W as (_ & W).
      apply andb_true_iff in W. destruct W as (_ & W).
      destruct j; try (injection H as <-; eexists; constructor; fail);
        (destruct (read f t _) as [w|] eqn:R in H; [| discriminate]; injection H as <-;
         destruct (IH _ w R W) as (j' & Wj); exists j'; now constructor).
    - rewrite read_vec in H. destruct j as [| | | | |l|]; try discriminate.
      cbn [wf] in W. apply andb_true_iff in W. destruct W as (_ & W).
      destruct (read_all (read f t) l) as [vs|] eqn:R; [| discriminate]. injection H as <-.
      apply read_all_Forall in R.
      assert (X : exists js, writes_all S0 t vs js).
      { induction R as [|x w l ws Rx R IHR]; [exists []; constructor |].
        destruct (IH x w Rx W) as (j' & Wj). destruct IHR as (js & Ws). exists (j' :: js). now constructor. }
      destruct X as (js & X). exists (JArr js). now constructor.
    - rewrite read_tuple in H. destruct j as [| | | | |l|]; try discriminate.
      cbn [wf] in W. apply andb_true_iff in W. destruct W as (_ & W).
      destruct (read_each (read f) ts l) as [vs|] eqn:R; [| discriminate]. injection H as <-.
      assert (X : exists js, writes_each S0 ts vs js).
      { revert l vs R. induction ts as [|t ts IHts]; intros [|x l] vs R; cbn in R; try discriminate.
        - injection R as <-. exists []. constructor.
        - destruct (read f t x) as [w|] eqn:Rx; [| discriminate].
          destruct (read_each (read f) ts l) as [ws|] eqn:Rl; [| discriminate]. injection R as <-.
          inversion IH as [|? ? I1 I2]; subst. cbn [forallb] in W. apply andb_true_iff in W. destruct W as (W1 & W2).
          destruct (I1 x w Rx W1) as (j' & Wj). destruct (IHts I2 W2 l ws Rl) as (js & Ws).
          exists (j' :: js). now constructor. }
      destruct X as (js & X). exists (JArr js). now constructor.
    - rewrite read_tmap in H. destruct j as [| | | | | |l]; try discriminate.
      cbn [wf] in W. apply andb_true_iff in W. destruct W as (_ & W).
      destruct (read_entries (read f t) l) as [m|] eqn:R; [| discriminate]. injection H as <-.
      apply read_entries_Forall in R.
      destruct (entries_exist t (to_map m)) as (e & E).
      { intros k w I. apply to_map_In in I.
        clear - R I IH W. induction R as [|(k1, x) (k2, w') l m (A & B) R IHR]; [contradiction |].
        cbn in A, B. destruct I as [I | I]; [| now apply IHR]. injection I as -> ->. now apply (IH x w B W). }
      exists (JObj e). apply w_map with e; [apply to_map_order | exact E | apply Permutation_refl].
    - rewrite read_struct in H. destruct j as [| | | | | |l]; try discriminate.
      destruct (d && _) in H; [discriminate |].
      destruct (read_fields (read f) l fs) as [vs|] eqn:R; [| discriminate]. injection H as <-.
      apply struct_wf in W. destruct W as (_ & W).
      assert (X : exists l', writes_fields S0 fs vs l').
      { revert vs R. induction fs as [|(m, t) fs IHfs]; intros vs R; cbn [read_fields] in R.
        - injection R as <-. exists []. constructor.
        - destruct (match members (spellings m) l with [] => missing m t | [j] => read f t j | _ => None end)
            as [w|] eqn:Rx; [| discriminate].
          destruct (read_fields (read f) l fs) as [ws|] eqn:Rl; [| discriminate]. injection R as <-.
          inversion IH as [|? ? I1 I2]; subst.
          destruct (IHfs I2 (fun x i => W x (or_intror i)) ws eq_refl) as (l' & Ws).
          destruct (W (m, t) (or_introl eq_refl)) as (Wt & Ok). cbn [snd] in Wt.
          destruct (skipped m w) eqn:Sk.
          + exists l'. now constructor.
          + assert (Y : exists j, writes t w j).
            { destruct (members (spellings m) l) as [|x [|? ?]]; try discriminate.
              - destruct (missing_exist m t w Ok Rx) as [Y | Y]; [congruence | exact Y].
              - now apply (I1 x w Rx Wt). }
            destruct Y as (j & Y). exists ((f_key m, j) :: l'). now constructor. }
      destruct X as (l' & X). exists (JObj l'). now constructor.
    - assert (X : exists s, unit_variant s 0 vs = Some v) by (destruct f, j; cbn in H; try discriminate; eauto).
      destruct X as (s & X).
      assert (Y : forall i, unit_variant s i vs = Some v -> exists p n al, nth_error vs p = Some (n, al) /\ v = VVar (i + p) VUnit).
      { clear. induction vs as [|(n, al) vs IHv]; cbn [unit_variant]; intros i H; [discriminate |].
        destruct (mem s (n :: al)).
        - injection H as <-. exists 0, n, al. rewrite Nat.add_0_r. auto.
        - destruct (IHv (S i) H) as (p & n' & al' & A & ->). exists (S p), n', al'. split; [exact A | f_equal; lia]. }
      destruct (Y 0 X) as (p & n & al & A & ->). exists (JStr n). now apply w_units with al.
    - rewrite read_ext in H. destruct j as [| | | | | |[|(n, x) [|? ?]]]; try discriminate.
      cbn [wf] in W. apply andb_true_iff in W. destruct W as (_ & W).
      apply andb_true_iff in W. destruct W as (_ & W). rewrite forallb_forall in W.
      destruct (read_variant_Some _ _ _ _ _ _ H) as (p & t & w & A & B & -> & _).
      pose proof (nth_error_In _ _ A) as I. rewrite Forall_forall in IH.
      destruct (IH _ I x w B (W _ I)) as (j' & Wj). exists (JObj [(n, j')]). now apply w_ext with t.
    - rewrite read_tag in H. destruct j as [| | | | | |l]; try discriminate.
      destruct (members [tag] l) as [|[] [|? ?]]; try discriminate.
      cbn [wf] in W. apply andb_true_iff in W. destruct W as (_ & W).
      apply andb_true_iff in W. destruct W as (_ & W). rewrite forallb_forall in W.
      destruct (read_variant_Some _ _ _ _ _ _ H) as (p & t & w & A & B & -> & _).
      pose proof (nth_error_In _ _ A) as I. rewrite Forall_forall in IH.
      specialize (W _ I). cbn [snd] in W. apply andb_true_iff in W. destruct W as (W & P).
      destruct (IH _ I _ w B W) as (j' & Wj).
      destruct (payload S0 6 t) as [(dn, fs)|] eqn:Py; [| discriminate].
      destruct (payload_obj S0 6 t dn fs w j' Py Wj) as (ws & l' & -> & -> & _).
      exists (JObj ((tag, JStr s) :: l')). now apply w_tag with t.
    - rewrite read_untag in H. cbn [wf] in W. apply andb_true_iff in W. destruct W as (_ & W).
      apply andb_true_iff in W. destruct W as (_ & W). rewrite forallb_forall in W.
      destruct (read_first_Some _ _ _ _ _ H) as (p & t & w & A & B & ->).
      pose proof (nth_error_In _ _ A) as I. rewrite Forall_forall in IH.
      destruct (IH _ I j w B (W _ I)) as (j' & Wj). exists j'. now apply w_untag with t.
    - rewrite read_ref in H. destruct f as [|f]; [discriminate |].
      destruct (assoc r S0) as [t|] eqn:A; [| discriminate].
      destruct (IHf f (Nat.lt_succ_diag_r f) t j v H (assoc_wf S0 Hwf _ _ A)) as (j' & Wj).
      exists j'. now apply w_ref with t.
  Qed.
End Write.

(** ** What is written says the same *)

Definition required (fs : list (fmeta * ty)) : list string :=
  flat_map (fun f => match f_skip (fst f) with SNever => [f_key (fst f)] | _ => [] end) fs.

Fixpoint list_eqb (a b : list string) : bool :=
  match a, b with
  | [], [] => true
  | x :: a', y :: b' => String.eqb x y && list_eqb a' b'
  | _, _ => false
  end.

Lemma list_eqb_eq : forall a b, list_eqb a b = true -> a = b.
Proof.
  induction a as [|x a IH]; intros [|y b] H; cbn in H; try discriminate; [reflexivity |].
  apply andb_true_iff in H. destruct H as (A & B). apply String.eqb_eq in A. f_equal; auto.
Qed.

Fixpoint json_eqb (a b : json) : bool :=
  match a, b with
  | JBool x, JBool y => Bool.eqb x y
  | JStr x, JStr y => String.eqb x y
  | JObj x, JObj y =>
      (fix go (x y : list (string * json)) : bool :=
         match x, y with
         | [], [] => true
         | (k, u) :: x', (k', w) :: y' => String.eqb k k' && json_eqb u w && go x' y'
         | _, _ => false
         end) x y
  | _, _ => false
  end.

Lemma json_eqb_eq : forall a b, json_eqb a b = true -> a = b.
Proof.
  induction a as [|b0|z|q|s|l IH|l IH] using json_ind'; intros [| | | | | |l'] H; cbn in H; try discriminate.
  - apply Bool.eqb_prop in H. now subst.
  - apply String.eqb_eq in H. now subst.
  - f_equal. revert l' H. induction l as [|(k, u) l IHl]; intros [|(k', w) l'] H; try discriminate; [reflexivity |].
    apply andb_true_iff in H. destruct H as (H & H2). apply andb_true_iff in H. destruct H as (H & H1).
    inversion IH as [|? ? I1 I2]; subst. apply String.eqb_eq in H. subst. f_equal.
    + f_equal. now apply I1.
    + now apply IHl.
Qed.

Section SameLemmas.
  Variable S0 : types.
  Hypothesis Hwf : wf_types S0 = true.
  Variable L : latitude.

  Definition is_loose (always knows : list string) : bool :=
    existsb (fun e => list_eqb always (fst e) && list_eqb knows (snd e)) (loose L).

  Definition is_spelling (a k : string) : bool :=
    existsb (fun e => String.eqb a (fst e) && String.eqb k (snd e)) (spelling L).

  Definition is_default (k : string) (j : json) : bool :=
    existsb (fun e => String.eqb k (fst e) && json_eqb j (snd e)) (default L).

  (** The loose objects a type may be are listed. *)
  Fixpoint loose_at (n : nat) : ty -> bool :=
    fix go (t : ty) : bool :=
      match t with
      | TStruct false fs => is_loose (required fs) (known fs)
      | TOpt t' => go t'
      | TUntag ts => forallb go ts
      | TRef r =>
          match n with
          | 0 => false
          | S m => match assoc r S0 with Some t' => loose_at m t' | None => false end
          end
      | _ => true
      end.

  Definition field_slack (m : fmeta) (t : ty) : bool :=
    forallb (fun a => is_spelling a (f_key m)) (f_alias m) &&
    match f_skip m, f_default m with
    | SNever, Some d =>
        match dflt S0 6 t d with Some j => is_default (f_key m) j | None => false end
    | _, _ => true
    end.

  Fixpoint slack (t : ty) : bool :=
    match t with
    | TOpt t' => slack t'
    | TVec t' | TMap t' => loose_at 6 t' && slack t'
    | TTuple ts => forallb (fun t => loose_at 6 t && slack t) ts
    | TStruct _ fs => forallb (fun f => loose_at 6 (snd f) && slack (snd f) && field_slack (fst f) (snd f)) fs
    | TUnits vs => forallb (fun v => forallb (fun a => is_spelling a (fst v)) (snd v)) vs
    | TExt vs => forallb (fun v => loose_at 6 (snd v) && slack (snd v)) vs
    | TTag tag vs =>
        forallb (fun v => slack (snd v) &&
          match payload S0 6 (snd v) with
          | Some (d, fs) => d || is_loose (tag :: required fs) (tag :: known fs)
          | None => false
          end) vs
    | TUntag ts => forallb slack ts
    | _ => true
    end.

  Definition slack_types : bool := forallb (fun nt => slack (snd nt)) S0.

  Hypothesis Hslack : slack_types = true.

  Notation read := (read S0).
  Notation writes := (writes S0).
  Notation same := (same L).

  Lemma assoc_slack : forall n t, assoc n S0 = Some t -> slack t = true.
  Proof.
    intros n t H. apply assoc_In in H. unfold slack_types in Hslack. rewrite forallb_forall in Hslack.
    exact (Hslack (n, t) H).
  Qed.

  Lemma is_loose_In : forall a k, is_loose a k = true -> In (a, k) (loose L).
  Proof.
    intros a k H. apply existsb_exists in H. destruct H as ((a', k') & I & E). apply andb_true_iff in E.
    destruct E as (E1 & E2). cbn in *. apply list_eqb_eq in E1, E2. now subst.
  Qed.

  Lemma is_spelling_In : forall a k, is_spelling a k = true -> In (a, k) (spelling L).
  Proof.
    intros a k H. apply existsb_exists in H. destruct H as ((a', k') & I & E). apply andb_true_iff in E.
    destruct E as (E1 & E2). cbn in *. apply String.eqb_eq in E1, E2. now subst.
  Qed.

  Lemma is_default_In : forall k j, is_default k j = true -> In (k, j) (default L).
  Proof.
    intros a k H. apply existsb_exists in H. destruct H as ((a', k') & I & E). apply andb_true_iff in E.
    destruct E as (E1 & E2). cbn in *. apply String.eqb_eq in E1. apply json_eqb_eq in E2. now subst.
  Qed.

  Lemma spelled_of : forall m t k, field_slack m t = true -> In k (spellings m) -> spelled L k (f_key m).
  Proof.
    intros m t k H I. unfold field_slack in H. apply andb_true_iff in H. destruct H as (H & _).
    destruct I as [<- | I]; [now left |]. right. apply is_spelling_In. rewrite forallb_forall in H. now apply H.
  Qed.

  (** A value of serde_json::Value. *)
  Lemma same_norm : forall j, plain j -> same j (norm j).
  Proof.
    induction j as [|b|z|q|s|l IH|l IH] using json_ind'; intros P; cbn [norm]; try constructor.
    - now left.
    - inversion P as [| | | | |? P'|]; subst. clear P. induction l as [|x l IHl]; cbn; [constructor |].
      inversion IH as [|? ? I1 I2]; subst. constructor; [apply I1, P'; now left |].
      apply IHl; [exact I2 | intros y I; apply P'; now right].
    - inversion P as [| | | | | |? N P']; subst. intros k x I. right. right. exists k, (norm x).
      split; [now left |]. split.
      + apply In_to_map.
        * unfold keys. rewrite map_map. exact N.
        * apply in_map_iff. exists (k, x). auto.
      + rewrite Forall_forall in IH. apply (IH (k, x) I), (P' k x I).
    - inversion P as [| | | | | |? N P']; subst. intros k y I. right. right. apply to_map_In in I.
      apply in_map_iff in I. destruct I as ((k', x) & E & I). cbn in E. injection E as -> <-.
      exists k, x. split; [now left |]. split; [exact I |]. rewrite Forall_forall in IH. apply (IH (k, x) I), (P' k x I).
  Qed.

  Lemma plain_In : forall l k x, plain (JObj l) -> In (k, x) l -> plain x.
  Proof. intros l k x P I. inversion P as [| | | | | |? N P']; subst. now apply (P' k). Qed.

  Lemma to_map_nil : forall {A} (l : list (string * A)), to_map l = [] -> l = [].
  Proof.
    intros A [|(k, a) l] H; [reflexivity |]. exfalso. unfold to_map in H. cbn in H.
    assert (X : forall (l m : list (string * A)), m <> [] -> fold_left (fun m ka => insert (fst ka) (snd ka) m) l m <> []).
    { clear. induction l as [|(k, a) l IH]; cbn; intros m N; [exact N |]. apply IH.
      destruct m as [|(k', a') m]; cbn; [discriminate |]. destruct (String.compare k k'); discriminate. }
    apply (X l [(k, a)]) in H; [exact H | discriminate].
  Qed.

  Lemma fields_required : forall fs vs l, writes_fields S0 fs vs l -> forall k, In k (required fs) -> In k (keys l).
  Proof.
    intros fs vs l H. induction H as [|m t v fs vs l Sk H IH|m t v j fs vs l Sk W H IH]; intros k I.
    - exact I.
    - unfold required in I. cbn [flat_map fst] in I. apply in_app_or in I. destruct I as [I | I].
      + unfold skipped in Sk. destruct (f_skip m); [discriminate | contradiction | contradiction].
      + now apply IH.
    - unfold required in I. cbn [flat_map fst] in I. apply in_app_or in I. destruct I as [I | I].
      + destruct (f_skip m); try contradiction. destruct I as [<- | []]. now left.
      + right. now apply IH.
  Qed.

  Definition SM (f : nat) (t : ty) : Prop :=
    forall n j v j', read f t j = Some v -> writes t v j' -> plain j ->
      wf S0 t = true -> loose_at n t = true -> slack t = true -> same j j'.

  Lemma fields_same : forall f l fs vs l',
    Forall (fun x => SM f (snd x)) fs ->
    read_fields (read f) l fs = Some vs -> writes_fields S0 fs vs l' -> plain (JObj l) ->
    fields_wf S0 fs ->
    forallb (fun x => loose_at 6 (snd x) && slack (snd x) && field_slack (fst x) (snd x)) fs = true ->
    (forall k x, In (k, x) l -> In k (known fs) ->
       empty x \/ exists k' y, spelled L k k' /\ In (k', y) l' /\ same x y) /\
    (forall k' y, In (k', y) l' ->
       y = JNull \/ In (k', y) (default L) \/ exists k x, spelled L k k' /\ In (k, x) l /\ same x y).
  Proof.
    intros f l fs. induction fs as [|(m, t) fs IH]; intros vs l' Q R W P (N & Wf) Sl.
    - cbn in R. injection R as <-. inversion W; subst. split; [intros k x _ [] | intros k y []].
    - cbn [read_fields] in R.
      destruct (match members (spellings m) l with [] => missing m t | [j] => read f t j | _ => None end)
        as [w|] eqn:Rx; [| discriminate].
      destruct (read_fields (read f) l fs) as [ws|] eqn:Rl; [| discriminate]. injection R as <-.
      inversion Q as [|? ? Q1 Q2]; subst. cbn [snd] in Q1.
      cbn [forallb fst snd] in Sl. apply andb_true_iff in Sl. destruct Sl as (Sl & Sl2).
      apply andb_true_iff in Sl. destruct Sl as (Sl & Fs). apply andb_true_iff in Sl. destruct Sl as (Lo & St).
      unfold known in N. cbn [flat_map fst] in N. fold (known fs) in N.
      destruct (keys_app_NoDup _ _ N) as (N1 & N2).
      destruct (Wf (m, t) (or_introl eq_refl)) as (Wt & Ok). cbn [snd] in Wt.
      assert (Wf' : fields_wf S0 fs) by (split; [exact N1 | intros x i; apply Wf; now right]).
      inversion W as [|? ? ? ? ? l1 Sk W2|? ? ? j ? ? l1 Sk W1 W2]; subst.
      + destruct (IH ws l' Q2 eq_refl W2 P Wf' Sl2) as (A & B). split; [| exact B].
        intros k x I K. unfold known in K. cbn [flat_map fst] in K. apply in_app_or in K.
        destruct K as [K | K]; [| now apply (A k x I K)]. left.
        pose proof (In_members _ _ _ _ K I) as M.
        destruct (members (spellings m) l) as [|x0 [|? ?]]; [contradiction | | discriminate].
        destruct M as [-> | []]. unfold field_ok in Ok. cbn [fst snd] in Ok. unfold skipped in Sk.
        destruct (f_skip m); [discriminate | |].
        * destruct w; try discriminate. destruct (f_default m); [discriminate |].
          destruct t; try discriminate. rewrite read_opt in Rx. left.
          destruct x; try reflexivity; destruct (read f t _) in Rx; discriminate.
        * destruct w as [| | | | | | | | |[|? ?]| |]; try discriminate.
          destruct (f_default m) as [[| | | | | | | | |[|? ?]| |]|]; try discriminate.
          destruct t; try discriminate. rewrite read_tmap in Rx. right.
          destruct x as [| | | | | |lx]; try discriminate.
          destruct (read_entries (read f t) lx) as [mm|] eqn:Re; [| discriminate].
          cbn in Rx. injection Rx as Rx. apply to_map_nil in Rx. subst mm.
          apply read_entries_Forall in Re. inversion Re. reflexivity.
      + destruct (IH ws l1 Q2 eq_refl W2 P Wf' Sl2) as (A & B). split.
        * intros k x I K. unfold known in K. cbn [flat_map fst] in K. apply in_app_or in K. destruct K as [K | K].
          -- right. exists (f_key m), j. split; [now apply (spelled_of m t) |]. split; [now left |].
             pose proof (In_members _ _ _ _ K I) as M.
             destruct (members (spellings m) l) as [|x0 [|? ?]]; [contradiction | | discriminate].
             destruct M as [-> | []]. apply (Q1 6 x w j Rx W1 (plain_In _ _ _ P I) Wt Lo St).
          -- destruct (A k x I K) as [E | (k' & y & S1 & S2 & S3)]; [now left |].
             right. exists k', y. split; [exact S1 | split; [now right | exact S3]].
        * intros k' y [E | I].
          -- injection E as <- <-. destruct (members (spellings m) l) as [|x0 [|? ?]] eqn:M; [| | discriminate].
             ++ unfold missing in Rx. destruct (f_default m) as [dd|] eqn:D.
                ** injection Rx as <-. right. left.
                   unfold field_slack in Fs. apply andb_true_iff in Fs. destruct Fs as (_ & Fs).
                   unfold field_ok in Ok. cbn [fst snd] in Ok. rewrite D in *.
                   unfold skipped in Sk. destruct (f_skip m); [| discriminate |].
                   --- destruct (dflt S0 6 t dd) as [j0|] eqn:Df; [| discriminate].
                       rewrite (proj2 (dflt_only S0 6 t dd j0 Df) j W1). now apply is_default_In.
                   --- destruct dd as [| | | | | | | | |[|? ?]| |]; discriminate.
                ** destruct t; try discriminate. injection Rx as <-. inversion W1; subst. now left.
             ++ right. right. assert (I : In x0 (members (spellings m) l)) by (rewrite M; now left).
                destruct (members_In _ _ _ I) as (k & K & I'). exists k, x0.
                split; [now apply (spelled_of m t) |]. split; [exact I' |].
                apply (Q1 6 x0 w j Rx W1 (plain_In _ _ _ P I') Wt Lo St).
          -- now apply B.
  Qed.

  (** A type that is a name of a struct is read as that struct. *)
  Lemma payload_read : forall n f t d fs l v, payload S0 n t = Some (d, fs) -> read f t (JObj l) = Some v ->
    wf S0 t = true -> slack t = true ->
    exists g, read g (TStruct d fs) (JObj l) = Some v /\ wf S0 (TStruct d fs) = true /\
      slack (TStruct d fs) = true /\ (t = TStruct d fs /\ g = f \/ g < f).
  Proof.
    induction n as [|n IH]; intros f t d fs l v P R W Sl.
    - destruct t; try discriminate. injection P as -> ->. exists f. split; [exact R |]. split; [exact W |]. split; [exact Sl | left; auto].
    - destruct t; try discriminate.
      + injection P as -> ->. exists f. split; [exact R |]. split; [exact W |]. split; [exact Sl | left; auto].
      + cbn [payload] in P. rewrite read_ref in R. destruct f as [|f]; [discriminate |].
        destruct (assoc name S0) as [t|] eqn:A; [| discriminate].
        destruct (IH f t d fs l v P R (assoc_wf S0 Hwf _ _ A) (assoc_slack _ _ A)) as (g & G1 & G2 & G3 & G4).
        exists g. repeat split; auto. right. destruct G4 as [(_ & ->) | G4]; lia.
  Qed.

  Lemma filter_plain : forall g l, plain (JObj l) -> plain (JObj (filter g l)).
  Proof.
    intros g l P. inversion P as [| | | | | |? N P']; subst. constructor.
    - clear P P'. induction l as [|(k, x) l IH]; cbn; [constructor |]. inversion N as [|? ? N1 N2]; subst.
      destruct (g (k, x)); cbn; [| now apply IH]. constructor; [| now apply IH].
      intros I. apply N1. apply in_map_iff in I. destruct I as (y & E & I). apply filter_In in I.
      apply in_map_iff. exists y. split; [exact E | apply I].
    - intros k x I. apply filter_In in I. now apply (P' k x).
  Qed.

  Lemma loose_drop : forall deny fs k (l l' : list (string * json)) vs,
    deny = true \/ In (required fs, known fs) (loose L) ->
    (deny = true -> forall k, In k (keys l) -> In k (known fs)) ->
    writes_fields S0 fs vs l' -> In k (keys l) -> ~ In k (known fs) -> may_drop L k l'.
  Proof.
    intros deny fs k l l' vs [-> | Lo] K W I N.
    - exfalso. exact (N (K eq_refl k I)).
    - exists (required fs), (known fs). split; [exact Lo |]. split; [exact N |]. split.
      + intros a Ia. now apply (fields_required fs vs l' W).
      + intros a Ia. now apply (fields_keys S0 fs vs l' W).
  Qed.

  Theorem all_same : forall f t, SM f t.
  Proof.
    induction f as [f IHf] using lt_wf_ind. intros t.
    assert (Q : SM f t /\ forall d fs, t = TStruct d fs -> Forall (fun x => SM f (snd x)) fs);
      [| exact (proj1 Q)].
    induction t as [| |lo hi z| | | |t IH|t IH|ts IH|t IH|d fs IH|vs|vs IH|tag vs IH|ts IH|r] using ty_ind';
      (split; [| try (intros d0 fs0 E0; discriminate E0)]);
      try (intros n j v j' R W P Wt Lo St).
    - destruct f, j; cbn in R; try discriminate; injection R as <-; inversion W; subst; constructor.
    - destruct f, j; cbn in R; try discriminate; injection R as <-; inversion W; subst; constructor.
    - destruct f, j; cbn in R; try discriminate; destruct (in_range lo hi z z0); try discriminate;
        injection R as <-; inversion W; subst; constructor.
    - destruct f, j; cbn in R; try discriminate; injection R as <-; inversion W; subst; constructor; now left.
    - assert (X : exists s s', j = JStr s /\ read_date s = Some s' /\ v = VStr s').
      { destruct f, j; cbn [Serde.read] in R; try discriminate; destruct (read_date s) as [s'|] eqn:E;
          try discriminate; injection R as <-; eauto. }
      destruct X as (s & s' & -> & E & ->). inversion W; subst.
      destruct (read_date_cases s s' E) as (_ & [-> | [-> | (a & b & -> & ->)]]);
        [apply same_str; now left | apply same_day | apply same_time].
    - assert (X : v = VJson (norm j)) by (destruct f; cbn in R; congruence). subst v.
      inversion W; subst. now apply same_norm.
    - destruct IH as (IH & _).
      cbn [wf] in Wt. apply andb_true_iff in Wt. destruct Wt as (_ & Wt).
      apply andb_true_iff in Wt. destruct Wt as (_ & Wt).
      assert (Lo' : loose_at n t = true) by (destruct n; exact Lo).
      rewrite read_opt in R.
      destruct j; try (injection R as <-; inversion W; subst; constructor; fail);
        (destruct (read f t _) as [w|] eqn:R' in R; [| discriminate]; injection R as <-;
         inversion W; subst; now apply (IH n _ w j' R')).
    - destruct IH as (IH & _).
      cbn [wf] in Wt. apply andb_true_iff in Wt. destruct Wt as (_ & Wt).
      cbn [slack] in St. apply andb_true_iff in St. destruct St as (Lo' & St).
      rewrite read_vec in R. destruct j as [| | | | |l|]; try discriminate.
      destruct (read_all (read f t) l) as [vs|] eqn:Ra; [| discriminate]. injection R as <-.
      inversion W as [| | | | | | | |? ? js Wa| | | | | | | |]; subst. constructor.
      inversion P as [| | | | |? P'|]; subst. clear P W Lo.
      apply read_all_Forall in Ra. revert js Wa. induction Ra as [|x w l ws Rx Ra IHR]; intros js Wa.
      + inversion Wa; subst. constructor.
      + inversion Wa as [|? ? ? j0 js0 W1 W2]; subst. constructor.
        * apply (IH 6 x w j0 Rx W1); auto. apply P'. now left.
        * apply IHR; [intros y I; apply P'; now right | exact W2].
    - cbn [wf] in Wt. apply andb_true_iff in Wt. destruct Wt as (_ & Wt). cbn [slack] in St.
      rewrite read_tuple in R. destruct j as [| | | | |l|]; try discriminate.
      destruct (read_each (read f) ts l) as [vs|] eqn:Ra; [| discriminate]. injection R as <-.
      inversion W as [| | | | | | | | |? ? js Wa| | | | | | |]; subst. constructor.
      inversion P as [| | | | |? P'|]; subst. clear P W Lo.
      revert l vs js Ra Wa P'. induction ts as [|t ts IHts]; intros [|x l] vs js Ra Wa P'; cbn in Ra; try discriminate.
      + injection Ra as <-. inversion Wa; subst. constructor.
      + destruct (read f t x) as [w|] eqn:Rx; [| discriminate].
        destruct (read_each (read f) ts l) as [ws|] eqn:Rl; [| discriminate]. injection Ra as <-.
        inversion Wa as [|? ? ? ? j0 js0 W1 W2]; subst. inversion IH as [|? ? (I1 & _) I2]; subst.
        cbn [forallb] in Wt, St. apply andb_true_iff in Wt, St. destruct Wt as (Wt1 & Wt2), St as (St1 & St2).
        apply andb_true_iff in St1. destruct St1 as (Lo & St1). constructor.
        * apply (I1 6 x w j0 Rx W1); auto. apply P'. now left.
        * apply (IHts I2 Wt2 St2 l ws js0 Rl W2). intros y I. apply P'. now right.
    - destruct IH as (IH & _).
      cbn [wf] in Wt. apply andb_true_iff in Wt. destruct Wt as (_ & Wt).
      cbn [slack] in St. apply andb_true_iff in St. destruct St as (Lo' & St).
      rewrite read_tmap in R. destruct j as [| | | | | |l]; try discriminate.
      destruct (read_entries (read f t) l) as [m|] eqn:Re; [| discriminate]. injection R as <-.
      apply read_entries_Forall in Re.
      inversion W as [| | | | | | | | | |? ? e l' O We Pe| | | | | |]; subst.
      inversion P as [| | | | | |? N P']; subst.
      assert (Km : keys m = keys l).
      { clear - Re. induction Re as [|? ? ? ? (A & _) Re IHR]; [reflexivity |]. unfold keys in *. cbn [map]. now rewrite A, IHR. }
      assert (E1 : forall k v, In (k, v) m -> exists x, In (k, x) l /\ read f t x = Some v).
      { clear - Re. induction Re as [|(k1, x) (k2, w) l m (A & B) Re IHR]; intros k v []; cbn in *.
        - injection H as -> ->. subst. exists x. auto.
        - destruct (IHR k v H) as (y & C & D). exists y. auto. }
      assert (E1' : forall k x, In (k, x) l -> exists v, In (k, v) m /\ read f t x = Some v).
      { clear - Re. induction Re as [|(k1, x) (k2, w) l m (A & B) Re IHR]; intros k y []; cbn in *.
        - injection H as -> ->. subst. exists w. auto.
        - destruct (IHR k y H) as (v & C & D). exists v. auto. }
      assert (E2 : forall k v, In (k, v) (to_map m) -> exists y, In (k, y) e /\ writes t v y).
      { clear - We. induction We as [|t k v mm j e W1 We IHW]; intros k' v' []; cbn in *.
        - injection H as -> ->. eauto.
        - destruct (IHW k' v' H) as (y & C & D). eauto. }
      assert (E2' : forall k y, In (k, y) e -> exists v, In (k, v) (to_map m) /\ writes t v y).
      { clear - We. induction We as [|t k v mm j e W1 We IHW]; intros k' v' []; cbn in *.
        - injection H as -> ->. eauto.
        - destruct (IHW k' v' H) as (y & C & D). eauto. }
      constructor.
      + intros k x I. right. right. destruct (E1' k x I) as (w & Im & Rx).
        assert (It : In (k, w) (to_map m)) by (apply In_to_map; [rewrite Km; exact N | exact Im]).
        destruct (E2 k w It) as (y & Ie & Wy). exists k, y. split; [now left |].
        split; [now apply (Permutation_in _ Pe) |]. apply (IH 6 x w y Rx Wy); auto. now apply (P' k).
      + intros k y I. right. right. apply (Permutation_in _ (Permutation_sym Pe)) in I.
        destruct (E2' k y I) as (w & It & Wy). apply to_map_In in It. destruct (E1 k w It) as (x & Il & Rx).
        exists k, x. split; [now left |]. split; [exact Il |]. apply (IH 6 x w y Rx Wy); auto. now apply (P' k).
    - rewrite read_struct in R. destruct j as [| | | | | |l]; try discriminate.
      destruct (d && negb (forallb (fun k => mem k (known fs)) (keys l))) eqn:D; [discriminate |].
      destruct (read_fields (read f) l fs) as [vs|] eqn:Rf; [| discriminate]. injection R as <-.
      inversion W as [| | | | | | | | | | |? ? ? l' Wf| | | | |]; subst.
      destruct (fields_same f l fs vs l') as (A & B); auto.
      { apply Forall_forall. intros x I. rewrite Forall_forall in IH. apply (IH x I). }
      { now apply struct_wf with d. }
      constructor; [| exact B]. intros k x I.
      destruct (mem k (known fs)) eqn:M.
      + apply mem_In in M. destruct (A k x I M) as [E | E]; auto.
      + apply mem_not in M. right. left.
        apply (loose_drop d fs k l l' vs); auto.
        * destruct d; [now left |]. right. apply is_loose_In. destruct n; exact Lo.
        * intros -> k' I'. cbn in D. apply negb_false_iff in D. rewrite forallb_forall in D.
          apply mem_In. now apply D.
        * apply in_map_iff. exists (k, x). auto.
    - intros d0 fs0 E0. injection E0 as <- <-. apply Forall_forall. intros x I. rewrite Forall_forall in IH. apply (IH x I).
    - assert (X : exists s, j = JStr s /\ unit_variant s 0 vs = Some v)
        by (destruct f, j; cbn in R; try discriminate; eauto).
      destruct X as (s & -> & X).
      assert (Y : forall i, unit_variant s i vs = Some v ->
        exists p n al, nth_error vs p = Some (n, al) /\ v = VVar (i + p) VUnit /\ In s (n :: al)).
      { clear. induction vs as [|(n, al) vs IHv]; cbn [unit_variant]; intros i H; [discriminate |].
        destruct (mem s (n :: al)) eqn:M.
        - injection H as <-. exists 0, n, al. rewrite Nat.add_0_r. apply mem_In in M. auto.
        - destruct (IHv (S i) H) as (p & n' & al' & A & -> & B). exists (S p), n', al'.
          split; [exact A |]. split; [f_equal; lia | exact B]. }
      destruct (Y 0 X) as (p & nm & al & A & -> & B). cbn [Nat.add] in W.
      inversion W as [| | | | | | | | | | | |? ? n' al' A'| | | |]; subst. rewrite A in A'. injection A' as <- <-.
      constructor. destruct B as [<- | B]; [now left |]. right. apply is_spelling_In.
      cbn [slack] in St. rewrite forallb_forall in St. specialize (St _ (nth_error_In _ _ A)). cbn in St.
      rewrite forallb_forall in St. now apply St.
    - rewrite read_ext in R. destruct j as [| | | | | |[|(nm, x) [|? ?]]]; try discriminate.
      cbn [wf] in Wt. apply andb_true_iff in Wt. destruct Wt as (_ & Wt).
      apply andb_true_iff in Wt. destruct Wt as (_ & Wt). rewrite forallb_forall in Wt.
      cbn [slack] in St. rewrite forallb_forall in St.
      destruct (read_variant_Some _ _ _ _ _ _ R) as (p & t & w & A & B & -> & _).
      pose proof (nth_error_In _ _ A) as I. rewrite Forall_forall in IH. destruct (IH _ I) as (IHt & _).
      inversion W as [| | | | | | | | | | | | |? ? n' t' ? y A' Wy| | |]; subst.
      cbn [Nat.add] in A'. rewrite A in A'. injection A' as <- <-.
      specialize (St _ I). cbn [snd] in St. apply andb_true_iff in St. destruct St as (Lo' & St).
      assert (Sx : same x y).
      { exact (IHt 6 x w y B Wy (plain_In _ _ _ P (or_introl eq_refl)) (Wt _ I) Lo' St). }
      constructor.
      + intros k z [E | []]. injection E as <- <-. right. right. exists nm, y. split; [now left |]. split; [now left | exact Sx].
      + intros k z [E | []]. injection E as <- <-. right. right. exists nm, x. split; [now left |]. split; [now left | exact Sx].
    - rewrite read_tag in R. destruct j as [| | | | | |l]; try discriminate.
      destruct (members [tag] l) as [|[| | | |nm| |] [|? ?]] eqn:M; try discriminate.
      cbn [wf] in Wt. apply andb_true_iff in Wt. destruct Wt as (_ & Wt).
      apply andb_true_iff in Wt. destruct Wt as (_ & Wt). rewrite forallb_forall in Wt.
      cbn [slack] in St. rewrite forallb_forall in St.
      destruct (read_variant_Some _ _ _ _ _ _ R) as (p & t & w & A & B & -> & _).
      pose proof (nth_error_In _ _ A) as I. rewrite Forall_forall in IH. destruct (IH _ I) as (_ & IHf').
      inversion W as [| | | | | | | | | | | | | |? ? ? n' t' ? l' A' Wy| |]; subst.
      cbn [Nat.add] in A'. rewrite A in A'. injection A' as <- <-.
      specialize (St _ I). cbn [snd] in St. apply andb_true_iff in St. destruct St as (St & Tl).
      specialize (Wt _ I). cbn [snd] in Wt. apply andb_true_iff in Wt. destruct Wt as (Wt & _).
      destruct (payload S0 6 t) as [(d, fs)|] eqn:Py; [| discriminate].
      destruct (payload_obj S0 6 t d fs w (JObj l') Py Wy) as (ws & l2 & -> & El & Wf). injection El as <-.
      destruct (payload_read 6 f t d fs _ _ Py B Wt St) as (g & G1 & G2 & G3 & G4).
      set (lf := filter (fun kx => negb (mem (fst kx) [tag])) l) in *.
      rewrite read_struct in G1.
      destruct (d && negb (forallb (fun k => mem k (known fs)) (keys lf))) eqn:D; [discriminate |].
      destruct (read_fields (read g) lf fs) as [vs'|] eqn:Rf; [| discriminate]. injection G1 as ->.
      destruct (fields_same g lf fs ws l') as (X & Y); auto.
      { destruct G4 as [(-> & ->) | G4]; [now apply (IHf' d fs) |].
        apply Forall_forall. intros x Ix. apply IHf. exact G4. }
      { now apply filter_plain. }
      { now apply struct_wf with d. }
      assert (Tg : In (tag, JStr nm) l).
      { assert (Im : In (JStr nm) (members [tag] l)) by (rewrite M; now left).
        destruct (members_In _ _ _ Im) as (k & [<- | []] & Ik). exact Ik. }
      constructor.
      + intros k x Ix. destruct (String.eqb k tag) eqn:Et.
        * apply String.eqb_eq in Et. subst k.
          pose proof (In_members [tag] l tag x (or_introl eq_refl) Ix) as Im. rewrite M in Im.
          destruct Im as [<- | []]. right. right. exists tag, (JStr nm). split; [now left |]. split; [now left |].
          constructor. now left.
        * assert (Ixf : In (k, x) lf).
          { apply filter_In. split; [exact Ix |]. cbn. rewrite Et. reflexivity. }
          destruct (mem k (known fs)) eqn:Mk.
          -- apply mem_In in Mk. destruct (X k x Ixf Mk) as [E | (k' & y & S1 & S2 & S3)]; [now left |].
             right. right. exists k', y. split; [exact S1 | split; [now right | exact S3]].
          -- apply mem_not in Mk. right. left. apply orb_true_iff in Tl. destruct Tl as [-> | Tl].
             ++ exfalso. cbn in D. apply negb_false_iff in D. rewrite forallb_forall in D.
                apply Mk. apply mem_In. apply D. apply in_map_iff. exists (k, x). auto.
             ++ exists (tag :: required fs), (tag :: known fs). split; [now apply is_loose_In |]. split.
                ** apply String.eqb_neq in Et. intros [E | E]; [congruence | exact (Mk E)].
                ** split; intros a Ia; cbn in Ia |- *.
                   --- destruct Ia as [Ia | Ia]; [now left |]. right. now apply (fields_required fs ws l' Wf).
                   --- destruct Ia as [Ia | Ia]; [now left |]. right. now apply (fields_keys S0 fs ws l' Wf).
      + intros k y [E | Iy].
        * injection E as <- <-. right. right. exists tag, (JStr nm). split; [now left |]. split; [exact Tg |].
          constructor. now left.
        * destruct (Y k y Iy) as [E | [E | (k0 & x & S1 & S2 & S3)]]; auto.
          right. right. exists k0, x. split; [exact S1 |]. split; [| exact S3]. now apply filter_In in S2.
    - rewrite read_untag in R. cbn [wf] in Wt. apply andb_true_iff in Wt. destruct Wt as (_ & Wt).
      apply andb_true_iff in Wt. destruct Wt as (_ & Wt). rewrite forallb_forall in Wt.
      cbn [slack] in St. rewrite forallb_forall in St.
      assert (Lo' : forallb (loose_at n) ts = true) by (destruct n; exact Lo). rewrite forallb_forall in Lo'.
      destruct (read_first_Some _ _ _ _ _ R) as (p & t & w & A & B & ->).
      pose proof (nth_error_In _ _ A) as I. rewrite Forall_forall in IH. destruct (IH _ I) as (IHt & _).
      inversion W as [| | | | | | | | | | | | | | |? ? t' ? ? A' Wy|]; subst.
      cbn [Nat.add] in A'. rewrite A in A'. injection A' as <-.
      now apply (IHt n j w j' B Wy P (Wt _ I) (Lo' _ I) (St _ I)).
    - rewrite read_ref in R. destruct f as [|f]; [discriminate |].
      inversion W as [| | | | | | | | | | | | | | | |? t ? ? A Wy]; subst. rewrite A in R.
      destruct n as [|n]; [discriminate |]. cbn [loose_at] in Lo. rewrite A in Lo.
      apply (IHf f (Nat.lt_succ_diag_r f) t n j v j' R Wy P (assoc_wf S0 Hwf _ _ A) Lo (assoc_slack _ _ A)).
  Qed.
End SameLemmas.
