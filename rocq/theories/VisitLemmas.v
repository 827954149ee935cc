(** Lemmas about documents and visitors. *)
From Coq Require Import String Sorted Lia.
From Verif Require Import Base Visit VisitSpec.
Local Open Scope string_scope.
Local Open Scope list_scope.
Local Open Scope nat_scope.

(** ** Induction on documents and values. *)
Lemma doc_ind' (P : doc -> Prop) :
  (forall k cs, Forall P cs -> P (Doc k cs)) -> forall d, P d.
Proof.
  intros HP. fix IH 1. intros [k cs]. apply HP. induction cs; constructor; [apply IH | assumption].
Qed.
Lemma val_ind' (P : val -> Prop) :
  (forall m, P (VMetric m)) -> (forall m, P (VIndexMetric m)) -> (forall r, P (VRef r)) ->
  (forall n, P (VScalar n)) -> (forall p, P (VPath p)) -> P VNone ->
  (forall v, P v -> P (VSome v)) -> (forall l, Forall P l -> P (VVec l)) ->
  (forall a b, P a -> P b -> P (VPair a b)) ->
  (forall l, Forall (fun kx => P (snd kx)) l -> P (VMap l)) ->
  (forall l, P (VMetricArray l)) -> (forall l, Forall P l -> P (VStruct l)) ->
  (forall t v, P v -> P (VUnnamed t v)) -> (forall t l, Forall P l -> P (VNamed t l)) ->
  (forall t, P (VUnit t)) -> (forall p, P (VPython p)) -> forall v, P v.
Proof.
  intros H1 H2 H3 H4 H5 H6 H7 H8 H9 H10 H11 H12 H13 H14 H15 H16. fix IH 1. intros v.
  destruct v as [m|m|r|n|p| |v|l|a b|l|l|l|t v|t l|t|p].
  - apply H1. - apply H2. - apply H3. - apply H4. - apply H5. - exact H6.
  - apply H7, IH.
  - apply H8. induction l; constructor; [apply IH | assumption].
  - apply H9; apply IH.
  - apply H10. induction l; constructor; [apply IH | assumption].
  - apply H11.
  - apply H12. induction l; constructor; [apply IH | assumption].
  - apply H13, IH.
  - apply H14. induction l; constructor; [apply IH | assumption].
  - apply H15. - apply H16.
Qed.
Lemma extra_ind' (P : extra -> Prop) :
  (forall n, P (XScalar n)) -> (forall p, P (XPath p)) -> (forall l, Forall P l -> P (XMany l)) ->
  forall x, P x.
Proof.
  intros H1 H2 H3. fix IH 1. intros x. destruct x as [n|p|l]; [apply H1 | apply H2 |].
  apply H3. induction l; constructor; [apply IH | assumption].
Qed.

(** ** Which nodes of a document a visitor stops at, goes into or leaves out. *)
Inductive choice : Type := Hit | Into | Skip.
Section Rose.
Context (sel : kind -> choice).
Fixpoint hits (d : doc) : list (place * doc) :=
  let 'Doc k cs := d in
  match sel k with
  | Hit => [([], d)]
  | Skip => []
  | Into =>
      (fix go (i : nat) (l : list doc) : list (place * doc) :=
         match l with
         | [] => []
         | c :: r => map (fun px => (i :: fst px, snd px)) (hits c) ++ go (S i) r
         end) 0 cs
  end.
Definition hits_from : nat -> list doc -> list (place * doc) :=
  fix go (i : nat) (l : list doc) : list (place * doc) :=
    match l with
    | [] => []
    | c :: r => map (fun px => (i :: fst px, snd px)) (hits c) ++ go (S i) r
    end.
Lemma hits_eq k cs : hits (Doc k cs) =
  match sel k with Hit => [([], Doc k cs)] | Skip => [] | Into => hits_from 0 cs end.
Proof. reflexivity. Qed.

(** The way to a hit leads through nodes that are gone into. *)
Definition open_way (d : doc) (p : place) : Prop :=
  forall q r x, p = q ++ r -> r <> [] -> at_place d q = Some x -> sel (kind_of x) = Into.
Lemma open_way_cons k cs i p c :
  sel k = Into -> nth_error cs i = Some c -> open_way c p -> open_way (Doc k cs) (i :: p).
Proof.
  intros Hk Hi H q r x He Hr Hq. destruct q as [|j q].
  - injection Hq as <-. exact Hk.
  - injection He as <- He. simpl in Hq. rewrite Hi in Hq. exact (H q r x He Hr Hq).
Qed.
Lemma open_way_inv k cs i p : open_way (Doc k cs) (i :: p) ->
  sel k = Into /\ forall c, nth_error cs i = Some c -> open_way c p.
Proof.
  intros H. split.
  - apply (H [] (i :: p) (Doc k cs)); [reflexivity | discriminate | reflexivity].
  - intros c Hc q r x He Hr Hq. apply (H (i :: q) r x); [now rewrite He | assumption |].
    simpl. now rewrite Hc.
Qed.

Lemma hits_from_In cs : forall i p x,
  In (p, x) (hits_from i cs) <->
  exists j c q, p = (i + j) :: q /\ nth_error cs j = Some c /\ In (q, x) (hits c).
Proof.
  induction cs as [|c cs IH]; intros i p x; simpl.
  - split; [easy |]. intros (j & c & q & _ & H & _). now destruct j.
  - rewrite in_app_iff, in_map_iff, IH. split.
    + intros [((q & y) & He & Hin) | (j & c' & q & -> & Hj & Hin)].
      * injection He as <- <-. exists 0, c, q. now rewrite Nat.add_0_r.
      * exists (S j), c', q. now rewrite Nat.add_succ_r.
    + intros (j & c' & q & -> & Hj & Hin). destruct j as [|j].
      * left. injection Hj as ->. exists (q, x). now rewrite Nat.add_0_r.
      * right. exists j, c', q. now rewrite Nat.add_succ_r.
Qed.
Lemma hits_In d : forall p x,
  In (p, x) (hits d) <-> at_place d p = Some x /\ sel (kind_of x) = Hit /\ open_way d p.
Proof.
  induction d as [k cs IH] using doc_ind'. intros p x. rewrite hits_eq. destruct (sel k) eqn:Ek.
  - split.
    + intros [He | []]. injection He as <- <-. split; [reflexivity | split; [exact Ek |]].
      intros q r y He Hr. destruct q; [now destruct r | discriminate].
    + intros (Hp & Hx & Hw). destruct p as [|i p]; [left; now injection Hp as -> |].
      apply open_way_inv in Hw. destruct Hw as [Hw _]. congruence.
  - rewrite hits_from_In. split.
    + intros (j & c & q & -> & Hj & Hin). simpl. rewrite Hj.
      rewrite Forall_forall in IH. apply (IH c (nth_error_In _ _ Hj)) in Hin.
      destruct Hin as (H1 & H2 & H3). split; [exact H1 | split; [exact H2 |]].
      exact (open_way_cons _ _ _ _ _ Ek Hj H3).
    + intros (Hp & Hx & Hw). destruct p as [|i p].
      * injection Hp as <-. simpl in Hx. congruence.
      * apply open_way_inv in Hw. destruct Hw as [_ Hw]. simpl in Hp.
        destruct (nth_error cs i) as [c|] eqn:Ei; [| discriminate].
        exists i, c, p. split; [reflexivity | split; [exact Ei |]].
        rewrite Forall_forall in IH. apply (IH c (nth_error_In _ _ Ei)).
        split; [exact Hp | split; [exact Hx | now apply Hw]].
  - split; [easy |]. intros (Hp & Hx & Hw). destruct p as [|i p].
    + injection Hp as <-. simpl in Hx. congruence.
    + apply open_way_inv in Hw. destruct Hw as [Hw _]. congruence.
Qed.

Lemma before_map i l : StronglySorted before l -> StronglySorted before (map (cons i) l).
Proof.
  induction 1 as [|p l Hl IH Hp]; simpl; constructor; [exact IH |].
  rewrite Forall_map. revert Hp. apply Forall_impl. intros q Hq. now constructor.
Qed.
Lemma sorted_app (l1 l2 : list place) :
  StronglySorted before l1 -> StronglySorted before l2 ->
  (forall p q, In p l1 -> In q l2 -> before p q) -> StronglySorted before (l1 ++ l2).
Proof.
  induction 1 as [|p l Hl IH Hp]; intros H2 Hb; simpl; [exact H2 |].
  constructor; [apply IH; auto; intros; apply Hb; simpl; auto |].
  rewrite Forall_app. split; [exact Hp |]. rewrite Forall_forall. intros q Hq. apply Hb; simpl; auto.
Qed.
Lemma hits_sorted d : StronglySorted before (map fst (hits d)).
Proof.
  induction d as [k cs IH] using doc_ind'. rewrite hits_eq. destruct (sel k).
  - repeat constructor.
  - generalize 0. induction IH as [|c cs Hc _ IHcs]; intros i; simpl; [constructor |].
    rewrite map_app, map_map. simpl. rewrite <- (map_map fst (cons i)).
    apply sorted_app; [now apply before_map | apply IHcs |].
    intros p q Hp Hq. rewrite in_map_iff in Hp, Hq. destruct Hp as (p' & <- & _).
    destruct Hq as ((q' & y) & <- & Hq). apply hits_from_In in Hq.
    destruct Hq as (j & c' & q & -> & _). simpl. constructor. lia.
  - constructor.
Qed.

(** ** Replacing the hits, one after the other. *)
Fixpoint fill (d : doc) (xs : list doc) : doc * list doc :=
  let 'Doc k cs := d in
  match sel k with
  | Hit => match xs with [] => (d, []) | x :: xs' => (x, xs') end
  | Skip => (d, xs)
  | Into => let '(cs', xs') := each_mut fill cs xs in (Doc k cs', xs')
  end.
Definition places (d : doc) : list place := map fst (hits d).
Definition places_from (i : nat) (cs : list doc) : list place := map fst (hits_from i cs).
Lemma places_from_cons i c cs :
  places_from i (c :: cs) = map (cons i) (places c) ++ places_from (S i) cs.
Proof. unfold places_from, places. simpl. now rewrite map_app, !map_map. Qed.
Lemma hits_from_snd i c cs :
  map snd (hits_from i (c :: cs)) = map snd (hits c) ++ map snd (hits_from (S i) cs).
Proof. simpl. rewrite map_app, map_map. reflexivity. Qed.
Lemma places_from_In i cs p : In p (places_from i cs) <->
  exists j c q, p = (i + j) :: q /\ nth_error cs j = Some c /\ In q (places c).
Proof.
  unfold places_from, places. rewrite in_map_iff. split.
  - intros ((p' & x) & <- & Hin). apply hits_from_In in Hin.
    destruct Hin as (j & c & q & -> & Hj & Hin). exists j, c, q. split; [reflexivity |].
    split; [exact Hj |]. change q with (fst (q, x)). now apply in_map.
  - intros (j & c & q & -> & Hj & Hin). rewrite in_map_iff in Hin. destruct Hin as ((q' & x) & <- & Hin).
    exists ((i + j) :: q', x). split; [reflexivity |]. apply hits_from_In. now exists j, c, q'.
Qed.

Lemma fill_spec d : forall xs rest, length xs = length (places d) ->
  Forall (fun x => sel (kind_of x) = Hit) xs ->
  exists d', fill d (xs ++ rest) = (d', rest) /\ map snd (hits d') = xs /\
    places d' = places d /\ untouched (places d) d d' /\
    (sel (kind_of d) <> Hit -> kind_of d' = kind_of d).
Proof.
  induction d as [k cs IH] using doc_ind'. intros xs rest Hl Hx.
  unfold places in *. rewrite hits_eq in *. simpl fill. destruct (sel k) eqn:Ek.
  - destruct xs as [|x [|]]; try discriminate Hl. simpl. exists x. split; [reflexivity |].
    inversion Hx as [|? ? Hx1 _]; subst. destruct x as [k' cs']. simpl in Hx1.
    rewrite hits_eq, Hx1. split; [reflexivity | split; [reflexivity | split]].
    + intros p Hp. exfalso. apply (Hp [] p); [now left | reflexivity].
    + simpl. congruence.
  - assert (Hlist : forall i xs, length xs = length (places_from i cs) ->
      Forall (fun x => sel (kind_of x) = Hit) xs ->
      exists cs', each_mut fill cs (xs ++ rest) = (cs', rest) /\ map snd (hits_from i cs') = xs /\
        places_from i cs' = places_from i cs /\ length cs' = length cs /\
        forall j c c', nth_error cs j = Some c -> nth_error cs' j = Some c' -> untouched (places c) c c').
    { clear xs Hl Hx. induction IH as [|c cs Hc _ IHcs]; intros i xs Hl Hx.
      - destruct xs; [| discriminate Hl]. exists []. simpl. repeat split; auto. intros j c c' H. now destruct j.
      - rewrite places_from_cons in Hl. rewrite app_length, map_length in Hl.
        rewrite <- (firstn_skipn (length (places c)) xs) in Hx |- *.
        apply Forall_app in Hx. destruct Hx as [Hx1 Hx2].
        assert (Hl1 : length (firstn (length (places c)) xs) = length (places c)).
        { rewrite firstn_length. unfold place in *. lia. }
        assert (Hl2 : length (skipn (length (places c)) xs) = length (places_from (S i) cs)).
        { rewrite skipn_length. unfold place in *. lia. }
        rewrite <- app_assoc.
        destruct (Hc _ (skipn (length (places c)) xs ++ rest) Hl1 Hx1) as (c' & E1 & S1 & P1 & U1 & _).
        destruct (IHcs (S i) _ Hl2 Hx2) as (cs' & E2 & S2 & P2 & L2 & U2).
        exists (c' :: cs'). simpl each_mut. rewrite E1, E2. split; [reflexivity |].
        split; [now rewrite hits_from_snd, S1, S2 |].
        split; [rewrite !places_from_cons; unfold places; now rewrite P1, P2 |].
        split; [simpl; now rewrite L2 |].
        intros j a a' Ha Ha'. destruct j as [|j]; [| exact (U2 j a a' Ha Ha')].
        injection Ha as <-. injection Ha' as <-. exact U1. }
    destruct (Hlist 0 xs Hl Hx) as (cs' & E & S & P & L & U). rewrite E.
    exists (Doc k cs'). rewrite hits_eq, Ek. split; [reflexivity |]. split; [exact S |].
    split; [exact P |]. split; [| reflexivity].
    intros p Hp. destruct p as [|i p]; [reflexivity |]. simpl.
    destruct (nth_error cs i) as [c|] eqn:Ei.
    + destruct (nth_error_lt_Some cs' i) as (c' & Ei').
      { rewrite L. eapply nth_error_Some_lt. exact Ei. }
      rewrite Ei'. apply (U i c c' Ei Ei'). intros q r Hq ->.
      apply (Hp (i :: q) r); [| reflexivity].
      apply (places_from_In 0 cs). now exists i, c, q.
    + assert (nth_error cs' i = None) as ->; [| reflexivity].
      apply nth_error_None. rewrite L. now apply nth_error_None.
  - destruct xs; [| discriminate Hl]. exists (Doc k cs). simpl. rewrite Ek. repeat split; auto.
Qed.

(** No hit below a hit. *)
Definition flat (d : doc) : Prop :=
  forall p x, at_place d p = Some x -> sel (kind_of x) = Hit ->
    forall q y, q <> [] -> at_place x q = Some y -> sel (kind_of y) <> Hit.
Lemma flat_Doc k cs : sel k <> Hit -> Forall flat cs -> flat (Doc k cs).
Proof.
  intros Hk Hcs p x Hp Hx. destruct p as [|i p].
  - injection Hp as <-. now destruct Hk.
  - simpl in Hp. destruct (nth_error cs i) as [c|] eqn:Ei; [| discriminate].
    rewrite Forall_forall in Hcs. exact (Hcs c (nth_error_In _ _ Ei) p x Hp Hx).
Qed.
Lemma flat_leaf k : flat (Doc k []).
Proof.
  intros p x Hp Hx q y Hq Hy. destruct p as [|[|i] p]; try discriminate Hp.
  injection Hp as <-. destruct q as [|[|i] q]; try discriminate Hy. now destruct Hq.
Qed.
Lemma flat_Hit k cs : (forall q y, q <> [] -> at_place (Doc k cs) q = Some y -> sel (kind_of y) <> Hit) ->
  flat (Doc k cs).
Proof.
  intros H p x Hp Hx. destruct p as [|i p].
  - injection Hp as <-. exact H.
  - exfalso. exact (H (i :: p) x ltac:(discriminate) Hp Hx).
Qed.

(** A hit is a place of the right kind with nothing left out on the way. *)
Lemma hits_places d p : flat d ->
  (In p (places d) <->
   (exists x, at_place d p = Some x /\ sel (kind_of x) = Hit) /\
   forall k, on_the_way d p k -> sel k <> Skip).
Proof.
  intros Hf. unfold places. rewrite in_map_iff. split.
  - intros ((p' & x) & <- & Hin). apply hits_In in Hin. destruct Hin as (H1 & H2 & H3). simpl.
    split; [now exists x |]. intros k (q & r & y & -> & Hr & Hy & <-).
    rewrite (H3 q r y eq_refl Hr Hy). discriminate.
  - intros ((x & Hp & Hx) & Hw). exists (p, x). split; [reflexivity |]. apply hits_In.
    split; [exact Hp | split; [exact Hx |]]. intros q r y -> Hr Hy.
    destruct (sel (kind_of y)) eqn:Ey; [exfalso | reflexivity | exfalso].
    + assert (Hat : at_place y r = Some x).
      { clear - Hp Hy. revert d Hp Hy. induction q as [|i q IH]; intros d Hp Hy.
        - injection Hy as <-. exact Hp.
        - destruct d as [k cs]. simpl in Hp, Hy. destruct (nth_error cs i); [| discriminate]. eauto. }
      exact (Hf q y Hy Ey r x Hr Hat Hx).
    + apply (Hw (kind_of y)); [| exact Ey]. exists q, r, y. auto.
Qed.
End Rose.

(** ** Traversals of a document: what they see and what they write. *)
Section Traverse.
Context {M : Type} (enc : M -> doc) (sel : kind -> choice).
Definition sees (l : list M) (d : doc) : Prop := map enc l = map snd (hits sel d).
Definition sees_list (l : list M) (cs : list doc) : Prop :=
  forall i, map enc l = map snd (hits_from sel i cs).
Lemma sees_Doc k cs l : sel k = Into -> sees_list l cs -> sees l (Doc k cs).
Proof. intros Hk H. unfold sees. rewrite hits_eq, Hk. apply H. Qed.
Lemma sees_nil : sees_list [] [].
Proof. intros i. reflexivity. Qed.
Lemma sees_cons l1 l2 d cs : sees l1 d -> sees_list l2 cs -> sees_list (l1 ++ l2) (d :: cs).
Proof.
  intros H1 H2 i. rewrite hits_from_snd, map_app. now rewrite H1, <- (H2 (S i)).
Qed.
Lemma sees_map {A} (g : A -> doc) (h : A -> list M) (l : list A) :
  Forall (fun x => sees (h x) (g x)) l -> sees_list (flat_map h l) (map g l).
Proof. induction 1; simpl; [apply sees_nil | now apply sees_cons]. Qed.

Context {S : Type} (f : M -> S -> M * S).
(** A writing visitor [g] of values with documents [gd] and visited values [h]. *)
Definition writes {A} (gd : A -> doc) (h : A -> list M) (g : A -> S -> A * S) (x : A) : Prop :=
  forall s, let '(x', s1) := g x s in
    let '(ys, s2) := each_mut f (h x) s in
    s1 = s2 /\ forall rest, fill sel (gd x) (map enc ys ++ rest) = (gd x', rest).
Definition writes_list {A} (gd : A -> doc) (h : A -> list M) (g : A -> S -> A * S) (l : list A) : Prop :=
  forall s, let '(l', s1) := each_mut g l s in
    let '(ys, s2) := each_mut f (flat_map h l) s in
    s1 = s2 /\ forall rest, each_mut (fill sel) (map gd l) (map enc ys ++ rest) = (map gd l', rest).
Lemma each_mut_app {A T} (g : A -> T -> A * T) (l1 l2 : list A) s :
  each_mut g (l1 ++ l2) s =
  let '(a, s1) := each_mut g l1 s in let '(b, s2) := each_mut g l2 s1 in (a ++ b, s2).
Proof.
  revert s. induction l1 as [|x l1 IH]; intros s; simpl.
  - now destruct (each_mut g l2 s).
  - destruct (g x s) as [x' s1]. rewrite IH. destruct (each_mut g l1 s1) as [a s2].
    now destruct (each_mut g l2 s2).
Qed.
Lemma writes_map {A} (gd : A -> doc) h g (l : list A) :
  Forall (writes gd h g) l -> writes_list gd h g l.
Proof.
  induction 1 as [|x l Hx _ IH]; intros s; simpl; [now split |].
  specialize (Hx s). destruct (g x s) as [x' s1]. rewrite each_mut_app.
  destruct (each_mut f (h x) s) as [ys s2]. destruct Hx as [<- Hx].
  specialize (IH s1). destruct (each_mut g l s1) as [l' s3].
  destruct (each_mut f (flat_map h l) s1) as [zs s4]. destruct IH as [<- IH].
  split; [reflexivity |]. intros rest. rewrite map_app, <- app_assoc, Hx, IH. reflexivity.
Qed.
Lemma fill_Into k cs xs : sel k = Into ->
  fill sel (Doc k cs) xs = let '(cs', xs') := each_mut (fill sel) cs xs in (Doc k cs', xs').
Proof. intros Hk. simpl. now rewrite Hk. Qed.

(** ** Documents without hits. *)
Definition no_hits (d : doc) : Prop := forall xs, fill sel d xs = (d, xs) /\ hits sel d = [].
Lemma no_hits_Doc k cs : sel k <> Hit -> (sel k = Into -> Forall no_hits cs) -> no_hits (Doc k cs).
Proof.
  intros Hk Hcs xs. rewrite hits_eq. simpl fill. destruct (sel k); [easy | | now split].
  specialize (Hcs eq_refl). assert (H : each_mut (fill sel) cs xs = (cs, xs) /\ forall i, hits_from sel i cs = []).
  { clear Hk. induction Hcs as [|c cs Hc _ [IH1 IH2]]; [now split |]. simpl.
    destruct (Hc xs) as [H1 H2]. rewrite H1, IH1, H2. split; [reflexivity |]. intros i. simpl. apply IH2. }
  destruct H as [-> ->]. now split.
Qed.
End Traverse.
