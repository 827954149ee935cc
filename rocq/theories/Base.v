(** Shared definitions: the result type used for every fallible Rust function
    and a few list helpers.  [Ok]/[Err] mirror Rust's [Result]; [Panic] stands
    for a panic (index out of bounds, unwrap of None, explicit panic!). *)
From Coq Require Export String.
From Coq Require Export List Arith ZArith Lia Bool ZifyBool ZifyNat.
Export ListNotations.

Inductive res (E A : Type) : Type :=
| Ok (a : A)
| Err (e : E)
| Panic.
Arguments Ok {E A} a.
Arguments Err {E A} e.
Arguments Panic {E A}.

Definition rbind {E A B} (x : res E A) (f : A -> res E B) : res E B :=
  match x with
  | Ok a => f a
  | Err e => Err e
  | Panic => Panic
  end.

(** [iter.map(f).collect::<Result<Vec<_>, _>>()]: stops at the first failure. *)
Fixpoint rmap {E A B} (f : A -> res E B) (l : list A) : res E (list B) :=
  match l with
  | [] => Ok []
  | x :: xs =>
      match f x with
      | Ok y => match rmap f xs with
                | Ok ys => Ok (y :: ys)
                | Err e => Err e
                | Panic => Panic
                end
      | Err e => Err e
      | Panic => Panic
      end
  end.

(** Slice indexing [l[i]]: panics when out of bounds. *)
Definition index_or_panic {E A} (l : list A) (i : nat) : res E A :=
  match nth_error l i with
  | Some x => Ok x
  | None => Panic
  end.

(** [iter().position(p)] : index of the first element satisfying [p]. *)
Fixpoint position {A} (p : A -> bool) (l : list A) : option nat :=
  match l with
  | [] => None
  | x :: xs => if p x then Some 0
               else match position p xs with
                    | Some i => Some (S i)
                    | None => None
                    end
  end.

Lemma position_Some {A} (p : A -> bool) l i :
  position p l = Some i ->
  exists x, nth_error l i = Some x /\ p x = true /\
            (forall j y, j < i -> nth_error l j = Some y -> p y = false).
Proof.
  revert i; induction l as [|a l IH]; intros i H; cbn [position] in H; [discriminate|].
  destruct (p a) eqn:Ha.
  - injection H as <-. exists a. repeat split; [exact Ha|]. intros j y Hj; lia.
  - destruct (position p l) as [k|] eqn:Hk; [|discriminate].
    injection H as <-. destruct (IH k eq_refl) as (x & Hx & Hp & Hlt).
    exists x. repeat split; [exact Hx | exact Hp |].
    intros [|j] y Hj Hy; cbn in Hy.
    + injection Hy as <-. exact Ha.
    + apply (Hlt j y); [lia | exact Hy].
Qed.

Lemma position_None {A} (p : A -> bool) l :
  position p l = None <-> (forall x, In x l -> p x = false).
Proof.
  induction l as [|a l IH]; cbn [position In].
  - split; [intros _ x [] | reflexivity].
  - destruct (p a) eqn:Ha.
    + split; [discriminate|]. intros H. specialize (H a (or_introl eq_refl)). congruence.
    + destruct (position p l) as [k|].
      * split; [discriminate|]. intros H. exfalso.
        assert (Some k = None) by (apply IH; intros x Hx; apply H; right; exact Hx). discriminate.
      * split; [|reflexivity]. intros _ x [<-|Hx]; [exact Ha | apply IH; [reflexivity|exact Hx]].
Qed.

Lemma rmap_Ok_length {E A B} (f : A -> res E B) l ys :
  rmap f l = Ok ys -> length ys = length l.
Proof.
  revert ys; induction l as [|x l IH]; intros ys H; cbn in H.
  - injection H as <-; reflexivity.
  - destruct (f x) as [y| |]; try discriminate.
    destruct (rmap f l) as [zs| |]; try discriminate.
    injection H as <-. cbn. f_equal. apply IH. reflexivity.
Qed.

Lemma rmap_Ok_Forall2 {E A B} (f : A -> res E B) l ys :
  rmap f l = Ok ys <-> Forall2 (fun x y => f x = Ok y) l ys.
Proof.
  revert ys; induction l as [|x l IH]; intros ys; cbn [rmap].
  - split; intros H; [injection H as <-; constructor | inversion H; reflexivity].
  - split; intros H.
    + destruct (f x) as [y| |] eqn:Hx; try discriminate.
      destruct (rmap f l) as [zs| |]; try discriminate.
      injection H as <-. constructor; [exact Hx | apply IH; reflexivity].
    + inversion H as [|? y ? zs Hx Hr]; subst. rewrite Hx.
      apply IH in Hr. rewrite Hr. reflexivity.
Qed.

Lemma rmap_ext {E A B} (f g : A -> res E B) l :
  (forall x, In x l -> f x = g x) -> rmap f l = rmap g l.
Proof.
  induction l as [|x l IH]; intros H; cbn; [reflexivity|].
  rewrite H by (left; reflexivity). rewrite IH by (intros; apply H; right; assumption).
  reflexivity.
Qed.

Lemma Forall2_nth_error {A B} (P : A -> B -> Prop) l1 l2 i x y :
  Forall2 P l1 l2 -> nth_error l1 i = Some x -> nth_error l2 i = Some y -> P x y.
Proof.
  intros H. revert i. induction H as [|a b l1 l2 Hab H IH]; intros [|i] Hx Hy; cbn in *;
    try discriminate.
  - congruence.
  - apply (IH i); assumption.
Qed.

Lemma Forall2_length' {A B} (P : A -> B -> Prop) l1 l2 :
  Forall2 P l1 l2 -> length l1 = length l2.
Proof. induction 1; cbn; congruence. Qed.

Lemma nth_error_lt_Some {A} (l : list A) i :
  i < length l -> exists x, nth_error l i = Some x.
Proof.
  intros H. destruct (nth_error l i) as [x|] eqn:E; [exists x; reflexivity|].
  apply nth_error_None in E. lia.
Qed.

Lemma nth_error_Some_lt {A} (l : list A) i x :
  nth_error l i = Some x -> i < length l.
Proof. intros H. apply nth_error_Some. congruence. Qed.
