(** What the aggregation functions should compute. *)
From Coq Require Import QArith Qabs.
From Verif Require Import Base Calendar AggFuncs.
Local Open Scope Q_scope.

(** Sum and product. *)
Definition total (l : list Q) : Q := fold_right Qplus 0 l.
Definition qprod (l : list Q) : Q := fold_right Qmult 1 l.

(** The smallest and the largest value. *)
Definition is_min (l : list Q) (m : Q) : Prop := In m l /\ forall x, In x l -> m <= x.
Definition is_max (l : list Q) (m : Q) : Prop := In m l /\ forall x, In x l -> x <= m.

(** Both absent, or equal numbers. *)
Definition opt_eq (a b : option Q) : Prop :=
  match a, b with
  | Some x, Some y => x == y
  | None, None => True
  | _, _ => False
  end.

(** The length of a period in days. *)
Definition days_of (v : period_value Q) : Q := inject_Z (pv_dur v) / inject_Z NS_PER_DAY.

(** The same for integers. *)
Definition zsum (l : list Z) : Z := fold_right Z.add 0%Z l.
Definition zprod (l : list Z) : Z := fold_right Z.mul 1%Z l.
Definition in_u64 (l : list Z) : Prop := forall x, In x l -> (0 <= x <= U64_MAX)%Z.
Definition is_zmin (l : list Z) (m : Z) : Prop := In m l /\ forall x, In x l -> (m <= x)%Z.
Definition is_zmax (l : list Z) (m : Z) : Prop := In m l /\ forall x, In x l -> (x <= m)%Z.

(** The number of values for which something holds. *)
Inductive how_many {A : Type} (P : A -> Prop) : list A -> nat -> Prop :=
| hm_nil : how_many P [] 0
| hm_yes x l n : P x -> how_many P l n -> how_many P (x :: l) (S n)
| hm_no x l n : ~ P x -> how_many P l n -> how_many P (x :: l) n.
