(** Specification vocabulary for the lookup and variable properties C45 and C47. *)
From Coq Require Import QArith.
From Verif Require Import Base Lookups.
Local Open Scope Z_scope.

(** [v] is the entry at place [i], or at the nearest end of the data when there is
    no place [i]. *)
Definition nearest_entry {A} (array : list A) (i : Z) (v : A) : Prop :=
  (i < 0 /\ nth_error array 0 = Some v) \/
  (0 <= i < Z.of_nat (length array) /\ nth_error array (Z.to_nat i) = Some v) \/
  (Z.of_nat (length array) <= i /\ nth_error array (length array - 1) = Some v).

(** Fits in a signed 32-bit number. *)
Definition fits_i32 (v : Z) : Prop := - 2 ^ 31 <= v < 2 ^ 31.

(** [v] lies between [a] and [b], whichever is larger. *)
Definition between (a b v : Q) : Prop := ((a <= v <= b) \/ (b <= v <= a))%Q.

(** The configured range of an activation function: what a variable's value may be. *)
Definition in_range (f : activation_function) (v : Q) : Prop :=
  match f with
  | AUnit lo hi => lo <= v <= hi
  | ARectifier lo hi neg => v == neg \/ between lo hi v
  | ABinaryStep pos neg => v == pos \/ v == neg
  | ALogistic _ max => between 0 max v
  end%Q.

(** The bounds the function was given make sense. *)
Definition sensible (f : activation_function) : Prop :=
  match f with
  | AUnit lo hi => (lo <= hi)%Q
  | _ => True
  end.

(** Two lists agree except perhaps at place [i]. *)
Definition same_but {A} (i : nat) (l l' : list A) : Prop :=
  length l = length l' /\ forall j, j <> i -> nth_error l j = nth_error l' j.
