(** C81: the largest number of the exact models is the largest double. *)
From Coq Require Import Floats.SpecFloat QArith ZArith List Lia.
From Verif Require Import Base Network Float64 Float64Spec Props_Float64.

(** The number that a double stands for. *)
Definition exactly (x : f64) (q : Q) : Prop :=
  match x with
  | S754_zero _ => q == 0
  | S754_finite s m e => q == inject_Z (if s then Z.neg m else Z.pos m) * Qpower 2 e
  | _ => False
  end.

(** No double is a number above it, and one is that number, so it is [f64::MAX]. *)
Theorem C81_exact_bounds :
  exactly f64_max F64_MAX /\ exactly f64_min (- F64_MAX) /\
  forall x, valid_binary prec emax x = true -> is_nan x = false ->
  (fle x f64_max = true \/ x = S754_infinity false) /\ (fle f64_min x = true \/ x = S754_infinity true).
Proof.
  split; [vm_compute; reflexivity|]. split; [vm_compute; reflexivity|]. exact (proj2 (proj2 C81_largest)).
Qed.
Print Assumptions C81_exact_bounds.
