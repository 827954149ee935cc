(** What the theorems about double precision numbers are stated with. *)
From Coq Require Import Floats.SpecFloat Reals.
From Verif Require Import Base Float64.
Open Scope list_scope.

(** One of the doubles: a mantissa and an exponent that fit in 64 bits. *)
Definition double (x : f64) : Prop := valid_binary prec emax x = true.

Definition finite (x : f64) : Prop :=
  match x with S754_zero _ | S754_finite _ _ _ => True | _ => False end.

(** The real number that a finite double stands for. *)
Definition val (x : f64) : R :=
  match x with
  | S754_finite s m e => ((if s then -1 else 1) * IZR (Zpos m) * powerRZ 2 e)%R
  | _ => 0%R
  end.

(** Equal as numbers (zeros of both signs are equal). *)
Definition same (x y : f64) : Prop := feq x y = true.

(** Two to the power of an integer, as a double and as a real. *)
Definition pow2 (k : Z) : f64 := S754_finite false (2 ^ 52) (k - 52).
Definition r2 (k : Z) : R := powerRZ 2 k.

Definition rsum (l : list R) : R := fold_right Rplus 0%R l.

(** A double that is a whole number. *)
Definition whole (x : f64) (z : Z) : Prop := double x /\ finite x /\ val x = IZR z.
Definition zsum (l : list Z) : Z := fold_right Z.add 0%Z l.
Definition zproduct (l : list Z) : Z := fold_right Z.mul 1%Z l.
