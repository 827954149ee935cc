(** What the parameters with a memory should return, in terms of the values
    their metrics had in each time-step of the run (counted from 0). *)
From Coq Require Import QArith Qabs.
From Verif Require Import Base ParamsTemporal.

(** The value [n] time-steps earlier, and the initial value until there is one. *)
Definition delayed {A : Type} (n : nat) (initial : A) (history : list A) (t : nat) : A :=
  if t <? n then initial else nth (t - n) history initial.

(** The last [k] values, or all of them if there are fewer. *)
Definition last_values {A : Type} (k : nat) (l : list A) : list A := skipn (length l - k) l.

(** The aggregation of the values in the window that ends before time-step [t]. *)
Definition rolling {A E : Type} (agg : list A -> res E A) (window min_values : nat) (initial : A)
    (history : list A) (t : nat) : res E A :=
  let values := last_values window (firstn t history) in
  if length values <? min_values then Ok initial else agg values.

(** The relation a predicate stands for. *)
Definition holds (p : predicate) (value threshold : Q) : Prop :=
  match p with
  | PLess => value < threshold
  | PGreater => threshold < value
  | PEqual => Qabs (value - threshold) <= 1 # 1000000
  | PLessEqual => value <= threshold
  | PGreaterEqual => threshold <= value
  end%Q.

(** The threshold is met in time-step [t]. *)
Definition met_at (p : predicate) (history : list (Q * Q)) (t : nat) : Prop :=
  exists value threshold, nth_error history t = Some (value, threshold) /\ holds p value threshold.

(** [k] is the position of the first threshold that is met, or the number of
    thresholds if none is. *)
Definition first_met (p : predicate) (value : Q) (thresholds : list Q) (k : nat) : Prop :=
  (forall j th, nth_error thresholds j = Some th -> (j < k)%nat -> ~ holds p value th) /\
  (k = length thresholds \/ exists th, nth_error thresholds k = Some th /\ holds p value th).

Definition first_met_at (p : predicate) (history : list (Q * list Q)) (t k : nat) : Prop :=
  exists value thresholds, nth_error history t = Some (value, thresholds) /\ first_met p value thresholds k.

(** The on signal is given in time-step [t]. *)
Definition on_at (history : list (Z * Z)) (t : nat) : Prop :=
  exists on_value off_value, nth_error history t = Some (on_value, off_value) /\ (0 < on_value)%Z.

(** Neither signal is given in time-step [t]. *)
Definition all_off_at (history : list (Z * Z)) (t : nat) : Prop :=
  exists on_value, nth_error history t = Some (on_value, 0%Z) /\ (on_value <= 0)%Z.
