(** What routing along a reach means: the water in the reach, and how it changes
    from one time-step to the next. *)
From Coq Require Import QArith.
From Verif Require Import Base.
Local Open Scope Q_scope.

(** The water held in a reach with travel time [K] (in time-steps) and weight
    [X] when [I] flows in and [O] flows out. *)
Definition reach_storage (K X I O : Q) : Q := K * (X * I + (1 - X) * O).

(** Between two time-steps the storage changes by the mean inflow less the mean
    outflow. *)
Definition continuity (K X I0 O0 I1 O1 : Q) : Prop :=
  reach_storage K X I1 O1 - reach_storage K X I0 O0 == (I0 + I1) / 2 - (O0 + O1) / 2.

(** The routing equation has a solution for every inflow.  True whenever the
    travel time is not negative and the weight at most one. *)
Definition routing_defined (K X : Q) : Prop := ~ 2 * K * (1 - X) + 1 == 0.

(** A sequence of (inflow, outflow) after [prev], with the travel time and the
    weight of each time-step. *)
Fixpoint continues (prev : Q * Q) (kxs flows : list (Q * Q)) : Prop :=
  match kxs, flows with
  | [], [] => True
  | kx :: kr, io :: r => continuity (fst kx) (snd kx) (fst prev) (snd prev) (fst io) (snd io) /\ continues io kr r
  | _, _ => False
  end.
(** A whole run; [initial] is what flowed before it, nothing if the river starts
    in a steady state. *)
Definition routed (initial : option (Q * Q)) (kxs flows : list (Q * Q)) : Prop :=
  match kxs, flows with
  | [], [] => True
  | kx :: kr, io :: r =>
      match initial with
      | None => snd io == fst io
      | Some p => continuity (fst kx) (snd kx) (fst p) (snd p) (fst io) (snd io)
      end /\ continues io kr r
  | _, _ => False
  end.

(** The sum of the means of neighbouring values: the volume that passed. *)
Fixpoint passed (prev : Q) (l : list Q) : Q :=
  match l with [] => 0 | q :: r => (prev + q) / 2 + passed q r end.
