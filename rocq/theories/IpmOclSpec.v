(** What the device may do with the work items of a kernel. *)
From Coq Require Import Permutation.
From Coq Require Import Reals.
From Verif Require Import Base Network Lp IpmLp IpmOcl.
Local Open Scope list_scope.
Local Open Scope nat_scope.

(** The iterations of [gsize] work items in some order, none of another, with
    enough for every work item to come to its end. *)
Definition fair (gsize : nat) (sched : list nat) : Prop :=
  Forall (fun j => j < gsize) sched /\ forall i, i < gsize -> 100 <= count_occ Nat.eq_dec sched i.
(** In every call of the solver, in every chunk (the [j]-th of the scenarios
    [0 .. n-1], taken [size] at a time), each work item starts once and comes to
    its end. *)
Definition device_finishes (size n : nat) (scs : nat -> nat -> schedules) : Prop :=
  forall call j c, nth_error (chunks size (seq 0 n)) j = Some c ->
    Permutation (seq 0 (length c)) (sc_init (scs call j)) /\ forall k, fair (length c) (sc_steps (scs call j) k).

(** What ipm-simd, set up for one scenario, says of the state [s] in its first
    call, with [iterations] iterations at most. *)
Definition simd_of (net : network) (t : tolerances) (iterations : nat) (s : lp_state) : res unit (list (nat -> R)) :=
  match ipm_setup net 1 with Ok cs => ipm_solver_run net t iterations cs [] [s] | _ => Panic end.
(** The flows [f] are the ones it gives. *)
Definition same_flows_as_simd (net : network) (t : tolerances) (iterations : nat) (s : lp_state) (f : nat -> R) : Prop :=
  exists f1, simd_of net t iterations s = Ok [f1] /\ forall e, e < length (net_edges net) -> f e = f1 e.
