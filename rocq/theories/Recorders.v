(** Array and assertion recorders: pywr-core/src/recorders/mod.rs, and the saving
    of recorders in pywr-core/src/network.rs. *)
From Coq Require Import String.
From Coq Require Import QArith ZArith List Arith.
From Verif Require Import Base.
Import ListNotations.
Local Open Scope nat_scope.

(** [ndarray::Array2], rows of time-steps and columns of scenarios. *)
Definition cell {A} (a : list (list A)) (t s : nat) : option A :=
  match nth_error a t with Some row => nth_error row s | None => None end.
Definition put {A} (l : list A) (k : nat) (x : A) : list A := firstn k l ++ x :: skipn (S k) l.

Section Recorders.
Context {Mf Mu Er : Type}.
(** [MetricF64::get_value] and [MetricU64::get_value] after the time-step [t] in the
    state of the simulation [s]. *)
Variable value_f : Mf -> nat -> nat -> res Er Q.
Variable value_u : Mu -> nat -> nat -> res Er Z.
(** [float_cmp::ApproxEq] with a margin of [epsilon] and [ulps]. *)
Variable approx : Q * Z -> Q -> Q -> bool.

(** recorders/mod.rs 243-246, 324-330, 444-448 and 539-545; the function of the last
    gets the index of the time-step and the simulation. *)
Inductive recorder :=
| RArray (m : Mf)
| RAssertF (m : Mf) (expected : list (list Q)) (margin : Q * Z)
| RAssertU (m : Mu) (expected : list (list Z))
| RAssertFn (m : Mf) (expected : nat -> nat -> Q) (margin : Q * Z).

(** The internal state of a recorder: the array of [Array2Recorder], otherwise none. *)
Definition rstate := option (list (list Q)).

(** recorders/mod.rs 253-262 [setup]; 184-190 for the others. *)
Definition recorder_setup (times scenarios : nat) (r : recorder) : rstate :=
  match r with RArray _ => Some (repeat (repeat 0%Q scenarios) times) | _ => None end.

(** [array[[t, s]] = v], which panics out of bounds. *)
Definition assign (a : list (list Q)) (t s : nat) (v : Q) : res Er (list (list Q)) :=
  match nth_error a t with
  | Some row => if s <? length row then Ok (put a t (put row s v)) else Panic
  | None => Panic
  end.

(** The body of the loop over scenarios of [save]: recorders/mod.rs 264-283,
    337-384, 455-496 and 566-597. *)
Definition save_scenario (r : recorder) (t s : nat) (st : rstate) : res Er rstate :=
  match r with
  | RArray m =>
      match st with
      | Some a => rbind (value_f m t s) (fun v => rbind (assign a t s v) (fun a => Ok (Some a)))
      | None => Panic
      end
  | RAssertF m expected margin =>
      match cell expected t s with
      | None => Panic
      | Some e => rbind (value_f m t s) (fun v => if approx margin v e then Ok st else Panic)
      end
  | RAssertU m expected =>
      match cell expected t s with
      | None => Panic
      | Some e => rbind (value_u m t s) (fun v => if Z.eqb v e then Ok st else Panic)
      end
  | RAssertFn m expected margin =>
      rbind (value_f m t s) (fun v => if approx margin v (expected t s) then Ok st else Panic)
  end.

Fixpoint recorder_save (r : recorder) (t : nat) (scenarios : list nat) (st : rstate) : res Er rstate :=
  match scenarios with
  | [] => Ok st
  | s :: rest => rbind (save_scenario r t s st) (recorder_save r t rest)
  end.

(** network.rs 1076-1102 [save_recorders]: an error gets the name of its recorder. *)
Fixpoint save_recorders (rs : list (string * recorder)) (t : nat) (scenarios : list nat) (sts : list rstate) : res (string * Er) (list rstate) :=
  match rs, sts with
  | (n, r) :: rs, st :: sts =>
      match recorder_save r t scenarios st with
      | Ok st => rbind (save_recorders rs t scenarios sts) (fun sts => Ok (st :: sts))
      | Err e => Err (n, e)
      | Panic => Panic
      end
  | _, _ => Ok []
  end.

(** The recorders of a run: saved after each time-step (models/simple.rs 347-358
    and 399-410). *)
Fixpoint record_run (rs : list (string * recorder)) (times scenarios : list nat) (sts : list rstate) : res (string * Er) (list rstate) :=
  match times with
  | [] => Ok sts
  | t :: rest => rbind (save_recorders rs t scenarios sts) (record_run rs rest scenarios)
  end.
End Recorders.
Arguments recorder : clear implicits.
