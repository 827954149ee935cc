(** Specification vocabulary for C36. *)
From Verif Require Import Base Memory Run.

(** Every one of the first [n] tasks gets at least [turns] turns. *)
Definition enough_turns (n turns : nat) (schedule : list nat) : Prop :=
  forall k, k < n -> turns <= count_occ Nat.eq_dec schedule k.

(** [part] consists of the entries of [whole] at the places [places]. *)
Definition selects {A} (places : list nat) (whole part : list A) : Prop :=
  Forall2 (fun k x => nth_error whole k = Some x) places part.

(** The in-memory recorder as the recorder of a run: [sets_of] finds the metric
    sets' states in a scenario's data. *)
Definition memory_save {E Local TS SC} (inj : mem_error -> E) (sets_of : Local -> list metric_set_state) (idx : nat)
  (_ : TS) (_ : list SC) (ls : list Local) (data : list (list row)) : res E (list (list row)) :=
  match mem_save idx (map sets_of ls) data with
  | Ok d => Ok d
  | Err e => Err (inj e)
  | Panic => Panic
  end.

(** A solver of many states gives each the solution [solve] gives it alone. *)
Definition solves_separately {E Local TS} (solve : TS -> Local -> res E Local)
  (solve_all : TS -> list Local -> res E (list Local)) : Prop :=
  forall t ls ls', solve_all t ls = Ok ls' -> Forall2 (fun l l' => solve t l = Ok l') ls ls'.
