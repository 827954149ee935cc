(** Running one network over all scenarios and time-steps: network.rs 758-945
    ([step], [step_par], [step_multi_scenario]) and models/simple.rs 304-365,
    366-417, 502-540 ([step], [step_multi_scenario], the run loop).

    What happens to one scenario inside a time-step is a parameter of this model:
    the theorems hold whatever the network computes.  It is a list of operations,
    each of which sees and changes only that scenario's own data; in the original
    the compiler checks this, because [zip] hands every closure exclusive
    references to one scenario's entries.  Time measurements are left out. *)
From Verif Require Import Base.

Section Run.
Context {E : Type}.
(** Everything that belongs to one scenario: its [State], its parameters' internal
    states, its metric sets' states, its solver. *)
Context {Local : Type}.
Context {TS SC : Type}.
(** The recorders' states. *)
Context {Rec : Type}.
Variable save : TS -> list SC -> list Local -> Rec -> res E Rec.

(** One operation on a scenario. *)
Notation operation := (TS -> SC -> Local -> res E Local).

(** The operations of one scenario, in program order. *)
Fixpoint perform (ops : list operation) (t : TS) (s : SC) (l : Local) : res E Local :=
  match ops with
  | [] => Ok l
  | op :: rest => rbind (op t s l) (perform rest t s)
  end.

(** network.rs 758-813: [step].  [zip] stops at the shorter list. *)
Fixpoint step (ops : list operation) (t : TS) (scs : list SC) (ls : list Local) : res E (list Local) :=
  match scs, ls with
  | s :: scs', l :: ls' =>
      rbind (perform ops t s l) (fun l' => rbind (step ops t scs' ls') (fun rest => Ok (l' :: rest)))
  | _, _ => Ok ls
  end.

(** network.rs 821-880: [step_par].  A task is a scenario together with the
    operations it has still to do. *)
Record task : Type := Task { tk_todo : list operation; tk_scenario : SC; tk_local : Local }.

(** Some thread performs the next operation of task [k].  An error is unwrapped. *)
Definition advance (t : TS) (k : nat) (tasks : list task) : res E (list task) :=
  match nth_error tasks k with
  | Some (Task (op :: rest) s l) =>
      match op t s l with
      | Ok l' => Ok (firstn k tasks ++ Task rest s l' :: skipn (S k) tasks)
      | _ => Panic
      end
  | _ => Ok tasks
  end.

(** A schedule says whose turn it is. *)
Fixpoint interleave (t : TS) (schedule : list nat) (tasks : list task) : res E (list task) :=
  match schedule with
  | [] => Ok tasks
  | k :: rest => rbind (advance t k tasks) (interleave t rest)
  end.

Definition spawn (ops : list operation) (scs : list SC) (ls : list Local) : list task :=
  map (fun p => Task ops (fst p) (snd p)) (combine scs ls).
(** [collect] waits until all tasks are done. *)
Definition finished (tasks : list task) : bool :=
  forallb (fun k => match tk_todo k with [] => true | _ => false end) tasks.

(** [None]: the schedule has not finished all the tasks. *)
Definition step_par (ops : list operation) (t : TS) (schedule : list nat) (scs : list SC) (ls : list Local)
  : option (res E (list Local)) :=
  match interleave t schedule (spawn ops scs ls) with
  | Ok tasks => if finished tasks then Some (Ok (map tk_local tasks ++ skipn (length scs) ls)) else None
  | Err e => Some (Err e)
  | Panic => Some Panic
  end.

(** network.rs 883-945: [step_multi_scenario]: the parallel operations before the
    solve, one solve of all the states, the parallel operations after it. *)
Definition unwrap {A} (r : res E A) : res E A := match r with Ok x => Ok x | _ => Panic end.
Definition step_multi_scenario (before after : list operation)
  (solve_all : TS -> list Local -> res E (list Local)) (t : TS) (sched1 sched2 : list nat)
  (scs : list SC) (ls : list Local) : option (res E (list Local)) :=
  match step_par before t sched1 scs ls with
  | Some (Ok ls1) =>
      match unwrap (solve_all t ls1) with
      | Ok ls2 => step_par after t sched2 scs ls2
      | r => Some r
      end
  | r => r
  end.

(** simple.rs 25-34: [ModelState]. *)
Record model_state : Type := ModelState { ms_index : nat; ms_locals : list Local; ms_rec : Rec }.

(** The outcome of one [step] of the model; [EndOfTimesteps] is an error of its
    own, which the loop takes as the end. *)
Inductive step_result : Type :=
| Stepped (m : model_state)
| EndOfTimesteps
| StepError (e : E)
| StepPanic
| Unscheduled.

(** simple.rs 304-365 and 366-417: [step] of the model; [go] is the way the
    network is stepped. *)
Definition model_step (timesteps : list TS) (scs : list SC)
  (go : TS -> list SC -> list Local -> option (res E (list Local))) (m : model_state) : step_result :=
  match nth_error timesteps (ms_index m) with
  | None => EndOfTimesteps
  | Some t =>
      match go t scs (ms_locals m) with
      | None => Unscheduled
      | Some (Err e) => StepError e
      | Some Panic => StepPanic
      | Some (Ok ls) =>
          match save t scs ls (ms_rec m) with
          | Ok r => Stepped (ModelState (S (ms_index m)) ls r)
          | Err e => StepError e
          | Panic => StepPanic
          end
      end
  end.

(** simple.rs 524-537: the loop, on fuel.  [go] may take a different schedule at
    every turn. *)
Fixpoint run_loop (fuel : nat) (timesteps : list TS) (scs : list SC)
  (go : nat -> TS -> list SC -> list Local -> option (res E (list Local))) (m : model_state)
  : option (res E model_state) :=
  match fuel with
  | 0 => None
  | S f =>
      match model_step timesteps scs (go (ms_index m)) m with
      | Stepped m' => run_loop f timesteps scs go m'
      | EndOfTimesteps => Some (Ok m)
      | StepError e => Some (Err e)
      | StepPanic => Some Panic
      | Unscheduled => None
      end
  end.

(** Without and with a thread pool. *)
Definition sequential (ops : list operation) (_ : nat) (t : TS) (scs : list SC) (ls : list Local)
  : option (res E (list Local)) := Some (step ops t scs ls).
Definition parallel (ops : list operation) (schedules : nat -> list nat) (i : nat) (t : TS) (scs : list SC)
  (ls : list Local) : option (res E (list Local)) := step_par ops t (schedules i) scs ls.
End Run.
