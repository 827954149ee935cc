(** C36: scenarios are independent, and running them in parallel is running them
    in sequence. *)
From Coq Require Import QArith.
From Verif Require Import Base Calendar AggFuncs Aggregator Memory Run RunSpec RunLemmas.
Local Open Scope nat_scope.

(** One step, under every schedule: the threads may take turns in any order
    between the operations of the scenarios.  If the sequential step succeeds, so
    does the parallel one, with the same data; if it fails, the parallel one
    panics ([None]: the schedule stopped before all tasks were done). *)
Theorem C36_parallel_step : forall (E Local TS SC : Type) (ops : list (TS -> SC -> Local -> res E Local)) t schedule scs ls,
  match step ops t scs ls with
  | Ok ls' => step_par ops t schedule scs ls = Some (Ok ls') \/ step_par ops t schedule scs ls = None
  | _ => step_par ops t schedule scs ls = Some Panic \/ step_par ops t schedule scs ls = None
  end.
Proof. exact @par_step_spec. Qed.
Print Assumptions C36_parallel_step.

(** Whole runs with recorders: whatever schedules the thread pool follows, the
    final data and the recorded results are those of the sequential run.  An error
    of the sequential run may turn into a panic. *)
Theorem C36_parallel_run : forall (E Local TS SC Rec : Type) (save : TS -> list SC -> list Local -> Rec -> res E Rec)
    fuel fuel' timesteps scs (ops : list (TS -> SC -> Local -> res E Local)) schedules m r r',
  run_loop save fuel timesteps scs (sequential ops) m = Some r ->
  run_loop save fuel' timesteps scs (parallel ops schedules) m = Some r' ->
  match r with
  | Ok m' => r' = Ok m'
  | Err e => r' = Err e \/ r' = Panic
  | Panic => r' = Panic
  end.
Proof. exact @parallel_run. Qed.
Print Assumptions C36_parallel_run.

(** Both end: the sequential run after one turn per time-step, the parallel one
    if every task gets as many turns as it has operations. *)
Theorem C36_runs_end : forall (E Local TS SC Rec : Type) (save : TS -> list SC -> list Local -> Rec -> res E Rec)
    timesteps scs (ops : list (TS -> SC -> Local -> res E Local)) schedules m,
  run_loop save (S (length timesteps)) timesteps scs (sequential ops) m <> None /\
  ((forall i, enough_turns (length scs) (length ops) (schedules i)) ->
   run_loop save (S (length timesteps)) timesteps scs (parallel ops schedules) m <> None).
Proof.
  intros. split; [apply run_ends; lia | intros; apply parallel_run_ends; [lia | assumption]].
Qed.
Print Assumptions C36_runs_end.

(** A solver of many states at once gives the sequential result, provided it gives
    each state the solution it would get alone. *)
Theorem C36_multi_scenario_step : forall (E Local TS SC : Type) (before after : list (TS -> SC -> Local -> res E Local))
    solve solve_all t sched1 sched2 scs ls ls',
  length scs = length ls -> solves_separately solve solve_all ->
  step_multi_scenario before after solve_all t sched1 sched2 scs ls = Some (Ok ls') ->
  step (before ++ [fun t _ l => solve t l] ++ after) t scs ls = Ok ls'.
Proof. exact @multi_scenario_step. Qed.
Print Assumptions C36_multi_scenario_step.

(** Any selection of the scenarios, in any order, run without the others: each has
    the same final data and the same recorded rows as in the full run. *)
Theorem C36_selection : forall (E Local TS SC : Type) (inj : mem_error -> E) (sets_of : Local -> list metric_set_state) idx
    fuel timesteps scs (ops : list (TS -> SC -> Local -> res E Local)) m m' places scs' ls' data',
  length scs = length (ms_locals m) -> length scs = length (ms_rec m) ->
  run_loop (memory_save inj sets_of idx) fuel timesteps scs (sequential ops) m = Some (Ok m') ->
  selects places scs scs' -> selects places (ms_locals m) ls' -> selects places (ms_rec m) data' ->
  exists m2,
    run_loop (memory_save inj sets_of idx) fuel timesteps scs' (sequential ops) (ModelState (ms_index m) ls' data')
      = Some (Ok m2) /\
    ms_index m2 = ms_index m' /\
    selects places (ms_locals m') (ms_locals m2) /\ selects places (ms_rec m') (ms_rec m2).
Proof. exact @run_selection. Qed.
Print Assumptions C36_selection.

(** The same when the selected scenarios are renumbered and the network is built
    anew for them, as it is when a model is run with a subset: [ops'] are the
    operations of that network.  That the renumbered scenarios compute the same
    (the hypothesis on [perform]) is C03 for the data looked up by scenario. *)
Theorem C36_selection_renumbered : forall (E Local TS SC : Type) (inj : mem_error -> E) (sets_of : Local -> list metric_set_state) idx
    fuel timesteps scs (ops ops' : list (TS -> SC -> Local -> res E Local)) m m' places scs' scs'' ls' data',
  length scs = length (ms_locals m) -> length scs = length (ms_rec m) ->
  run_loop (memory_save inj sets_of idx) fuel timesteps scs (sequential ops) m = Some (Ok m') ->
  selects places scs scs' -> selects places (ms_locals m) ls' -> selects places (ms_rec m) data' ->
  Forall2 (fun s s' => forall t l, perform ops t s l = perform ops' t s' l) scs' scs'' ->
  exists m2,
    run_loop (memory_save inj sets_of idx) fuel timesteps scs'' (sequential ops') (ModelState (ms_index m) ls' data')
      = Some (Ok m2) /\
    ms_index m2 = ms_index m' /\
    selects places (ms_locals m') (ms_locals m2) /\ selects places (ms_rec m') (ms_rec m2).
Proof.
  intros E Local TS SC inj sets_of idx fuel tss scs ops ops' m m' places scs' scs'' ls' data' H1 H2 H3 H4 H5 H6 H7.
  rewrite <- (run_renumbered (memory_save inj sets_of idx) fuel tss ops ops' scs' scs'' _ (fun _ _ _ => eq_refl) H7).
  eapply run_selection; eassumption.
Qed.
Print Assumptions C36_selection_renumbered.

(** A run of three operations per scenario over two steps; the recorder keeps one
    row per step. *)
Definition ex_ops : list (nat -> nat -> nat -> res mem_error nat) :=
  [ (fun t s l => Ok (l + s)); (fun t s l => Ok (l * 2)); (fun t s l => Ok (l + t)) ].
Definition ex_sets (l : nat) : list metric_set_state :=
  [MetricSetState (Some [PV (datetime_of_instant 0) 1%Z (Z.of_nat l # 1)]) None].
Definition ex_save := memory_save (TS := nat) (SC := nat) (fun e => e) ex_sets 0.
Definition ex_start : model_state (Rec := list (list row)) := ModelState 0 [1; 1; 1] [[]; []; []].
Definition ex_schedule (i : nat) : list nat := if i =? 0 then [2; 0; 0; 1; 2; 1; 0; 1; 2] else [1; 1; 1; 0; 2; 0; 2; 0; 2].

Example C36_example :
  match run_loop ex_save 3 [10; 20] [1; 2; 3] (sequential ex_ops) ex_start with
  | Some (Ok m) => ms_locals m = [50; 56; 62] /\ map (@length row) (ms_rec m) = [2; 2; 2] /\
      run_loop ex_save 3 [10; 20] [1; 2; 3] (parallel ex_ops ex_schedule) ex_start = Some (Ok m)
  | _ => False
  end /\
  (forall i, enough_turns 3 3 (ex_schedule i)) /\
  step_par ex_ops 10 [0; 0; 0] [1; 2; 3] [1; 1; 1] = None /\
  selects [2; 0] [1; 2; 3] [3; 1] /\
  step_multi_scenario [fun t s l => Ok (l + s)] [fun t s l => Ok (l + t)] (fun _ ls => Ok (map (fun l => l * 2) ls))
    10 [1; 0] [0; 1] [1; 2] [1; 1] = @Some (res mem_error (list nat)) (Ok [14; 16]) /\
  solves_separately (E := mem_error) (TS := nat) (fun _ l => Ok (l * 2)) (fun _ ls => Ok (map (fun l => l * 2) ls)).
Proof.
  split; [vm_compute; repeat split|]. split.
  { intros i k Hk. unfold ex_schedule. destruct (i =? 0); do 3 (destruct k as [|k]; [vm_compute; lia|]); lia. }
  split; [vm_compute; reflexivity|]. split; [repeat constructor|]. split; [vm_compute; reflexivity|].
  intros t ls ls' H. injection H as <-. induction ls; constructor; auto.
Qed.
