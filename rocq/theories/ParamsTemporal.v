(** Parameters with a memory: delay, rolling, threshold, multi-threshold and
    asymmetric switch.  Each is modelled by its internal state, the function
    that computes its value and, for those driven by model results, the hook
    that is called after the solve.  Metrics are read by the caller
    (ParamEval.v); here their values are arguments. *)
From Coq Require Import QArith Qabs.
From Verif Require Import Base Network AggFuncs.

Section Memory.
Context {A Er : Type}.

(** [VecDeque::pop_front]. *)
Definition pop_front (m : list A) : option A * list A :=
  match m with
  | [] => (None, [])
  | v :: tl => (Some v, tl)
  end.

(** [VecDeque::push_back]. *)
Definition push_back (v : A) (m : list A) : list A := m ++ [v].

(** parameters/delay.rs 67-75: [setup]. *)
Definition delay_setup (delay : nat) (initial : A) : list A :=
  map (fun _ => initial) (seq 0 delay).

(** parameters/delay.rs 87-106 and 161-180: [before].  The only error is the
    "did not contain any values" one. *)
Definition delay_before (memory : list A) : res unit (A * list A) :=
  match pop_front memory with
  | (Some value, memory') => Ok (value, memory')
  | (None, _) => Err tt
  end.

(** parameters/delay.rs 108-122 and 182-196: the hook called after the solve. *)
Definition delay_after (value : A) (memory : list A) : list A := push_back value memory.

(** parameters/delay.rs 125-144 and 199-218: [compute] of the simple version. *)
Definition delay_compute (value : A) (memory : list A) : res unit (A * list A) :=
  let memory1 := push_back value memory in
  match pop_front memory1 with
  | (Some v, memory2) => Ok (v, memory2)
  | (None, _) => Err tt
  end.

(** parameters/rolling.rs 78-86 and 98-106: [setup]. *)
Definition rolling_setup : list A := [].

(** parameters/rolling.rs 118-134 and 201-217: [before]. *)
Definition rolling_before (agg : list A -> res Er A) (min_values : nat) (initial : A)
    (memory : list A) : res Er (A * list A) :=
  if length memory <? min_values then Ok (initial, memory)
  else rbind (agg memory) (fun v => Ok (v, memory)).

(** parameters/rolling.rs 136-156 and 219-239: the hook called after the solve. *)
Definition rolling_after (window : nat) (value : A) (memory : list A) : list A :=
  let memory1 := push_back value memory in
  if window <? length memory1 then snd (pop_front memory1) else memory1.

(** parameters/rolling.rs 158-185 and 241-268: [compute] of the simple version. *)
Definition rolling_compute (agg : list A -> res Er A) (window min_values : nat) (initial : A)
    (todays_value : A) (memory : list A) : res Er (A * list A) :=
  rbind (if length memory <? min_values then Ok initial else agg memory) (fun value =>
  let memory1 := push_back todays_value memory in
  Ok (value, if window <? length memory1 then snd (pop_front memory1) else memory1)).

End Memory.

(** The time-steps of a run for a parameter driven by model results: its value
    is computed before the solve and the hook is called with the metric's value
    after it (network.rs 758-813, parameters/mod.rs 2443-2745).  [history] is
    the metric's value in each time-step. *)
Fixpoint hooked_run {S A V E : Type} (before : S -> res E (V * S)) (after : A -> S -> S)
    (s : S) (history : list A) : res E (list V) :=
  match history with
  | [] => Ok []
  | a :: tl =>
      rbind (before s) (fun p =>
      rbind (hooked_run before after (after a (snd p)) tl) (fun vs => Ok (fst p :: vs)))
  end.

(** The time-steps of a run for a parameter computed in one go from the current
    values of its metrics. *)
Fixpoint direct_run {S A V E : Type} (compute : A -> S -> res E (V * S))
    (s : S) (history : list A) : res E (list V) :=
  match history with
  | [] => Ok []
  | a :: tl =>
      rbind (compute a s) (fun p =>
      rbind (direct_run compute (snd p) tl) (fun vs => Ok (fst p :: vs)))
  end.

(** parameters/threshold.rs 14-21: [Predicate]. *)
Inductive predicate : Type := PLess | PGreater | PEqual | PLessEqual | PGreaterEqual.

(** lib.rs 28. *)
Definition FLOAT_EQ_TOLERANCE : Q := 1 # 1000000.

(** parameters/threshold.rs 29-37: [Predicate::apply]. *)
Definition predicate_apply (p : predicate) (value threshold : Q) : bool :=
  match p with
  | PLess => negb (Qle_bool threshold value)
  | PGreater => negb (Qle_bool value threshold)
  | PEqual => Qle_bool (Qabs (value - threshold)) FLOAT_EQ_TOLERANCE
  | PLessEqual => Qle_bool value threshold
  | PGreaterEqual => Qle_bool threshold value
  end.

(** parameters/threshold.rs 52-61: [setup]. *)
Definition threshold_setup : bool := false.

(** parameters/threshold.rs 74-99: [before].  The argument is the metric's value
    with the threshold's. *)
Definition threshold_before (p : predicate) (ratchet : bool) (vt : Q * Q)
    (previously_activated : bool) : res unit (Z * bool) :=
  if ratchet && previously_activated then Ok (1%Z, previously_activated)
  else if predicate_apply p (fst vt) (snd vt) then Ok (1%Z, true)
  else Ok (0%Z, previously_activated).

(** parameters/multi_threshold.rs 30-38: [setup]. *)
Definition multi_threshold_setup : nat := 0.

(** parameters/multi_threshold.rs 60-71: the loop over the thresholds. *)
Fixpoint multi_position (p : predicate) (value : Q) (thresholds : list Q) (position : nat) : nat :=
  match thresholds with
  | [] => position
  | t :: tl => if predicate_apply p value t then position
               else multi_position p value tl (position + 1)
  end.

(** parameters/multi_threshold.rs 47-83: [before]. *)
Definition multi_threshold_before (p : predicate) (ratchet : bool) (vt : Q * list Q)
    (previous_max : nat) : res unit (nat * nat) :=
  let position := multi_position p (fst vt) (snd vt) 0 in
  if ratchet then
    if previous_max <? position then Ok (position, position)
    else Ok (previous_max, previous_max)
  else Ok (position, previous_max).

(** parameters/asymmetric.rs 21-27: [setup]. *)
Definition switch_setup : Z := 0%Z.

(** parameters/asymmetric.rs 40-68: [before].  The arguments are the values of
    the on and the off parameter. *)
Definition switch_before (onoff : Z * Z) (current : Z) : res unit (Z * Z) :=
  let (on_value, off_value) := onoff in
  let current' :=
    if (0 <? current)%Z then
      if (0 <? on_value)%Z then current
      else if (off_value =? 0)%Z then 0%Z else current
    else if (0 <? on_value)%Z then 1%Z else current in
  Ok (current', current').

(** parameters/difference.rs 91-106: [difference]. *)
Definition difference (a b : Q) (min max : option Q) : Q :=
  let result := (a - b)%Q in
  match min with
  | Some m => if Qle_bool m result
              then match max with Some x => if Qle_bool result x then result else x | None => result end
              else m
  | None => match max with Some x => if Qle_bool result x then result else x | None => result end
  end.
