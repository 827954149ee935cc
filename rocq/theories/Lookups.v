(** Array and variable parameters: pywr-core/src/parameters/array.rs,
    activation_function.rs, constant.rs, offset.rs, and the interface that sets
    variables, network.rs 1323-1455.  Numbers are exact rationals. *)
From Coq Require Import QArith.
From Verif Require Import Base Scenario.
Local Open Scope Z_scope.

(** Rust [as i32]: the low 32 bits, read as a signed number. *)
Definition I32_MAX : Z := 2147483647.
Definition as_i32 (v : Z) : Z := (v + 2 ^ 31) mod 2 ^ 32 - 2 ^ 31.
(** [as usize] of an [i32]: a negative number becomes a very large one. *)
Definition i32_as_usize (v : Z) : Z := v mod 2 ^ 64.
(** [i32] addition and subtraction.  [checked] is whether the program was
    compiled with overflow checks; without them the sum wraps. *)
Definition i32_arith {E} (checked : bool) (v : Z) : res E Z :=
  if (- 2 ^ 31 <=? v) && (v <=? I32_MAX) then Ok v
  else if checked then Panic else Ok (as_i32 v).

(** [SimpleCalculationError::OutOfBoundsError]. *)
Inductive lookup_error : Type := OutOfBounds (index length : Z) (axis : nat).

(** array.rs 23-30 and 160-167: [timestep_index] of an array with [len] rows. *)
Definition timestep_index (checked : bool) (len : Z) (offset : option Z) (index : Z) : res lookup_error Z :=
  match offset with
  | None => Ok index
  | Some o =>
      rbind (i32_arith checked (as_i32 index + o)) (fun i =>
      rbind (i32_arith checked (as_i32 len - 1)) (fun last =>
      Ok (i32_as_usize (Z.min (Z.max i 0) last))))
  end.

(** [Array::get] with one index. *)
Definition get_row {A} (array : list A) (i : Z) : option A :=
  if i <? Z.of_nat (length array) then nth_error array (Z.to_nat i) else None.

(** array.rs 40-57 and 66-82: [compute] of a one-dimensional array. *)
Definition array1_compute {A} (checked : bool) (array : list A) (offset : option Z) (index : Z)
  : res lookup_error A :=
  rbind (timestep_index checked (Z.of_nat (length array)) offset index) (fun idx =>
  match get_row array idx with
  | Some v => Ok v
  | None => Err (OutOfBounds idx (Z.of_nat (length array)) 0)
  end).

(** array.rs 179-210 and 219-250: [compute] of a two-dimensional array given as
    rows of [width] columns; [s_idx] is the simulation index for the group. *)
Definition array2_compute {A} (checked : bool) (array : list (list A)) (width : Z) (offset : option Z)
  (s_idx index : Z) : res lookup_error A :=
  rbind (timestep_index checked (Z.of_nat (length array)) offset index) (fun t_idx =>
  match get_row array t_idx with
  | Some row =>
      match get_row row s_idx with
      | Some v => Ok v
      | None => if Z.of_nat (length array) <=? t_idx then Err (OutOfBounds t_idx (Z.of_nat (length array)) 0)
                else if width <=? s_idx then Err (OutOfBounds s_idx width 1)
                else Panic
      end
  | None => if Z.of_nat (length array) <=? t_idx then Err (OutOfBounds t_idx (Z.of_nat (length array)) 0)
            else if width <=? s_idx then Err (OutOfBounds s_idx width 1)
            else Panic
  end).

(** array.rs 287-346: [build] of a two-dimensional array parameter for scenario
    group [g].  The columns are reduced row by row; the original takes the columns
    of the whole array and stacks them, so it also refuses an empty subset, and
    also panics on a missing column when there are no rows. *)
Definition array2_build {A} (d : scenario_domain) (g : nat) (array : list (list A))
  : res scenario_error (list (list A)) := rmap (group_row d g) array.

(** activation_function.rs 1-7: [ActivationFunction]. *)
Inductive activation_function : Type :=
| AUnit (min max : Q)
| ARectifier (min max neg_value : Q)
| ABinaryStep (pos_value neg_value : Q)
| ALogistic (growth_rate max : Q).

(** activation_function.rs 36-51: [lower_bound] and [upper_bound]. *)
Definition lower_bound (f : activation_function) : Q :=
  match f with
  | AUnit min _ => min
  | ARectifier _ _ _ | ABinaryStep _ _ => -1
  | ALogistic _ _ => -6
  end%Q.
Definition upper_bound (f : activation_function) : Q :=
  match f with
  | AUnit _ max => max
  | ARectifier _ _ _ | ABinaryStep _ _ => 1
  | ALogistic _ _ => 6
  end%Q.

(** Rust's [f64::clamp], which panics when the bounds are the wrong way round. *)
Definition f64_clamp {E} (v lo hi : Q) : res E Q :=
  if negb (Qle_bool lo hi) then Panic
  else if negb (Qle_bool lo v) then Ok lo else if negb (Qle_bool v hi) then Ok hi else Ok v.

Section Activation.
(** The exponential function; the theorems say what they need of it. *)
Variable exp : Q -> Q.

(** activation_function.rs 14-34: [apply]. *)
Definition activation_apply {E} (f : activation_function) (value : Q) : res E Q :=
  rbind (f64_clamp value (lower_bound f) (upper_bound f)) (fun value =>
  Ok match f with
     | AUnit _ _ => value
     | ARectifier min max neg_value =>
         if Qle_bool value 0 then neg_value else (min + value * (max - min))%Q
     | ABinaryStep pos_value neg_value => if Qle_bool value 0 then neg_value else pos_value
     | ALogistic growth_rate max => (max / (1 + exp (- growth_rate * value)))%Q
     end).

(** The parameters that can be variables here.  constant.rs 12-16, offset.rs
    12-17 (the metric is read by the caller).  [NotVariable] stands for every
    parameter whose [as_f64_variable] is the default, parameters/mod.rs 698-701. *)
Inductive variable_parameter : Type :=
| ConstantP (value : Q)
| OffsetP (offset : Q)
| NotVariable.

(** A parameter's internal state: [None] when there is none, else the value set
    through the interface, constant.rs 18-19 and offset.rs 19-20. *)
Notation internal_state := (option (option Q)).

(** constant.rs 39-46: [setup]; offset.rs does not define it, so the default of
    parameters/mod.rs 690-696 applies: no state. *)
Definition variable_setup (p : variable_parameter) : internal_state :=
  match p with
  | ConstantP _ => Some None
  | OffsetP _ => None
  | NotVariable => None
  end.

(** [VariableParameterError] and the errors of network.rs 1330-1356. *)
Inductive variable_error : Type :=
| IncorrectNumberOfValues (expected received : nat)
| ParameterTypeNotVariable
| ParameterStateNotFound
| ParameterIndexNotFound.

(** constant.rs 83-101 and offset.rs 76-94: [set_variables].  Reading a state
    that is not there panics (parameters/mod.rs 631-640). *)
Definition set_variables (p : variable_parameter) (values : list Q) (f : activation_function)
  (s : internal_state) : res variable_error internal_state :=
  match p with
  | NotVariable => Err ParameterTypeNotVariable
  | _ => match values with
         | [v] => match s with
                  | None => Panic
                  | Some _ => rbind (activation_apply f v) (fun a => Ok (Some (Some a)))
                  end
         | _ => Err (IncorrectNumberOfValues 1 (length values))
         end
  end.

(** constant.rs 103-107 and offset.rs 96-100: [get_variables]. *)
Definition get_variables (p : variable_parameter) (s : internal_state) : res variable_error (option (list Q)) :=
  match p with
  | NotVariable => Err ParameterTypeNotVariable
  | _ => match s with
         | None => Panic
         | Some v => Ok (option_map (fun x => [x]) v)
         end
  end.

(** The internal states of all parameters in one scenario.  The original keeps
    the states of constant, simple and general parameters in three lists. *)
Notation scenario_states := (list internal_state).

(** One pass of the loop body, network.rs 1335-1346. *)
Definition set_in_scenario (p : variable_parameter) (i : nat) (values : list Q) (f : activation_function)
  (states : scenario_states) : res variable_error scenario_states :=
  match nth_error states i with
  | None => Err ParameterStateNotFound
  | Some s => rbind (set_variables p values f s) (fun s' => Ok (firstn i states ++ s' :: skipn (S i) states))
  end.

(** network.rs 1334-1347: the loop over all scenarios.  The states come back with
    the outcome, because an error leaves those already done changed. *)
Fixpoint set_all_loop (p : variable_parameter) (i : nat) (values : list Q) (f : activation_function)
  (todo : list scenario_states) : list scenario_states * res variable_error unit :=
  match todo with
  | [] => ([], Ok tt)
  | s :: rest =>
      match set_in_scenario p i values f s with
      | Ok s' => let (done, r) := set_all_loop p i values f rest in (s' :: done, r)
      | Err e => (s :: rest, Err e)
      | Panic => (s :: rest, Panic)
      end
  end.

(** network.rs 1323-1357: [set_f64_parameter_variable_values]. *)
Definition set_parameter_variables (params : list variable_parameter) (i : nat) (values : list Q)
  (f : activation_function) (states : list scenario_states) : list scenario_states * res variable_error unit :=
  match nth_error params i with
  | Some NotVariable => (states, Err ParameterTypeNotVariable)
  | Some p => set_all_loop p i values f states
  | None => (states, Err ParameterIndexNotFound)
  end.

(** network.rs 1362-1393: [set_f64_parameter_variable_values_for_scenario]; the
    scenario's states are indexed, out of range panics. *)
Definition set_parameter_variables_for (params : list variable_parameter) (i scenario : nat) (values : list Q)
  (f : activation_function) (states : list scenario_states) : list scenario_states * res variable_error unit :=
  match nth_error params i with
  | Some NotVariable => (states, Err ParameterTypeNotVariable)
  | Some p =>
      match nth_error states scenario with
      | None => (states, Panic)
      | Some s =>
          match set_in_scenario p i values f s with
          | Ok s' => (firstn scenario states ++ s' :: skipn (S scenario) states, Ok tt)
          | Err e => (states, Err e)
          | Panic => (states, Panic)
          end
      end
  | None => (states, Err ParameterIndexNotFound)
  end.

(** network.rs 1396-1420: [get_f64_parameter_variable_values_for_scenario]. *)
Definition get_parameter_variables_for (params : list variable_parameter) (i scenario : nat)
  (states : list scenario_states) : res variable_error (option (list Q)) :=
  match nth_error params i with
  | Some NotVariable => Err ParameterTypeNotVariable
  | Some p =>
      match nth_error states scenario with
      | None => Panic
      | Some ss => match nth_error ss i with
                   | None => Err ParameterStateNotFound
                   | Some s => get_variables p s
                   end
      end
  | None => Err ParameterIndexNotFound
  end.

(** constant.rs 21-32, 56-64: the value computed from a state. *)
Definition constant_compute (value : Q) (s : internal_state) : res variable_error Q :=
  match s with
  | None => Panic
  | Some (Some v) => Ok v
  | Some None => Ok value
  end.

(** offset.rs 22-33, 55-66: [before]; [x] is the metric. *)
Definition offset_before (offset : Q) (x : Q) (s : internal_state) : res variable_error Q :=
  match s with
  | None => Panic
  | Some (Some v) => Ok (x + v)%Q
  | Some None => Ok (x + offset)%Q
  end.

(** The life of a constant parameter in one scenario: network.rs 618 computes it
    once, while the network is set up, and nothing computes it again
    ([compute_const] has no other caller); the steps of a run read that value.
    The second part is the internal state that variables are set in. *)
Record constant_life : Type := ConstantLife { used : Q; stored : internal_state }.
Definition constant_setup (value : Q) : res variable_error constant_life :=
  rbind (constant_compute value (variable_setup (ConstantP value))) (fun v =>
  Ok (ConstantLife v (variable_setup (ConstantP value)))).
Definition constant_set (value : Q) (values : list Q) (f : activation_function) (c : constant_life)
  : res variable_error constant_life :=
  rbind (set_variables (ConstantP value) values f (stored c)) (fun s => Ok (ConstantLife (used c) s)).
End Activation.
