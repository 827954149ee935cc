(** Setting and reading the integer variables of parameters through the network:
    pywr-core/src/network.rs. *)
From Coq Require Import String.
From Coq Require Import QArith ZArith List Arith.
From Verif Require Import Base Profiles Recorders.
Import ListNotations.

Section Variables.
Context {V St VE : Type}.

(** [VariableParameter]: [set_variables] and [get_variables] on the internal state of
    a parameter in one scenario. *)
Record variable := MkVariable { set_values : list V -> St -> res VE St; get_values : St -> option (list V) }.

(** [NetworkError] of these functions. *)
Inductive variable_error :=
| ParameterIndexNotFound (p : nat)
| ParameterTypeNotVariable (name : string)
| ParameterStateNotFound (name : string)
| VariableParameterError (name : string) (source : VE).

(** The parameters of a network: name and, if there is one, the variable
    ([as_u32_variable]).  The states are those of each scenario for each parameter. *)
Definition parameters := list (string * option variable).
Definition states := list (list St).

(** network.rs 1467-1481: the loop over all scenarios; the states of scenarios before
    an error are changed already. *)
Fixpoint set_loop (p : nat) (name : string) (v : variable) (values : list V) (l : states) : res variable_error unit * states :=
  match l with
  | [] => (Ok tt, [])
  | ps :: rest =>
      match nth_error ps p with
      | None => (Err (ParameterStateNotFound name), ps :: rest)
      | Some st =>
          match set_values v values st with
          | Ok st => let '(r, rest) := set_loop p name v values rest in (r, put ps p st :: rest)
          | Err e => (Err (VariableParameterError name e), ps :: rest)
          | Panic => (Panic, ps :: rest)
          end
      end
  end.

(** network.rs 1456-1490: [set_u32_parameter_variable_values]. *)
Definition set_all (ps : parameters) (p : nat) (values : list V) (l : states) : res variable_error unit * states :=
  match nth_error ps p with
  | None => (Err (ParameterIndexNotFound p), l)
  | Some (name, None) => (Err (ParameterTypeNotVariable name), l)
  | Some (name, Some v) => set_loop p name v values l
  end.

(** network.rs 1495-1526: [set_u32_parameter_variable_values_for_scenario]; a
    scenario that is not in the state panics. *)
Definition set_one (ps : parameters) (p s : nat) (values : list V) (l : states) : res variable_error unit * states :=
  match nth_error ps p with
  | None => (Err (ParameterIndexNotFound p), l)
  | Some (name, None) => (Err (ParameterTypeNotVariable name), l)
  | Some (name, Some v) =>
      match nth_error l s with
      | None => (Panic, l)
      | Some row =>
          match nth_error row p with
          | None => (Err (ParameterStateNotFound name), l)
          | Some st =>
              match set_values v values st with
              | Ok st => (Ok tt, put l s (put row p st))
              | Err e => (Err (VariableParameterError name e), l)
              | Panic => (Panic, l)
              end
          end
      end
  end.

(** network.rs 1529-1552: [get_u32_parameter_variable_values_for_scenario]. *)
Definition get_one (ps : parameters) (p s : nat) (l : states) : res variable_error (option (list V)) :=
  match nth_error ps p with
  | None => Err (ParameterIndexNotFound p)
  | Some (name, None) => Err (ParameterTypeNotVariable name)
  | Some (name, Some v) =>
      match nth_error l s with
      | None => Panic
      | Some row =>
          match nth_error row p with
          | None => Err (ParameterStateNotFound name)
          | Some st => Ok (get_values v st)
          end
      end
  end.
End Variables.
Arguments variable : clear implicits.
Arguments variable_error : clear implicits.

(** profiles/rbf.rs 217-253: the days of a radial basis profile, the one parameter
    with integer variables; the error is that of a wrong number of values. *)
Definition rbf_days solve points f : variable Z rbf_state nat :=
  MkVariable (fun values s => match rbf_set_days solve points f values s with
                            | None => Err (length values)
                            | Some (Ok s) => Ok s
                            | Some _ => Panic
                            end) rbf_x.
