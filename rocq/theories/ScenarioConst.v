(** The building of parameters with a value for each member of a scenario group:
    pywr-core/src/parameters/constant_scenario.rs. *)
From Coq Require Import String.
From Coq Require Import List Arith.
From Verif Require Import Base Scenario.
Import ListNotations.

(** scenario.rs 746-749: [group_size]. *)
Definition group_size (d : scenario_domain) (name : string) : option nat :=
  match group_index d name with
  | Some k => option_map g_size (nth_error (dom_groups d) k)
  | None => None
  end.

(** [ScenarioGroupNotFound] and [ScenarioValuesLengthMismatch] of
    [ParameterBuildError]. *)
Inductive const_build_error :=
| CGroupNotFound (name : string)
| CLengthMismatch (values scenarios : nat) (group : string).

(** parameters/constant_scenario.rs 64-86: [build]; the parameter is the place of
    its group and its values. *)
Definition build_constant {A} (d : scenario_domain) (name : string) (values : list A)
  : res const_build_error (nat * list A) :=
  match group_index d name with
  | None => Err (CGroupNotFound name)
  | Some k =>
      match group_size d name with
      | None => Err (CGroupNotFound name)
      | Some size =>
          if Nat.eqb (length values) size then Ok (k, values)
          else Err (CLengthMismatch (length values) size name)
      end
  end.
