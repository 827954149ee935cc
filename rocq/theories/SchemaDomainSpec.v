(** Specification vocabulary for C72. *)
From Verif Require Import Base Calendar Timestep Scenario ScenarioSpec SchemaDomain.
Open Scope nat_scope.

(** The members a group of the file asks for: all of them, those from [start] up
    to [stop], those listed, or the first one carrying each label listed. *)
Definition file_asks (g : file_group) (i : nat) : Prop :=
  i < fg_size g /\
  match fg_subset g with
  | None => True
  | Some (FSlice start stop) => start <= i < stop
  | Some (FIndices l) => In i l
  | Some (FLabels names) => exists ls l, fg_labels g = Some ls /\ In l names /\ first_with_label ls l i
  end.

(** A group of the file without a mistake. *)
Definition file_group_ok (g : file_group) : Prop :=
  match fg_labels g with Some ls => length ls = fg_size g | None => True end /\
  match fg_subset g with
  | Some (FSlice start stop) => start < stop <= fg_size g
  | Some (FLabels names) => exists ls, fg_labels g = Some ls /\ incl names ls
  | _ => True
  end.

(** The meaning of an entry of a combination in a group. *)
Definition file_denotes (g : file_group) (x : label_or_index) (i : nat) : Prop :=
  match x with
  | ByIndex j => i = j /\ i < fg_size g
  | ByLabel l => exists ls, fg_labels g = Some ls /\ first_with_label ls l i /\ i < fg_size g
  end.

(** Python: the members of [range(size)[slice( *args )]], for arguments that are
    not negative.  One argument is the stop; the defaults are 0, the size and 1. *)
Definition python_range (size : nat) (start stop step : option nat) (i : nat) : Prop :=
  let lo := or_default start 0 in
  lo <= i /\ i < or_default stop size /\ i < size /\ (exists k, i = lo + k * or_default step 1).
Definition python_slice (size : nat) (args : list (option nat)) (i : nat) : Prop :=
  match args with
  | [stop] => python_range size None stop None i
  | [start; stop] => python_range size start stop None i
  | [start; stop; step] => python_range size start stop step i
  | _ => False
  end.
(** What a v1 file asks of one group. *)
Definition v1_asks (v : v1_scenario) (i : nat) : Prop :=
  i < v1_size v /\ match v1_slice v with None => True | Some args => python_slice (v1_size v) args i end.
