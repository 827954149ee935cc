(** Specification vocabulary for the scenario properties C01-C05. *)
From Verif Require Import Base Scenario.

(** A group that can exist at run time: the builder accepted it. *)
Definition built (g : group) : Prop := exists b, build_group b = Ok g.

(** [c] picks one member of every group. *)
Definition picks (gs : list group) (c : list nat) : Prop :=
  Forall2 (fun g i => i < g_size g) gs c.

(** Lexicographic order: the last group varies fastest. *)
Inductive lex_lt : list nat -> list nat -> Prop :=
| lex_here : forall x y xs ys, x < y -> length xs = length ys -> lex_lt (x :: xs) (y :: ys)
| lex_later : forall x xs ys, lex_lt xs ys -> lex_lt (x :: xs) (x :: ys).

(** Member [i] of group [g] has been requested. *)
Definition requested (g : group) (i : nat) : Prop :=
  match g_subset g with
  | None => True
  | Some (Slice start stop) => start <= i < stop
  | Some (Indices l) => In i l
  end.

(** The members (numbered as in the schema) a scenario stands for. *)
Definition members (s : scenario_index) : list nat :=
  match sx_schema s with
  | Some x => si_indices x
  | None => si_indices (sx_core s)
  end.

(** The same group without its subset. *)
Definition unsliced (g : group) : group := Group (g_name g) (g_size g) None (g_labels g).

(** What one entry of a user supplied combination denotes. *)
Definition denotes (g : group) (x : label_or_index) (i : nat) : Prop :=
  i < g_size g /\
  match x with
  | ByIndex j => j = i
  | ByLabel l => exists ls, g_labels g = Some ls /\ nth_error ls i = Some l /\
                            (forall j, j < i -> nth_error ls j <> Some l)
  end.

(** The label shown for a member: its declared label or its number. *)
Definition shows_label (g : group) (i : nat) (l : string) : Prop :=
  match g_labels g with
  | Some ls => nth_error ls i = Some l
  | None => l = nat_to_string i
  end.

(** Every index listed in an index subset exists. *)
Definition subset_in_range (g : group) : Prop :=
  match g_subset g with
  | Some (Indices l) => Forall (fun i => i < g_size g) l
  | _ => True
  end.

(** Member [i] is the first one carrying label [l]. *)
Definition first_with_label (ls : list string) (l : string) (i : nat) : Prop :=
  nth_error ls i = Some l /\ (forall j, j < i -> nth_error ls j <> Some l).

(** What the user asked for on the group builder. *)
Definition asked_for (b : group_builder) (i : nat) : Prop :=
  match b_subset b with
  | None => True
  | Some (BSlice start stop) => start <= i < stop
  | Some (BIndices l) => In i l
  | Some (BLabels names) =>
      exists ls l, b_labels b = Some ls /\ In l names /\ first_with_label ls l i
  end.

(** A group definition the builder must accept. *)
Definition acceptable (b : group_builder) : Prop :=
  match b_labels b with Some ls => length ls = b_size b | None => True end /\
  match b_subset b with
  | Some (BSlice start stop) => start < stop /\ stop <= b_size b
  | Some (BLabels names) => exists ls, b_labels b = Some ls /\ incl names ls
  | _ => True
  end.
