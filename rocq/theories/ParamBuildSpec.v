(** * What it means for parameter definitions to be well formed.

    Nothing here mentions how the builder works. *)
From Verif Require Import Base ParamBuild.
From Coq Require Import Relations.

(** The parameter a reference names, if it names one. *)
Definition names_param (u : uref) (n : pname) : Prop :=
  match u with
  | UF64 k _ | UU64 k _ | UMulti k _ _ => k = n
  | ULit _ | UNodeMaxFlow _ | UOther _ => False
  end.

(** The types of parameter a reference can be answered by: a float metric takes
    a float or an index, an index metric takes an index, a keyed reference
    takes a multi-value. *)
Definition accepts (u : uref) (t : ptype) : Prop :=
  match u with
  | UF64 _ _ => t = PF64 \/ t = PU64
  | UU64 _ _ => t = PU64
  | UMulti _ _ _ => t = PMulti
  | ULit _ | UNodeMaxFlow _ | UOther _ => True
  end.

(** [b] has a reference to a parameter called [n]. *)
Definition mentions (b : pbuilder) (n : pname) : Prop :=
  exists u ph, In (u, ph) (pb_refs b) /\ names_param u n.

(** The definition of the parameter called [x] mentions [y]. *)
Definition depends (bs : list pbuilder) (x y : pname) : Prop :=
  exists b, In b bs /\ pb_name b = x /\ mentions b y.

(** If [u] names a parameter, one of that name and of a fitting type is
    defined. *)
Definition ref_defined (bs : list pbuilder) (u : uref) : Prop :=
  forall n, names_param u n ->
  exists b, In b bs /\ pb_name b = n /\ accepts u (pb_type b).

Definition all_defined (bs : list pbuilder) : Prop :=
  forall b u ph, In b bs -> In (u, ph) (pb_refs b) -> ref_defined bs u.

Definition unique_names (bs : list pbuilder) : Prop := NoDup (map pb_name bs).

(** No parameter depends on itself, directly or through others. *)
Definition acyclic (bs : list pbuilder) : Prop :=
  forall x, ~ clos_trans _ (depends bs) x x.

(** A cycle of dependencies that stays within [ns]. *)
Definition cycle_within (bs : list pbuilder) (ns : list pname) : Prop :=
  exists x, In x ns /\
    clos_trans _ (fun a b => In a ns /\ In b ns /\ depends bs a b) x x.
