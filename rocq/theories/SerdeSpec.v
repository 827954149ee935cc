(** What it means that a file holds the same as another, without the types of
    the program. *)
From Coq Require Import Ascii String.
From Coq Require Import List ZArith QArith.
From Verif Require Import Serde.
Import ListNotations.
Open Scope string_scope.
Open Scope list_scope.

(** In no object of the tree does a key occur twice. *)
Inductive plain : json -> Prop :=
| plain_null : plain JNull
| plain_bool : forall b, plain (JBool b)
| plain_int : forall z, plain (JInt z)
| plain_flt : forall q, plain (JFlt q)
| plain_str : forall s, plain (JStr s)
| plain_arr : forall l, (forall x, In x l -> plain x) -> plain (JArr l)
| plain_obj : forall l,
    NoDup (map fst l) -> (forall k x, In (k, x) l -> plain x) -> plain (JObj l).

(** The latitude of a comparison:
    - other spellings of a key or name, with the one that is written for it;
    - the values that stand for a member that is not there, by key;
    - the objects that do not refuse a member they do not know: the keys they
      always have when they are written, and all keys they know. *)
Record latitude : Type := mkLat {
  spelling : list (string * string);
  default : list (string * json);
  loose : list (list string * list string)
}.

Definition empty (x : json) : Prop := x = JNull \/ x = JObj [].

Section Same.
  Variable L : latitude.

  Definition spelled (k k' : string) : Prop := k = k' \/ In (k, k') (spelling L).

  (** The member [k] may get lost in an object that is written [gs]: it is
      unknown to one of the loose objects, and [gs] is of its kind. *)
  Definition may_drop (k : string) (gs : list (string * json)) : Prop :=
    exists always knows,
      In (always, knows) (loose L) /\
      ~ In k knows /\
      (forall a, In a always -> In a (map fst gs)) /\
      (forall a, In a (map fst gs) -> In a knows).

  (** The second tree says what the first says. *)
  Inductive same : json -> json -> Prop :=
  | same_null : same JNull JNull
  | same_bool : forall b, same (JBool b) (JBool b)
  | same_int : forall z, same (JInt z) (JInt z)
  | same_flt : forall q, same (JFlt q) (JFlt q)
  | same_whole : forall z, same (JInt z) (JFlt (inject_Z z))
  | same_str : forall s s', spelled s s' -> same (JStr s) (JStr s')
  | same_day : forall s, same (JStr s) (JStr (s ++ "T00:00:00"))
  | same_time : forall d t, same (JStr (d ++ " " ++ t)) (JStr (d ++ "T" ++ t))
  | same_arr : forall l l', same_list l l' -> same (JArr l) (JArr l')
  | same_obj : forall fs gs,
      (* nothing is lost *)
      (forall k x, In (k, x) fs ->
         empty x \/ may_drop k gs \/
         exists k' y, spelled k k' /\ In (k', y) gs /\ same x y) ->
      (* and nothing is made up *)
      (forall k' y, In (k', y) gs ->
         y = JNull \/ In (k', y) (default L) \/
         exists k x, spelled k k' /\ In (k, x) fs /\ same x y) ->
      same (JObj fs) (JObj gs)
  with same_list : list json -> list json -> Prop :=
  | same_nil : same_list [] []
  | same_cons : forall x y l l', same x y -> same_list l l' -> same_list (x :: l) (y :: l').
End Same.

(** ** The values of a type *)

(** A field that is left out is nothing or an empty map. *)
Definition absent (v : val) : Prop := v = VNone \/ v = VMap [].

(** A value of a type: whole numbers are in the range of the type and not zero
    where it excludes zero, enumerations are one of the variants, and so on down
    to every part. *)
Inductive of_type (S0 : types) : ty -> val -> Prop :=
| o_bool : forall b, of_type S0 TBool (VBool b)
| o_float : forall q, of_type S0 TFloat (VNum q)
| o_int : forall lo hi zero z, (lo <= z <= hi)%Z -> (z = 0%Z -> zero = true) -> of_type S0 (TInt lo hi zero) (VInt z)
| o_str : forall s, of_type S0 TStr (VStr s)
| o_date : forall s, String.length s = 19 -> of_type S0 TDateTime (VStr s)
| o_value : forall j, of_type S0 TValue (VJson j)
| o_none : forall t, of_type S0 (TOpt t) VNone
| o_some : forall t v, of_type S0 t v -> of_type S0 (TOpt t) (VSome v)
| o_vec : forall t vs, Forall (of_type S0 t) vs -> of_type S0 (TVec t) (VList vs)
| o_tuple : forall ts vs, Forall2 (of_type S0) ts vs -> of_type S0 (TTuple ts) (VRec vs)
| o_map : forall t m, NoDup (map fst m) -> Forall (fun kv => of_type S0 t (snd kv)) m -> of_type S0 (TMap t) (VMap m)
| o_struct : forall deny fs vs, Forall2 (fun f v => of_type S0 (snd f) v \/ absent v) fs vs -> of_type S0 (TStruct deny fs) (VRec vs)
| o_units : forall vs i, i < length vs -> of_type S0 (TUnits vs) (VVar i VUnit)
| o_ext : forall vs i n t v, nth_error vs i = Some (n, t) -> of_type S0 t v -> of_type S0 (TExt vs) (VVar i v)
| o_tag : forall tag vs i n t v, nth_error vs i = Some (n, t) -> of_type S0 t v -> of_type S0 (TTag tag vs) (VVar i v)
| o_untag : forall ts i t v, nth_error ts i = Some t -> of_type S0 t v -> of_type S0 (TUntag ts) (VVar i v)
| o_ref : forall n t v, assoc n S0 = Some t -> of_type S0 t v -> of_type S0 (TRef n) v.
