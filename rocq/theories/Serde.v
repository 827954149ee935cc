(** How a model file is read and written: the JSON form of the types of
    pywr-schema (pywr-schema/src/model.rs 448-456, 500-509, 625-640, 789-820,
    1000-1010; network.rs 164-170, 306-313). All of them derive their
    `Serialize` and `Deserialize` with serde and go through serde_json, so what
    a file may contain is said by the declarations of the types and their
    `#[serde(..)]` attributes. This file models what those attributes mean;
    SerdeTypes.v holds the declarations themselves.

    Simplifications:
    - a JSON text is its tree; the step between text and tree (spaces, escapes,
      digits) is serde_json's and is not modelled. Numbers are exact: an
      integer, or a rational for what is written with a point or an exponent.
      (serde_json is used without its feature "float_roundtrip", so the
      real reader may be off by the last bit of a number.)
    - serde also reads a struct from an array of its fields, a variant of an
      internally tagged enum from its number and a unit variant from an object
      with `null`. These forms are never written and never documented; here
      they are refused.
    - an f32 is exact like an f64, and a value of the program is finite (JSON
      cannot give another).
    - a path is a string. *)
From Coq Require Import Ascii String.
From Coq Require Import List Bool ZArith QArith Permutation Sorted.
Import ListNotations.
Open Scope string_scope.
Open Scope list_scope.
Open Scope nat_scope.

(** A JSON tree (serde_json::Value). The members of an object are in the order
    of the file and a key may occur more than once. *)
Inductive json : Type :=
| JNull
| JBool (b : bool)
| JInt (z : Z)
| JFlt (q : Q)
| JStr (s : string)
| JArr (l : list json)
| JObj (l : list (string * json)).

Definition keys {A} (l : list (string * A)) : list string := map fst l.

Definition mem (k : string) (l : list string) : bool := existsb (String.eqb k) l.

(** The nesting of a tree. *)
Fixpoint depth (j : json) : nat :=
  match j with
  | JArr l => S (fold_right (fun x m => Nat.max (depth x) m) 0 l)
  | JObj l => S (fold_right (fun kx m => Nat.max (depth (snd kx)) m) 0 l)
  | _ => 0
  end.

(** A map with string keys: kept sorted, so that two maps with the same entries
    are the same (HashMap<String, _>, and the BTreeMap of serde_json::Value). A
    second entry with a key replaces the first. *)
Fixpoint insert {A} (k : string) (a : A) (m : list (string * A)) : list (string * A) :=
  match m with
  | [] => [(k, a)]
  | (k', a') :: m' =>
      match String.compare k k' with
      | Lt => (k, a) :: m
      | Eq => (k, a) :: m'
      | Gt => (k', a') :: insert k a m'
      end
  end.

Definition to_map {A} (l : list (string * A)) : list (string * A) :=
  fold_left (fun m ka => insert (fst ka) (snd ka) m) l [].

Definition in_order {A} (m : list (string * A)) : Prop :=
  StronglySorted (fun a b => String.compare a b = Lt) (keys m).

(** What serde_json::Value keeps of a tree. *)
Fixpoint norm (j : json) : json :=
  match j with
  | JArr l => JArr (map norm l)
  | JObj l => JObj (to_map (map (fun kx => (fst kx, norm (snd kx))) l))
  | _ => j
  end.

(** ** Values of the program *)

(** A value: of a struct the fields in their order, of an enum the number of
    the variant and what it holds. *)
Inductive val : Type :=
| VUnit
| VBool (b : bool)
| VNum (q : Q)
| VInt (z : Z)
| VStr (s : string)
| VJson (j : json)
| VNone
| VSome (v : val)
| VList (l : list val)
| VMap (l : list (string * val))
| VRec (l : list val)
| VVar (i : nat) (v : val).

(** ** Types *)

(** `skip_serializing_if` of a field: not given, "Option::is_none" (given by
    hand or by `#[skip_serializing_none]`, pywr-schema-macros/src/lib.rs
    584-619) or "HashMap::is_empty". *)
Inductive skip : Type := SNever | SNone | SEmpty.

(** A field of a struct but for its type: its key (after `rename`), its
    aliases, the value of `default` if it has that attribute, and when it is
    skipped. *)
Record fmeta : Type := mkF {
  f_key : string;
  f_alias : list string;
  f_default : option val;
  f_skip : skip
}.

Inductive ty : Type :=
| TBool
| TFloat                                       (* f64, f32 *)
| TInt (lo hi : Z) (zero : bool)               (* an integer type; NonZero if not zero *)
| TStr                                         (* String, PathBuf *)
| TDateTime                                    (* jiff::civil::DateTime *)
| TValue                                       (* serde_json::Value *)
| TOpt (t : ty)                                (* Option<t> *)
| TVec (t : ty)                                (* Vec<t> *)
| TTuple (ts : list ty)                        (* (a, b), [a; 2] *)
| TMap (t : ty)                                (* HashMap<String, t> *)
| TStruct (deny : bool) (fs : list (fmeta * ty))  (* a struct, or the fields of a variant;
                                                     deny: #[serde(deny_unknown_fields)] *)
| TUnits (vs : list (string * list string))    (* an enum of names, with aliases *)
| TExt (vs : list (string * ty))               (* an enum written {"Variant": ..} *)
| TTag (tag : string) (vs : list (string * ty))   (* #[serde(tag = ..)] *)
| TUntag (ts : list ty)                        (* #[serde(untagged)] *)
| TRef (name : string).                        (* a type by its name *)

(** A variant without fields of an enum with `tag`: serde takes whatever else is
    in the object, also under `deny_unknown_fields`
    (InternallyTaggedUnitVisitor of serde). *)
Definition TNothing : ty := TStruct false [].

(** The types of a crate by their names. *)
Definition types := list (string * ty).

Fixpoint assoc {A} (k : string) (l : list (string * A)) : option A :=
  match l with
  | [] => None
  | (k', a) :: l' => if String.eqb k k' then Some a else assoc k l'
  end.

(** ** Reading *)

(** The names under which a field is found. *)
Definition spellings (m : fmeta) : list string := f_key m :: f_alias m.

Definition known (fs : list (fmeta * ty)) : list string := flat_map (fun f => spellings (fst f)) fs.

(** All members with one of the names. *)
Definition members (names : list string) (l : list (string * json)) : list json :=
  map snd (filter (fun kx => mem (fst kx) names) l).

(** Civil dates and times as strings: "2020-01-31" or "2020-01-31T12:00:00", the
    latter also with a space. Simplification: the calendar is not checked, and
    jiff also reads fractions of seconds, times without seconds and the form
    without dashes. *)
Definition digit (c : Ascii.ascii) : bool :=
  let n := Ascii.nat_of_ascii c in (48 <=? n) && (n <=? 57).

(** The string has the form of the pattern, where '0' stands for a digit. *)
Fixpoint like (pat s : string) : bool :=
  match pat, s with
  | EmptyString, EmptyString => true
  | String p pat', String c s' =>
      (if Ascii.eqb p "0"%char then digit c else Ascii.eqb p c) && like pat' s'
  | _, _ => false
  end.

Definition midnight : string := "T00:00:00".

(** `DateTime`'s Deserialize: what is kept is what Display writes. *)
Definition read_date (s : string) : option string :=
  if like "0000-00-00" s then Some (s ++ midnight)%string
  else if like "0000-00-00T00:00:00" s then Some s
  else if like "0000-00-00 00:00:00" s
       then Some (substring 0 10 s ++ "T" ++ substring 11 8 s)%string
  else None.

Definition in_range (lo hi : Z) (zero : bool) (z : Z) : bool :=
  (lo <=? z)%Z && (z <=? hi)%Z && (zero || negb (z =? 0)%Z).

Section ReadAll.
  Variable rd : json -> option val.

  (** The elements of a Vec. *)
  Fixpoint read_all (l : list json) : option (list val) :=
    match l with
    | [] => Some []
    | j :: l' =>
        match rd j, read_all l' with
        | Some v, Some vs => Some (v :: vs)
        | _, _ => None
        end
    end.

  (** The entries of a map. *)
  Fixpoint read_entries (l : list (string * json)) : option (list (string * val)) :=
    match l with
    | [] => Some []
    | (k, j) :: l' =>
        match rd j, read_entries l' with
        | Some v, Some vs => Some ((k, v) :: vs)
        | _, _ => None
        end
    end.
End ReadAll.

Section Read.
  Variable rd : ty -> json -> option val.

  (** The elements of a tuple or array: as many as it has types. *)
  Fixpoint read_each (ts : list ty) (l : list json) : option (list val) :=
    match ts, l with
    | [], [] => Some []
    | t :: ts', j :: l' =>
        match rd t j, read_each ts' l' with
        | Some v, Some vs => Some (v :: vs)
        | _, _ => None
        end
    | _, _ => None
    end.

  (** A field that is not in the file: its default if it has one, None if it is
      an Option, otherwise the file is refused. *)
  Definition missing (m : fmeta) (t : ty) : option val :=
    match f_default m with
    | Some d => Some d
    | None => match t with TOpt _ => Some VNone | _ => None end
    end.

  (** The fields of a struct from the members of an object: each is found once
      under one of its names, twice is an error. *)
  Fixpoint read_fields (l : list (string * json)) (fs : list (fmeta * ty)) : option (list val) :=
    match fs with
    | [] => Some []
    | (m, t) :: fs' =>
        match (match members (spellings m) l with
               | [] => missing m t
               | [j] => rd t j
               | _ => None
               end), read_fields l fs' with
        | Some v, Some vs => Some (v :: vs)
        | _, _ => None
        end
    end.

  (** The variant of an enum with the given name. *)
  Fixpoint read_variant (name : string) (j : json) (i : nat) (vs : list (string * ty)) : option val :=
    match vs with
    | [] => None
    | (n, t) :: vs' =>
        if String.eqb name n then option_map (VVar i) (rd t j) else read_variant name j (S i) vs'
    end.

  (** The first variant that can be read. *)
  Fixpoint read_first (j : json) (i : nat) (ts : list ty) : option val :=
    match ts with
    | [] => None
    | t :: ts' => match rd t j with Some v => Some (VVar i v) | None => read_first j (S i) ts' end
    end.
End Read.

(** The number of a unit variant by its name or an alias. *)
Fixpoint unit_variant (name : string) (i : nat) (vs : list (string * list string)) : option val :=
  match vs with
  | [] => None
  | (n, al) :: vs' => if mem name (n :: al) then Some (VVar i VUnit) else unit_variant name (S i) vs'
  end.

Section Types.
  Variable S0 : types.

  (** `Deserialize` of a type. The fuel counts the names that are looked up. *)
  Fixpoint read (fuel : nat) : ty -> json -> option val :=
    fix go (t : ty) (j : json) {struct t} : option val :=
      match t with
      | TBool => match j with JBool b => Some (VBool b) | _ => None end
      | TFloat =>
          match j with
          | JFlt q => Some (VNum q)
          | JInt z => Some (VNum (inject_Z z))
          | _ => None
          end
      | TInt lo hi zero =>
          match j with
          | JInt z => if in_range lo hi zero z then Some (VInt z) else None
          | _ => None
          end
      | TStr => match j with JStr s => Some (VStr s) | _ => None end
      | TDateTime => match j with JStr s => option_map VStr (read_date s) | _ => None end
      | TValue => Some (VJson (norm j))
      | TOpt t' => match j with JNull => Some VNone | _ => option_map VSome (go t' j) end
      | TVec t' => match j with JArr l => option_map VList (read_all (go t') l) | _ => None end
      | TTuple ts => match j with JArr l => option_map VRec (read_each go ts l) | _ => None end
      | TMap t' =>
          match j with
          | JObj l => option_map (fun m => VMap (to_map m)) (read_entries (go t') l)
          | _ => None
          end
      | TStruct deny fs =>
          match j with
          | JObj l =>
              if deny && negb (forallb (fun k => mem k (known fs)) (keys l)) then None
              else option_map VRec (read_fields go l fs)
          | _ => None
          end
      | TUnits vs => match j with JStr s => unit_variant s 0 vs | _ => None end
      | TExt vs => match j with JObj [(n, x)] => read_variant go n x 0 vs | _ => None end
      | TTag tag vs =>
          match j with
          | JObj l =>
              match members [tag] l with
              | [JStr n] =>
                  read_variant go n (JObj (filter (fun kx => negb (mem (fst kx) [tag])) l)) 0 vs
              | _ => None
              end
          | _ => None
          end
      | TUntag ts => read_first go j 0 ts
      | TRef n =>
          match fuel with
          | 0 => None
          | S f => match assoc n S0 with Some t' => read f t' j | None => None end
          end
      end.

  (** `serde_json::from_str` of a type. Between two levels of the tree at most
      six names are looked up (checked for the types of the crate), so this is
      enough fuel: more gives the same (C78_fuel). *)
  Definition from_json (t : ty) (j : json) : option val := read (8 * S (depth j)) t j.

  (** ** Writing *)

  Definition skipped (m : fmeta) (v : val) : bool :=
    match f_skip m, v with
    | SNone, VNone => true
    | SEmpty, VMap [] => true
    | _, _ => false
    end.

  (** `Serialize` of a type: the forms in which a value may be written. Only the
      order of the entries of a HashMap is open. A value that is not one of the
      type has no form. *)
  Inductive writes : ty -> val -> json -> Prop :=
  | w_bool : forall b, writes TBool (VBool b) (JBool b)
  | w_float : forall q, writes TFloat (VNum q) (JFlt q)
  | w_int : forall lo hi zero z,
      in_range lo hi zero z = true -> writes (TInt lo hi zero) (VInt z) (JInt z)
  | w_str : forall s, writes TStr (VStr s) (JStr s)
  | w_date : forall s, like "0000-00-00T00:00:00" s = true -> writes TDateTime (VStr s) (JStr s)
  | w_value : forall j, norm j = j -> writes TValue (VJson j) j
  | w_none : forall t, writes (TOpt t) VNone JNull
  | w_some : forall t v j, writes t v j -> writes (TOpt t) (VSome v) j
  | w_vec : forall t vs js, writes_all t vs js -> writes (TVec t) (VList vs) (JArr js)
  | w_tuple : forall ts vs js, writes_each ts vs js -> writes (TTuple ts) (VRec vs) (JArr js)
  | w_map : forall t m e l,
      in_order m -> writes_entries t m e -> Permutation e l ->
      writes (TMap t) (VMap m) (JObj l)
  | w_struct : forall deny fs vs l,
      writes_fields fs vs l -> writes (TStruct deny fs) (VRec vs) (JObj l)
  | w_units : forall vs i n al,
      nth_error vs i = Some (n, al) -> writes (TUnits vs) (VVar i VUnit) (JStr n)
  | w_ext : forall vs i n t v j,
      nth_error vs i = Some (n, t) -> writes t v j -> writes (TExt vs) (VVar i v) (JObj [(n, j)])
  | w_tag : forall tag vs i n t v l,
      nth_error vs i = Some (n, t) -> writes t v (JObj l) ->
      writes (TTag tag vs) (VVar i v) (JObj ((tag, JStr n) :: l))
  | w_untag : forall ts i t v j,
      nth_error ts i = Some t -> writes t v j -> writes (TUntag ts) (VVar i v) j
  | w_ref : forall n t v j, assoc n S0 = Some t -> writes t v j -> writes (TRef n) v j
  with writes_all : ty -> list val -> list json -> Prop :=
  | wa_nil : forall t, writes_all t [] []
  | wa_cons : forall t v vs j js,
      writes t v j -> writes_all t vs js -> writes_all t (v :: vs) (j :: js)
  with writes_each : list ty -> list val -> list json -> Prop :=
  | we_nil : writes_each [] [] []
  | we_cons : forall t ts v vs j js,
      writes t v j -> writes_each ts vs js -> writes_each (t :: ts) (v :: vs) (j :: js)
  with writes_entries : ty -> list (string * val) -> list (string * json) -> Prop :=
  | wn_nil : forall t, writes_entries t [] []
  | wn_cons : forall t k v m j l,
      writes t v j -> writes_entries t m l -> writes_entries t ((k, v) :: m) ((k, j) :: l)
  with writes_fields : list (fmeta * ty) -> list val -> list (string * json) -> Prop :=
  | wf_nil : writes_fields [] [] []
  | wf_skip : forall m t v fs vs l,
      skipped m v = true -> writes_fields fs vs l ->
      writes_fields ((m, t) :: fs) (v :: vs) l
  | wf_keep : forall m t v j fs vs l,
      skipped m v = false -> writes t v j -> writes_fields fs vs l ->
      writes_fields ((m, t) :: fs) (v :: vs) ((f_key m, j) :: l).
End Types.
