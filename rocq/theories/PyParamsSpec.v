(** What a user of Python parameters relies on. *)
From Coq Require Import QArith.
From Verif Require Import Base PyParams.
Local Open Scope string_scope.
Local Open Scope list_scope.
Local Open Scope nat_scope.

(** ** The arguments of the model file *)

(** A Python value that says the same as a JSON value. *)
Inductive same_value : json -> pyval -> Prop :=
| SVNull : same_value JNull PyNone
| SVBool b : same_value (JBool b) (PyBool b)
| SVPos z : same_value (JNum (JPos z)) (PyInt z)
| SVNeg z : same_value (JNum (JNeg z)) (PyInt z)
| SVFloat q : same_value (JNum (JFloat q)) (PyFloat q)
| SVStr s : same_value (JStr s) (PyStr s)
| SVArr l l' : Forall2 same_value l l' -> same_value (JArr l) (PyList l')
| SVObj l l' : Forall2 (fun kv kv' => fst kv' = PyStr (fst kv) /\ same_value (snd kv) (snd kv')) l l' -> same_value (JObj l) (PyDict l').

(** All integers in it fit an i64. *)
Inductive fits : json -> Prop :=
| FNull : fits JNull
| FBool b : fits (JBool b)
| FPos z : (z < 2 ^ 63)%Z -> fits (JNum (JPos z))
| FNeg z : fits (JNum (JNeg z))
| FFloat q : fits (JNum (JFloat q))
| FStr s : fits (JStr s)
| FArr l : Forall fits l -> fits (JArr l)
| FObj l : Forall (fun kv => fits (snd kv)) l -> fits (JObj l).

(** ** Returned values *)

Inductive number : pyval -> Q -> Prop :=
| NumF q : number (PyFloat q) q
| NumI z : number (PyInt z) (inject_Z z)
| NumT : number (PyBool true) 1
| NumB : number (PyBool false) 0.
Inductive integer : pyval -> Z -> Prop :=
| IntI z : integer (PyInt z) z
| IntT : integer (PyBool true) 1
| IntB : integer (PyBool false) 0.
Definition in_u64 (z : Z) : Prop := (0 <= z < 2 ^ 64)%Z.

Section Returned.
  Variable str_of : pyval -> string.
  (** [str(key)] *)
  Definition key_text (k : pyval) (s : string) : Prop := match k with PyStr t => s = t | _ => s = str_of k end.
  (** Under [s] a dictionary says [x], read by [reads]: the last item that can be
      read so and has this key. *)
  Definition says {A} (reads : pyval -> A -> Prop) (items : list (pyval * pyval)) (s : string) (x : A) : Prop :=
    exists l1 k v l2, items = l1 ++ (k, v) :: l2 /\ key_text k s /\ reads v x /\
      forall k' v' x', In (k', v') l2 -> key_text k' s -> ~ reads v' x'.
  Definition is_float (v : pyval) (q : Q) : Prop := v = PyFloat q.

  (** The result of a parameter of type [t] whose Python code returned [v]. *)
  Definition returns {E} (t : rtype) (v : pyval) (r : res (calc_err E) value) : Prop :=
    match t with
    | RFloat =>
        (forall q, number v q -> r = Ok (VF q)) /\
        ((forall q, ~ number v q) -> r = Err (PythonErr TypeError))
    | RInt =>
        (forall z, integer v z -> in_u64 z -> r = Ok (VI z)) /\
        (forall z, integer v z -> ~ in_u64 z -> r = Err (PythonErr OverflowError)) /\
        ((forall z, ~ integer v z) -> r = Err (PythonErr TypeError))
    | RDict =>
        (forall items, v = PyDict items ->
           (forall k x, In (k, x) items -> (exists q, is_float x q) \/ exists z, integer x z /\ in_u64 z) ->
           exists m, r = Ok (VM m) /\
             (forall s q, multi_get_value m s = Some q <-> says is_float items s q) /\
             (forall s z, multi_get_index m s = Some z <-> says integer items s z)) /\
        (forall items k x, v = PyDict items -> In (k, x) items -> (forall q, ~ is_float x q) ->
           (forall z, integer x z -> ~ in_u64 z) -> exists e, r = Err (PythonErr e)) /\
        ((forall items, v <> PyDict items) -> r = Err (PythonErr TypeError))
    end.
End Returned.

(** ** The info object *)

Section Info.
  Context {Em M I : Type}.
  Variable c : common M I.

  (** The info object shows the call's time-step, scenario and the values the
      configured metrics and indices have then, and nothing under other keys. *)
  Definition shows (ctx : context Em M I) (i : info) : Prop :=
    in_timestep i = cx_timestep ctx /\ in_scenario i = cx_scenario ctx /\
    (forall k m v, In (k, m) (pc_metrics c) -> cx_metric ctx m = Ok v -> get_metric i k = Ok v) /\
    (forall k, ~ In k (map fst (pc_metrics c)) -> get_metric i k = Err (KeyError k)) /\
    (forall k m v, In (k, m) (pc_indices c) -> cx_index ctx m = Ok v -> get_index i k = Ok v) /\
    (forall k, ~ In k (map fst (pc_indices c)) -> get_index i k = Err (KeyError k)).
  (** All configured metrics have a value. *)
  Definition available (ctx : context Em M I) : Prop :=
    (forall k m, In (k, m) (pc_metrics c) -> exists v, cx_metric ctx m = Ok v) /\
    (forall k m, In (k, m) (pc_indices c) -> exists v, cx_index ctx m = Ok v).
  (** One of them has not, and its failure is the result. *)
  Definition metric_failure (ctx : context Em M I) (r : res (calc_err Em) value) : Prop :=
    (exists k m e, In (k, m) (pc_metrics c) /\ cx_metric ctx m = Err e /\ r = Err (MetricErr e)) \/
    (exists k m, In (k, m) (pc_metrics c) /\ cx_metric ctx m = Panic /\ r = Panic) \/
    (exists k m e, In (k, m) (pc_indices c) /\ cx_index ctx m = Err e /\ r = Err (MetricErr e)) \/
    (exists k m, In (k, m) (pc_indices c) /\ cx_index ctx m = Panic /\ r = Panic).
End Info.

Definition distinct_keys {M I} (c : common M I) : Prop := NoDup (map fst (pc_metrics c)) /\ NoDup (map fst (pc_indices c)).

(** What came out of the Python code becomes the result. *)
Definition gives {Em} (str_of : pyval -> string) (t : rtype) (v : res pyerr pyval) (r : res (calc_err Em) value) : Prop :=
  match v with
  | Ok v => returns str_of t v r
  | Err e => r = Err (PythonErr e)
  | Panic => r = Panic
  end.

(** ** A class on its own *)

(** Two infos a reader cannot tell apart. *)
Definition same_info (i j : info) : Prop :=
  in_timestep i = in_timestep j /\ in_scenario i = in_scenario j /\
  (forall k, get_metric i k = get_metric j k) /\ (forall k, get_index i k = get_index j k).

Section Class.
  Context {W Obj : Type}.
  Variable cls : pyclass W Obj.
  (** What an object of the class remembers, what a new one does, and what a call
      of a method makes of it. *)
  Context {St : Type}.
  Variable start : St.
  Variable step : pmethod -> info -> St -> res pyerr pyval * St.

  (** The objects of the class keep to themselves: an object is new when it is
      made, a call depends on what the object remembers and on the info object it
      is given, and changes what this object remembers and no other. *)
  Definition keeps_to_itself : Prop :=
    exists (exists_in : W -> Obj -> Prop) (remembers : W -> Obj -> St),
      (forall w, exists o w', instantiate cls w = (Ok o, w') /\ ~ exists_in w o /\ exists_in w' o /\ remembers w' o = start /\
         (forall o', exists_in w o' -> exists_in w' o' /\ remembers w' o' = remembers w o')) /\
      (forall w o m, exists_in w o -> has_method cls w o m = class_has cls m) /\
      (forall w o m infos r i, exists_in w o -> nth_error infos r = Some i ->
         exists v w', call_method cls w infos o m r = (v, w') /\ step m i (remembers w o) = (v, remembers w' o) /\
           exists_in w' o /\
           (forall o', o' <> o -> exists_in w o' -> exists_in w' o' /\ remembers w' o' = remembers w o')) /\
      (forall m i j s, same_info i j -> step m i s = step m j s).
End Class.

Section Follows.
  Context {Em M I St : Type}.
  Variable str_of : pyval -> string.
  Variable c : common M I.
  Variable t : rtype.
  Variable has : pmethod -> bool.
  Variable step : pmethod -> info -> St -> res pyerr pyval * St.

  (** One call of an object that remembers [s]. *)
  Definition one_call (m : pmethod) (ctx : context Em M I) (s : St) (r : res (calc_err Em) value) (s' : St) : Prop :=
    (has m = false /\ r = Err (PhaseNotEnabled m) /\ s' = s) \/
    (has m = true /\ ~ available c ctx /\ metric_failure c ctx r /\ s' = s) \/
    (has m = true /\ available c ctx /\
     exists i v, shows c ctx i /\ step m i s = (v, s') /\ gives str_of t v r).
  (** A history of calls of one object. *)
  Inductive follows : St -> list (pmethod * context Em M I) -> list (res (calc_err Em) value) -> Prop :=
  | FollowsNil s : follows s [] []
  | FollowsCons s m ctx s' r calls rs :
      one_call m ctx s r s' -> follows s' calls rs -> follows s ((m, ctx) :: calls) (r :: rs).
End Follows.

(** The calls and the results of scenario [i]. *)
Definition of_scenario {A} (i : nat) (l : list (nat * A)) : list A := map snd (filter (fun x => fst x =? i) l).
Definition results_of {A B} (i : nat) (calls : list (nat * A)) (rs : list B) : list B := of_scenario i (combine (map fst calls) rs).

(** A function that depends on nothing but the info object it is given. *)
Definition only_info {W} (f : pyfunction W) (g : info -> res pyerr pyval) : Prop :=
  (forall w infos r i, nth_error infos r = Some i -> fst (f w infos r) = g i) /\
  (forall i j, same_info i j -> g i = g j).
