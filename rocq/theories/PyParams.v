(** Parameters computed by a Python class or function of the user.

    The user's code is unknown.  It is represented by what the interpreter can
    do with it, over a state [W] of the interpreter that holds whatever the
    user's code can reach: its objects, its module, the objects made from the
    arguments.  The [ParameterInfo] objects are kept apart from [W] because Rust
    writes to them; the user's code gets a reference to one and may read all
    that exist, since it may keep the references it was given.  The info object
    has no setters, so the user's code cannot write to one.

    f64 values are rationals, u64 values are [Z].  A [HashMap] is the list of its
    entries: it is only looked up and inserted into, and the order in which it is
    iterated over only decides which of several errors is reported. *)
From Coq Require Import QArith.
From Verif Require Import Base.
Local Open Scope string_scope.
Local Open Scope list_scope.
Local Open Scope nat_scope.

(** ** Hash maps *)

Fixpoint hget {A} (k : string) (m : list (string * A)) : option A :=
  match m with
  | [] => None
  | (k', a) :: m => if String.eqb k k' then Some a else hget k m
  end.
Fixpoint hinsert {A} (k : string) (a : A) (m : list (string * A)) : list (string * A) :=
  match m with
  | [] => [(k, a)]
  | (k', a') :: m => if String.eqb k k' then (k, a) :: m else (k', a') :: hinsert k a m
  end.

(** ** Python values *)

(** The values a model file can give to Python and Python can give back.  An
    object is anything else. *)
Inductive pyval : Type :=
| PyNone
| PyBool (b : bool)
| PyInt (z : Z)
| PyFloat (q : Q)
| PyStr (s : string)
| PyList (l : list pyval)
| PyDict (l : list (pyval * pyval))
| PyObject (id : nat).

Inductive pyerr : Type := KeyError (k : string) | TypeError | OverflowError | ValueError | Raised (n : nat).

(** *** JSON values into Python values *)

(** serde_json [Number]: a u64, a negative i64 or an f64. *)
Inductive jnumber : Type := JPos (z : Z) | JNeg (z : Z) | JFloat (q : Q).
Inductive json : Type :=
| JNull | JBool (b : bool) | JNum (n : jnumber) | JStr (s : string) | JArr (l : list json) | JObj (l : list (string * json)).

Definition I64_MAX : Z := 2 ^ 63 - 1.
Definition U64_MAX : Z := 2 ^ 64 - 1.
(** serde_json [Number::as_i64] *)
Definition as_i64 (n : jnumber) : option Z :=
  match n with
  | JPos z => if (z <=? I64_MAX)%Z then Some z else None
  | JNeg z => Some z
  | JFloat _ => None
  end.
(** serde_json [Number::as_f64]; the rounding of a large u64 to an f64 is left
    out. *)
Definition as_f64 (n : jnumber) : option Q :=
  match n with
  | JPos z | JNeg z => Some (inject_Z z)
  | JFloat q => Some q
  end.

(** pywr-schema/src/py_utils.rs 108-138 [try_json_value_into_py]; a Rust [None]
    becomes Python's [None] in a list, a dictionary, a tuple and the keyword
    arguments. *)
Fixpoint into_py (v : json) : pyval :=
  match v with
  | JNull => PyNone
  | JBool b => PyBool b
  | JNum n =>
      match as_i64 n with
      | Some i => PyInt i
      | None => match as_f64 n with Some f => PyFloat f | None => PyNone end
      end
  | JStr s => PyStr s
  | JArr l => PyList (map into_py l)
  | JObj l => PyDict (map (fun kv => (PyStr (fst kv), into_py (snd kv))) l)
  end.
(** py_utils.rs 64-80 [try_load_optional_py_args] *)
Definition load_args_py (args : option (list json)) : list pyval :=
  match args with None => [] | Some l => map into_py l end.
(** py_utils.rs 82-105 [try_load_optional_py_kwargs] *)
Definition load_kwargs_py (kwargs : option (list (string * json))) : list (string * pyval) :=
  match kwargs with None => [] | Some l => map (fun kv => (fst kv, into_py (snd kv))) l end.

(** *** Python values into results *)

(** The three value types of a parameter. *)
Record multi_value := mkMulti { mv_values : list (string * Q); mv_indices : list (string * Z) }.
Inductive rtype : Type := RFloat | RInt | RDict.
Inductive value : Type := VF (q : Q) | VI (z : Z) | VM (m : multi_value).

(** pyo3 [f64::extract]: a float or what Python can turn into one; rounding is
    left out. *)
Definition extract_f64 (v : pyval) : res pyerr Q :=
  match v with
  | PyFloat q => Ok q
  | PyInt z => Ok (inject_Z z)
  | PyBool b => Ok (if b then 1 else 0)%Q
  | _ => Err TypeError
  end.
(** pyo3 [u64::extract]: an integer in range; a float is refused. *)
Definition extract_u64 (v : pyval) : res pyerr Z :=
  match v with
  | PyInt z => if (0 <=? z)%Z && (z <=? U64_MAX)%Z then Ok z else Err OverflowError
  | PyBool b => Ok (if b then 1 else 0)%Z
  | _ => Err TypeError
  end.

(** [str(key)], only for the keys a model relies on: strings as they are; the
    text of other keys is left to the interpreter. *)
Section Extract.
  Variable str_of : pyval -> string.
  Definition py_to_string (k : pyval) : string := match k with PyStr s => s | _ => str_of k end.

  (** pywr-core/src/state/mod.rs 205-218: the loop of [extract] for [MultiValue]. *)
  Fixpoint extract_items (items : list (pyval * pyval)) (m : multi_value) : res pyerr multi_value :=
    match items with
    | [] => Ok m
    | (k, v) :: items =>
        match v with
        | PyFloat q => extract_items items (mkMulti (hinsert (py_to_string k) q (mv_values m)) (mv_indices m))
        | PyInt _ | PyBool _ =>
            match extract_u64 v with
            | Ok i => extract_items items (mkMulti (mv_values m) (hinsert (py_to_string k) i (mv_indices m)))
            | Err e => Err e
            | Panic => Panic
            end
        | _ => Err ValueError
        end
    end.
  (** state/mod.rs 198-222 [MultiValue::extract] *)
  Definition extract_multi (v : pyval) : res pyerr multi_value :=
    match v with
    | PyDict items => extract_items items (mkMulti [] [])
    | _ => Err TypeError
    end.
  (** state/mod.rs 229-235 *)
  Definition multi_get_value (m : multi_value) (k : string) : option Q := hget k (mv_values m).
  Definition multi_get_index (m : multi_value) (k : string) : option Z := hget k (mv_indices m).

  Definition extract (t : rtype) (v : pyval) : res pyerr value :=
    match t with
    | RFloat => match extract_f64 v with Ok q => Ok (VF q) | Err e => Err e | Panic => Panic end
    | RInt => match extract_u64 v with Ok z => Ok (VI z) | Err e => Err e | Panic => Panic end
    | RDict => match extract_multi v with Ok m => Ok (VM m) | Err e => Err e | Panic => Panic end
    end.
End Extract.

(** ** What the user's code is given *)

(** py.rs 23-38 [ParameterInfo].  A time-step and a scenario are represented by
    their numbers. *)
Record info := mkInfo {
  in_timestep : nat;
  in_scenario : nat;
  in_metrics : list (string * Q);
  in_indices : list (string * Z);
}.
(** py.rs 42-47 [get_metric] *)
Definition get_metric (i : info) (k : string) : res pyerr Q :=
  match hget k (in_metrics i) with Some q => Ok q | None => Err (KeyError k) end.
(** py.rs 49-54 [get_index] *)
Definition get_index (i : info) (k : string) : res pyerr Z :=
  match hget k (in_indices i) with Some z => Ok z | None => Err (KeyError k) end.

Inductive pmethod : Type := Before | After.

Section Python.
  (** The interpreter's state, objects, the errors of metrics. *)
  Variables W Obj Em : Type.
  (** Metrics of the two value types. *)
  Variables M I : Type.

  (** [GeneralCalculationError], as far as it concerns this parameter. *)
  Inductive calc_err : Type :=
  | MetricErr (e : Em)
  | PythonErr (e : pyerr)
  | PhaseNotEnabled (m : pmethod).

  (** [GeneralParameterContext]: the time-step, the scenario, and the network and
      its state as what each metric is worth in them. *)
  Record context := mkCtx {
    cx_timestep : nat;
    cx_scenario : nat;
    cx_metric : M -> res Em Q;
    cx_index : I -> res Em Z;
  }.

  (** py.rs 57-64 [PyCommon]; the name is not needed, and the arguments are part
      of what [instantiate] and [call_function] do. *)
  Record common := mkCommon { pc_metrics : list (string * M); pc_indices : list (string * I) }.

  (** py.rs 79-91 [update_metrics] and 93-105 [update_indices], which are the same
      but for the type of the values; also gives the map as it is left by an
      error. *)
  Fixpoint update_values {A B} (value_of : A -> res Em B) (ms : list (string * A)) (values : list (string * B))
    : res Em unit * list (string * B) :=
    match ms with
    | [] => (Ok tt, values)
    | (k, m) :: ms =>
        match value_of m with
        | Ok v => update_values value_of ms (hinsert k v values)
        | Err e => (Err e, values)
        | Panic => (Panic, values)
        end
    end.

  (** py.rs 230-241 and 601-611: the info object is brought up to date. *)
  Definition update_info (c : common) (ctx : context) (i : info) : res Em unit * info :=
    let '(r, ms) := update_values (cx_metric ctx) (pc_metrics c) (in_metrics i) in
    match r with
    | Ok _ =>
        let '(r, is) := update_values (cx_index ctx) (pc_indices c) (in_indices i) in
        (r, mkInfo (cx_timestep ctx) (cx_scenario ctx) ms is)
    | Err e => (Err e, mkInfo (cx_timestep ctx) (cx_scenario ctx) ms (in_indices i))
    | Panic => (Panic, mkInfo (cx_timestep ctx) (cx_scenario ctx) ms (in_indices i))
    end.

  (** What the interpreter does with the user's class: make an object of it from
      the arguments of the model file, tell whether an object has a method, call
      one with an info object.  [infos] are all the info objects. *)
  Record pyclass := mkClass {
    class_has : pmethod -> bool;
    instantiate : W -> res pyerr Obj * W;
    has_method : W -> Obj -> pmethod -> bool;
    call_method : W -> list info -> Obj -> pmethod -> nat -> res pyerr pyval * W;
  }.
  (** pywr-schema/src/parameters/python.rs 218-235 [add_to_network]: the Python
      objects for the arguments are made once, when the file is loaded, and each
      object of the class is made from them. *)
  Definition load_class {Arg} (has : pmethod -> bool) (alloc : W -> Arg * W) (construct : Arg -> W -> res pyerr Obj * W)
      (has_m : W -> Obj -> pmethod -> bool) (call : W -> list info -> Obj -> pmethod -> nat -> res pyerr pyval * W) (w : W) : pyclass * W :=
    let '(a, w) := alloc w in (mkClass has (construct a) has_m call, w).
  (** The user's function, with the arguments of the model file. *)
  Definition pyfunction : Type := W -> list info -> nat -> res pyerr pyval * W.

  (** Everything outside the parameter's own state. *)
  Record world := mkWorld { w_user : W; w_infos : list info }.

  Fixpoint set_info (l : list info) (n : nat) (i : info) : list info :=
    match l, n with
    | [], _ => []
    | _ :: l, O => i :: l
    | x :: l, S n => x :: set_info l n i
    end.

  (** py.rs 159-182 [ensure_parameter_info] *)
  Definition ensure_info (o : option nat) (ctx : context) (w : world) : nat * world :=
    match o with
    | Some r => (r, w)
    | None =>
        (length (w_infos w),
         mkWorld (w_user w) (w_infos w ++ [mkInfo (cx_timestep ctx) (cx_scenario ctx) [] []]))
    end.

  (** py.rs 150-154 [InternalObj] *)
  Record internal := mkInternal { it_obj : Obj; it_info : option nat }.

  Variable str_of : pyval -> string.

  (** py.rs 185-206 [PyClassParameter::setup] *)
  Definition class_setup (cls : pyclass) (w : world) : res pyerr internal * world :=
    match instantiate cls (w_user w) with
    | (Ok o, u) => (Ok (mkInternal o None), mkWorld u (w_infos w))
    | (Err e, u) => (Err e, mkWorld u (w_infos w))
    | (Panic, u) => (Panic, mkWorld u (w_infos w))
    end.

  Definition extracted (t : rtype) (v : pyval) : res calc_err value :=
    match extract str_of t v with Ok x => Ok x | Err e => Err (PythonErr e) | Panic => Panic end.

  (** py.rs 208-273 [PyClassParameter::call_method] *)
  Definition class_call (cls : pyclass) (c : common) (t : rtype) (m : pmethod) (ctx : context) (s : internal) (w : world)
    : res calc_err value * internal * world :=
    let '(r, w) := ensure_info (it_info s) ctx w in
    let s := mkInternal (it_obj s) (Some r) in
    if has_method cls (w_user w) (it_obj s) m then
      match nth_error (w_infos w) r with
      | None => (Panic, s, w)
      | Some i =>
          let '(u, i) := update_info c ctx i in
          let w := mkWorld (w_user w) (set_info (w_infos w) r i) in
          match u with
          | Err e => (Err (MetricErr e), s, w)
          | Panic => (Panic, s, w)
          | Ok _ =>
              let '(v, u) := call_method cls (w_user w) (w_infos w) (it_obj s) m r in
              let w := mkWorld u (w_infos w) in
              match v with
              | Ok v => (extracted t v, s, w)
              | Err e => (Err (PythonErr e), s, w)
              | Panic => (Panic, s, w)
              end
          end
      end
    else (Err (PhaseNotEnabled m), s, w).

  (** py.rs 571-655 [PyFuncParameter::setup] and [compute]; the state is the info
      object. *)
  Definition func_setup : option nat := None.
  Definition func_call (f : pyfunction) (c : common) (t : rtype) (ctx : context) (s : option nat) (w : world)
    : res calc_err value * option nat * world :=
    let '(r, w) := ensure_info s ctx w in
    let s := Some r in
    match nth_error (w_infos w) r with
    | None => (Panic, s, w)
    | Some i =>
        let '(u, i) := update_info c ctx i in
        let w := mkWorld (w_user w) (set_info (w_infos w) r i) in
        match u with
        | Err e => (Err (MetricErr e), s, w)
        | Panic => (Panic, s, w)
        | Ok _ =>
            let '(v, u) := f (w_user w) (w_infos w) r in
            let w := mkWorld u (w_infos w) in
            match v with
            | Ok v => (extracted t v, s, w)
            | Err e => (Err (PythonErr e), s, w)
            | Panic => (Panic, s, w)
            end
        end
    end.

  (** ** When it is computed *)

  (** py.rs 389-434 [build]: the phases a class is computed in, which are also
      the ones its metrics are resolved for; 745-760: a function before only. *)
  Inductive phase : Type := PhBoth | PhBefore | PhAfter.
  Definition class_phase (cls : pyclass) : option phase :=
    match class_has cls Before, class_has cls After with
    | true, true => Some PhBoth
    | true, false => Some PhBefore
    | false, true => Some PhAfter
    | false, false => None
    end.
  Definition func_phase : phase := PhBefore.
  (** pywr-core/src/parameters/mod.rs 782-835 [GeneralParameterEntry]: the calls an entry
      makes. *)
  Definition calls_of (p : phase) : list pmethod :=
    match p with PhBoth => [Before; After] | PhBefore => [Before] | PhAfter => [After] end.

  (** ** A run *)

  (** The parameter's state in each scenario is made before the run
      (network.rs, [setup_network]); the scenarios are then run in some order,
      possibly in parallel, but the interpreter runs one call at a time.  The
      calls are given by scenario, method and context; results are kept in the
      order of the calls.  A run stops at the first error; going on shows what
      would have happened and says more. *)
  Fixpoint setup_all (cls : pyclass) (n : nat) (w : world) : res pyerr (list internal) * world :=
    match n with
    | O => (Ok [], w)
    | S n =>
        match class_setup cls w with
        | (Ok s, w) =>
            match setup_all cls n w with
            | (Ok l, w) => (Ok (s :: l), w)
            | (Err e, w) => (Err e, w)
            | (Panic, w) => (Panic, w)
            end
        | (Err e, w) => (Err e, w)
        | (Panic, w) => (Panic, w)
        end
    end.

  Fixpoint set_state {S} (l : list S) (n : nat) (s : S) : list S :=
    match l, n with
    | [], _ => []
    | _ :: l, O => s :: l
    | x :: l, Datatypes.S n => x :: set_state l n s
    end.

  Fixpoint run_class (cls : pyclass) (c : common) (t : rtype) (calls : list (nat * (pmethod * context)))
      (ss : list internal) (w : world) : list (res calc_err value) :=
    match calls with
    | [] => []
    | (i, (m, ctx)) :: calls =>
        match nth_error ss i with
        | None => Panic :: run_class cls c t calls ss w
        | Some s =>
            let '(r, s, w) := class_call cls c t m ctx s w in
            r :: run_class cls c t calls (set_state ss i s) w
        end
    end.
  Definition class_results (cls : pyclass) (c : common) (t : rtype) (n : nat) (calls : list (nat * (pmethod * context)))
      (w : world) : res pyerr (list (res calc_err value)) :=
    match setup_all cls n w with
    | (Ok ss, w) => Ok (run_class cls c t calls ss w)
    | (Err e, _) => Err e
    | (Panic, _) => Panic
    end.

  Fixpoint run_func (f : pyfunction) (c : common) (t : rtype) (calls : list (nat * context))
      (ss : list (option nat)) (w : world) : list (res calc_err value) :=
    match calls with
    | [] => []
    | (i, ctx) :: calls =>
        match nth_error ss i with
        | None => Panic :: run_func f c t calls ss w
        | Some s =>
            let '(r, s, w) := func_call f c t ctx s w in
            r :: run_func f c t calls (set_state ss i s) w
        end
    end.
  Definition func_results (f : pyfunction) (c : common) (t : rtype) (n : nat) (calls : list (nat * context))
      (w : world) : list (res calc_err value) :=
    run_func f c t calls (repeat func_setup n) w.
End Python.

Arguments MetricErr {Em}. Arguments PythonErr {Em}. Arguments PhaseNotEnabled {Em}.
Arguments mkCtx {Em M I}. Arguments cx_timestep {Em M I}. Arguments cx_scenario {Em M I}. Arguments cx_metric {Em M I}. Arguments cx_index {Em M I}.
Arguments mkCommon {M I}. Arguments pc_metrics {M I}. Arguments pc_indices {M I}.
Arguments update_values {Em A B}. Arguments update_info {Em M I}.
Arguments mkClass {W Obj}. Arguments class_has {W Obj}. Arguments instantiate {W Obj}. Arguments has_method {W Obj}. Arguments call_method {W Obj}.
Arguments load_class {W Obj Arg}. Arguments mkWorld {W}. Arguments w_user {W}. Arguments w_infos {W}.
Arguments ensure_info {W Em M I}. Arguments mkInternal {Obj}. Arguments it_obj {Obj}. Arguments it_info {Obj}.
Arguments class_setup {W Obj}. Arguments extracted {Em}. Arguments class_call {W Obj Em M I}. Arguments func_call {W Em M I}.
Arguments class_phase {W Obj}. Arguments setup_all {W Obj}. Arguments run_class {W Obj Em M I}. Arguments class_results {W Obj Em M I}.
Arguments run_func {W Em M I}. Arguments func_results {W Em M I}.
