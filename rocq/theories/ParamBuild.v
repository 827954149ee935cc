(** * Building and scheduling parameters.

    Models [ParameterCollectionBuilder::build] and the private [push_*]
    functions of [ParameterCollection] (pywr-core/src/parameters/mod.rs), and
    the resolution of metrics to parameter values (pywr-core/src/metric.rs).

    What a parameter computes is not modelled here: see ParamEval.v. *)
From Verif Require Import Base.

(** pywr-core/src/parameters/mod.rs:428-434.  [ParameterName] is a name with an
    optional parent; the builder only compares names, so a number stands for
    the pair. *)
Definition pname := nat.

(** The three value types, f64, u64 and [MultiValue]
    (pywr-core/src/parameters/mod.rs: [ParameterCollection] has one vector of
    each class per type). *)
Inductive ptype := PF64 | PU64 | PMulti.

Definition ptype_eqb (a b : ptype) : bool :=
  match a, b with
  | PF64, PF64 | PU64, PU64 | PMulti, PMulti => true
  | _, _ => false
  end.

(** pywr-core/src/parameters/mod.rs:421-425 [ParameterReturnValue]. *)
Inductive return_value := RVBefore | RVAfter | RVAfterOrInitial.

(** pywr-core/src/metric.rs:424-429 [MetricConsumerPhase]. *)
Inductive consumer_phase := CBefore | CAfter | CBoth.

(** pywr-core/src/parameters/mod.rs:353-357 [GeneralParameterRegistration]. *)
Record registration := Reg {
  reg_param : nat;
  reg_before : option nat;
  reg_after : option nat }.

(** pywr-core/src/parameters/mod.rs:370-374 [ParameterIndex]. *)
Inductive pindex :=
| IConst (i : nat)
| ISimple (i : nat)
| IGeneral (r : registration).

(** How the value of a parameter is turned into the value of a metric: as it
    is, as an index, as an index read as a float, or the entry of a multi-value
    under a key (pywr-core/src/metric.rs:239-256, 1360-1381).  SIMPLIFICATION: a
    multi-value has separate entries for floats and for indices (state/mod.rs
    341-375); here what is under a key is one entry, whichever metric reads it. *)
Inductive access := AcF64 | AcU64 | AcU64asF64 | AcMulti (key : nat).

Definition access_type (a : access) : ptype :=
  match a with
  | AcF64 => PF64
  | AcU64 | AcU64asF64 => PU64
  | AcMulti _ => PMulti
  end.

(** pywr-core/src/metric.rs:137-179 [MetricF64] and 1344-1357 [MetricU64], one
    type for both.  [MLit] is a literal constant.  [MOther] stands for every
    metric that reads the network state or other data that is not a parameter
    (node and edge flows, volumes, virtual storages, transfers, derived
    metrics). *)
Inductive metric :=
| MLit (k : nat)
| MConstP (a : access) (i : nat)
| MSimpleP (a : access) (i : nat)
| MBeforeP (a : access) (i : nat)
| MAfterP (a : access) (i : nat)
| MNodeMaxFlow (node : nat)
| MOther (k : nat).

(** pywr-core/src/metric.rs:458-496 [UnresolvedMetricF64] and 1479-1491
    [UnresolvedMetricU64].  [UF64] and [UU64] are the [ParameterValue] variants
    of the two. *)
Inductive uref :=
| UF64 (n : pname) (rv : return_value)
| UU64 (n : pname) (rv : return_value)
| UMulti (n : pname) (key : nat) (rv : return_value)
| ULit (k : nat)
| UNodeMaxFlow (node : nat)
| UOther (k : nat).

(** pywr-core/src/metric.rs: [MetricF64ResolutionError].  Only
    [ParameterNotFound] is told apart by the callers. *)
Inductive resolve_err :=
| RNotFound (n : pname)
| RWrongPhase (n : pname)
| ROtherErr.

(** pywr-core/src/network.rs [ResolutionMaps].  [mp_other] and [mp_nodes] are
    the known identifiers of everything that is not a parameter. *)
Record maps := Maps {
  mp_f64 : list (pname * pindex);
  mp_u64 : list (pname * pindex);
  mp_multi : list (pname * pindex);
  mp_nodes : list nat;
  mp_other : list nat }.

Fixpoint lookup (l : list (pname * pindex)) (n : pname) : option pindex :=
  match l with
  | [] => None
  | (k, i) :: tl => if k =? n then Some i else lookup tl n
  end.

Definition map_of (t : ptype) (m : maps) : list (pname * pindex) :=
  match t with PF64 => mp_f64 m | PU64 => mp_u64 m | PMulti => mp_multi m end.

(** [HashMap::insert] on the map of the parameter's type
    (pywr-core/src/parameters/mod.rs:3051, 3088, 3125). *)
Definition insert (t : ptype) (n : pname) (i : pindex) (m : maps) : maps :=
  match t with
  | PF64 => Maps ((n, i) :: mp_f64 m) (mp_u64 m) (mp_multi m) (mp_nodes m) (mp_other m)
  | PU64 => Maps (mp_f64 m) ((n, i) :: mp_u64 m) (mp_multi m) (mp_nodes m) (mp_other m)
  | PMulti => Maps (mp_f64 m) (mp_u64 m) ((n, i) :: mp_multi m) (mp_nodes m) (mp_other m)
  end.

(** pywr-core/src/metric.rs:797-938 [resolve_parameter_index_f64_to_metric_f64],
    and its copies for u64 read as f64 (945-1086), multi-values (1093-1262),
    u64 (1555-1677) and multi-values read as u64 (1684-1834).  SIMPLIFICATION
    that is not faithful: the last two accept a constant or simple parameter
    whatever the return value (1563-1564, 1693-1702), whereas this table, which
    is that of the first three, refuses all but [RVBefore].  The two are in
    ParamIndexRef.v as written; C21_shared_table_exact says where they differ. *)
Definition resolve_index (n : pname) (a : access) (idx : pindex)
    (rv : return_value) (ph : consumer_phase) : res resolve_err metric :=
  match idx with
  | IConst i =>
      match rv with
      | RVBefore => Ok (MConstP a i)
      | RVAfter | RVAfterOrInitial => Err (RWrongPhase n)
      end
  | ISimple i =>
      match rv with
      | RVBefore => Ok (MSimpleP a i)
      | RVAfter | RVAfterOrInitial => Err (RWrongPhase n)
      end
  | IGeneral r =>
      match rv, ph with
      | RVBefore, _ =>
          match reg_before r with
          | Some b => Ok (MBeforeP a b)
          | None => Err (RWrongPhase n)
          end
      | RVAfter, CBefore | RVAfter, CBoth => Err (RWrongPhase n)
      | RVAfter, CAfter | RVAfterOrInitial, _ =>
          match reg_after r with
          | Some o => Ok (MAfterP a o)
          | None => Err (RWrongPhase n)
          end
      end
  end.

(** pywr-core/src/metric.rs:568-783 [UnresolvedMetricF64::resolve] and
    1500-1541 [UnresolvedMetricU64::resolve]. *)
Definition resolve (m : maps) (u : uref) (ph : consumer_phase)
    : res resolve_err metric :=
  match u with
  | UF64 n rv =>
      match lookup (mp_f64 m) n with
      | Some idx => resolve_index n AcF64 idx rv ph
      | None =>
          match lookup (mp_u64 m) n with
          | Some idx => resolve_index n AcU64asF64 idx rv ph
          | None => Err (RNotFound n)
          end
      end
  | UU64 n rv =>
      match lookup (mp_u64 m) n with
      | Some idx => resolve_index n AcU64 idx rv ph
      | None => Err (RNotFound n)
      end
  | UMulti n k rv =>
      match lookup (mp_multi m) n with
      | Some idx => resolve_index n (AcMulti k) idx rv ph
      | None => Err (RNotFound n)
      end
  | ULit k => Ok (MLit k)
  | UNodeMaxFlow nd =>
      if existsb (Nat.eqb nd) (mp_nodes m) then Ok (MNodeMaxFlow nd) else Err ROtherErr
  | UOther k =>
      if existsb (Nat.eqb k) (mp_other m) then Ok (MOther k) else Err ROtherErr
  end.

(** The classes a builder distinguishes its resolved metrics by:
    [MetricF64::try_into] a constant or a simple metric
    (pywr-core/src/metric.rs:348-380). *)
Inductive mclass := KConst | KSimple | KGeneral.

Definition metric_class (mt : metric) : mclass :=
  match mt with
  | MLit _ | MConstP _ _ => KConst
  | MSimpleP _ _ => KSimple
  | _ => KGeneral
  end.

(** pywr-core/src/parameters/mod.rs:776-779 [GeneralAfterOperation]. *)
Inductive aop := OpValue | OpHook.

(** pywr-core/src/parameters/mod.rs:899-903 [BuiltParameter]: a constant parameter, a
    simple one, or a general one with an optional value before the solve and an
    optional operation after it ([GeneralParameterEntry], 782-870). *)
Inductive shape :=
| ShConst
| ShSimple
| ShGeneral (before : bool) (after : option aop).

(** A [ParameterBuilder] (pywr-core/src/parameters/mod.rs:919-929): its name,
    the type of its value, the metrics it resolves, in order, each with the
    phase it resolves it for, whether its own definition is consistent before
    anything is resolved, and what it becomes, given the classes of the
    resolved metrics ([None] when it rejects them). *)
Record pbuilder := PBuilder {
  pb_name : pname;
  pb_type : ptype;
  pb_precheck : bool;
  pb_refs : list (uref * consumer_phase);
  pb_shape : list mclass -> option shape }.

(** A built parameter, as the collection holds it. *)
Record entry := Entry {
  e_name : pname;
  e_metrics : list (metric * consumer_phase) }.

Inductive build1_err :=
| B1Retry (missing : pname)
| B1Fail.

(** The [resolve_metric_*!] macros (pywr-core/src/parameters/mod.rs:944-1175):
    the metrics are resolved in order; an unknown parameter makes the builder
    return [Retry], any other failure is an error. *)
Fixpoint resolve_refs (m : maps) (rs : list (uref * consumer_phase))
    : res build1_err (list (metric * consumer_phase)) :=
  match rs with
  | [] => Ok []
  | (u, ph) :: tl =>
      match resolve m u ph with
      | Ok mt =>
          match resolve_refs m tl with
          | Ok mts => Ok ((mt, ph) :: mts)
          | Err e => Err e
          | Panic => Panic
          end
      | Err (RNotFound n) => Err (B1Retry n)
      | Err _ => Err B1Fail
      | Panic => Panic
      end
  end.

(** [ParameterBuilder::build]. *)
Definition build1 (m : maps) (b : pbuilder) : res build1_err (entry * shape) :=
  if pb_precheck b then
    match resolve_refs m (pb_refs b) with
    | Ok mts =>
        match pb_shape b (map (fun p => metric_class (fst p)) mts) with
        | Some sh => Ok (Entry (pb_name b) mts, sh)
        | None => Err B1Fail
        end
    | Err e => Err e
    | Panic => Panic
    end
  else Err B1Fail.

(** pywr-core/src/parameters/mod.rs:1604-1620 [GeneralBeforeScheduleEntry]. *)
Record before_sched := BSched {
  bs_type : ptype;
  bs_index : nat;
  bs_entry : entry;
  bs_output : nat }.

(** pywr-core/src/parameters/mod.rs:1634-1647 [GeneralAfterScheduleEntry]; the output is
    [None] for a hook. *)
Record after_sched := ASched {
  as_type : ptype;
  as_index : nat;
  as_entry : entry;
  as_output : option nat }.

(** pywr-core/src/parameters/mod.rs:1710-1733 [ParameterCollection], with the
    three typed vectors of each class as one function of the type. *)
Record collection := Collection {
  c_const : ptype -> list entry;
  c_simple : ptype -> list entry;
  c_general : ptype -> list entry;
  c_num_before : ptype -> nat;
  c_num_after : ptype -> nat;
  c_const_order : list (ptype * nat);
  c_simple_order : list (ptype * nat);
  c_before_order : list before_sched;
  c_after_order : list after_sched }.

Definition empty_collection : collection :=
  Collection (fun _ => []) (fun _ => []) (fun _ => []) (fun _ => 0) (fun _ => 0)
    [] [] [] [].

Definition at_type {A : Type} (t : ptype) (g : A -> A) (f : ptype -> A) : ptype -> A :=
  fun t' => if ptype_eqb t t' then g (f t') else f t'.

(** pywr-core/src/parameters/mod.rs:1951-1995 [push_general_f64] and its copies
    for u64 and multi-values. *)
Definition push_general (t : ptype) (e : entry) (bf : bool) (af : option aop)
    (c : collection) : collection * pindex :=
  let index := length (c_general c t) in
  let before := if bf then Some (c_num_before c t) else None in
  let after :=
    match af with Some OpValue => Some (c_num_after c t) | _ => None end in
  (Collection (c_const c) (c_simple c)
     (at_type t (fun l => l ++ [e]) (c_general c))
     (if bf then at_type t S (c_num_before c) else c_num_before c)
     (match after with Some _ => at_type t S (c_num_after c) | None => c_num_after c end)
     (c_const_order c) (c_simple_order c)
     (match before with
      | Some o => c_before_order c ++ [BSched t index e o]
      | None => c_before_order c
      end)
     (match af with
      | Some _ => c_after_order c ++ [ASched t index e after]
      | None => c_after_order c
      end),
   IGeneral (Reg index before after)).

(** pywr-core/src/parameters/mod.rs:2000-2007 [push_simple_f64] and copies. *)
Definition push_simple (t : ptype) (e : entry) (c : collection) : collection * pindex :=
  let index := length (c_simple c t) in
  (Collection (c_const c) (at_type t (fun l => l ++ [e]) (c_simple c)) (c_general c)
     (c_num_before c) (c_num_after c)
     (c_const_order c) (c_simple_order c ++ [(t, index)])
     (c_before_order c) (c_after_order c),
   ISimple index).

(** pywr-core/src/parameters/mod.rs:2012-2019 [push_const_f64] and copies. *)
Definition push_const (t : ptype) (e : entry) (c : collection) : collection * pindex :=
  let index := length (c_const c t) in
  (Collection (at_type t (fun l => l ++ [e]) (c_const c)) (c_simple c) (c_general c)
     (c_num_before c) (c_num_after c)
     (c_const_order c ++ [(t, index)]) (c_simple_order c)
     (c_before_order c) (c_after_order c),
   IConst index).

Definition push (t : ptype) (e : entry) (sh : shape) (c : collection)
    : collection * pindex :=
  match sh with
  | ShConst => push_const t e c
  | ShSimple => push_simple t e c
  | ShGeneral bf af => push_general t e bf af c
  end.

(** pywr-core/src/parameters/mod.rs:1930-1934 [has_name]. *)
Definition has_name (c : collection) (n : pname) : bool :=
  existsb (fun t =>
    existsb (fun e => e_name e =? n) (c_const c t ++ c_simple c t ++ c_general c t))
    [PF64; PU64; PMulti].

(** [ParameterCollectionBuilderError]. *)
Inductive build_err :=
| DuplicateName (n : pname)
| BuildFailed (n : pname)
| NotFound (n : pname)
| Circular (names : list pname).

(** The three [for] loops of one round
    (pywr-core/src/parameters/mod.rs:3033-3142).  The builders are kept in one
    list, the f64 ones first, then u64, then multi-values, which is the order
    in which the three loops visit them; the builders that fail keep that
    order. *)
Fixpoint pass (bs : list pbuilder) (c : collection) (m : maps)
    : res build_err (collection * maps * list (pbuilder * pname)) :=
  match bs with
  | [] => Ok (c, m, [])
  | b :: tl =>
      if has_name c (pb_name b) then Err (DuplicateName (pb_name b))
      else
        match build1 m b with
        | Ok (e, sh) =>
            let (c', idx) := push (pb_type b) e sh c in
            pass tl c' (insert (pb_type b) (pb_name b) idx m)
        | Err (B1Retry missing) =>
            match pass tl c m with
            | Ok (c', m', failed) => Ok (c', m', (b, missing) :: failed)
            | Err e => Err e
            | Panic => Panic
            end
        | Err B1Fail => Err (BuildFailed (pb_name b))
        | Panic => Panic
        end
  end.

(** pywr-core/src/parameters/mod.rs:3146-3167: no builder made progress. *)
Definition stuck_error (failed : list (pbuilder * pname)) : build_err :=
  let failed_names := map (fun p => pb_name (fst p)) failed in
  match find (fun missing => negb (existsb (Nat.eqb missing) failed_names))
          (map snd failed) with
  | Some missing => NotFound missing
  | None => Circular failed_names
  end.

(** The [while] loop (pywr-core/src/parameters/mod.rs:3027-3176); [None] when
    the fuel runs out. *)
Fixpoint build_loop (fuel : nat) (bs : list pbuilder) (num_unbuilt : nat)
    (c : collection) (m : maps) : option (res build_err (collection * maps)) :=
  match fuel with
  | 0 => None
  | S fuel' =>
      match bs with
      | [] => Some (Ok (c, m))
      | _ =>
          match pass bs c m with
          | Ok (c', m', failed) =>
              if num_unbuilt =? length failed
              then Some (Err (stuck_error failed))
              else build_loop fuel' (map fst failed) (length failed) c' m'
          | Err e => Some (Err e)
          | Panic => Some Panic
          end
      end
  end.

(** The validation of the names (pywr-core/src/parameters/mod.rs:3011-3021). *)
Fixpoint first_duplicate (seen : list pname) (ns : list pname) : option pname :=
  match ns with
  | [] => None
  | n :: tl =>
      if existsb (Nat.eqb n) seen then Some n else first_duplicate (n :: seen) tl
  end.

(** The resolution maps the parameters are built with hold no parameter yet
    (pywr-core/src/network.rs:2094-2100 [NetworkBuilder::build]). *)
Definition initial_maps (nodes other : list nat) : maps := Maps [] [] [] nodes other.

(** pywr-core/src/parameters/mod.rs:3005-3179 [build]. *)
Definition build_fuel (fuel : nat) (nodes other : list nat) (bs : list pbuilder)
    : option (res build_err (collection * maps)) :=
  match first_duplicate [] (map pb_name bs) with
  | Some n => Some (Err (DuplicateName n))
  | None => build_loop fuel bs (length bs) empty_collection (initial_maps nodes other)
  end.

(** The loop runs at most once more than there are builders: see
    [C20_terminates]. *)
Definition build (nodes other : list nat) (bs : list pbuilder)
    : option (res build_err (collection * maps)) :=
  build_fuel (S (length bs)) nodes other bs.
