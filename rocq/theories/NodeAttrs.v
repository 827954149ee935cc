(** The metrics of nodes as a network is built: pywr-core/src/node.rs,
    pywr-core/src/virtual_storage.rs and pywr-core/src/aggregated_node.rs. *)
From Coq Require Import String.
From Coq Require Import QArith List.
From Verif Require Import Base.
Import ListNotations.
Local Open Scope string_scope.

(** node.rs 1041-1067 and 1104-1116: [StorageInitialVolume] and its unresolved form,
    with the metrics of either. *)
Inductive initial (A : Type) :=
| IAbsolute (v : Q)
| IProportional (v : Q)
| IDistributedAbsolute (absolute : Q) (prior_max_volume : A)
| IDistributedProportional (total_volume : A) (proportion : Q) (prior_max_volume : A).
Arguments IAbsolute {A}. Arguments IProportional {A}. Arguments IDistributedAbsolute {A}. Arguments IDistributedProportional {A}.

(** aggregated_node.rs 16-31, 143-150 and 201-208. *)
Inductive relation (A : Type) :=
| RelProportion (factors : list A)
| RelRatio (factors : list A)
| RelCoefficients (factors : list A) (rhs : option A)
| RelExclusive (min_active max_active : nat).
Arguments RelProportion {A}. Arguments RelRatio {A}. Arguments RelCoefficients {A}. Arguments RelExclusive {A}.

(** The metrics of a storage node or of a virtual storage: cost, initial volume and
    limits.  A virtual storage always has an initial volume. *)
Record store (C V : Type) := Store { st_cost : option C; st_initial : option (initial V); st_min : option V; st_max : option V }.
Arguments Store {C V}. Arguments st_cost {C V}. Arguments st_initial {C V}. Arguments st_min {C V}. Arguments st_max {C V}.

Section Attrs.
Context {U M S RE SE : Type}.
(** [UnresolvedMetricF64::resolve] in the phase before the solve, and [try_into] a
    [SimpleMetricF64]. *)
Variable resolve : U -> res RE M.
Variable simplify : M -> res SE S.
(** [0.0.into()]. *)
Variable zero : M.

(** [ResolveMetricF64Error], [CouldNotSimplifyMetricF64], [InitialVolumeNotDefined]. *)
Inductive attr_error :=
| AResolve (attr : string) (source : RE)
| ASimplify (attr : string) (source : SE)
| ANoInitialVolume.

Definition get (attr : string) (u : U) : res attr_error M :=
  match resolve u with Ok m => Ok m | Err e => Err (AResolve attr e) | Panic => Panic end.

(** [resolve] and [try_into] with the attribute that the error of each names. *)
Definition get_simple (attr attr' : string) (u : U) : res attr_error S :=
  rbind (get attr u) (fun m => match simplify m with Ok s => Ok s | Err e => Err (ASimplify attr' e) | Panic => Panic end).

(** [Option::map] and [transpose]. *)
Definition optional {A B} (f : A -> res attr_error B) (o : option A) : res attr_error (option B) :=
  match o with None => Ok None | Some a => rbind (f a) (fun b => Ok (Some b)) end.

(** node.rs 191-222 and aggregated_node.rs 606-639: [build_flow_constraints]. *)
Definition build_flow_limits (min_flow max_flow : option U) : res attr_error (option M * option M) :=
  rbind (optional (get "min_flow") min_flow) (fun mn =>
  rbind (optional (get "max_flow") max_flow) (fun mx => Ok (mn, mx))).

(** node.rs 269-334 and virtual_storage.rs 175-237: [build_storage_initial_volume]. *)
Definition build_initial (i : option (initial U)) : res attr_error (initial S) :=
  match i with
  | None => Err ANoInitialVolume
  | Some (IAbsolute v) => Ok (IAbsolute v)
  | Some (IProportional v) => Ok (IProportional v)
  | Some (IDistributedAbsolute a p) =>
      rbind (get_simple "prior_max_volume" "prior_max_volume" p) (fun p => Ok (IDistributedAbsolute a p))
  | Some (IDistributedProportional t q p) =>
      rbind (get_simple "total_volume" "total_volume" t) (fun t =>
      rbind (get_simple "prior_max_volume" "prior_max_volume" p) (fun p => Ok (IDistributedProportional t q p)))
  end.

(** node.rs 224-267: [build_storage_constraints] of a storage node. *)
Definition node_limits (min_volume max_volume : option U) : res attr_error (option S * option S) :=
  rbind (optional (get_simple "min_volume" "min_volume") min_volume) (fun mn =>
  rbind (optional (get_simple "max_volume" "max_volume") max_volume) (fun mx => Ok (mn, mx))).

(** virtual_storage.rs 130-173: the same of a virtual storage, which names
    [max_volume] if [min_volume] cannot be simplified. *)
Definition vs_limits (min_volume max_volume : option U) : res attr_error (option S * option S) :=
  rbind (optional (get_simple "min_volume" "max_volume") min_volume) (fun mn =>
  rbind (optional (get_simple "max_volume" "max_volume") max_volume) (fun mx => Ok (mn, mx))).

(** node.rs 159-189 and 335-349, 411-418: cost, initial volume and limits of a
    storage node in this order; without a cost it is 0. *)
Definition build_node_store (d : store U U) : res attr_error (store M S) :=
  rbind (match st_cost d with Some u => get "cost" u | None => Ok zero end) (fun cost =>
  rbind (build_initial (st_initial d)) (fun i =>
  rbind (node_limits (st_min d) (st_max d)) (fun l => Ok (Store (Some cost) (Some i) (fst l) (snd l))))).

(** virtual_storage.rs 263-286: the same of a virtual storage. *)
Definition build_vs_store (d : store U U) : res attr_error (store M S) :=
  rbind (optional (get "cost") (st_cost d)) (fun cost =>
  rbind (build_initial (st_initial d)) (fun i =>
  rbind (vs_limits (st_min d) (st_max d)) (fun l => Ok (Store cost (Some i) (fst l) (snd l))))).

(** aggregated_node.rs 58-71, 86-99, 120-141 and 193-200: the [build] of the
    relationships. *)
Definition build_relation (r : relation U) : res attr_error (relation M) :=
  match r with
  | RelProportion fs => rbind (rmap (get "factors") fs) (fun fs => Ok (RelProportion fs))
  | RelRatio fs => rbind (rmap (get "factors") fs) (fun fs => Ok (RelRatio fs))
  | RelCoefficients fs rhs =>
      rbind (rmap (get "factors") fs) (fun fs => rbind (optional (get "rhs") rhs) (fun rhs => Ok (RelCoefficients fs rhs)))
  | RelExclusive a b => Ok (RelExclusive a b)
  end.
End Attrs.
Arguments attr_error : clear implicits.
