(** Model files of several networks, pywr-schema/src/model.rs 646-978.

    What the file of one network says, how it is loaded and how a metric is loaded
    in it are parameters ([Schema], [add_to_network], [load_metric]); they are
    modelled in Schema.v, SchemaNodes.v, SchemaParams.v and MetricSets.v.  The
    order of loading, the builders that are changed on the way and the names are
    not: they are kept as in the original.  The file system is the function
    [read].  [output_path] is left out (it is handed over unchanged). *)
From Coq Require Import QArith.
From Verif Require Import Base Scenario Calendar Timestep Run MultiNetwork SchemaDomain.
Local Open Scope nat_scope.

(** [std::path::Path]: absolute or relative, and its components. *)
Record path : Type := Path { pa_absolute : bool; pa_parts : list string }.
(** [Path::join]: an absolute path replaces. *)
Definition join (dp p : path) : path :=
  if pa_absolute p then p else Path (pa_absolute dp) (pa_parts dp ++ pa_parts p).

Section SchemaMulti.
Context {E Schema Loaded Builder FileMetric Unresolved : Type}.

(** model.rs 646-653 [MultiNetworkTransfer]. *)
Record file_transfer : Type := FileTransfer {
  xf_from : string; xf_metric : FileMetric; xf_name : string; xf_initial : option Q }.
(** [NetworkSchemaRef], model.rs 655-660 [MultiNetworkEntry]. *)
Inductive network_ref : Type := AtPath (p : path) | Inline (s : Schema).
Record file_entry : Type := FileEntry {
  fe_name : string; fe_network : network_ref; fe_transfers : list file_transfer }.

(** network.rs 306-312 [NetworkSchema::from_path], 518-548 [validate], 550-654
    [add_to_network] (on an empty builder; it returns the tables and series, kept
    with the schema) and metric.rs 93-150 [Metric::load], which may add parameters
    to the builder. *)
Variable read : path -> res E Schema.
Variable validate : Schema -> res E unit.
Variable add_to_network : Schema -> model_domain -> option path -> list file_transfer -> res E (Builder * Loaded).
Variable load_metric : Loaded -> model_domain -> option path -> FileMetric -> Builder -> res E (Builder * Unresolved).

(** model.rs 662-691. *)
Inductive file_error : Type :=
| FeDomain (e : domain_error)
| FeRead (p : path) (e : E)
| FeBuild (name : string) (e : E)
| FeTransfer (name : string) (e : E)
| FeNetworkNotFound (name network : string).

Definition tagf {A} (f : E -> file_error) (r : res E A) : res file_error A :=
  match r with Ok a => Ok a | Err e => Err (f e) | Panic => Panic end.

(** model.rs 821-830 [validate]: networks at a path are not looked at. *)
Fixpoint validate_file (es : list file_entry) : res E unit :=
  match es with
  | [] => Ok tt
  | e :: rest =>
      match fe_network e with
      | Inline s => rbind (validate s) (fun _ => validate_file rest)
      | AtPath _ => validate_file rest
      end
  end.

(** model.rs 863-871: where the network is read from. *)
Definition full_path (dp : option path) (p : path) : path :=
  match dp with
  | Some d => if negb (pa_absolute p) then join d p else p
  | None => p
  end.

(** model.rs 859-907: one network of the first loop. *)
Definition load_network (dom : model_domain) (dp : option path) (e : file_entry) : res file_error (Builder * Loaded) :=
  match fe_network e with
  | AtPath p =>
      rbind (tagf (FeRead (full_path dp p)) (read (full_path dp p))) (fun s =>
      tagf (FeBuild (fe_name e)) (add_to_network s dom dp (fe_transfers e)))
  | Inline s => tagf (FeBuild (fe_name e)) (add_to_network s dom dp (fe_transfers e))
  end.

(** model.rs 856-913: the first loop; [network_builder_map] as the list of its
    insertions, the last first. *)
Fixpoint load_networks (dom : model_domain) (dp : option path) (i : nat) (es : list file_entry)
  (m : list (string * nat)) : res file_error (list (Builder * Loaded) * list (string * nat)) :=
  match es with
  | [] => Ok ([], m)
  | e :: rest =>
      rbind (load_network dom dp e) (fun bl =>
      rbind (load_networks dom dp (S i) rest ((fe_name e, i) :: m)) (fun r =>
      Ok (bl :: fst r, snd r)))
  end.

Fixpoint set_nth {A} (l : list A) (i : nat) (a : A) : list A :=
  match l, i with
  | [], _ => []
  | _ :: r, O => a :: r
  | x :: r, S j => x :: set_nth r j a
  end.

(** model.rs 919-955: one transfer. *)
Definition load_transfer (dom : model_domain) (dp : option path) (m : list (string * nat))
  (nets : list (Builder * Loaded)) (t : file_transfer)
  : res file_error (list (Builder * Loaded) * transfer_builder (Unresolved := Unresolved)) :=
  match lookup (xf_from t) m with
  | None => Err (FeNetworkNotFound (xf_name t) (xf_from t))
  | Some idx =>
      rbind (index_or_panic nets idx) (fun bl =>
      rbind (tagf (FeTransfer (xf_name t)) (load_metric (snd bl) dom dp (xf_metric t) (fst bl))) (fun r =>
      Ok (set_nth nets idx (fst r, snd bl), TransferBuilder (xf_name t) (xf_from t) (snd r) (xf_initial t))))
  end.
Fixpoint load_transfers (dom : model_domain) (dp : option path) (m : list (string * nat))
  (nets : list (Builder * Loaded)) (ts : list file_transfer)
  : res file_error (list (Builder * Loaded) * list (transfer_builder (Unresolved := Unresolved))) :=
  match ts with
  | [] => Ok (nets, [])
  | t :: rest =>
      rbind (load_transfer dom dp m nets t) (fun r =>
      rbind (load_transfers dom dp m (fst r) rest) (fun r' => Ok (fst r', snd r :: snd r')))
  end.
(** model.rs 916-958: the second loop. *)
Fixpoint load_all_transfers (dom : model_domain) (dp : option path) (m : list (string * nat))
  (nets : list (Builder * Loaded)) (es : list file_entry)
  : res file_error (list (Builder * Loaded) * list (list (transfer_builder (Unresolved := Unresolved)))) :=
  match es with
  | [] => Ok (nets, [])
  | e :: rest =>
      rbind (load_transfers dom dp m nets (fe_transfers e)) (fun r =>
      rbind (load_all_transfers dom dp m (fst r) rest) (fun r' => Ok (fst r', snd r :: snd r')))
  end.

(** model.rs 963-974: the entries of the model builder. *)
Fixpoint make_entries (es : list file_entry) (nets : list (Builder * Loaded))
  (ts : list (list (transfer_builder (Unresolved := Unresolved)))) : list (entry_builder (Builder := Builder) (Unresolved := Unresolved)) :=
  match es, nets, ts with
  | e :: es', n :: nets', t :: ts' => EntryBuilder (fe_name e) (fst n) t :: make_entries es' nets' ts'
  | _, _, _ => []
  end.

(** model.rs 833-977 [MultiNetworkModelSchema::create_model_builder]. *)
Definition create_model (fuel : nat) (t : file_time) (s : option file_scenarios) (dp : option path) (es : list file_entry)
  : res file_error (model_domain * list (entry_builder (Builder := Builder) (Unresolved := Unresolved))) :=
  rbind (match domain_of_file fuel t s with Ok d => Ok d | Err e => Err (FeDomain e) | Panic => Panic end) (fun dom =>
  rbind (load_networks dom dp 0 es []) (fun r =>
  rbind (load_all_transfers dom dp (snd r) (fst r) es) (fun r' =>
  Ok (dom, make_entries es (fst r') (snd r'))))).
End SchemaMulti.
