(** Specification vocabulary for C73. *)
From Coq Require Import QArith.
From Verif Require Import Base Scenario Calendar Timestep Run MultiNetwork MultiNetworkSpec SchemaDomain SchemaMulti.
Local Open Scope nat_scope.

Section Spec.
Context {E Schema Loaded Builder FileMetric Unresolved Net Maps Metric X : Type}.
Notation file_transfer := (file_transfer (FileMetric := FileMetric)).
Notation file_entry := (file_entry (Schema := Schema) (FileMetric := FileMetric)).
Notation network_ref := (network_ref (Schema := Schema)).
Notation entry := (entry (Net := Net) (Metric := Metric)).
Variable read : path -> res E Schema.
Variable add_to_network : Schema -> model_domain -> option path -> list file_transfer -> res E (Builder * Loaded).
Variable load_metric : Loaded -> model_domain -> option path -> FileMetric -> Builder -> res E (Builder * Unresolved).
Variable build_network : Builder -> list (string * nat) -> res E (Net * Maps).
Variable resolve : Maps -> Unresolved -> res E Metric.
Variable get_value : Metric -> Net -> local (X := X) -> res E Q.
Variable operations : Net -> list (timestep -> scenario_index -> list Q -> X -> res E X).

(** The network an entry of the file means: the one written there, or the one in
    the file it names, which is looked for in the data directory unless its path
    is absolute. *)
Inductive means_schema : option path -> network_ref -> Schema -> Prop :=
| MeansInline dp s : means_schema dp (Inline s) s
| MeansAbsolute dp p s : pa_absolute p = true -> read p = Ok s -> means_schema dp (AtPath p) s
| MeansRelative p s : read p = Ok s -> means_schema None (AtPath p) s
| MeansInData d p s : pa_absolute p = false -> read (Path (pa_absolute d) (pa_parts d ++ pa_parts p)) = Ok s ->
    means_schema (Some d) (AtPath p) s.

(** The transfers of the file that take a value from network [n], in the file's order. *)
Definition asked_of (n : string) (es : list file_entry) : list file_transfer :=
  filter (fun t => String.eqb (xf_from t) n) (concat (map fe_transfers es)).

(** Loading metrics one after the other in one network. *)
Inductive prepared (L : Loaded) (dom : model_domain) (dp : option path) : Builder -> list file_transfer -> Builder -> Prop :=
| PreparedNil b : prepared L dom dp b [] b
| PreparedCons b t ts b1 u b2 : load_metric L dom dp (xf_metric t) b = Ok (b1, u) -> prepared L dom dp b1 ts b2 ->
    prepared L dom dp b (t :: ts) b2.

(** Network [e] of the model is the one of entry [f] of the file: loaded from what
    the entry means, with what the transfers to other networks ask of it added,
    and knowing its own transfers by their places. *)
Definition network_of (dom : model_domain) (dp : option path) (file : list file_entry) (f : file_entry) (e : entry)
  (L : Loaded) (b0 b : Builder) (maps : Maps) : Prop :=
  en_name e = fe_name f /\
  exists s numbers, means_schema dp (fe_network f) s /\
    add_to_network s dom dp (fe_transfers f) = Ok (b0, L) /\
    prepared L dom dp b0 (asked_of (fe_name f) file) b /\
    build_network b numbers = Ok (en_network e, maps) /\
    forall i t, nth_error (fe_transfers f) i = Some t -> lookup (xf_name t) numbers = Some i.

(** The metric of transfer [t] in the network it is taken from: the metric of the
    file, loaded in that network. *)
Definition metric_of (dom : model_domain) (dp : option path) (file : list file_entry) (t : file_transfer)
  (L : Loaded) (b0 b : Builder) (maps : Maps) (m : Metric) : Prop :=
  exists pre post b1 b2 u, asked_of (xf_from t) file = pre ++ t :: post /\
    prepared L dom dp b0 pre b1 /\ load_metric L dom dp (xf_metric t) b1 = Ok (b2, u) /\ prepared L dom dp b2 post b /\
    resolve maps u = Ok m.

(** The value [v] transfer [t] of network [k] must deliver to scenario [j] in a
    time-step from [old] to [new]: its initial value in the first time-step if it
    has one; otherwise its metric in the network it names, in this time-step if
    that network comes earlier in the file, in the previous one if later. *)
Definition file_delivers (dom : model_domain) (dp : option path) (file : list file_entry) (es : list entry)
  (first : bool) (k j : nat) (t : file_transfer) (old new : list (list (local (X := X)))) (v : Q) : Prop :=
  match xf_initial t, first with
  | Some x, true => v = x
  | _, _ =>
      exists m f e L b0 b maps metric source,
        nth_error file m = Some f /\ fe_name f = xf_from t /\ m <> k /\ nth_error es m = Some e /\
        network_of dom dp file f e L b0 b maps /\ metric_of dom dp file t L b0 b maps metric /\
        (m < k -> place new m j = Some source) /\ (k < m -> place old m j = Some source) /\
        get_value metric (en_network e) source = Ok v
  end.

(** One time-step: every network of the file works, in every scenario, on its own
    data with the values of its transfers. *)
Definition file_step (dom : model_domain) (dp : option path) (file : list file_entry) (es : list entry)
  (scs : list scenario_index) (t : timestep) (old new : list (list (local (X := X)))) : Prop :=
  forall k f e j s l, nth_error file k = Some f -> nth_error es k = Some e -> nth_error scs j = Some s ->
    place old k j = Some l ->
    exists l', place new k j = Some l' /\
      operate (operations (en_network e)) t s (lo_values l') (lo_rest l) = Ok (lo_rest l') /\
      length (lo_values l') = length (fe_transfers f) /\
      forall i tr, nth_error (fe_transfers f) i = Some tr ->
        exists v, nth_error (lo_values l') i = Some v /\ file_delivers dom dp file es (is_first t) k j tr old new v.
End Spec.
