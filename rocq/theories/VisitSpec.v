(** What it means to visit a model file: the file is a document (a tree, as the JSON
    text is), a place in it is the list of child numbers on the way from the root. *)
From Coq Require Import String Sorted.
From Verif Require Import Base Visit.
Local Open Scope string_scope.
Local Open Scope list_scope.
Local Open Scope nat_scope.

(** What a node of the document is, apart from its children. *)
Inductive kind : Type :=
| KMetric (variant : nat)
| KIndexMetric (variant : nat)
| KName (s : string)          (* the name of a node in a reference *)
| KPath (s : string)
| KScalar (n : nat)
| KFixed                      (* an array of metrics of fixed length *)
| KKey (s : string)           (* an entry of a map *)
| KSection (s : string)       (* a section of the file *)
| KOther (n : nat).
Inductive doc : Type := Doc (k : kind) (cs : list doc).
Definition kind_of (d : doc) : kind := let 'Doc k _ := d in k.
Definition place : Type := list nat.
Fixpoint at_place (d : doc) (p : place) : option doc :=
  match p with
  | [] => Some d
  | i :: p' => let 'Doc _ cs := d in
      match nth_error cs i with None => None | Some c => at_place c p' end
  end.
(** The order in which the places stand in the text. *)
Inductive before : place -> place -> Prop :=
| before_parent i q : before [] (i :: q)
| before_sibling i j p q : i < j -> before (i :: p) (j :: q)
| before_under i p q : before p q -> before (i :: p) (i :: q).

(** ** The document of a file. *)
Definition scalar_doc (n : nat) : doc := Doc (KScalar n) [].
Definition name_doc (s : string) : doc := Doc (KName s) [].
Definition path_doc (s : string) : doc := Doc (KPath s) [].
Definition ref_children (r : node_ref) : list doc := [name_doc (nr_name r); scalar_doc (nr_attribute r)].
Definition ref_doc (r : node_ref) : doc := Doc (KOther 0) (ref_children r).
Definition edge_doc (e : edge) : doc :=
  Doc (KOther 1) [name_doc (e_from e); name_doc (e_to e); scalar_doc (e_from_slot e); scalar_doc (e_to_slot e)].
Definition metric_doc (m : metric) : doc :=
  match m with
  | MNode r => Doc (KMetric 0) (ref_children r)
  | MVirtualNode r => Doc (KMetric 1) (ref_children r)
  | MEdge e => Doc (KMetric 2) [edge_doc e]
  | MOther t n => Doc (KMetric (3 + t)) [scalar_doc n]
  end.
Definition index_metric_doc (m : index_metric) : doc :=
  match m with
  | IMNode r => Doc (KIndexMetric 0) (ref_children r)
  | IMOther t n => Doc (KIndexMetric (1 + t)) [scalar_doc n]
  end.
Definition source_doc (s : python_source) : doc :=
  match s with PyModule m => scalar_doc m | PyPath p => path_doc p end.
Definition list_doc {A} (g : A -> doc) (l : list A) : doc := Doc (KOther 2) (map g l).
Definition option_doc {A} (g : A -> doc) (o : option A) : doc :=
  match o with None => Doc (KOther 3) [] | Some x => Doc (KOther 4) [g x] end.
Definition entry_doc {A} (g : A -> doc) (kx : string * A) : doc := Doc (KKey (fst kx)) [g (snd kx)].
Definition python_doc (p : python) : doc :=
  Doc (KOther 5) [scalar_doc (py_fields p); source_doc (py_source p);
                  option_doc (list_doc (entry_doc metric_doc)) (py_metrics p);
                  option_doc (list_doc (entry_doc index_metric_doc)) (py_indices p)].
Fixpoint val_doc (v : val) : doc :=
  match v with
  | VMetric m => metric_doc m
  | VIndexMetric m => index_metric_doc m
  | VRef r => ref_doc r
  | VScalar n => scalar_doc n
  | VPath p => path_doc p
  | VNone => Doc (KOther 3) []
  | VSome x => Doc (KOther 4) [val_doc x]
  | VVec l => Doc (KOther 2) (map val_doc l)
  | VPair a b => Doc (KOther 6) [val_doc a; val_doc b]
  | VMap l => Doc (KOther 7) (map (fun kx => Doc (KKey (fst kx)) [val_doc (snd kx)]) l)
  | VMetricArray l => Doc KFixed (map metric_doc l)
  | VStruct l => Doc (KOther 8) (map val_doc l)
  | VUnnamed t x => Doc (KOther (9 + 3 * t)) [val_doc x]
  | VNamed t l => Doc (KOther (10 + 3 * t)) (map val_doc l)
  | VUnit t => Doc (KOther (11 + 3 * t)) []
  | VPython p => python_doc p
  end.
Fixpoint extra_doc (x : extra) : doc :=
  match x with
  | XScalar n => scalar_doc n
  | XPath p => path_doc p
  | XMany l => Doc (KOther 2) (map extra_doc l)
  end.
Definition series_doc (x : series) : doc :=
  Doc (KOther (if se_pandas x then 12 else 13))
    [scalar_doc (se_before x); path_doc (se_url x); scalar_doc (se_after x)].
Definition metric_set_doc (x : metric_set) : doc :=
  Doc (KOther 8) [scalar_doc (ms_name x); option_doc (list_doc metric_doc) (ms_metrics x);
                  extra_doc (ms_aggregator x); extra_doc (ms_filters x)].
Definition network_doc (n : network) : doc :=
  Doc (KOther 8)
    [Doc (KSection "nodes") [list_doc val_doc (nw_nodes n)];
     Doc (KSection "edges") [list_doc edge_doc (nw_edges n)];
     Doc (KSection "virtual_nodes") [option_doc (list_doc val_doc) (nw_virtual_nodes n)];
     Doc (KSection "parameters") [option_doc (list_doc val_doc) (nw_parameters n)];
     Doc (KSection "tables") [option_doc (list_doc extra_doc) (nw_tables n)];
     Doc (KSection "timeseries") [option_doc (list_doc series_doc) (nw_timeseries n)];
     Doc (KSection "metric_sets") [option_doc (list_doc metric_set_doc) (nw_metric_sets n)];
     Doc (KSection "outputs") [option_doc (list_doc extra_doc) (nw_outputs n)]].

(** ** Places. *)
Definition on_the_way (d : doc) (p : place) (k : kind) : Prop :=
  exists q r x, p = q ++ r /\ r <> [] /\ at_place d q = Some x /\ kind_of x = k.
(** A metric of the file. *)
Definition metric_place (d : doc) (p : place) : Prop :=
  exists x v, at_place d p = Some x /\ kind_of x = KMetric v.
(** A metric that does not stand in an array of fixed length. *)
Definition open_metric_place (d : doc) (p : place) : Prop :=
  metric_place d p /\ ~ on_the_way d p KFixed.
(** A place where a node is referred to. *)
Definition name_place (d : doc) (p : place) : Prop :=
  exists x s, at_place d p = Some x /\ kind_of x = KName s.
Definition path_place (d : doc) (p : place) : Prop :=
  exists x s, at_place d p = Some x /\ kind_of x = KPath s.
(** A path in one of the sections [secs]. *)
Definition path_place_in (secs : list string) (d : doc) (p : place) : Prop :=
  path_place d p /\ forall s, on_the_way d p (KSection s) -> In s secs.

(** ** Visiting.  [ps] are the places, from the first to the last, and [xs] what stands
    there. *)
Definition reached {M : Type} (enc : M -> doc) (P : doc -> place -> Prop) (d : doc)
    (ps : list place) (xs : list M) : Prop :=
  StronglySorted before ps /\ (forall p, In p ps <-> P d p) /\
  Forall2 (fun p x => at_place d p = Some (enc x)) ps xs.
(** The visitor is called with each of [xs] in turn and leaves [ys]. *)
Inductive called {M S : Type} (f : M -> S -> M * S) : list M -> S -> list M -> S -> Prop :=
| called_nil s : called f [] s [] s
| called_cons x y xs ys s s1 s2 :
    f x s = (y, s1) -> called f xs s1 ys s2 -> called f (x :: xs) s (y :: ys) s2.
(** Everything that stands neither at nor below one of [ps] is as it was. *)
Definition untouched (ps : list place) (d d' : doc) : Prop :=
  forall p, (forall q r, In q ps -> p <> q ++ r) ->
    option_map kind_of (at_place d' p) = option_map kind_of (at_place d p).

(** A pair of visitors, one that reads and one that writes, visits the places [P] of
    the file [n]: each once, in the order of the text. *)
Definition visits {M : Type} (enc : M -> doc) (P : doc -> place -> Prop)
    (visit : forall S, (M -> S -> S) -> network -> S -> S)
    (visit_mut : forall S, (M -> S -> M * S) -> network -> S -> network * S) (n : network) : Prop :=
  exists ps xs, reached enc P (network_doc n) ps xs /\
    (forall S (f : M -> S -> S) s, visit S f n s = fold_left (fun s x => f x s) xs s) /\
    (forall S (f : M -> S -> M * S) s n' s', visit_mut S f n s = (n', s') ->
       exists ys, called f xs s ys s' /\ reached enc P (network_doc n') ps ys /\
         untouched ps (network_doc n) (network_doc n')).
