(** Visitors of a model file: pywr-schema/src/visit.rs, the derive macros of
    pywr-schema-macros/src/lib.rs and the implementations that are written by hand.

    The fields of the 100 component types are not listed one by one: a component is
    a value built from the kinds of field that [visit.rs] and the macros tell apart
    ([val]).  A closure [FnMut] is a function with a state.  The order in which
    [HashMap::values] gives the entries is the order of the list. *)
From Coq Require Import String.
From Verif Require Import Base.
Local Open Scope nat_scope.

(** metric.rs [NodeAttrReference], [VirtualNodeAttrReference],
    [NodeComponentReference]: a name and a field that is never a reference. *)
Record node_ref : Type := NodeRef { nr_name : string; nr_attribute : nat }.
(** edge.rs 14-21 [Edge]. *)
Record edge : Type := Edge { e_from : string; e_to : string; e_from_slot : nat; e_to_slot : nat }.
(** metric.rs 50-69 [Metric]; the variants that name no node are [MOther] with the
    variant and its data. *)
Inductive metric : Type :=
| MNode (r : node_ref)
| MVirtualNode (r : node_ref)
| MEdge (e : edge)
| MOther (variant data : nat).
(** metric.rs 681-694 [IndexMetric]. *)
Inductive index_metric : Type :=
| IMNode (r : node_ref)
| IMOther (variant data : nat).
(** py_utils.rs 31-35 [PythonSource]. *)
Inductive python_source : Type := PyModule (m : nat) | PyPath (p : string).
(** parameters/python.rs 121-140 [PythonParameter]; [py_fields] are the fields
    [meta], [object], [return_type], [args] and [kwargs]. *)
Record python : Type := Python {
  py_fields : nat; py_source : python_source;
  py_metrics : option (list (string * metric));
  py_indices : option (list (string * index_metric)) }.

(** The values a field can hold: a metric, an index metric, a reference to a node, a
    number, a string or another value that is never visited, a path, [Option],
    [Vec], a pair, [HashMap], [[Metric; N]], a struct with the derived visitors, a
    variant of an enum with an unnamed field, with named fields or without fields,
    and a Python parameter. *)
Inductive val : Type :=
| VMetric (m : metric)
| VIndexMetric (m : index_metric)
| VRef (r : node_ref)
| VScalar (n : nat)
| VPath (p : string)
| VNone
| VSome (v : val)
| VVec (l : list val)
| VPair (a b : val)
| VMap (l : list (string * val))
| VMetricArray (l : list metric)
| VStruct (l : list val)
| VUnnamed (variant : nat) (v : val)
| VNamed (variant : nat) (l : list val)
| VUnit (variant : nat)
| VPython (p : python).

(** [for item in items { visit_mut(item) }]: the state is handed from one to the next. *)
Section Each.
Context {A S : Type} (g : A -> S -> A * S).
Fixpoint each_mut (l : list A) (s : S) : list A * S :=
  match l with
  | [] => ([], s)
  | x :: l' => let '(x', s1) := g x s in let '(l2, s2) := each_mut l' s1 in (x' :: l2, s2)
  end.
Definition option_mut (o : option A) (s : S) : option A * S :=
  match o with None => (None, s) | Some x => let '(x', s1) := g x s in (Some x', s1) end.
End Each.
(** [values_mut]. *)
Definition value_mut {A S : Type} (g : A -> S -> A * S) (kx : string * A) (s : S) : (string * A) * S :=
  let '(x', s1) := g (snd kx) s in ((fst kx, x'), s1).
Definition on_option {A S : Type} (g : A -> S -> S) (o : option A) (s : S) : S :=
  match o with None => s | Some x => g x s end.
Definition each {A S : Type} (g : A -> S -> S) (l : list A) (s : S) : S :=
  fold_left (fun s x => g x s) l s.

Section Visitors.
Context {S : Type}.

(** ** [VisitMetrics], visit.rs 13-123 and lib.rs 39-218; parameters/mod.rs 322-404
    ([Parameter]), 805-822 ([ConstantValue]), nodes/mod.rs 722-766 ([Node]) and
    nodes/virtual_nodes/mod.rs 145-163 ([VirtualNode]) hand over to the field of the
    variant, as the macro does. *)
Section Metrics.
Context (f : metric -> S -> S).
(** parameters/python.rs 142-150. *)
Definition python_metrics (p : python) (s : S) : S :=
  on_option (each (fun kx => f (snd kx))) (py_metrics p) s.
Fixpoint visit_metrics (v : val) (s : S) : S :=
  match v with
  | VMetric m => f m s
  | VIndexMetric _ | VRef _ | VScalar _ | VPath _ | VNone | VUnit _ => s
  | VMetricArray _ => s (* visit.rs 116: the empty default *)
  | VSome x => visit_metrics x s
  | VVec l => each visit_metrics l s
  | VPair a b => visit_metrics b (visit_metrics a s)
  | VMap l => each (fun kx => visit_metrics (snd kx)) l s
  | VStruct l => each visit_metrics l s
  | VUnnamed _ x => visit_metrics x s
  | VNamed _ l => each visit_metrics l s
  | VPython p => python_metrics p s
  end.
End Metrics.
Section MetricsMut.
Context (f : metric -> S -> metric * S).
(** parameters/python.rs 152-158. *)
Definition python_metrics_mut (p : python) (s : S) : python * S :=
  let '(ms, s1) := option_mut (each_mut (value_mut f)) (py_metrics p) s in
  (Python (py_fields p) (py_source p) ms (py_indices p), s1).
Fixpoint visit_metrics_mut (v : val) (s : S) : val * S :=
  match v with
  | VMetric m => let '(m', s1) := f m s in (VMetric m', s1)
  | VIndexMetric _ | VRef _ | VScalar _ | VPath _ | VNone | VUnit _ => (v, s)
  | VMetricArray _ => (v, s)
  | VSome x => let '(x', s1) := visit_metrics_mut x s in (VSome x', s1)
  | VVec l => let '(l', s1) := each_mut visit_metrics_mut l s in (VVec l', s1)
  | VPair a b => let '(a', s1) := visit_metrics_mut a s in
                 let '(b', s2) := visit_metrics_mut b s1 in (VPair a' b', s2)
  | VMap l => let '(l', s1) := each_mut (value_mut visit_metrics_mut) l s in (VMap l', s1)
  | VStruct l => let '(l', s1) := each_mut visit_metrics_mut l s in (VStruct l', s1)
  | VUnnamed t x => let '(x', s1) := visit_metrics_mut x s in (VUnnamed t x', s1)
  | VNamed t l => let '(l', s1) := each_mut visit_metrics_mut l s in (VNamed t l', s1)
  | VPython p => let '(p', s1) := python_metrics_mut p s in (VPython p', s1)
  end.
End MetricsMut.

(** ** [VisitPaths], visit.rs 132-239 and lib.rs 221-402. *)
Section Paths.
Context (f : string -> S -> S).
(** visit.rs 138: [impl VisitPaths for Metric {}]. *)
Definition metric_paths (_ : metric) (s : S) : S := s.
(** parameters/python.rs 172-184. *)
Definition python_paths (p : python) (s : S) : S :=
  let s1 := match py_source p with PyModule _ => s | PyPath x => f x s end in
  python_metrics metric_paths p s1.
Fixpoint visit_paths (v : val) (s : S) : S :=
  match v with
  | VPath p => f p s
  | VMetric _ | VIndexMetric _ | VMetricArray _ => s
  | VRef _ | VScalar _ | VNone | VUnit _ => s
  | VSome x => visit_paths x s
  | VVec l => each visit_paths l s
  | VPair a b => visit_paths b (visit_paths a s)
  | VMap l => each (fun kx => visit_paths (snd kx)) l s
  | VStruct l => each visit_paths l s
  | VUnnamed _ x => visit_paths x s
  | VNamed _ l => each visit_paths l s
  | VPython p => python_paths p s
  end.
End Paths.
Section PathsMut.
Context (f : string -> S -> string * S).
(** parameters/python.rs 186-193. *)
Definition python_paths_mut (p : python) (s : S) : python * S :=
  match py_source p with
  | PyModule _ => (p, s)
  | PyPath x => let '(x', s1) := f x s in (Python (py_fields p) (PyPath x') (py_metrics p) (py_indices p), s1)
  end.
Fixpoint visit_paths_mut (v : val) (s : S) : val * S :=
  match v with
  | VPath p => let '(p', s1) := f p s in (VPath p', s1)
  | VMetric _ | VIndexMetric _ | VMetricArray _ => (v, s)
  | VRef _ | VScalar _ | VNone | VUnit _ => (v, s)
  | VSome x => let '(x', s1) := visit_paths_mut x s in (VSome x', s1)
  | VVec l => let '(l', s1) := each_mut visit_paths_mut l s in (VVec l', s1)
  | VPair a b => let '(a', s1) := visit_paths_mut a s in
                 let '(b', s2) := visit_paths_mut b s1 in (VPair a' b', s2)
  | VMap l => let '(l', s1) := each_mut (value_mut visit_paths_mut) l s in (VMap l', s1)
  | VStruct l => let '(l', s1) := each_mut visit_paths_mut l s in (VStruct l', s1)
  | VUnnamed t x => let '(x', s1) := visit_paths_mut x s in (VUnnamed t x', s1)
  | VNamed t l => let '(l', s1) := each_mut visit_paths_mut l s in (VNamed t l', s1)
  | VPython p => let '(p', s1) := python_paths_mut p s in (VPython p', s1)
  end.
End PathsMut.

(** ** [VisitNodeReferences], visit.rs 252-414 and lib.rs 405-590. *)
Section References.
Context (f : string -> S -> S).
(** metric.rs 372-376, 472-476, 503-507. *)
Definition ref_references (r : node_ref) (s : S) : S := f (nr_name r) s.
(** edge.rs 45-49; metric.rs 655-658 hands over. *)
Definition edge_references (e : edge) (s : S) : S := f (e_to e) (f (e_from e) s).
(** visit.rs 259-271. *)
Definition metric_references (m : metric) (s : S) : S :=
  match m with
  | MNode r => ref_references r s
  | MVirtualNode r => ref_references r s
  | MEdge e => edge_references e s
  | MOther _ _ => s
  end.
(** visit.rs 291-301. *)
Definition index_metric_references (m : index_metric) (s : S) : S :=
  match m with IMNode r => ref_references r s | IMOther _ _ => s end.
(** parameters/python.rs 160-164. *)
Definition python_references (p : python) (s : S) : S :=
  let s1 := on_option (each (fun kx => metric_references (snd kx))) (py_metrics p) s in
  on_option (each (fun kx => index_metric_references (snd kx))) (py_indices p) s1.
Fixpoint visit_references (v : val) (s : S) : S :=
  match v with
  | VMetric m => metric_references m s
  | VIndexMetric m => index_metric_references m s
  | VRef r => ref_references r s
  | VPath _ | VScalar _ | VNone | VUnit _ => s
  | VMetricArray l => each metric_references l s (* visit.rs 393-398 *)
  | VSome x => visit_references x s
  | VVec l => each visit_references l s
  | VPair a b => visit_references b (visit_references a s)
  | VMap l => each (fun kx => visit_references (snd kx)) l s
  | VStruct l => each visit_references l s
  | VUnnamed _ x => visit_references x s
  | VNamed _ l => each visit_references l s
  | VPython p => python_references p s
  end.
End References.
Section ReferencesMut.
Context (f : string -> S -> string * S).
(** metric.rs 378-380, 478-480, 509-511. *)
Definition ref_references_mut (r : node_ref) (s : S) : node_ref * S :=
  let '(x, s1) := f (nr_name r) s in (NodeRef x (nr_attribute r), s1).
(** edge.rs 51-54; metric.rs 660-662. *)
Definition edge_references_mut (e : edge) (s : S) : edge * S :=
  let '(a, s1) := f (e_from e) s in
  let '(b, s2) := f (e_to e) s1 in
  (Edge a b (e_from_slot e) (e_to_slot e), s2).
(** visit.rs 273-286. *)
Definition metric_references_mut (m : metric) (s : S) : metric * S :=
  match m with
  | MNode r => let '(r', s1) := ref_references_mut r s in (MNode r', s1)
  | MVirtualNode r => let '(r', s1) := ref_references_mut r s in (MVirtualNode r', s1)
  | MEdge e => let '(e', s1) := edge_references_mut e s in (MEdge e', s1)
  | MOther _ _ => (m, s)
  end.
(** visit.rs 303-313. *)
Definition index_metric_references_mut (m : index_metric) (s : S) : index_metric * S :=
  match m with
  | IMNode r => let '(r', s1) := ref_references_mut r s in (IMNode r', s1)
  | IMOther _ _ => (m, s)
  end.
(** parameters/python.rs 166-169. *)
Definition python_references_mut (p : python) (s : S) : python * S :=
  let '(ms, s1) := option_mut (each_mut (value_mut metric_references_mut)) (py_metrics p) s in
  let '(is, s2) := option_mut (each_mut (value_mut index_metric_references_mut)) (py_indices p) s1 in
  (Python (py_fields p) (py_source p) ms is, s2).
Fixpoint visit_references_mut (v : val) (s : S) : val * S :=
  match v with
  | VMetric m => let '(m', s1) := metric_references_mut m s in (VMetric m', s1)
  | VIndexMetric m => let '(m', s1) := index_metric_references_mut m s in (VIndexMetric m', s1)
  | VRef r => let '(r', s1) := ref_references_mut r s in (VRef r', s1)
  | VPath _ | VScalar _ | VNone | VUnit _ => (v, s)
  | VMetricArray l => let '(l', s1) := each_mut metric_references_mut l s in (VMetricArray l', s1)
  | VSome x => let '(x', s1) := visit_references_mut x s in (VSome x', s1)
  | VVec l => let '(l', s1) := each_mut visit_references_mut l s in (VVec l', s1)
  | VPair a b => let '(a', s1) := visit_references_mut a s in
                 let '(b', s2) := visit_references_mut b s1 in (VPair a' b', s2)
  | VMap l => let '(l', s1) := each_mut (value_mut visit_references_mut) l s in (VMap l', s1)
  | VStruct l => let '(l', s1) := each_mut visit_references_mut l s in (VStruct l', s1)
  | VUnnamed t x => let '(x', s1) := visit_references_mut x s in (VUnnamed t x', s1)
  | VNamed t l => let '(l', s1) := each_mut visit_references_mut l s in (VNamed t l', s1)
  | VPython p => let '(p', s1) := python_references_mut p s in (VPython p', s1)
  end.
End ReferencesMut.
End Visitors.

(** ** The network.  A table, an output and the aggregator and the filters of a metric
    set hold paths and other values but no metric and no reference to a node. *)
Inductive extra : Type :=
| XScalar (n : nat)
| XPath (p : string)
| XMany (l : list extra).
(** timeseries/pandas.rs 17-25 [PandasTimeseries], polars_dataset.rs 11-18
    [PolarsTimeseries]: [se_before] are [meta] and [time_col], [se_after] the rest. *)
Record series : Type := Series { se_pandas : bool; se_before : nat; se_url : string; se_after : nat }.
(** metric_sets/mod.rs 171-177 [MetricSet]. *)
Record metric_set : Type := MetricSet {
  ms_name : nat; ms_metrics : option (list metric); ms_aggregator : extra; ms_filters : extra }.
(** network.rs 153-162 [NetworkSchema]. *)
Record network : Type := Network {
  nw_nodes : list val;
  nw_edges : list edge;
  nw_virtual_nodes : option (list val);
  nw_parameters : option (list val);
  nw_tables : option (list extra);
  nw_timeseries : option (list series);
  nw_metric_sets : option (list metric_set);
  nw_outputs : option (list extra) }.

Section NetworkVisitors.
Context {S : Type}.
(** outputs/mod.rs, outputs/csv.rs, hdf.rs, memory.rs: derived. *)
Fixpoint extra_paths (f : string -> S -> S) (x : extra) (s : S) : S :=
  match x with
  | XScalar _ => s
  | XPath p => f p s
  | XMany l => each (extra_paths f) l s
  end.
Fixpoint extra_paths_mut (f : string -> S -> string * S) (x : extra) (s : S) : extra * S :=
  match x with
  | XScalar _ => (x, s)
  | XPath p => let '(p', s1) := f p s in (XPath p', s1)
  | XMany l => let '(l', s1) := each_mut (extra_paths_mut f) l s in (XMany l', s1)
  end.
(** timeseries/mod.rs 122-136, pandas.rs 27-35, polars_dataset.rs 20-28. *)
Definition series_paths (f : string -> S -> S) (x : series) (s : S) : S := f (se_url x) s.
Definition series_paths_mut (f : string -> S -> string * S) (x : series) (s : S) : series * S :=
  let '(u, s1) := f (se_url x) s in (Series (se_pandas x) (se_before x) u (se_after x), s1).
(** network.rs 224-231, 277-279. *)
Definition set_metrics (g : metric -> S -> S) (x : metric_set) (s : S) : S :=
  on_option (each g) (ms_metrics x) s.
Definition set_metrics_mut (g : metric -> S -> metric * S) (x : metric_set) (s : S) : metric_set * S :=
  let '(ms, s1) := option_mut (each_mut g) (ms_metrics x) s in
  (MetricSet (ms_name x) ms (ms_aggregator x) (ms_filters x), s1).

(** network.rs 172-189 [visit_paths]. *)
Definition network_paths (f : string -> S -> S) (n : network) (s : S) : S :=
  let s1 := each (visit_paths f) (nw_nodes n) s in
  let s2 := on_option (each (visit_paths f)) (nw_parameters n) s1 in
  let s3 := on_option (each (series_paths f)) (nw_timeseries n) s2 in
  on_option (each (extra_paths f)) (nw_outputs n) s3.
(** network.rs 190-206 [visit_paths_mut]. *)
Definition network_paths_mut (f : string -> S -> string * S) (n : network) (s : S) : network * S :=
  let '(nodes, s1) := each_mut (visit_paths_mut f) (nw_nodes n) s in
  let '(parameters, s2) := option_mut (each_mut (visit_paths_mut f)) (nw_parameters n) s1 in
  let '(timeseries, s3) := option_mut (each_mut (series_paths_mut f)) (nw_timeseries n) s2 in
  let '(outputs, s4) := option_mut (each_mut (extra_paths_mut f)) (nw_outputs n) s3 in
  (Network nodes (nw_edges n) (nw_virtual_nodes n) parameters (nw_tables n) timeseries
     (nw_metric_sets n) outputs, s4).
(** network.rs 210-232 [visit_metrics]. *)
Definition network_metrics (f : metric -> S -> S) (n : network) (s : S) : S :=
  let s1 := each (visit_metrics f) (nw_nodes n) s in
  let s2 := on_option (each (visit_metrics f)) (nw_virtual_nodes n) s1 in
  let s3 := on_option (each (visit_metrics f)) (nw_parameters n) s2 in
  on_option (each (set_metrics f)) (nw_metric_sets n) s3.
(** network.rs 234-256 [visit_metrics_mut]. *)
Definition network_metrics_mut (f : metric -> S -> metric * S) (n : network) (s : S) : network * S :=
  let '(nodes, s1) := each_mut (visit_metrics_mut f) (nw_nodes n) s in
  let '(virtual_nodes, s2) := option_mut (each_mut (visit_metrics_mut f)) (nw_virtual_nodes n) s1 in
  let '(parameters, s3) := option_mut (each_mut (visit_metrics_mut f)) (nw_parameters n) s2 in
  let '(metric_sets, s4) := option_mut (each_mut (set_metrics_mut f)) (nw_metric_sets n) s3 in
  (Network nodes (nw_edges n) virtual_nodes parameters (nw_tables n) (nw_timeseries n)
     metric_sets (nw_outputs n), s4).
(** network.rs 260-280 [visit_node_references]. *)
Definition network_references (f : string -> S -> S) (n : network) (s : S) : S :=
  let s1 := each (visit_references f) (nw_nodes n) s in
  let s2 := each (edge_references f) (nw_edges n) s1 in
  let s3 := on_option (each (visit_references f)) (nw_virtual_nodes n) s2 in
  let s4 := on_option (each (visit_references f)) (nw_parameters n) s3 in
  on_option (each (set_metrics (metric_references f))) (nw_metric_sets n) s4.
(** network.rs 282-302 [visit_node_references_mut]. *)
Definition network_references_mut (f : string -> S -> string * S) (n : network) (s : S) : network * S :=
  let '(nodes, s1) := each_mut (visit_references_mut f) (nw_nodes n) s in
  let '(edges, s2) := each_mut (edge_references_mut f) (nw_edges n) s1 in
  let '(virtual_nodes, s3) := option_mut (each_mut (visit_references_mut f)) (nw_virtual_nodes n) s2 in
  let '(parameters, s4) := option_mut (each_mut (visit_references_mut f)) (nw_parameters n) s3 in
  let '(metric_sets, s5) :=
    option_mut (each_mut (set_metrics_mut (metric_references_mut f))) (nw_metric_sets n) s4 in
  (Network nodes edges virtual_nodes parameters (nw_tables n) (nw_timeseries n)
     metric_sets (nw_outputs n), s5).
(** model.rs 456-483 [ModelSchema]: hands over to its network.  A file of one network
    is its network here. *)
End NetworkVisitors.
