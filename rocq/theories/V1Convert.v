(** Conversion of a Pywr v1 model file.  Sources: pywr-schema/src/v1.rs,
    network.rs [from_v1], metric.rs, parameters/mod.rs, timeseries/mod.rs,
    edge.rs, nodes/slots.rs and the [TryFromV1] implementations of nodes and
    parameters. *)
From Coq Require Import QArith.
From Verif Require Import Base SchemaNodes.
Local Open Scope string_scope.
Local Open Scope list_scope.
Local Open Scope nat_scope.

(** ** The old file *)

(** [Metric] or [IndexMetric]: what an attribute is converted to. *)
Inductive fsort := FMetric | FIndex.

(** How the conversion of a component ends.
    - [EndOk]: it succeeds;
    - [EndRefused]: refused before its name is looked at (parameters/mod.rs
      675-684, 702-710, 715-724, 736-742; nodes/mod.rs 633-637);
    - [EndEarly attr]: an error after the name and before any value (tags that
      are not strings, v1.rs 119-125);
    - [EndLate attr]: an error after the values (a missing or unsupported
      attribute, for instance parameters/profiles.rs or control_curves.rs);
      an error between two values is the same without the later values;
    - [EndFallback]: a control curve without values, which is converted again
      as an index (parameters/mod.rs 625-628);
    - [EndTodo]: [todo!()] (parameters/mod.rs 661-662, 714; nodes/mod.rs 703,
      706). *)
Inductive ending := EndOk | EndRefused | EndEarly (attr : string) | EndLate (attr : string) | EndFallback | EndTodo.

(** pywr_v1_schema [ParameterValue] and [Parameter].  Simplification: a
    parameter is its type, its name if it has one ([None]: no meta data at all),
    the attributes that hold values (attribute, sort, value) in the order in
    which they are converted, everything else as a text, and how its conversion
    ends.  A [DataFrame] has a name and where its data is. *)
Inductive v1_value :=
| VConst (q : Q)
| VRef (name : string)
| VTable (table : string) (valid : bool)
| VInline (p : v1_param)
with v1_param :=
| PCore (kind : string) (meta : option (option string)) (values : list (string * fsort * v1_value)) (other : string) (e : ending)
| PData (meta : option (option string)) (url table column scenario : option string).

(** pywr_v1_schema [Node]: its name, whether it becomes a virtual node, its
    type, the attributes that hold values, the rest, and how its conversion
    ends. *)
Record v1_node := mkV1Node {
  vn_name : string; vn_virtual : bool; vn_kind : string;
  vn_values : list (string * fsort * v1_value); vn_other : string; vn_ending : ending }.
(** pywr_v1_schema [Edge]. *)
Record v1_edge := mkV1Edge { ve_from : string; ve_to : string; ve_from_slot : option string; ve_to_slot : option string }.
(** pywr_v1_schema [PywrNetwork]; of tables the names. *)
Record v1_network := mkV1Net {
  v1_nodes : list v1_node; v1_edges : list v1_edge; v1_params : list v1_param; v1_tables : list string }.

(** ** The new file *)

(** timeseries/mod.rs 430-437 [TimeseriesReference]: name, column, scenario. *)
Record ts_ref := mkTsRef { tr_name : string; tr_column : option string; tr_scenario : option string }.
(** metric.rs [Metric], [IndexMetric]: what the conversion produces. *)
Inductive v2_metric := M2Literal (q : Q) | M2Index (n : nat) | M2Parameter (name : string) | M2Table (table : string) | M2Timeseries (r : ts_ref).
Record v2_param := mkV2Param { p2_name : string; p2_kind : string; p2_values : list (string * fsort * v2_metric); p2_other : string }.
Record v2_series := mkV2Series { s2_name : string; s2_url : string }.
Record v2_node := mkV2Node { n2_name : string; n2_kind : string; n2_values : list (string * fsort * v2_metric); n2_other : string }.

(** error.rs [ComponentConversionError]: which component and which attribute. *)
Inductive conv_error :=
| ErNode (name attr : string)
| ErParameter (name attr : string)
| ErEdge (from to : string)
| ErTable (name : string).

(** v1.rs 28-33 [ConversionData]; the list of virtual nodes does not change. *)
Record conv_data := mkData { cd_count : nat; cd_params : list v2_param; cd_series : list v2_series }.
Inductive conv (A : Type) := COk (a : A) (d : conv_data) | CErr (e : conv_error) (d : conv_data) | CPanic.
Arguments COk {A}. Arguments CErr {A}. Arguments CPanic {A}.
Definition cbind {A B} (c : conv A) (f : A -> conv_data -> conv B) : conv B :=
  match c with COk a d => f a d | CErr e d => CErr e d | CPanic => CPanic end.

(** v1.rs 103-157 [TryFromV1<ParameterMetaV1>], [TryFromV1<Option<ParameterMetaV1>>]. *)
Definition take_name (meta : option (option string)) (parent : option string) (d : conv_data) : string * conv_data :=
  match meta with
  | Some (Some name) => (name, d)
  | Some None =>
      (match parent with
       | Some pn => (pn ++ "-p" ++ dec (cd_count d))%string
       | None => ("unnamed-" ++ dec (cd_count d))%string
       end, mkData (S (cd_count d)) (cd_params d) (cd_series d))
  | None => (("unnamed-" ++ dec (cd_count d))%string, mkData (S (cd_count d)) (cd_params d) (cd_series d))
  end.

Inductive param_or_series := IsParam (p : v2_param) | IsSeries (original : string) (r : ts_ref).

(** timeseries/mod.rs 467-550 [TryFromV1<DataFrameParameterV1>]. *)
Definition conv_dataframe (meta : option (option string)) (url table column scenario : option string) (parent : option string) (d : conv_data) :
  conv param_or_series :=
  let '(name, d) := take_name meta parent d in
  let found :=
    match url with
    | Some u =>
        Some (name, if existsb (fun s => String.eqb (s2_name s) name) (cd_series d) then d
                    else mkData (cd_count d) (cd_params d) (cd_series d ++ [mkV2Series name u]))
    | None => match table with Some t => Some (t, d) | None => None end
    end in
  match found with
  | None => CErr (ErParameter name "url") d
  | Some (ts_name, d) =>
      match column, scenario with
      | Some _, Some _ => CErr (ErParameter name "column") d
      | c, s => COk (IsSeries name (mkTsRef ts_name c s)) d
      end
  end.

Definition is_whole (q : Q) : bool := ((Qden (Qred q) =? 1)%positive && (0 <=? Qnum (Qred q))%Z)%bool.
Definition own_name (meta : option (option string)) : string := match meta with Some (Some n) => n | _ => "unnamed" end.
(** v1.rs 160-201 [try_convert_node_attr], [try_convert_parameter_attr]: the
    error names the component and the attribute. *)
Definition wrap {A} (e : conv_error) (c : conv A) : conv A := match c with CErr _ d => CErr e d | c => c end.
Definition or_name (parent : option string) (name : string) : option string := match parent with Some p => Some p | None => Some name end.

Section Values.
  Variable conv_value : v1_value -> fsort -> option string -> conv_data -> conv v2_metric.
  (** The attributes of a component one after the other. *)
  Fixpoint conv_values (mk : string -> conv_error) (parent : option string) (vs : list (string * fsort * v1_value)) (d : conv_data) :
    conv (list (string * fsort * v2_metric)) :=
    match vs with
    | [] => COk [] d
    | (attr, s, v) :: rest =>
        cbind (wrap (mk attr) (conv_value v s parent d)) (fun m d =>
        cbind (conv_values mk parent rest d) (fun ms d => COk ((attr, s, m) :: ms) d))
    end.
End Values.

(** metric.rs 233-280 and 760-815 [TryFromV1<ParameterValueV1>] for [Metric]
    and [IndexMetric]; parameters/mod.rs 594-742 [TryFromV1<ParameterV1>]; the
    conversion of one type of parameter takes the name, converts the values and
    copies the rest, for instance parameters/aggregated.rs 79-103,
    core.rs, thresholds.rs, control_curves.rs, indexed_array.rs. *)
Fixpoint conv_value (v : v1_value) (s : fsort) (parent : option string) (d : conv_data) {struct v} : conv v2_metric :=
  match v with
  | VConst q =>
      match s with
      | FMetric => COk (M2Literal q) d
      | FIndex => if is_whole q then COk (M2Index (Z.to_nat (Qnum (Qred q)))) d else CErr (ErParameter "" "") d
      end
  | VRef name => COk (M2Parameter name) d
  | VTable t ok => if ok then COk (M2Table t) d else CErr (ErParameter "" "") d
  | VInline p =>
      cbind (conv_param p parent d) (fun r d =>
      match r with
      | IsParam p2 => COk (M2Parameter (p2_name p2)) (mkData (cd_count d) (cd_params d ++ [p2]) (cd_series d))
      | IsSeries _ r => COk (M2Timeseries r) d
      end)
  end
with conv_param (p : v1_param) (parent : option string) (d : conv_data) {struct p} : conv param_or_series :=
  match p with
  | PData meta url table column scenario => conv_dataframe meta url table column scenario parent d
  | PCore kind meta values other e =>
      match e with
      | EndTodo => CPanic
      | EndRefused => CErr (ErParameter (own_name meta) "") d
      | EndEarly attr => let '(name, d) := take_name meta parent d in CErr (ErParameter name attr) d
      | EndOk =>
          let '(name, d) := take_name meta parent d in
          cbind (conv_values conv_value (ErParameter name) (or_name parent name) values d) (fun vs d =>
          COk (IsParam (mkV2Param name kind vs other)) d)
      | EndLate attr =>
          let '(name, d) := take_name meta parent d in
          cbind (conv_values conv_value (ErParameter name) (or_name parent name) values d) (fun vs d =>
          CErr (ErParameter name attr) d)
      | EndFallback =>
          (* the first attempt, whose effects on the data stay *)
          let '(name, d) := take_name meta parent d in
          match conv_values conv_value (ErParameter name) (or_name parent name) values d with
          | CPanic => CPanic
          | COk _ d | CErr _ d =>
              let '(name, d) := take_name meta parent d in
              cbind (conv_values conv_value (ErParameter name) (or_name parent name) values d) (fun vs d =>
              COk (IsParam (mkV2Param name "ControlCurveIndex" vs other)) d)
          end
      end
  end.

(** nodes/mod.rs 620-720 [TryFromV1<NodeV1>] with [parent_node = None], and the
    conversion of one type of node, for instance nodes/core.rs 160-183. *)
Definition conv_node (n : v1_node) (d : conv_data) : conv v2_node :=
  match vn_ending n with
  | EndTodo => CPanic
  | EndRefused => CErr (ErNode (vn_name n) "") d
  | EndEarly attr => CErr (ErNode (vn_name n) attr) d
  | EndLate attr =>
      cbind (conv_values conv_value (ErNode (vn_name n)) (Some (vn_name n)) (vn_values n) d) (fun _ d => CErr (ErNode (vn_name n) attr) d)
  | EndOk | EndFallback =>
      cbind (conv_values conv_value (ErNode (vn_name n)) (Some (vn_name n)) (vn_values n) d) (fun vs d =>
      COk (mkV2Node (vn_name n) (vn_kind n) vs (vn_other n)) d)
  end.

(** nodes/slots.rs 21-30 [try_from_v1_str]; edge.rs 23-42. *)
Definition conv_slot (s : string) : option slot :=
  if String.eqb s "abstraction" then Some SlAbstraction else if String.eqb s "river" then Some SlRiver
  else if String.eqb s "storage" then Some SlStorage else if String.eqb s "spill" then Some SlSpill
  else if String.eqb s "compensation" then Some SlCompensation else None.
Definition conv_opt_slot (s : option string) : option (option slot) :=
  match s with None => Some None | Some s => option_map Some (conv_slot s) end.
Definition conv_edge (e : v1_edge) : sedge + conv_error :=
  match conv_opt_slot (ve_from_slot e), conv_opt_slot (ve_to_slot e) with
  | Some f, Some t => inl (mkSedge (ve_from e) f (ve_to e) t)
  | _, _ => inr (ErEdge (ve_from e) (ve_to e))
  end.

(** ** [from_v1], network.rs 322-460 *)

Record node_out := mkNodeOut { no_nodes : list v2_node; no_virtual : list v2_node; no_errors : list conv_error; no_data : conv_data }.
(** 352-369: nodes in order; the count starts again for each. *)
Fixpoint conv_nodes (ns : list v1_node) (o : node_out) : option node_out :=
  match ns with
  | [] => Some o
  | n :: rest =>
      match conv_node n (mkData 0 (cd_params (no_data o)) (cd_series (no_data o))) with
      | CPanic => None
      | COk n2 d =>
          conv_nodes rest (if vn_virtual n then mkNodeOut (no_nodes o) (no_virtual o ++ [n2]) (no_errors o) d
                           else mkNodeOut (no_nodes o ++ [n2]) (no_virtual o) (no_errors o) d)
      | CErr e d => conv_nodes rest (mkNodeOut (no_nodes o) (no_virtual o) (no_errors o ++ [e]) d)
      end
  end.
(** 371-391. *)
Fixpoint conv_edges (es : list v1_edge) : list sedge * list conv_error :=
  match es with
  | [] => ([], [])
  | e :: rest => let '(oks, errs) := conv_edges rest in
      match conv_edge e with inl x => (x :: oks, errs) | inr x => (oks, x :: errs) end
  end.
Record param_out := mkParamOut { po_params : list v2_param; po_refs : list (string * ts_ref); po_errors : list conv_error; po_data : conv_data }.
(** 393-411. *)
Fixpoint conv_params (ps : list v1_param) (o : param_out) : option param_out :=
  match ps with
  | [] => Some o
  | p :: rest =>
      match conv_param p None (po_data o) with
      | CPanic => None
      | COk (IsParam p2) d => conv_params rest (mkParamOut (po_params o ++ [p2]) (po_refs o) (po_errors o) d)
      | COk (IsSeries name r) d => conv_params rest (mkParamOut (po_params o) (po_refs o ++ [(name, r)]) (po_errors o) d)
      | CErr e d => conv_params rest (mkParamOut (po_params o) (po_refs o) (po_errors o ++ [e]) d)
      end
  end.

(** 417-429: references to a parameter that became a time series; only values
    of sort [Metric] are visited (visit.rs), and only in nodes and
    parameters. *)
Definition update_metric (refs : list (string * ts_ref)) (s : fsort) (m : v2_metric) : v2_metric :=
  match s, m with
  | FMetric, M2Parameter name => match find (fun r => String.eqb (fst r) name) refs with Some r => M2Timeseries (snd r) | None => m end
  | _, m => m
  end.
Definition update_values (refs : list (string * ts_ref)) (vs : list (string * fsort * v2_metric)) : list (string * fsort * v2_metric) :=
  map (fun v => let '(attr, s, m) := v in (attr, s, update_metric refs s m)) vs.
Definition update_node refs (n : v2_node) : v2_node := mkV2Node (n2_name n) (n2_kind n) (update_values refs (n2_values n)) (n2_other n).
Definition update_param refs (p : v2_param) : v2_param := mkV2Param (p2_name p) (p2_kind p) (update_values refs (p2_values p)) (p2_other p).

Record v2_network := mkV2Net {
  v2_nodes : list v2_node; v2_virtual : list v2_node; v2_edges : list sedge; v2_params : list v2_param; v2_timeseries : list v2_series;
  v2_errors : list conv_error }.
Definition from_v1 (v1 : v1_network) : option v2_network :=
  match conv_nodes (v1_nodes v1) (mkNodeOut [] [] [] (mkData 0 [] [])) with
  | None => None
  | Some no =>
      let '(edges, edge_errors) := conv_edges (v1_edges v1) in
      match conv_params (v1_params v1) (mkParamOut [] [] [] (mkData 0 (cd_params (no_data no)) (cd_series (no_data no)))) with
      | None => None
      | Some po =>
          let refs := po_refs po in
          Some (mkV2Net (map (update_node refs) (no_nodes no)) (no_virtual no) edges
                        (map (update_param refs) (po_params po ++ cd_params (po_data po))) (cd_series (po_data po))
                        (no_errors no ++ edge_errors ++ po_errors po ++ map ErTable (v1_tables v1)))
      end
  end.
