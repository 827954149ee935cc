(** What the conversion of a v1 model file should preserve. *)
From Coq Require Import QArith.
From Verif Require Import Base SchemaNodes V1Convert.
Local Open Scope string_scope.
Local Open Scope list_scope.
Local Open Scope nat_scope.

(** The name a parameter is given in the old file. *)
Definition given_name (p : v1_param) : option string :=
  match p with PCore _ (Some n) _ _ _ | PData (Some n) _ _ _ _ => n | _ => None end.
Definition given (p : v1_param) : list string := match given_name p with Some n => [n] | None => [] end.

(** All names given to a parameter and to what is nested in it. *)
Fixpoint names_v (v : v1_value) : list string := match v with VInline p => names_p p | _ => [] end
with names_p (p : v1_param) : list string :=
  match p with
  | PCore _ _ values _ _ => given p ++ (fix go vs := match vs with [] => [] | (_, v) :: r => names_v v ++ go r end) values
  | PData _ _ _ _ _ => given p
  end.
Definition names_vs (vs : list (string * fsort * v1_value)) : list string := flat_map (fun x => names_v (snd x)) vs.

(** A parameter and all that is nested in it. *)
Fixpoint inside_v (v : v1_value) : list v1_param := match v with VInline p => inside_p p | _ => [] end
with inside_p (p : v1_param) : list v1_param :=
  match p with
  | PCore _ _ values _ _ => p :: (fix go vs := match vs with [] => [] | (_, v) :: r => inside_v v ++ go r end) values
  | PData _ _ _ _ _ => [p]
  end.
Definition inside_vs (vs : list (string * fsort * v1_value)) : list v1_param := flat_map (fun x => inside_v (snd x)) vs.
Definition all_params (v1 : v1_network) : list v1_param :=
  flat_map (fun n => inside_vs (vn_values n)) (v1_nodes v1) ++ flat_map inside_p (v1_params v1).

(** The data a [DataFrame] stands for can be located. *)
Definition locatable (p : v1_param) : bool :=
  match p with
  | PData _ url table column scenario =>
      (match url, table with None, None => false | _, _ => true end && match column, scenario with Some _, Some _ => false | _, _ => true end)%bool
  | _ => false
  end.
(** A parameter of the file that holds such data. *)
Definition dataframe (v1 : v1_network) (n : string) : Prop := exists p, In p (v1_params v1) /\ given_name p = Some n /\ locatable p = true.

(** A reference to a time series reads the data of a [DataFrame]. *)
Definition reads (series : list v2_series) (p : v1_param) (r : ts_ref) : Prop :=
  match p with
  | PData meta (Some u) _ column scenario =>
      In (mkV2Series (tr_name r) u) series /\ tr_column r = column /\ tr_scenario r = scenario /\
      (forall n, given_name p = Some n -> tr_name r = n)
  | PData _ None (Some t) column scenario => tr_name r = t /\ tr_column r = column /\ tr_scenario r = scenario
  | _ => False
  end.

(** A value of the old file and a metric of the new one mean the same, given
    the parameters and time series of the new file. *)
Section Same.
  Variable is_data : string -> Prop.
  Variable data_of : string -> ts_ref -> Prop.
  Variable params : list v2_param.
  Variable series : list v2_series.
  Inductive same_value : v1_value -> v2_metric -> Prop :=
  | same_const q : same_value (VConst q) (M2Literal q)
  | same_index q n : (q == inject_Z (Z.of_nat n))%Q -> same_value (VConst q) (M2Index n)
  | same_table t : same_value (VTable t true) (M2Table t)
  | same_ref n : ~ is_data n -> same_value (VRef n) (M2Parameter n)
  | same_ref_data n r : data_of n r -> same_value (VRef n) (M2Timeseries r)
  | same_inline p p2 : In p2 params -> same_param p p2 -> same_value (VInline p) (M2Parameter (p2_name p2))
  | same_inline_data p r : reads series p r -> same_value (VInline p) (M2Timeseries r)
  with same_param : v1_param -> v2_param -> Prop :=
  | same_core kind meta values other p2 :
      (forall n, meta = Some (Some n) -> p2_name p2 = n) -> p2_kind p2 = kind -> p2_other p2 = other ->
      same_values values (p2_values p2) -> same_param (PCore kind meta values other EndOk) p2
  with same_values : list (string * fsort * v1_value) -> list (string * fsort * v2_metric) -> Prop :=
  | same_nil : same_values [] []
  | same_cons attr s v m vs ms : same_value v m -> same_values vs ms -> same_values ((attr, s, v) :: vs) ((attr, s, m) :: ms).
End Same.
Definition data_reference (v1 : v1_network) (o : v2_network) (n : string) (r : ts_ref) : Prop :=
  exists p, In p (v1_params v1) /\ given_name p = Some n /\ reads (v2_timeseries o) p r.
Definition means (v1 : v1_network) (o : v2_network) : list (string * fsort * v1_value) -> list (string * fsort * v2_metric) -> Prop :=
  same_values (dataframe v1) (data_reference v1 o) (v2_params o) (v2_timeseries o).
Definition same_node (v1 : v1_network) (o : v2_network) (n : v1_node) (n2 : v2_node) : Prop :=
  n2_name n2 = vn_name n /\ n2_kind n2 = vn_kind n /\ n2_other n2 = vn_other n /\ means v1 o (vn_values n) (n2_values n2).

(** ** The names of an old file *)

(** The name given to an unnamed parameter inside [owner]. *)
Definition generated (owner : string) (k : nat) : string := (owner ++ "-p" ++ dec k)%string.

(** Everywhere in a value: meta data is present, no control curve has to be
    converted twice, and a reference to a [DataFrame] is made only where the
    conversion looks for it ([top]: directly in an attribute of a virtual
    node). *)
Fixpoint tidy_v (is_data : string -> Prop) (top : bool) (s : fsort) (v : v1_value) : Prop :=
  match v with
  | VRef n => is_data n -> s = FMetric /\ top = false
  | VInline p => tidy_p is_data p
  | _ => True
  end
with tidy_p (is_data : string -> Prop) (p : v1_param) : Prop :=
  match p with
  | PCore _ meta values _ e => meta <> None /\ e <> EndFallback /\
      (fix go vs := match vs with [] => True | (_, s, v) :: r => tidy_v is_data false s v /\ go r end) values
  | PData meta _ _ _ _ => meta <> None
  end.
Definition tidy_vs (is_data : string -> Prop) (top : bool) (vs : list (string * fsort * v1_value)) : Prop :=
  Forall (fun x => tidy_v is_data top (snd (fst x)) (snd x)) vs.

Record tidy (v1 : v1_network) : Prop := {
  td_nodes : NoDup (map vn_name (v1_nodes v1));
  td_named : forall p, In p (v1_params v1) -> given_name p <> None;
  td_names : NoDup (flat_map (fun n => names_vs (vn_values n)) (v1_nodes v1) ++ flat_map names_p (v1_params v1));
  td_apart : forall n p, In n (v1_nodes v1) -> In p (v1_params v1) -> given_name p <> Some (vn_name n);
  td_generated : forall x owner k,
    In x (flat_map (fun n => names_vs (vn_values n)) (v1_nodes v1) ++ flat_map names_p (v1_params v1)) ->
    In owner (map vn_name (v1_nodes v1)) \/ (exists p, In p (v1_params v1) /\ given_name p = Some owner) ->
    x <> generated owner k;
  td_values_nodes : forall n, In n (v1_nodes v1) -> tidy_vs (dataframe v1) (vn_virtual n) (vn_values n);
  td_values_params : forall p, In p (v1_params v1) -> tidy_p (dataframe v1) p }.

(** ** What became of each component *)
Inductive fate (A : Type) := Kept (a : A) | Dropped (e : conv_error).
Arguments Kept {A}. Arguments Dropped {A}.
Definition kept {A} (fs : list (fate A)) : list A := flat_map (fun f => match f with Kept a => [a] | Dropped _ => [] end) fs.
Definition dropped {A} (fs : list (fate A)) : list conv_error := flat_map (fun f => match f with Kept _ => [] | Dropped e => [e] end) fs.

(** A node is kept with the same meaning, or reported under its name. *)
Definition node_fate (v1 : v1_network) (o : v2_network) (n : v1_node) (f : fate v2_node) : Prop :=
  match f with Kept n2 => same_node v1 o n n2 | Dropped e => exists attr, e = ErNode (vn_name n) attr end.
(** A parameter is kept with the same meaning, replaced by a time series that
    reads its data, or reported under its name. *)
Definition param_fate (v1 : v1_network) (o : v2_network) (p : v1_param) (f : fate (v2_param + ts_ref)) : Prop :=
  match f with
  | Kept (inl p2) => same_param (dataframe v1) (data_reference v1 o) (v2_params o) (v2_timeseries o) p p2
  | Kept (inr r) => reads (v2_timeseries o) p r
  | Dropped e => exists n attr, given_name p = Some n /\ e = ErParameter n attr
  end.
Definition as_params (ks : list (v2_param + ts_ref)) : list v2_param := flat_map (fun k => match k with inl p => [p] | inr _ => [] end) ks.

(** The words for the slots of an edge. *)
Inductive slot_word : string -> slot -> Prop :=
| w_abstraction : slot_word "abstraction" SlAbstraction
| w_river : slot_word "river" SlRiver
| w_storage : slot_word "storage" SlStorage
| w_spill : slot_word "spill" SlSpill
| w_compensation : slot_word "compensation" SlCompensation.
Definition same_slot (w : option string) (s : option slot) : Prop :=
  match w, s with None, None => True | Some w, Some s => slot_word w s | _, _ => False end.
Definition unknown_slot (w : option string) : Prop := match w with None => False | Some w => forall s, ~ slot_word w s end.
Definition edge_fate (e : v1_edge) (f : fate sedge) : Prop :=
  match f with
  | Kept e2 => se_from e2 = ve_from e /\ se_to e2 = ve_to e /\ same_slot (ve_from_slot e) (se_from_slot e2) /\ same_slot (ve_to_slot e) (se_to_slot e2)
  | Dropped er => er = ErEdge (ve_from e) (ve_to e) /\ (unknown_slot (ve_from_slot e) \/ unknown_slot (ve_to_slot e))
  end.
