(** C78: a model file is read, written and read again without loss. *)
From Coq Require Import Ascii String.
From Coq Require Import List Bool ZArith QArith Permutation Sorted Lia.
From Verif Require Import Serde SerdeTypes SerdeSpec SerdeCheck SerdeLemmas SerdeSame.
Import ListNotations.
Open Scope string_scope.
Open Scope list_scope.
Open Scope nat_scope.

(** The types of the crate keep the rules under which reading undoes writing. *)
Lemma pywr_wf : wf_types pywr = true.
Proof. vm_compute. reflexivity. Qed.

(** The three types of whole files: `ModelSchema`, `MultiNetworkModelSchema` and
    `NetworkSchema` (pywr-schema/src/model.rs 451-452, 503-508, 792-793, 814-819;
    network.rs 167-168, 306-311). *)
Definition files : list ty := [t_ModelSchema; t_MultiNetworkModelSchema; t_NetworkSchema].

Lemma files_wf : forall t, In t files -> wf pywr t = true.
Proof.
  intros t [<- | [<- | [<- | []]]].
  - apply (assoc_wf pywr pywr_wf "ModelSchema"). reflexivity.
  - apply (assoc_wf pywr pywr_wf "MultiNetworkModelSchema"). reflexivity.
  - apply (assoc_wf pywr pywr_wf "NetworkSchema"). reflexivity.
Qed.

(** Whatever is read, of whatever type of a file, can be written, and reading what
    was written gives the same value. *)
Theorem C78_round_trip : forall n t j v,
  assoc n pywr = Some t -> from_json pywr t j = Some v ->
  (exists j', writes pywr t v j') /\
  (forall j', writes pywr t v j' -> from_json pywr t j' = Some v).
Proof.
  intros n t j v A R. pose proof (assoc_wf pywr pywr_wf n t A) as W. split.
  - exact (write_exists pywr pywr_wf _ _ _ _ R W).
  - intros j' Wj. unfold from_json. apply (read_writes pywr pywr_wf); [exact Wj | exact W | lia].
Qed.
Print Assumptions C78_round_trip.

(** In particular for whole files. *)
Theorem C78_file_round_trip : forall t j v j',
  In t files -> from_json pywr t j = Some v -> writes pywr t v j' -> from_json pywr t j' = Some v.
Proof.
  intros t j v j' I R W. unfold from_json. apply (read_writes pywr pywr_wf); [exact W | now apply files_wf | lia].
Qed.
Print Assumptions C78_file_round_trip.

(** Values that are made in a program and written are read back, too, and no two
    values are written alike. *)
Theorem C78_written_apart : forall n t v v' j,
  assoc n pywr = Some t -> writes pywr t v j -> writes pywr t v' j -> v = v'.
Proof.
  intros n t v v' j A W W'. pose proof (assoc_wf pywr pywr_wf n t A) as H.
  assert (X : from_json pywr t j = Some v) by (unfold from_json; apply (read_writes pywr pywr_wf); [exact W | exact H | lia]).
  assert (Y : from_json pywr t j = Some v') by (unfold from_json; apply (read_writes pywr pywr_wf); [exact W' | exact H | lia]).
  congruence.
Qed.
Print Assumptions C78_written_apart.

(** The bound on the names that are looked up is not felt. *)
Theorem C78_fuel : forall n t j f,
  assoc n pywr = Some t -> 8 * S (depth j) <= f -> read pywr f t j = from_json pywr t j.
Proof.
  intros n t j f A H. unfold from_json. pose proof (assoc_wf pywr pywr_wf n t A) as W.
  apply (fuel_enough pywr pywr_wf _ _ _ 6); [exact W | now apply wf_rank | lia | lia].
Qed.
Print Assumptions C78_fuel.

(** Whatever is read is a value of its type, down to every part: a number out of
    the range of its type, or zero where it must not be, is refused. *)
Lemma like_length : forall p s, like p s = true -> String.length s = String.length p.
Proof.
  induction p as [|a p IH]; destruct s as [|c s]; cbn; intros H; try reflexivity; try discriminate.
  apply andb_prop in H. rewrite (IH s (proj2 H)). reflexivity.
Qed.
Lemma in_order_keys {A} (m : list (string * A)) : in_order m -> NoDup (map fst m).
Proof.
  unfold in_order, keys. induction (map fst m) as [|k l IH]; intros H; [constructor|]. inversion H as [|? ? H1 H2]; subst.
  constructor; [|exact (IH H1)]. intros I. rewrite Forall_forall in H2. specialize (H2 k I).
  pose proof (String.compare_antisym k k) as E. rewrite H2 in E. discriminate E.
Qed.
Lemma writes_typed S0 :
  (forall t v j, writes S0 t v j -> of_type S0 t v) /\
  (forall t vs js, writes_all S0 t vs js -> Forall (of_type S0 t) vs) /\
  (forall ts vs js, writes_each S0 ts vs js -> Forall2 (of_type S0) ts vs) /\
  (forall t m l, writes_entries S0 t m l -> Forall (fun kv => of_type S0 t (snd kv)) m) /\
  (forall fs vs l, writes_fields S0 fs vs l -> Forall2 (fun f v => of_type S0 (snd f) v \/ absent v) fs vs).
Proof.
  apply writes_mutual; intros; try (econstructor; eauto; fail).
  - unfold in_range in H. rewrite !andb_true_iff, orb_true_iff in H. destruct H as ((A & B) & C). constructor; [lia|].
    intros ->. destruct C as [C|C]; [exact C|discriminate C].
  - constructor. exact (like_length _ _ H).
  - constructor; [exact (in_order_keys _ H)|assumption].
  - constructor. apply nth_error_Some. congruence.
  - constructor; [|assumption]. right. unfold skipped in H. destruct (f_skip m), v; try discriminate H; [left; reflexivity|]. destruct l0; [right; reflexivity|discriminate H].
Qed.
Theorem C78_typed : forall n t j v, assoc n pywr = Some t -> from_json pywr t j = Some v -> of_type pywr t v.
Proof.
  intros n t j v A R. destruct (proj1 (C78_round_trip n t j v A R)) as (j' & W). exact (proj1 (writes_typed pywr) _ _ _ W).
Qed.
Print Assumptions C78_typed.

(** ** What is read says what the file says *)

(** The latitude of the file format.
    - Other spellings: the aliases of the code.
    - Defaults that are written although they were not given.
    - Objects that ignore what they do not know. *)
Definition lenient : latitude := mkLat
  [ ("params", "metrics");                                   (* AggregatedParameter *)
    ("<", "LT"); (">", "GT"); ("==", "EQ"); ("<=", "LE"); (">=", "GE") ]
  [ ("ratchet", JBool false);
    ("return_type", JStr "Float");
    ("filters", JObj [("all_nodes", JBool false); ("all_virtual_nodes", JBool false);
                      ("all_parameters", JBool false); ("all_edges", JBool false)]);
    ("all_nodes", JBool false); ("all_virtual_nodes", JBool false);
    ("all_parameters", JBool false); ("all_edges", JBool false) ]
  [ (* the model file itself *)
    (["metadata"; "time"; "network"], ["metadata"; "time"; "scenarios"; "network"]);
    (["metadata"; "time"; "networks"], ["metadata"; "time"; "scenarios"; "networks"]);
    (* its metadata, time domain and scenario groups *)
    (["title"], ["title"; "description"; "minimum_version"]);
    (["start"; "end"; "timestep"], ["start"; "end"; "timestep"]);
    (["name"; "size"], ["name"; "size"; "labels"; "subset"]);
    (* networks of a file of several, and transfers *)
    (["name"; "network"; "transfers"], ["name"; "network"; "transfers"]);
    (["from_network"; "metric"; "name"], ["from_network"; "metric"; "name"; "initial_value"]);
    (* edges and slots *)
    (["from_node"; "to_node"], ["from_node"; "to_node"; "from_slot"; "to_slot"]);
    (["type"; "position"], ["type"; "position"]);
    (["type"; "name"], ["type"; "name"]);
    (* tables, checksums, outputs *)
    (["format"; "meta"; "type"; "lookup"; "url"; "checksum"], ["format"; "meta"; "type"; "lookup"; "url"; "checksum"]);
    (["type"; "hash"], ["type"; "hash"]);
    (["type"; "name"; "filename"; "format"; "metric_set"], ["type"; "name"; "filename"; "format"; "metric_set"; "decimal_places"]);
    (["type"; "name"; "filename"; "metric_set"], ["type"; "name"; "filename"; "metric_set"]);
    (["type"; "name"; "metric_set"], ["type"; "name"; "metric_set"; "aggregation"; "order"]);
    ([], ["time"; "scenario"; "metric"]);
    (* the meta data of nodes, parameters and tables *)
    (["name"], ["name"; "comment"; "position"; "tags"]);
    ([], ["schematic"; "geographic"]);
    (["name"], ["name"; "comment"; "tags"]);
    (["name"], ["name"; "comment"]);
    (* parts of nodes *)
    (["cost"; "flow"], ["cost"; "flow"]);
    (["factor"; "slot_name"], ["factor"; "slot_name"]);
    (["data"; "is_storage_proportional"], ["data"; "is_storage_proportional"]);
    (["data"; "use_max_area"], ["data"; "use_max_area"]);
    (["data"; "cost"; "use_max_area"], ["data"; "cost"; "use_max_area"]);
    (["loss"; "cost"], ["loss"; "cost"]);
    (["storage"; "area"], ["storage"; "area"]);
    (* whatever needs no more than its type *)
    (["type"], ["type"]) ].

Lemma pywr_slack : slack_types pywr lenient = true.
Proof. vm_compute. reflexivity. Qed.

(** If a file is read, the value that comes of it is written as a file that says
    the same: but for the latitude above nothing of the file is lost, and nothing
    is made up. *)
Theorem C78_same_partial : forall t j v j',
  In t files -> plain j -> from_json pywr t j = Some v -> writes pywr t v j' -> same lenient j j'.
Proof.
  intros t j v j' I P R W.
  assert (X : loose_at pywr lenient 6 t = true /\ slack pywr lenient t = true)
    by (destruct I as [<- | [<- | [<- | []]]]; split; vm_compute; reflexivity).
  exact (all_same pywr pywr_wf lenient pywr_slack _ t 6 j v j' R W P (files_wf t I) (proj1 X) (proj2 X)).
Qed.
Print Assumptions C78_same_partial.

(** ** What is refused *)

(** Most objects refuse what they do not know: every object of the network, every
    node, parameter, time series, metric set, ... *)
Theorem C78_unknown_refused : forall fs l k f,
  In k (keys l) -> ~ In k (known fs) -> read pywr f (TStruct true fs) (JObj l) = None.
Proof.
  intros fs l k f I N. rewrite read_struct. cbn [andb].
  destruct (forallb (fun k => mem k (known fs)) (keys l)) eqn:E; [| reflexivity].
  exfalso. rewrite forallb_forall in E. apply N, mem_In, E, I.
Qed.
Print Assumptions C78_unknown_refused.

(** The types of nodes, virtual nodes, parameters, time series and metrics are all
    such, whatever their variant. *)
Definition strict_enums : list string :=
  ["Node"; "VirtualNode"; "Parameter"; "Timeseries"; "Metric"; "IndexMetric"; "Timestep"].

Theorem C78_strict : forall n, In n strict_enums ->
  exists tag vs, assoc n pywr = Some (TTag tag vs) /\
  forall l v f, read pywr f (TTag tag vs) (JObj l) = Some v ->
  exists variant t fs, In (tag, JStr variant) l /\ In (variant, t) vs /\
    payload pywr 6 t = Some (true, fs) /\
    forall k, In k (keys l) -> k = tag \/ In k (known fs).
Proof.
  intros n I.
  assert (X : exists tag vs, assoc n pywr = Some (TTag tag vs) /\
     forallb (fun v => match payload pywr 6 (snd v) with Some (true, _) => true | _ => false end) vs = true).
  { destruct I as [<- | [<- | [<- | [<- | [<- | [<- | [<- | []]]]]]]]; do 2 eexists; split; vm_compute; reflexivity. }
  destruct X as (tag & vs & A & S). exists tag, vs. split; [exact A |].
  rewrite forallb_forall in S. pose proof (assoc_wf pywr pywr_wf _ _ A) as W.
  cbn [wf] in W. apply andb_true_iff in W. destruct W as (_ & W). apply andb_true_iff in W. destruct W as (_ & W).
  rewrite forallb_forall in W.
  intros l v f R. rewrite read_tag in R.
  destruct (members [tag] l) as [|[| | | |nm| |] [|? ?]] eqn:M; try discriminate.
  destruct (read_variant_Some _ _ _ _ _ _ R) as (p & t & w & It & Rt & _ & _). apply nth_error_In in It.
  assert (Im : In (JStr nm) (members [tag] l)) by (rewrite M; now left).
  destruct (members_In _ _ _ Im) as (k0 & [<- | []] & Ik).
  specialize (S _ It). specialize (W _ It). cbn [snd] in S, W.
  destruct (payload pywr 6 t) as [([|], fs)|] eqn:P; try discriminate.
  exists nm, t, fs. split; [exact Ik |]. split; [exact It |]. split; [exact P |].
  intros k K. destruct (String.eqb k tag) eqn:Et; [left; now apply String.eqb_eq |]. right.
  apply andb_true_iff in W. destruct W as (W & _).
  assert (Q : forall n f t, payload pywr n t = Some (true, fs) -> forall l v, read pywr f t (JObj l) = Some v ->
     forall k, In k (keys l) -> In k (known fs)).
  { clear. induction n as [|n IH]; intros f t P l v R k K.
    - destruct t; try discriminate. injection P as -> ->.
      destruct (mem k (known fs)) eqn:M; [now apply mem_In |]. apply mem_not in M.
      rewrite (C78_unknown_refused fs l k f K M) in R. discriminate.
    - destruct t; try discriminate.
      + injection P as -> ->.
        destruct (mem k (known fs)) eqn:M; [now apply mem_In |]. apply mem_not in M.
        rewrite (C78_unknown_refused fs l k f K M) in R. discriminate.
      + cbn [payload] in P. rewrite read_ref in R. destruct f as [|f]; [discriminate |].
        destruct (assoc name pywr) as [t|]; [| discriminate]. now apply (IH f t P l v R). }
  apply (Q 6 f t P _ _ Rt). apply in_map_iff in K. destruct K as ((k', x) & E & K). cbn in E. subst k'.
  apply in_map_iff. exists (k, x). split; [reflexivity |]. apply filter_In. split; [exact K |]. cbn. now rewrite Et.
Qed.
Print Assumptions C78_strict.

(** ** Where a slip is not noticed *)

Definition a_network : json :=
  JObj [ ("nodes", JArr [ JObj [("type", JStr "Input"); ("meta", JObj [("name", JStr "in")]);
                                ("max_flow", JObj [("type", JStr "Literal"); ("value", JInt 15)])];
                          JObj [("meta", JObj [("name", JStr "out"); ("comment", JNull)]); ("type", JStr "Output");
                                ("cost", JObj [("type", JStr "Parameter"); ("name", JStr "cost")])] ]);
         ("edges", JArr [ JObj [("from_node", JStr "in"); ("to_node", JStr "out")] ]);
         ("parameters", JArr [ JObj [("type", JStr "Constant"); ("meta", JObj [("name", JStr "cost")]);
                                     ("value", JObj [("type", JStr "Literal"); ("value", JFlt (-10.5))])];
                               JObj [("type", JStr "Threshold"); ("meta", JObj [("name", JStr "low")]);
                                     ("metric", JObj [("type", JStr "Parameter"); ("name", JStr "cost")]);
                                     ("threshold", JObj [("type", JStr "Literal"); ("value", JInt 3)]);
                                     ("predicate", JStr "<=")] ]) ].

Definition a_model (scenarios : list (string * json)) : json :=
  JObj ([ ("metadata", JObj [("title", JStr "a model")]);
          ("time", JObj [("start", JStr "2020-01-01"); ("end", JStr "2020-12-31 06:00:00");
                         ("timestep", JObj [("type", JStr "Days"); ("days", JInt 7)])]);
          ("network", a_network) ] ++ scenarios).

Definition ten_scenarios : json :=
  JObj [("groups", JArr [JObj [("name", JStr "climate"); ("size", JInt 10)]]); ("combinations", JNull)].

(** With the key `scenario` for `scenarios` the ten scenarios are not run, and
    nothing is said about it. *)
Theorem C78_misspelt_scenarios_refuted :
  exists v, from_json pywr t_ModelSchema (a_model [("scenario", ten_scenarios)]) = Some v /\
    from_json pywr t_ModelSchema (a_model []) = Some v /\
    exists w, from_json pywr t_ModelSchema (a_model [("scenarios", ten_scenarios)]) = Some w /\ w <> v.
Proof.
  eexists. split; [vm_compute; reflexivity |]. split; [vm_compute; reflexivity |].
  eexists. split; [vm_compute; reflexivity |]. discriminate.
Qed.
Print Assumptions C78_misspelt_scenarios_refuted.

(** An edge whose slot is misspelt has no slot: it is an edge from the node, and
    not from the slot. *)
Theorem C78_misspelt_slot_refuted :
  let edge extra := JObj ([("from_node", JStr "split"); ("to_node", JStr "river")] ++ extra) in
  let slot := JObj [("type", JStr "User"); ("name", JStr "abstraction")] in
  exists v, from_json pywr t_Edge (edge [("slot", slot)]) = Some v /\
    from_json pywr t_Edge (edge []) = Some v /\
    exists w, from_json pywr t_Edge (edge [("from_slot", slot)]) = Some w /\ w <> v.
Proof.
  cbv zeta. eexists. split; [vm_compute; reflexivity |]. split; [vm_compute; reflexivity |].
  eexists. split; [vm_compute; reflexivity |]. discriminate.
Qed.
Print Assumptions C78_misspelt_slot_refuted.

(** What an aggregation function does not take is ignored, too. *)
Theorem C78_ignored_member_refuted :
  from_json pywr t_AggFunc (JObj [("type", JStr "Sum"); ("absolute", JBool true)]) =
  from_json pywr t_AggFunc (JObj [("type", JStr "Sum")]) /\
  exists v, from_json pywr t_AggFunc (JObj [("type", JStr "Sum")]) = Some v.
Proof. split; [vm_compute; reflexivity |]. eexists. vm_compute. reflexivity. Qed.
Print Assumptions C78_ignored_member_refuted.

(** So without the list of loose objects the claim is false. *)
Theorem C78_same_refuted :
  exists t j v, In t files /\ plain j /\ from_json pywr t j = Some v /\
    (exists j', writes pywr t v j') /\
    forall j', writes pywr t v j' -> ~ same (mkLat (spelling lenient) (default lenient) []) j j'.
Proof.
  assert (R : exists v, from_json pywr t_ModelSchema (a_model [("scenario", JStr "ten")]) = Some v)
    by (eexists; vm_compute; reflexivity).
  destruct R as (v & R). exists t_ModelSchema, (a_model [("scenario", JStr "ten")]), v.
  split; [now left |]. split.
  { assert (D : forall l, (NoDup (map fst l) /\ forall k x, In (k, x) l -> plain x) -> plain (JObj l))
      by (intros l (A & B); now constructor).
    repeat (first [ apply D; split;
      [ cbn; repeat (constructor; [cbn; intuition discriminate |]); constructor |
        cbn; intros ? ? H; repeat (destruct H as [H | H]; [injection H as <- <- |]); [.. | contradiction H] ]
      | constructor; cbn; intros ? H; repeat (destruct H as [<- | H]); [.. | contradiction H] | constructor ]). }
  split; [exact R |]. split.
  - refine (write_exists pywr pywr_wf _ _ _ _ R _). apply files_wf. now left.
  - intros j' W S. inversion W as [| | | | | | | | | | |? ? ? l' Wf| | | | |]; subst.
    inversion S as [| | | | | | | | |? ? A _]; subst.
    destruct (A "scenario" (JStr "ten")) as [[E | E] | [(? & ? & [] & _) | (k' & y & Sp & I & _)]];
      [cbn; tauto | discriminate | discriminate |].
    assert (k' = "scenario") as ->.
    { destruct Sp as [<- | Sp]; [reflexivity |]. exfalso. cbn in Sp.
      repeat (destruct Sp as [Sp | Sp]; [discriminate Sp |]). exact Sp. }
    pose proof (fields_keys pywr _ _ _ Wf "scenario") as K.
    assert (In "scenario" (known (match t_ModelSchema with TStruct _ fs => fs | _ => [] end))).
    { apply K. apply in_map_iff. exists ("scenario", y). auto. }
    cbn in H. repeat (destruct H as [H | H]; [discriminate H |]). exact H.
Qed.
Print Assumptions C78_same_refuted.

(** ** A case *)

(** The model above is read, and so is what is written of it; it is plain, so that
    it says the same. *)
Example C78_example :
  In t_ModelSchema files /\
  (exists v, from_json pywr t_ModelSchema (a_model [("scenarios", ten_scenarios)]) = Some v) /\
  from_json pywr (TRef "Node") (JObj [("type", JStr "Input"); ("meta", JObj [("name", JStr "in")]); ("max_flw", JInt 1)]) = None.
Proof.
  split; [now left |]. split; [eexists; vm_compute; reflexivity | vm_compute; reflexivity].
Qed.
