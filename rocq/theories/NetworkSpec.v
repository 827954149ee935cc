(** Specification vocabulary for networks: what it means for a network to be
    well formed, and flows in and out of a node, written directly in terms of
    the list of edges. *)
From Verif Require Import Base Calendar Network NetworkBuild.
Open Scope nat_scope.

(** Indices of the edges that end / start at node [i], in declaration order. *)
Definition ends_at (net : network) (i k : nat) : bool :=
  match nth_error (net_edges net) k with Some e => e_to e =? i | None => false end.
Definition starts_at (net : network) (i k : nat) : bool :=
  match nth_error (net_edges net) k with Some e => e_from e =? i | None => false end.
Definition edge_ids (net : network) : list nat := seq 0 (length (net_edges net)).
Definition in_edges (net : network) (i : nat) : list nat := filter (ends_at net i) (edge_ids net).
Definition out_edges (net : network) (i : nat) : list nat := filter (starts_at net i) (edge_ids net).

(** Which edges a node of each kind must have. *)
Definition degrees_ok (t : node_type) (incoming outgoing : list nat) : Prop :=
  match t with
  | TInput => incoming = [] /\ outgoing <> []
  | TOutput => incoming <> [] /\ outgoing = []
  | TLink => incoming <> [] /\ outgoing <> []
  | TStorage => True
  end.

(** A well-formed network: every edge joins two different existing nodes, no
    two edges join the same pair, and each node lists exactly its own edges. *)
Record wf_network (net : network) : Prop := {
  wf_edges : forall e, In e (net_edges net) ->
      e_from e < length (net_nodes net) /\ e_to e < length (net_nodes net) /\ e_from e <> e_to e;
  wf_no_parallel : NoDup (net_edges net);
  wf_nodes : forall i n, nth_error (net_nodes net) i = Some n ->
      n_in n = in_edges net i /\ n_out n = out_edges net i /\ degrees_ok (n_type n) (n_in n) (n_out n);
  wf_aggs : forall a ns i, In a (net_aggs net) -> In ns (a_nodes a) -> In i ns ->
      i < length (net_nodes net);
  wf_vss : forall v i, In v (net_vss net) -> In i (v_nodes v) -> i < length (net_nodes net) }.

(** [u] is the name declared for node number [i]. *)
Definition declared (b : net_builder) (i : nat) (u : uname) : Prop :=
  nth_error (map nb_name (b_nodes b)) i = Some u.

(** The edges of a declaration that enter or leave the node called [u]. *)
Definition enters (u : uname) (e : uname * uname) : Prop := snd e = u.
Definition leaves (u : uname) (e : uname * uname) : Prop := fst e = u.

(** The declarations a network can be built from. *)
Record valid_declaration (b : net_builder) : Prop := {
  vd_names : NoDup (map nb_name (b_nodes b));
  vd_agg_names : NoDup (map ab_name (b_aggs b));
  vd_vs_names : NoDup (map vb_name (b_vss b));
  vd_edges : NoDup (b_edges b);
  vd_endpoints : forall e, In e (b_edges b) ->
      In (fst e) (map nb_name (b_nodes b)) /\ In (snd e) (map nb_name (b_nodes b)) /\ fst e <> snd e;
  vd_nodes : forall nb, In nb (b_nodes b) ->
      match nb_type nb with
      | TInput => Exists (leaves (nb_name nb)) (b_edges b) /\ ~ Exists (enters (nb_name nb)) (b_edges b)
      | TOutput => Exists (enters (nb_name nb)) (b_edges b) /\ ~ Exists (leaves (nb_name nb)) (b_edges b)
      | TLink => Exists (enters (nb_name nb)) (b_edges b) /\ Exists (leaves (nb_name nb)) (b_edges b)
      | TStorage => nb_init nb <> None
      end;
  vd_agg_refs : forall a us u, In a (b_aggs b) -> In us (ab_nodes a) -> In u us ->
      In u (map nb_name (b_nodes b));
  vd_vs_refs : forall v u, In v (b_vss b) -> In u (vb_nodes v) -> In u (map nb_name (b_nodes b)) }.
