(** C48: data tables. *)
From Coq Require Import QArith Qround.
From Verif Require Import Base Tables TablesSpec TablesLemmas.
Local Open Scope string_scope.
Local Open Scope list_scope.
Local Open Scope nat_scope.

Lemma number_parse pf pi s q : number pf pi s q <-> exists v, parse_scalar pf pi s = Some v /\ as_f64 v = q.
Proof.
  unfold number, parse_scalar. destruct (pf s) as [q'|].
  - split; [intros [E|[E _]]; [injection E as ->; exists (SFloat q); auto | discriminate]|]. intros (v & E & <-). injection E as <-. left. reflexivity.
  - destruct (pi s) as [z|]; cbn [option_map]; split.
    + intros [E|(_ & z' & E & ->)]; [discriminate|]. injection E as ->. exists (SInt z'). auto.
    + intros (v & E & <-). injection E as <-. right. split; [reflexivity|]. exists z. auto.
    + intros [E|(_ & z' & E & _)]; discriminate.
    + intros (v & E & _). discriminate.
Qed.

Lemma get_spec {V} (t : table V) (P : list string -> V -> Prop) key :
  (forall v, hm_get key (tb_values t) = Some v <-> P key v) ->
  (length key <> tb_keys t -> table_get t key = Err (WrongKeySize (tb_keys t) (length key))) /\
  (length key = tb_keys t -> (forall v, table_get t key = Ok v <-> P key v) /\ (table_get t key = Err EntryNotFound <-> ~ exists v, P key v)).
Proof.
  intros H. unfold table_get. split.
  - intros Hl. rewrite (proj2 (Nat.eqb_neq _ _) Hl). reflexivity.
  - intros Hl. rewrite (proj2 (Nat.eqb_eq _ _) Hl). destruct (hm_get key (tb_values t)) as [v|] eqn:E.
    + split; [intros w; rewrite <- H; split; congruence|]. split; [discriminate|]. intros Hn. exfalso. apply Hn. exists v. apply H. reflexivity.
    + split; [intros w; rewrite <- H; split; discriminate|]. split; [|reflexivity]. intros _ (v & Hv). apply H in Hv. discriminate.
Qed.

(** The layouts for which a scalar table has as many keys as it should. *)
Definition scalar_layout (l : lookup) : Prop :=
  match l with LookupRow n | LookupCol n => n = 1 \/ n = 2 | LookupBoth _ _ => True end.

Lemma scalar_table pf pi name l f t : load_table pf pi (mkTableDef name ScalarTable l (Some f)) = Ok t -> scalar_layout l -> unambiguous (cell l f) ->
  exists tb, t = FloatScalar tb /\ tb_keys tb = key_size l /\
    forall key v, hm_get key (tb_values tb) = Some v <-> exists s, cell l f key s /\ parse_scalar pf pi s = Some v.
Proof.
  unfold load_table. cbn [td_type td_lookup td_file]. intros H Hl Hu.
  assert (Hcol : forall kvs, (forall k v, In (k, v) kvs <-> exists s, cell l f k s /\ parse_scalar pf pi s = Some v) ->
    forall key v, hm_get key (hm_collect kvs) = Some v <-> exists s, cell l f key s /\ parse_scalar pf pi s = Some v).
  { intros kvs Hk key v. rewrite <- Hk. apply hm_get_iff. intros k w w' H1 H2. apply Hk in H1, H2. destruct H1 as (s & C1 & P1), H2 as (s' & C2 & P2).
    rewrite (Hu _ _ _ C1 C2) in P1. congruence. }
  destruct l as [n|n|rows cols].
  - assert (H' : exists tb, load_csv_rows_scalar pf pi n f = Ok tb /\ t = FloatScalar tb).
    { destruct Hl as [-> | ->]; cbn [from_csv_row_scalar] in H; (destruct (load_csv_rows_scalar _ _ _ _) as [tb| |]; try discriminate; injection H as <-; eauto). }
    destruct H' as (tb & E & ->). exists tb. split; [reflexivity|]. destruct (rows_scalar_spec _ _ _ _ _ E) as (Ek & _ & _ & kvs & Ev & _ & Hk).
    split; [exact Ek|]. intros key v. rewrite Ev, hm_get_with_value by apply hm_collect_NoDup.
    assert (Hf : unambiguous (fun k o => In (k, o) kvs)).
    { intros k o o' H1 H2. apply Hk in H1, H2. destruct H1 as (s & C1 & ->), H2 as (s' & C2 & ->). rewrite (Hu _ _ _ C1 C2). reflexivity. }
    destruct (hm_get key (hm_collect kvs)) as [o|] eqn:Eg.
    + apply hm_get_In in Eg. pose proof (proj1 (Hk _ _) Eg) as (s & C & ->). split.
      * intros Ep. exists s. split; [exact C|]. destruct (parse_scalar pf pi s); congruence.
      * intros (s' & C' & Ep). rewrite (Hu _ _ _ C C'), Ep. reflexivity.
    + split; [discriminate|]. intros (s & C & Ep). exfalso. apply (hm_get_None _ _ Eg (parse_scalar pf pi s)). apply Hk. exists s. auto.
  - assert (H' : 0 < n /\ exists tb, load_csv_cols_scalar pf pi n f = Ok tb /\ t = FloatScalar tb).
    { destruct Hl as [-> | ->]; cbn [from_csv_col_scalar] in H; (split; [lia|]); (destruct (load_csv_cols_scalar _ _ _ _) as [tb| |]; try discriminate; injection H as <-; eauto). }
    destruct H' as (Hn & tb & E & ->). exists tb. split; [reflexivity|]. destruct (cols_scalar_spec _ _ _ _ _ Hn E) as (Ek & _ & _ & kvs & Ev & Hk).
    split; [exact Ek|]. rewrite Ev. apply Hcol, Hk.
  - assert (H' : 0 < rows /\ exists tb, load_csv_row_col_scalar pf pi rows cols f = Ok tb /\ t = FloatScalar tb).
    { destruct rows as [|[|[|rows]]]; [| destruct cols as [|[|[|cols]]] | destruct cols as [|[|[|cols]]] |]; try discriminate; cbn [from_csv_row_col_scalar] in H;
        (split; [lia|]); (destruct (load_csv_row_col_scalar _ _ _ _ _) as [tb| |]; try discriminate; injection H as <-; eauto). }
    destruct H' as (Hn & tb & E & ->). exists tb. split; [reflexivity|]. destruct (row_col_scalar_spec _ _ _ _ _ _ Hn E) as (Ek & _ & kvs & Ev & Hk).
    split; [exact Ek|]. rewrite Ev. apply Hcol, Hk.
Qed.

(** A scalar table answers a key of the right size with the number in the cell
    it addresses, or that there is no entry if there is no such cell or it holds
    no number; a key of another size is an error.  Missing: three and four keys
    by row or by column, for which this is false (see below). *)
Theorem C48_scalar_lookup_partial : forall pf pi name l f t key,
  load_table pf pi (mkTableDef name ScalarTable l (Some f)) = Ok t -> scalar_layout l -> unambiguous (cell l f) ->
  (length key <> key_size l -> loaded_scalar_f64 t key = Err (WrongKeySize (key_size l) (length key))) /\
  (length key = key_size l ->
    (forall q, loaded_scalar_f64 t key = Ok q <-> exists s, cell l f key s /\ number pf pi s q) /\
    (loaded_scalar_f64 t key = Err EntryNotFound <-> ~ exists s q, cell l f key s /\ number pf pi s q)).
Proof.
  intros pf pi name l f t key H Hl Hu. destruct (scalar_table _ _ _ _ _ _ H Hl Hu) as (tb & -> & Ek & Hg).
  destruct (get_spec tb (fun key v => exists s, cell l f key s /\ parse_scalar pf pi s = Some v) key (Hg key)) as (G1 & G2). rewrite Ek in G1, G2.
  cbn [loaded_scalar_f64]. split; [intros Hk; rewrite (G1 Hk); reflexivity|]. intros Hk. destruct (G2 Hk) as (G3 & G4). split.
  - intros q. split.
    + intros E. destruct (table_get tb key) as [v| |] eqn:Et; try discriminate. injection E as <-. destruct (proj1 (G3 v) eq_refl) as (s & C & P).
      exists s. split; [exact C|]. apply number_parse. exists v. auto.
    + intros (s & C & P). apply number_parse in P. destruct P as (v & P & <-). rewrite (proj2 (G3 v)); [reflexivity | exists s; auto].
  - split.
    + intros E (s & q & C & P). apply number_parse in P. destruct P as (v & P & <-). rewrite (proj2 (G3 v)) in E; [discriminate | exists s; auto].
    + intros Hn. rewrite (proj2 G4); [reflexivity|]. intros (v & s & C & P). apply Hn. exists s, (as_f64 v). split; [exact C|]. apply number_parse. exists v. auto.
Qed.
Print Assumptions C48_scalar_lookup_partial.

(** As an index a table gives the same numbers when they are whole and not
    negative. *)
Theorem C48_index : forall t key z, loaded_scalar_u64 t key = Ok z ->
  exists q, loaded_scalar_f64 t key = Ok q /\ (0 <= q)%Q /\ ((q == inject_Z z)%Q \/ (inject_Z (2 ^ 64 - 1) < q)%Q /\ z = (2 ^ 64 - 1)%Z).
Proof.
  change (2 ^ 64 - 1)%Z with U64_MAX.
  intros t key z H. destruct t as [t|t]; [discriminate|]. cbn [loaded_scalar_u64 loaded_scalar_f64] in *. destruct (table_get t key) as [v| |]; try discriminate.
  cbn [rbind] in *. exists (as_f64 v). split; [reflexivity|]. destruct v as [q|i]; cbn [try_as_u64 as_f64] in *.
  - destruct (Qle_bool 0 q) eqn:E1; [|discriminate]. destruct (Qeq_bool q (inject_Z (Qfloor q))) eqn:E2; [|discriminate]. cbn [andb] in H. injection H as <-.
    apply Qle_bool_iff in E1. apply Qeq_bool_eq in E2. split; [exact E1|].
    destruct (Z.le_gt_cases (Qfloor q) U64_MAX) as [Hm|Hm]; [left; rewrite Z.min_l by exact Hm; exact E2 | right].
    split; [rewrite E2, <- Zlt_Qlt; exact Hm | apply Z.min_r; lia].
  - destruct (0 <=? i)%Z eqn:E; [|discriminate]. injection H as <-. split; [|left; reflexivity].
    apply Z.leb_le in E. change (inject_Z 0 <= inject_Z i)%Q. rewrite <- Zle_Qle. exact E.
Qed.
Print Assumptions C48_index.
Theorem C48_not_an_index : forall t key, loaded_scalar_u64 t key = Err U64ConversionError ->
  exists q, loaded_scalar_f64 t key = Ok q /\ ((q < 0)%Q \/ forall z, ~ (q == inject_Z z)%Q).
Proof.
  intros t key H. destruct t as [t|t]; [discriminate|]. cbn [loaded_scalar_u64 loaded_scalar_f64] in *. unfold table_get in *.
  destruct (_ =? _); [|discriminate]. destruct (hm_get key (tb_values t)) as [v|]; [|discriminate]. cbn [rbind] in *.
  exists (as_f64 v). split; [reflexivity|]. destruct v as [q|i]; cbn [try_as_u64 as_f64] in *.
  - destruct (Qle_bool 0 q) eqn:E1.
    + right. destruct (Qeq_bool q (inject_Z (Qfloor q))) eqn:E2; [discriminate|]. intros z Hz.
      assert (E : (q == inject_Z (Qfloor q))%Q) by (rewrite Hz at 1; rewrite Hz, Qfloor_Z; reflexivity).
      apply Qeq_bool_iff in E. congruence.
    + left. apply Qnot_le_lt. rewrite <- Qle_bool_iff, E1. discriminate.
  - destruct (0 <=? i)%Z eqn:E; [discriminate|]. left. apply Z.leb_gt in E. change (inject_Z i < inject_Z 0)%Q. rewrite <- Zlt_Qlt. exact E.
Qed.
Print Assumptions C48_not_an_index.

(** Array tables, with one to four keys: the rest of the row or column. *)
Theorem C48_vector_lookup : forall pf pi name l f t key,
  load_table pf pi (mkTableDef name ArrayTable l (Some f)) = Ok t -> unambiguous (vector l f) ->
  (length key <> key_size l -> loaded_vec_f64 t key = Err (WrongKeySize (key_size l) (length key))) /\
  (length key = key_size l ->
    (forall qs, loaded_vec_f64 t key = Ok qs <-> exists ss, vector l f key ss /\ Forall2 (fun s q => pf s = Some q) ss qs) /\
    (loaded_vec_f64 t key = Err EntryNotFound <-> ~ exists ss qs, vector l f key ss /\ Forall2 (fun s q => pf s = Some q) ss qs)).
Proof.
  intros pf pi name l f t key H Hu.
  assert (G : exists tb, t = FloatVec tb /\ tb_keys tb = key_size l /\ 0 < key_size l /\ exists kvs, tb_values tb = hm_collect kvs /\
    forall k qs, In (k, qs) kvs <-> exists ss, vector l f k ss /\ f <> [] /\ Forall2 (reads pf) ss qs).
  { unfold load_table in H. cbn [td_type td_lookup td_file] in H. destruct l as [n|n|]; [| |discriminate].
    - assert (H' : 0 < n /\ exists tb, load_csv_rows_vec pf n f = Ok tb /\ t = FloatVec tb).
      { destruct n as [|[|[|[|[|n]]]]]; try discriminate; cbn [from_csv_row_vec] in H; (split; [lia|]); (destruct (load_csv_rows_vec _ _ _) as [tb| |]; try discriminate; injection H as <-; eauto). }
      destruct H' as (Hn & tb & E & ->). exists tb. split; [reflexivity|]. destruct (rows_vec_spec _ _ _ _ E) as (Ek & _ & kvs & Ev & Hk).
      split; [exact Ek|]. split; [exact Hn|]. exists kvs. split; [exact Ev|]. intros k qs. rewrite Hk. split; [|intros (ss & C & _ & R); eauto].
      intros (ss & C & R). exists ss. split; [exact C|]. split; [|exact R]. intros ->. destruct C as (r & [] & _).
    - assert (H' : 0 < n /\ exists tb, load_csv_cols_vec pf n f = Ok tb /\ t = FloatVec tb).
      { destruct n as [|[|[|[|[|n]]]]]; try discriminate; cbn [from_csv_col_vec] in H; (split; [lia|]); (destruct (load_csv_cols_vec _ _ _) as [tb| |]; try discriminate; injection H as <-; eauto). }
      destruct H' as (Hn & tb & E & ->). exists tb. split; [reflexivity|]. destruct (cols_vec_spec _ _ _ _ Hn E) as (Ek & _ & kvs & Ev & Hk).
      split; [exact Ek|]. split; [exact Hn|]. exists kvs. split; [exact Ev | exact Hk]. }
  destruct G as (tb & -> & Ek & Hpos & kvs & Ev & Hk). cbn [loaded_vec_f64]. rewrite <- Ek. rewrite <- Ek in Hpos.
  destruct (Nat.eq_dec (length key) (tb_keys tb)) as [El|El].
  2:{ split; [|intros; congruence]. intros _. unfold table_get. rewrite (proj2 (Nat.eqb_neq _ _) El). reflexivity. }
  assert (Hg : forall qs, hm_get key (tb_values tb) = Some qs <-> exists ss, vector l f key ss /\ Forall2 (fun s q => pf s = Some q) ss qs).
  { intros qs. rewrite Ev, hm_get_iff.
    - rewrite Hk. split; [intros (ss & C & _ & R); eauto|]. intros (ss & C & R). exists ss. split; [exact C|]. split; [|exact R]. intros ->.
      destruct l as [n|n|]; cbn [vector] in C; [destruct C as (r & [] & _) | destruct C as (j & C & _); rewrite firstn_nil in C; inversion C; subst; cbn in El; lia | exact C].
    - intros k qs1 qs2 H1 H2. apply Hk in H1, H2. destruct H1 as (s1 & C1 & _ & R1), H2 as (s2 & C2 & _ & R2). rewrite (Hu _ _ _ C1 C2) in R1.
      exact (reads_fun _ _ _ _ R1 R2). }
  destruct (get_spec tb (fun key qs => exists ss, vector l f key ss /\ Forall2 (fun s q => pf s = Some q) ss qs) key Hg) as (_ & G). destruct (G El) as (G1 & G2).
  split; [intros; congruence|]. intros _. split; [exact G1|]. rewrite G2. split; intros Hn Hx; apply Hn.
  - destruct Hx as (ss & qs & C & R). eauto.
  - destruct Hx as (qs & ss & C & R). eauto.
Qed.
Print Assumptions C48_vector_lookup.

(** Which files load. *)
Definition well_formed (v : value_type) (l : lookup) (pf : string -> option Q) (f : list csv_record) : Prop :=
  rectangular f /\
  match v, l with
  | ScalarTable, LookupRow n => length (hd [] f) = S n
  | ScalarTable, LookupCol n => length f = S n
  | ScalarTable, LookupBoth rows cols => rows <= length f /\ cols <= length (hd [] f)
  | ArrayTable, LookupRow n => n <= length (hd [] f) /\ forall r s, In r (tl f) -> In s (skipn n r) -> pf s <> None
  | ArrayTable, LookupCol n => n <= length f /\ forall r s, In r (skipn n f) -> In s r -> pf s <> None
  | ArrayTable, LookupBoth _ _ => True
  end.
Definition layout (v : value_type) (l : lookup) : Prop :=
  match v, l with
  | ScalarTable, LookupRow n | ScalarTable, LookupCol n => n = 1 \/ n = 2
  | ScalarTable, LookupBoth rows cols => (rows = 1 \/ rows = 2) /\ (cols = 1 \/ cols = 2)
  | ArrayTable, LookupRow n | ArrayTable, LookupCol n => 1 <= n <= 4
  | ArrayTable, LookupBoth _ _ => False
  end.

Lemma tl_In {A} (x : A) l : In x (tl l) -> In x l.
Proof. destruct l; [intros [] | intros H; right; exact H]. Qed.
Lemma skipn_In {A} (x : A) : forall n l, In x (skipn n l) -> In x l.
Proof. induction n as [|n IH]; intros [|y l] H; auto. right. apply IH, H. Qed.

Lemma rows_scalar_ok pf pi n f : rectangular f -> length (hd [] f) = S n -> exists t, load_csv_rows_scalar pf pi n f = Ok t.
Proof.
  intros Hr Hw. unfold load_csv_rows_scalar. rewrite (rectangular_records _ Hr), rmap_map. cbn [rbind].
  match goal with |- context [rmap ?g (tl f)] => destruct (rmap_succeeds g (tl f)) as (l & E) end.
  - intros r Hin. assert (El : length r = S n) by (rewrite (Hr r (tl_In _ _ Hin)); exact Hw). rewrite record_key_ok by lia. cbn [rbind].
    assert (Es : length (skipn n r) = 1) by (rewrite skipn_length; lia). destruct (skipn n r) as [|s [|]]; try discriminate. eexists. reflexivity.
  - rewrite E. cbn [rbind]. eauto.
Qed.
Lemma cols_scalar_ok pf pi n f : 0 < n -> rectangular f -> length f = S n -> exists t, load_csv_cols_scalar pf pi n f = Ok t.
Proof.
  intros Hn Hr Hl. unfold load_csv_cols_scalar. destruct (headers_ok 0 n f Hn ltac:(lia) Hr) as (cols & E & _). rewrite E. cbn [rbind]. rewrite rmap_map.
  assert (Es : length (skipn n f) = 1) by (rewrite skipn_length; lia). destruct (skipn n f) as [|r [|]]; try discriminate. eexists. reflexivity.
Qed.
Lemma row_col_scalar_ok pf pi rows cols f : 0 < rows -> rectangular f -> rows <= length f -> cols <= length (hd [] f) -> exists t, load_csv_row_col_scalar pf pi rows cols f = Ok t.
Proof.
  intros Hn Hr Hl Hw. unfold load_csv_row_col_scalar. destruct (headers_ok cols rows f Hn Hl Hr) as (hs & E & _). rewrite E. cbn [rbind]. rewrite rmap_map.
  match goal with |- context [rmap ?g (skipn rows f)] => destruct (rmap_succeeds g (skipn rows f)) as (l & El) end.
  - intros r Hin. cbn [rbind]. rewrite record_key_ok by (rewrite (Hr r (skipn_In _ _ _ Hin)); lia). eexists. reflexivity.
  - rewrite El. eexists. reflexivity.
Qed.
Lemma parse_all_ok pf ss : (forall s, In s ss -> pf s <> None) -> exists qs, rmap (parse_or_error pf) ss = Ok qs /\ length qs = length ss.
Proof.
  intros H. destruct (rmap_succeeds (parse_or_error pf) ss) as (qs & E).
  - intros s Hs. unfold parse_or_error. destruct (pf s) as [q|] eqn:Ep; [eauto | destruct (H s Hs Ep)].
  - exists qs. split; [exact E|]. apply parse_all in E. symmetry. clear - E. induction E; cbn [length]; congruence.
Qed.
Lemma rows_vec_ok pf n f : rectangular f -> n <= length (hd [] f) -> (forall r s, In r (tl f) -> In s (skipn n r) -> pf s <> None) -> exists t, load_csv_rows_vec pf n f = Ok t.
Proof.
  intros Hr Hw Hp. unfold load_csv_rows_vec. rewrite (rectangular_records _ Hr), rmap_map.
  match goal with |- context [rmap ?g (tl f)] => destruct (rmap_succeeds g (tl f)) as (l & E) end.
  - intros r Hin. cbn [rbind]. rewrite record_key_ok by (rewrite (Hr r (tl_In _ _ Hin)); lia). cbn [rbind].
    destruct (parse_all_ok pf (skipn n r) (fun s => Hp r s Hin)) as (qs & Eq & _). rewrite Eq. eexists. reflexivity.
  - rewrite E. eexists. reflexivity.
Qed.
Lemma cols_vec_ok pf n f : 0 < n -> rectangular f -> n <= length f -> (forall r s, In r (skipn n f) -> In s r -> pf s <> None) -> exists t, load_csv_cols_vec pf n f = Ok t.
Proof.
  intros Hn Hr Hl Hp. unfold load_csv_cols_vec. destruct (headers_ok 0 n f Hn Hl Hr) as (cols & E & Ec). rewrite E. cbn [rbind]. rewrite rmap_map.
  assert (Hrow : forall r, In r (skipn n f) -> exists qs, rbind (rmap (parse_or_error pf) r) (fun values => if length values =? length cols then Ok values else Err CsvRowLength) = Ok qs /\ length qs = length cols).
  { intros r Hin. destruct (parse_all_ok pf r (fun s => Hp r s Hin)) as (qs & Eq & El). rewrite Eq. cbn [rbind].
    assert (E1 : length qs = length cols) by (rewrite El, (Hr r (skipn_In _ _ _ Hin)); lia). rewrite (proj2 (Nat.eqb_eq _ _) E1). eauto. }
  match goal with |- context [rmap ?g (skipn n f)] => destruct (rmap_succeeds g (skipn n f)) as (rows & El) end.
  { intros r Hin. destruct (Hrow r Hin) as (qs & Eq & _). cbn [rbind]. rewrite Eq. eauto. }
  rewrite El. cbn [rbind].
  assert (Hlen : forall row, In row rows -> length row = length cols).
  { apply rmap_Ok_Forall2 in El. intros row Hin. destruct (in_right _ _ _ _ El Hin) as (r & Hin' & Eq). cbn [rbind] in Eq. destruct (Hrow r Hin') as (qs & Eq' & E1). congruence. }
  match goal with |- context [rmap ?g (combine _ cols)] => destruct (rmap_succeeds g (combine (seq 0 (length cols)) cols)) as (vs & Ev) end.
  { intros [i c] Hin. apply in_combine_l, in_seq in Hin. cbn [fst snd].
    destruct (rmap_succeeds (fun row => @index_or_panic table_error Q row i) rows) as (x & Ex).
    - intros row Hrow'. unfold index_or_panic. destruct (nth_error_lt_Some row i ltac:(rewrite (Hlen row Hrow'); lia)) as (q & Eq). rewrite Eq. eauto.
    - rewrite Ex. eexists. reflexivity. }
  rewrite Ev. eexists. reflexivity.
Qed.

(** Every well-formed file loads. *)
Theorem C48_loads_partial : forall pf pi name v l f, layout v l -> well_formed v l pf f ->
  exists t, load_table pf pi (mkTableDef name v l (Some f)) = Ok t.
Proof.
  intros pf pi name v l f Hl (Hr & Hw). unfold load_table. cbn [td_type td_lookup td_file]. destruct v, l as [n|n|rows cols]; cbn [layout] in Hl; try contradiction.
  - destruct Hl as [-> | ->]; cbn [from_csv_row_scalar]; (destruct (rows_scalar_ok pf pi _ f Hr Hw) as (t & ->)); eexists; reflexivity.
  - destruct Hl as [-> | ->]; cbn [from_csv_col_scalar];
      [destruct (cols_scalar_ok pf pi 1 f ltac:(lia) Hr Hw) as (t & ->) | destruct (cols_scalar_ok pf pi 2 f ltac:(lia) Hr Hw) as (t & ->)]; eexists; reflexivity.
  - destruct Hw as (Hw1 & Hw2). destruct Hl as ([-> | ->] & [-> | ->]); cbn [from_csv_row_col_scalar];
      match goal with |- context [load_csv_row_col_scalar _ _ ?r ?c f] => destruct (row_col_scalar_ok pf pi r c f ltac:(lia) Hr Hw1 Hw2) as (t & ->) end; eexists; reflexivity.
  - destruct Hw as (Hw1 & Hw2). destruct (rows_vec_ok pf n f Hr Hw1 Hw2) as (t & E).
    destruct n as [|[|[|[|[|n]]]]]; try lia; cbn [from_csv_row_vec]; rewrite E; eexists; reflexivity.
  - destruct Hw as (Hw1 & Hw2). destruct (cols_vec_ok pf n f ltac:(lia) Hr Hw1 Hw2) as (t & E).
    destruct n as [|[|[|[|[|n]]]]]; try lia; cbn [from_csv_col_vec]; rewrite E; eexists; reflexivity.
Qed.
Print Assumptions C48_loads_partial.

(** A scalar table with three or four keys by row or by column never works: a
    well-formed file (with a row) does not load, and no file that loads answers
    a key with three or four strings. *)
Theorem C48_three_or_four_keys_refuted : forall pf pi name n f, n = 3 \/ n = 4 ->
  (rectangular f -> length (hd [] f) = S n -> tl f <> [] ->
    load_table pf pi (mkTableDef name ScalarTable (LookupRow n) (Some f)) = Err (TooManyColumns (S n) 3)) /\
  (rectangular f -> length f = S n ->
    load_table pf pi (mkTableDef name ScalarTable (LookupCol n) (Some f)) = Err (TooManyRows (S n) 3)) /\
  forall l t key, l = LookupRow n \/ l = LookupCol n -> load_table pf pi (mkTableDef name ScalarTable l (Some f)) = Ok t ->
    length key = n -> loaded_scalar_f64 t key = Err (WrongKeySize 2 n).
Proof.
  intros pf pi name n f Hn. split; [|split].
  - intros Hr Hw Ht. unfold load_table. cbn [td_type td_lookup td_file].
    assert (E : load_csv_rows_scalar pf pi 2 f = Err (TooManyColumns (S n) 3)).
    { unfold load_csv_rows_scalar. rewrite (rectangular_records _ Hr). destruct f as [|h [|r rs]]; try (exfalso; apply Ht; reflexivity). cbn [tl map rmap rbind].
      assert (El : length r = S n) by (rewrite (Hr r ltac:(right; left; reflexivity)); exact Hw). rewrite record_key_ok by lia. cbn [rbind].
      rewrite map_length, skipn_length, El. destruct Hn as [-> | ->]; reflexivity. }
    destruct Hn as [-> | ->]; cbn [from_csv_row_scalar]; rewrite E; reflexivity.
  - intros Hr Hl. unfold load_table. cbn [td_type td_lookup td_file].
    assert (E : load_csv_cols_scalar pf pi 2 f = Err (TooManyRows (S n) 3)).
    { unfold load_csv_cols_scalar. destruct (headers_ok 0 2 f ltac:(lia) ltac:(lia) Hr) as (cols & E & _). rewrite E. cbn [rbind]. rewrite rmap_map.
      assert (Es : length (skipn 2 f) = n - 1) by (rewrite skipn_length; lia).
      destruct (skipn 2 f) as [|r1 [|r2 [|r3 [|]]]]; cbn [length] in Es; try lia; destruct Hn as [-> | ->]; try lia; reflexivity. }
    destruct Hn as [-> | ->]; cbn [from_csv_col_scalar]; rewrite E; reflexivity.
  - intros l t key Hl H Hk. unfold load_table in H.
    assert (G : exists tb, t = FloatScalar tb /\ tb_keys tb = 2).
    { destruct Hn as [-> | ->], Hl as [-> | ->]; cbn [td_type td_lookup td_file from_csv_row_scalar from_csv_col_scalar] in H;
        match type of H with context [rbind ?x _] => destruct x as [tb| |] eqn:E end; try discriminate;
        injection H as <-; exists tb; (split; [reflexivity|]); first [apply rows_scalar_spec in E | apply cols_scalar_spec in E; [|lia]]; apply E. }
    destruct G as (tb & -> & Ek). cbn [loaded_scalar_f64]. unfold table_get. rewrite Ek, Hk. destruct Hn as [-> | ->]; reflexivity.
Qed.
Print Assumptions C48_three_or_four_keys_refuted.

(** No other layouts are accepted. *)
Theorem C48_other_layouts : forall pf pi d, layout (td_type d) (td_lookup d) \/
  td_type d = ScalarTable /\ (exists n, (n = 3 \/ n = 4) /\ (td_lookup d = LookupRow n \/ td_lookup d = LookupCol n)) \/
  load_table pf pi d = Err FormatNotSupported.
Proof.
  intros pf pi [name v l file]. unfold load_table. cbn [td_type td_lookup td_file]. destruct v, l as [n|n|rows cols]; cbn [layout].
  - destruct n as [|[|[|[|[|n]]]]]; auto; right; left; (split; [reflexivity|]); eexists; (split; [|left; reflexivity]); auto.
  - destruct n as [|[|[|[|[|n]]]]]; auto; right; left; (split; [reflexivity|]); eexists; (split; [|right; reflexivity]); auto.
  - destruct rows as [|[|[|rows]]]; auto; destruct cols as [|[|[|cols]]]; auto.
  - destruct n as [|[|[|[|[|n]]]]]; auto; left; lia.
  - destruct n as [|[|[|[|[|n]]]]]; auto; left; lia.
  - auto.
Qed.
Print Assumptions C48_other_layouts.

(** A row that is all key, or a column that is, is not reported: loading panics. *)
Theorem C48_no_value_panics_refuted : forall pf pi name n f, n = 1 \/ n = 2 ->
  (rectangular f -> length (hd [] f) = n -> tl f <> [] ->
    load_table pf pi (mkTableDef name ScalarTable (LookupRow n) (Some f)) = Panic) /\
  (rectangular f -> length f = n ->
    load_table pf pi (mkTableDef name ScalarTable (LookupCol n) (Some f)) = Panic).
Proof.
  intros pf pi name n f Hn. unfold load_table. cbn [td_type td_lookup td_file]. split.
  - intros Hr Hw Ht.
    assert (E : load_csv_rows_scalar pf pi n f = Panic).
    { unfold load_csv_rows_scalar. rewrite (rectangular_records _ Hr). destruct f as [|h [|r rs]]; try (exfalso; apply Ht; reflexivity). cbn [tl map rmap rbind].
      assert (El : length r = n) by (rewrite (Hr r ltac:(right; left; reflexivity)); exact Hw). rewrite record_key_ok by lia. cbn [rbind].
      rewrite skipn_all2 by lia. reflexivity. }
    destruct Hn as [-> | ->]; cbn [from_csv_row_scalar]; rewrite E; reflexivity.
  - intros Hr Hl.
    assert (E : load_csv_cols_scalar pf pi n f = Panic).
    { unfold load_csv_cols_scalar. destruct (headers_ok 0 n f ltac:(lia) ltac:(lia) Hr) as (cols & E & _). rewrite E. cbn [rbind]. rewrite skipn_all2 by lia. reflexivity. }
    destruct Hn as [-> | ->]; cbn [from_csv_col_scalar]; rewrite E; reflexivity.
Qed.
Print Assumptions C48_no_value_panics_refuted.

(** When a key is repeated in a table by row the last row counts, even if it
    holds no number and an earlier one does. *)
Theorem C48_repeated_key : forall pf pi name n f t before r after, n = 1 \/ n = 2 ->
  load_table pf pi (mkTableDef name ScalarTable (LookupRow n) (Some f)) = Ok t ->
  tl f = before ++ r :: after -> (forall r', In r' after -> firstn n r' <> firstn n r) ->
  exists s, nth_error r n = Some s /\
    (forall q, loaded_scalar_f64 t (firstn n r) = Ok q <-> number pf pi s q) /\
    (loaded_scalar_f64 t (firstn n r) = Err EntryNotFound <-> ~ exists q, number pf pi s q).
Proof.
  intros pf pi name n f t b r a Hn H Ef Ha.
  assert (H' : exists tb, load_csv_rows_scalar pf pi n f = Ok tb /\ t = FloatScalar tb).
  { unfold load_table in H. cbn [td_type td_lookup td_file] in H.
    destruct Hn as [-> | ->]; cbn [from_csv_row_scalar] in H; (destruct (load_csv_rows_scalar _ _ _ _) as [tb| |]; try discriminate; injection H as <-; eauto). }
  destruct H' as (tb & E & ->). destruct (rows_scalar_spec _ _ _ _ _ E) as (Ek & Hr & Hw & kvs & Ev & El & _).
  assert (Hin : In r (tl f)) by (rewrite Ef; apply in_or_app; right; left; reflexivity).
  assert (Hlr : length r = S n).
  { rewrite (Hr r (tl_In _ _ Hin)). destruct Hw as [Hw|Hw]; [rewrite Hw in Hin; destruct Hin | exact Hw]. }
  destruct (nth_error_lt_Some r n ltac:(lia)) as (s & Es). exists s. split; [exact Es|].
  assert (Eg : table_get tb (firstn n r) = match parse_scalar pf pi s with Some v => Ok v | None => Err EntryNotFound end).
  { unfold table_get. rewrite Ek, firstn_length, Hlr, Nat.min_l, Nat.eqb_refl by lia. rewrite Ev, hm_get_with_value by apply hm_collect_NoDup.
    rewrite hm_get_collect, El, Ef, map_app, rev_app_distr. cbn [map rev].
    assert (Hf : forall l2 l1, (forall r', In r' l1 -> firstn n r' <> firstn n r) ->
      find (fun q : list string * option scalar_value => keys_eqb (fst q) (firstn n r)) (rev (map (fun r0 => (firstn n r0, parse_scalar pf pi (nth n r0 ""))) l1) ++ l2) =
      find (fun q => keys_eqb (fst q) (firstn n r)) l2).
    { intros l2 l1. revert l2. induction l1 as [|x l1 IH]; intros l2 Hx; [reflexivity|]. cbn [map rev]. rewrite <- app_assoc, IH by (intros; apply Hx; right; assumption).
      cbn [app find fst]. destruct (keys_eqb (firstn n x) (firstn n r)) eqn:Eq; [|reflexivity]. apply keys_eqb_eq in Eq. destruct (Hx x (or_introl eq_refl) Eq). }
    rewrite <- app_assoc, Hf by exact Ha. cbn [app find fst]. rewrite (proj2 (keys_eqb_eq _ _) eq_refl). cbn [option_map snd].
    rewrite (nth_error_nth _ _ _ Es). destruct (parse_scalar pf pi s); reflexivity. }
  cbn [loaded_scalar_f64]. rewrite Eg. split.
  - intros q. rewrite number_parse. destruct (parse_scalar pf pi s) as [v|]; cbn [rbind]; split.
    + intros Eq. injection Eq as <-. eauto.
    + intros (v' & Eq & <-). congruence.
    + discriminate.
    + intros (v & Eq & _). discriminate.
  - destruct (parse_scalar pf pi s) as [v|] eqn:Ep; cbn [rbind]; (split; [|try reflexivity]).
    + discriminate.
    + intros Hx. exfalso. apply Hx. exists (as_f64 v). apply number_parse. eauto.
    + intros _ (q & Hq). apply number_parse in Hq. destruct Hq as (v & Eq & _). congruence.
Qed.
Print Assumptions C48_repeated_key.

(** A collection holds each table under its name; a name used twice is an
    error. *)
Lemma load_tables_spec pf pi : forall defs acc ts, load_tables pf pi defs acc = Ok ts -> NoDup (map fst acc) ->
  NoDup (map fst ts) /\ (forall p, In p ts <-> In p acc \/ exists d, In d defs /\ fst p = td_name d /\ load_table pf pi d = Ok (snd p)) /\
  length ts = length defs + length acc.
Proof.
  induction defs as [|d ds IH]; intros acc ts H Hnd; cbn [load_tables] in H.
  - injection H as <-. split; [exact Hnd|]. split; [|reflexivity]. intros p. split; [auto|]. intros [Hp|(d & [] & _)]. exact Hp.
  - destruct (load_table pf pi d) as [t| |] eqn:Et; try discriminate. cbn [in_table rbind] in H. destruct (existsb _ acc) eqn:Ex; [discriminate|].
    apply IH in H. 2:{ cbn [map fst]. constructor; [|exact Hnd]. intros Hin. apply in_map_iff in Hin. destruct Hin as (p & Ep & Hp).
      assert (existsb (fun p => String.eqb (fst p) (td_name d)) acc = true) by (apply existsb_exists; exists p; split; [exact Hp | apply String.eqb_eq, Ep]). congruence. }
    destruct H as (H1 & H2 & H3). split; [exact H1|]. split; [|cbn [length] in *; lia]. intros p. rewrite H2. cbn [In]. split.
    + intros [[<-|Hp]|(d' & Hd & E1 & E2)]; [right; exists d; cbn; auto | auto | right; exists d'; auto].
    + intros [Hp|(d' & [<-|Hd] & E1 & E2)]; [auto | left; left; destruct p; cbn in *; congruence | right; exists d'; auto].
Qed.
Theorem C48_collection : forall pf pi defs ts, load_tables pf pi defs [] = Ok ts ->
  NoDup (map td_name defs) /\
  (forall d, In d defs -> exists t, load_table pf pi d = Ok t /\ get_table ts (td_name d) = Ok t) /\
  (forall name, ~ In name (map td_name defs) -> get_table ts name = Err (TableNotFound name)).
Proof.
  intros pf pi defs ts H. destruct (load_tables_spec _ _ _ _ _ H (NoDup_nil _)) as (Hnd & Hin & Hlen). cbn [length] in Hlen. rewrite Nat.add_0_r in Hlen.
  assert (Hd : forall d, In d defs -> exists t, load_table pf pi d = Ok t).
  { clear - H. revert H. generalize (@nil (string * loaded_table)). induction defs as [|d0 ds IH]; intros acc H d Hd; [destruct Hd|]. cbn [load_tables] in H.
    destruct (load_table pf pi d0) as [t| |] eqn:Et; try discriminate. cbn [in_table rbind] in H. destruct (existsb _ acc); [discriminate|].
    destruct Hd as [<-|Hd]; [eauto | exact (IH _ H _ Hd)]. }
  split; [|split].
  - apply (@NoDup_incl_NoDup _ (map fst ts)); [exact Hnd | rewrite !map_length; lia|]. intros x Hx. apply in_map_iff in Hx. destruct Hx as (p & <- & Hp).
    apply Hin in Hp. destruct Hp as [[]|(d & Hdd & -> & _)]. apply in_map, Hdd.
  - intros d Hdd. destruct (Hd d Hdd) as (t & Et). exists t. split; [exact Et|]. unfold get_table.
    assert (Hp : In (td_name d, t) ts) by (apply Hin; right; exists d; auto).
    destruct (find _ ts) as [p|] eqn:Ef.
    + apply find_some in Ef. destruct Ef as (Hp' & E). apply String.eqb_eq in E. f_equal. destruct p as [n' t']. cbn [fst snd] in *. subst n'.
      clear - Hnd Hp Hp'. induction ts as [|x ts IH]; [destruct Hp|]. cbn [map] in Hnd. inversion Hnd as [|? ? Hx Hnd']; subst.
      destruct Hp as [->|Hp], Hp' as [E|Hp']; [congruence | | |exact (IH Hnd' Hp Hp')].
      * exfalso. apply Hx. apply in_map_iff. exists (td_name d, t'). auto.
      * exfalso. apply Hx. subst x. apply in_map_iff. exists (td_name d, t). auto.
    + apply find_none with (x := (td_name d, t)) in Ef; [|exact Hp]. cbn [fst] in Ef. rewrite String.eqb_refl in Ef. discriminate.
  - intros name Hn. unfold get_table. destruct (find _ ts) as [p|] eqn:Ef; [|reflexivity]. exfalso. apply Hn. apply find_some in Ef. destruct Ef as (Hp & E).
    apply String.eqb_eq in E. apply Hin in Hp. destruct Hp as [[]|(d & Hdd & E1 & _)]. rewrite <- E, E1. apply in_map, Hdd.
Qed.
Print Assumptions C48_collection.

(** A reference from a model file: its row strings, then its column strings,
    address the cell. *)
Theorem C48_reference_partial : forall pf pi defs ts name l f row col q,
  load_tables pf pi defs [] = Ok ts -> In (mkTableDef name ScalarTable l (Some f)) defs -> scalar_layout l -> unambiguous (cell l f) ->
  length (index_key row ++ index_key col) = key_size l ->
  (collection_scalar_f64 ts (mkTableRef name col row) = Ok q <-> exists s, cell l f (index_key row ++ index_key col) s /\ number pf pi s q).
Proof.
  intros pf pi defs ts name l f row col q H Hin Hl Hu Hk. destruct (C48_collection _ _ _ _ H) as (_ & Hd & _). destruct (Hd _ Hin) as (t & Et & Eg).
  cbn [td_name] in Eg. destruct (C48_scalar_lookup_partial _ _ _ _ _ _ (index_key row ++ index_key col) Et Hl Hu) as (_ & G). destruct (G Hk) as (G1 & _).
  rewrite <- G1. unfold collection_scalar_f64. cbn [tr_table]. rewrite Eg. cbn [rbind]. unfold ref_key. cbn [tr_row tr_column].
  destruct (loaded_scalar_f64 t _); cbn [in_table]; split; congruence.
Qed.
Print Assumptions C48_reference_partial.

(** Cases that meet the hypotheses. *)
Definition ex_pf (s : string) : option Q :=
  if String.eqb s "1.5" then Some (3 # 2)%Q else if String.eqb s "2" then Some 2%Q else if String.eqb s "7" then Some 7%Q else None.
Definition ex_pi (s : string) : option Z := if String.eqb s "2" then Some 2%Z else None.
Definition ex_both : list csv_record := [["name"; "wet"; "dry"]; ["a"; "1.5"; "2"]; ["b"; "7"; "n/a"]].
Definition ex_rows : list csv_record := [["zone"; "level"; "value"]; ["a"; "low"; "1.5"]; ["a"; "high"; "2"]; ["b"; "low"; "7"]].
Example C48_example :
  match load_tables ex_pf ex_pi [mkTableDef "both" ScalarTable (LookupBoth 1 1) (Some ex_both); mkTableDef "rows" ScalarTable (LookupRow 2) (Some ex_rows);
                                 mkTableDef "vec" ArrayTable (LookupCol 1) (Some [["x"; "y"]; ["2"; "7"]; ["1.5"; "2"]])] [] with
  | Ok ts =>
      collection_scalar_f64 ts (mkTableRef "both" (Some (IxSingle "dry")) (Some (IxSingle "a"))) = Ok 2%Q /\
      collection_scalar_f64 ts (mkTableRef "both" (Some (IxSingle "dry")) (Some (IxSingle "b"))) = Err (InTable "both" EntryNotFound) /\
      collection_scalar_u64 ts (mkTableRef "rows" None (Some (IxMulti ["b"; "low"]))) = Ok 7%Z /\
      collection_scalar_u64 ts (mkTableRef "rows" None (Some (IxMulti ["a"; "low"]))) = Err (InTable "rows" U64ConversionError) /\
      collection_scalar_f64 ts (mkTableRef "rows" None (Some (IxSingle "b"))) = Err (InTable "rows" (WrongKeySize 2 1)) /\
      collection_vec_f64 ts (mkTableRef "vec" (Some (IxSingle "y")) None) = Ok [7; 2]%Q
  | _ => False
  end.
Proof. vm_compute. repeat split; reflexivity. Qed.
Example C48_unambiguous_example : unambiguous (cell (LookupRow 2) ex_rows) /\ rectangular ex_rows.
Proof.
  split.
  - intros k s s' (r & Hr & Ek & Es) (r' & Hr' & Ek' & Es'). cbn in Hr, Hr'.
    repeat destruct Hr as [<-|Hr]; try contradiction; repeat destruct Hr' as [<-|Hr']; try contradiction; cbn in *; congruence.
  - intros r Hr. cbn in Hr. repeat destruct Hr as [<-|Hr]; try contradiction; reflexivity.
Qed.
