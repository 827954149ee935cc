(** C82: the data of a model is read from the files it names, and only if they are
    the files its checksums are for. *)
From Coq Require Import Ascii String QArith Lia.
From Verif Require Import Base Calendar Timestep Scenario ScenarioSpec ScenarioLemmas Lookups LookupsSpec LookupsLemmas Tables Timeseries SchemaOutputs DataFiles DataFilesSpec DataFilesLemmas.
From Verif Require PyParams.
Local Open Scope string_scope.
Local Open Scope list_scope.
Local Open Scope nat_scope.

(** A file is accepted if and only if its digest is the one that is written, in
    small letters; otherwise there is an error, and never a panic. *)
Theorem C82_checksum : forall md5 sha256 c content p,
  (check md5 sha256 c content p = Ok tt <-> exists s, content = Some s /\ is_for md5 sha256 c s) /\
  check md5 sha256 c content p <> Panic.
Proof. intros. split; [apply check_iff | apply check_not_panic]. Qed.
Print Assumptions C82_checksum.

(** A hash with a capital letter is refused although the file is the right one. *)
Theorem C82_capitals_refuted : forall md5 sha256 h s p, has_capital h ->
  (spells_any_case h (md5 s) -> exists e, check md5 sha256 (MD5 h) (Some s) p = Err e) /\
  (spells_any_case h (sha256 s) -> exists e, check md5 sha256 (SHA256 h) (Some s) p = Err e).
Proof.
  assert (A : forall digest h s p, has_capital h -> exists e, validate_hex_digest digest (Some s) p h = Err e).
  { intros digest h s p Hc. unfold validate_hex_digest. destruct (String.eqb_spec (hex_encode (digest s)) h) as [E|E]; [|eauto].
    exfalso. rewrite <- E in Hc. exact (encode_no_capital _ Hc). }
  intros. split; intros _; cbn [check]; apply A; assumption.
Qed.
Print Assumptions C82_capitals_refuted.

(** A table is loaded if and only if its file passes its checksum, and then from
    what is in that file. *)
Theorem C82_table : forall md5 sha256 pf pi csv dp fs k d t,
  load_file_table md5 sha256 pf pi csv dp fs k d = Ok t <->
  (exists s, fs (S k) (place dp (ft_url d)) = Some s /\ load_table pf pi (mkTableDef (ft_name d) (ft_type d) (ft_lookup d) (Some (csv s))) = Ok t) /\
  (forall c, ft_checksum d = Some c -> exists s, fs k (place dp (ft_url d)) = Some s /\ is_for md5 sha256 c s).
Proof. exact load_file_table_iff. Qed.
Print Assumptions C82_table.

(** If the file is not changed meanwhile, the data is from the content that the
    checksum is for. *)
Theorem C82_table_checked_partial : forall md5 sha256 pf pi csv dp fs k d t c,
  load_file_table md5 sha256 pf pi csv dp fs k d = Ok t -> ft_checksum d = Some c -> unchanged fs (place dp (ft_url d)) ->
  exists s, fs k (place dp (ft_url d)) = Some s /\ is_for md5 sha256 c s /\
    load_table pf pi (mkTableDef (ft_name d) (ft_type d) (ft_lookup d) (Some (csv s))) = Ok t.
Proof.
  intros md5 sha256 pf pi csv dp fs k d t c H Hc Hu. apply load_file_table_iff in H. destruct H as ((s & Hs & Hl) & Hk).
  destruct (Hk c Hc) as (s' & Hs' & Hf). rewrite (Hu (S k) k), Hs' in Hs. injection Hs as ->. exists s. auto.
Qed.
Print Assumptions C82_table_checked_partial.

(** If it is, the checksum of the one content lets any other one be loaded: the
    file is opened a second time to read it. *)
Theorem C82_changed_between_refuted : forall md5 sha256 pf pi csv dp fs k d t h checked read,
  ft_checksum d = Some (MD5 h) -> spells h (md5 checked) ->
  fs k (place dp (ft_url d)) = Some checked -> fs (S k) (place dp (ft_url d)) = Some read ->
  load_table pf pi (mkTableDef (ft_name d) (ft_type d) (ft_lookup d) (Some (csv read))) = Ok t ->
  load_file_table md5 sha256 pf pi csv dp fs k d = Ok t.
Proof.
  intros md5 sha256 pf pi csv dp fs k d t h checked read Hd Hh H0 H1 Hl. apply load_file_table_iff. split; [eauto|].
  intros c Hc. rewrite Hd in Hc. injection Hc as <-. exists checked. auto.
Qed.
Print Assumptions C82_changed_between_refuted.

(** All tables of a model: each by its own name, each from its own file; and they
    do load if each of them does and the names differ. *)
Theorem C82_tables : forall md5 sha256 pf pi csv dp fs defs,
  (forall ts, load_file_tables md5 sha256 pf pi csv dp fs 0 defs [] = Ok ts ->
    NoDup (map ft_name defs) /\ NoDup (map fst ts) /\
    (forall i d, nth_error defs i = Some d -> exists t, load_file_table md5 sha256 pf pi csv dp fs (2 * i) d = Ok t /\ In (ft_name d, t) ts) /\
    (forall n t, In (n, t) ts -> exists i d, nth_error defs i = Some d /\ ft_name d = n /\ load_file_table md5 sha256 pf pi csv dp fs (2 * i) d = Ok t)) /\
  (NoDup (map ft_name defs) ->
   (forall i d, nth_error defs i = Some d -> exists t, load_file_table md5 sha256 pf pi csv dp fs (2 * i) d = Ok t) ->
   exists ts, load_file_tables md5 sha256 pf pi csv dp fs 0 defs [] = Ok ts).
Proof.
  intros md5 sha256 pf pi csv dp fs defs. rewrite load_file_tables_collect.
  assert (L : forall k d t, match load_file_table md5 sha256 pf pi csv dp fs k d with Ok t => Ok t | Err e => Err (InFileTable (ft_name d) e) | Panic => Panic end = Ok t <->
    load_file_table md5 sha256 pf pi csv dp fs k d = Ok t).
  { intros k d t. destruct (load_file_table _ _ _ _ _ _ _ _ _); split; congruence. }
  split.
  - intros ts H. apply collect_all in H. destruct H as (H1 & H2 & H3 & H4). split; [exact H1|]. split; [exact H2|]. split.
    + intros i d Hd. destruct (H3 i d Hd) as (t & Ht & Hin). apply L in Ht. eauto.
    + intros n t Hin. destruct (H4 n t Hin) as (i & d & Hd & Hn & Ht). apply L in Ht. eauto 6.
  - intros ND H. apply collect_ok; [exact ND|]. intros i d Hd. destruct (H i d Hd) as (t & Ht). exists t. apply L. exact Ht.
Qed.
Print Assumptions C82_tables.

(** Time series that polars reads: as tables, for files that end in ".csv" in any
    case. *)
Theorem C82_polars : forall raw md5 sha256 cols wt pc pr python steps dp fs k (s : series) infer f, se_source s = Polars infer ->
  load_series (raw := raw) md5 sha256 cols wt pc pr python steps dp fs k s = Ok f <->
  (forall c, se_checksum s = Some c -> exists b, fs k (place dp (se_url s)) = Some b /\ is_for md5 sha256 c b) /\
  exists b df, format_of "csv" (place dp (se_url s)) /\ fs (S k) (place dp (se_url s)) = Some b /\ pc infer b = Some df /\ shaped cols wt steps s df f.
Proof.
  intros raw md5 sha256 cols wt pc pr python steps dp fs k s infer f Hs.
  rewrite (checked_iff md5 sha256 cols wt pc pr python steps dp fs k s f (polars_read pc infer (place dp (se_url s)) (fs (S k) (place dp (se_url s))))).
  - split; intros (Hc & H); (split; [exact Hc|]).
    + destruct H as (df & Hr & Hsh). apply polars_read_iff in Hr. destruct Hr as (Hf & b & Hb & Hp). exists b, df. auto.
    + destruct H as (b & df & Hf & Hb & Hp & Hsh). exists df. split; [|exact Hsh]. apply polars_read_iff. eauto.
  - intros r <-. unfold load_series. cbv zeta. rewrite series_path_place, Hs. reflexivity.
Qed.
Print Assumptions C82_polars.

(** Parquet files are not read: the program panics, once the checksum has been
    found right. *)
Theorem C82_parquet_refuted : forall raw md5 sha256 cols wt pc pr python steps dp fs k (s : series) infer, se_source s = Polars infer ->
  format_of "parquet" (place dp (se_url s)) ->
  (forall c, se_checksum s = Some c -> exists b, fs k (place dp (se_url s)) = Some b /\ is_for md5 sha256 c b) ->
  load_series (raw := raw) md5 sha256 cols wt pc pr python steps dp fs k s = Panic.
Proof.
  intros raw md5 sha256 cols wt pc pr python steps dp fs k s infer Hs Hf Hc. unfold load_series. cbv zeta. rewrite series_path_place, Hs.
  rewrite (proj2 (check_opt_iff _ _ _ _ _) Hc). apply format_lower in Hf; [|apply small_words|discriminate]. destruct Hf as (e & He & Hl).
  unfold polars_read. rewrite He. cbv zeta. rewrite Hl. reflexivity.
Qed.
Print Assumptions C82_parquet_refuted.

(** Time series that pandas reads: CSV, Excel and HDF5 files, with the keywords of
    the model file, none of which may be one that pywr gives itself. *)
Theorem C82_pandas : forall raw md5 sha256 cols wt pc pr python steps dp fs k (s : series) kwargs f, se_source s = Pandas kwargs ->
  load_series (raw := raw) md5 sha256 cols wt pc pr python steps dp fs k s = Ok f <->
  python = true /\
  (forall c, se_checksum s = Some c -> exists b, fs k (place dp (se_url s)) = Some b /\ is_for md5 sha256 c b) /\
  exists b df g, format_of (suffix_word g) (place dp (se_url s)) /\ fs (S k) (place dp (se_url s)) = Some b /\
    (forall w, In w (taken g) -> ~ mentions w (PyParams.load_kwargs_py kwargs)) /\
    pr g (index_for g (se_time_col s)) (PyParams.load_kwargs_py kwargs) b = Some df /\ shaped cols wt steps s df f.
Proof.
  intros raw md5 sha256 cols wt pc pr python steps dp fs k s kwargs f Hs. destruct python.
  - rewrite (checked_iff md5 sha256 cols wt pc pr true steps dp fs k s f (pandas_call pr (place dp (se_url s)) (fs (S k) (place dp (se_url s)))
               (match se_time_col s with Some c => ByName c | None => ByPosition 0 end) (PyParams.load_kwargs_py kwargs))).
    + split.
      * intros (Hc & df & Hr & Hsh). split; [reflexivity|]. split; [exact Hc|]. apply pandas_call_iff in Hr. destruct Hr as (g & b & Hg & Ht & Hb & Hp). exists b, df, g. auto.
      * intros (_ & Hc & b & df & g & Hg & Hb & Ht & Hp & Hsh). split; [exact Hc|]. exists df. split; [|exact Hsh]. apply pandas_call_iff. eauto 8.
    + intros r <-. unfold load_series. cbv zeta. rewrite series_path_place, Hs. reflexivity.
  - split; [|intros (H & _); discriminate]. unfold load_series. cbv zeta. rewrite Hs. discriminate.
Qed.
Print Assumptions C82_pandas.

(** All time series of a model. *)
Theorem C82_series : forall raw md5 sha256 cols wt pc pr python steps dp fs defs,
  (forall ts, load_all_series (raw := raw) md5 sha256 cols wt pc pr python steps dp fs 0 defs [] = Ok ts ->
    NoDup (map se_name defs) /\ NoDup (map fst ts) /\
    (forall i d, nth_error defs i = Some d -> exists t, load_series md5 sha256 cols wt pc pr python steps dp fs (2 * i) d = Ok t /\ In (se_name d, t) ts) /\
    (forall n t, In (n, t) ts -> exists i d, nth_error defs i = Some d /\ se_name d = n /\ load_series md5 sha256 cols wt pc pr python steps dp fs (2 * i) d = Ok t)) /\
  (NoDup (map se_name defs) ->
   (forall i d, nth_error defs i = Some d -> exists t, load_series md5 sha256 cols wt pc pr python steps dp fs (2 * i) d = Ok t) ->
   exists ts, load_all_series md5 sha256 cols wt pc pr python steps dp fs 0 defs [] = Ok ts).
Proof.
  intros raw md5 sha256 cols wt pc pr python steps dp fs defs. rewrite load_all_series_collect.
  assert (L : forall k d t, match load_series md5 sha256 cols wt pc pr python steps dp fs k d with Ok t => Ok t | Err e => Err (InFileSeries (se_name d) e) | Panic => Panic end = Ok t <->
    load_series md5 sha256 cols wt pc pr python steps dp fs k d = Ok t).
  { intros k d t. destruct (load_series _ _ _ _ _ _ _ _ _ _ _ _); split; congruence. }
  split.
  - intros ts H. apply collect_all in H. destruct H as (H1 & H2 & H3 & H4). split; [exact H1|]. split; [exact H2|]. split.
    + intros i d Hd. destruct (H3 i d Hd) as (t & Ht & Hin). apply L in Ht. eauto.
    + intros n t Hin. destruct (H4 n t Hin) as (i & d & Hd & Hn & Ht). apply L in Ht. eauto 6.
  - intros ND H. apply collect_ok; [exact ND|]. intros i d Hd. destruct (H i d Hd) as (t & Ht). exists t. apply L. exact Ht.
Qed.
Print Assumptions C82_series.

(** Nothing but the file at its place has an effect on a table, a time series or
    an array. *)
Theorem C82_place : forall dp fs fs',
  (forall md5 sha256 pf pi csv k d, same_file fs fs' (place dp (ft_url d)) ->
    load_file_table md5 sha256 pf pi csv dp fs k d = load_file_table md5 sha256 pf pi csv dp fs' k d) /\
  (forall raw md5 sha256 cols wt pc pr python steps k s, same_file fs fs' (place dp (se_url s)) ->
    load_series (raw := raw) md5 sha256 cols wt pc pr python steps dp fs k s = load_series md5 sha256 cols wt pc pr python steps dp fs' k s) /\
  (forall md5 sha256 rd hdf5 k p, same_file fs fs' (place dp (ta_url p)) ->
    load_array md5 sha256 rd hdf5 dp fs k p = load_array md5 sha256 rd hdf5 dp fs' k p).
Proof.
  intros dp fs fs'. split; [|split].
  - intros md5 sha256 pf pi csv k d H. unfold load_file_table. cbv zeta. rewrite make_path_place, !H. reflexivity.
  - intros raw md5 sha256 cols wt pc pr python steps k s H. unfold load_series. cbv zeta. rewrite series_path_place, !H. reflexivity.
  - intros md5 sha256 rd hdf5 k p H. unfold load_array. cbv zeta. rewrite array_path_place, !H. reflexivity.
Qed.
Print Assumptions C82_place.

(** ** Models of version 1 *)

(** The checksum that is kept: MD5 if there is one, else SHA256, and otherwise
    none.  An array parameter with only other ones is not converted. *)
Theorem C82_v1_checksum : forall m, NoDup (map fst m) ->
  (forall h, In ("md5", h) m -> checksum_v1 m = Some (MD5 h)) /\
  (forall h, ~ mentions "md5" m -> In ("sha256", h) m -> checksum_v1 m = Some (SHA256 h)) /\
  (~ mentions "md5" m -> ~ mentions "sha256" m -> checksum_v1 m = None /\
   forall name node wh scenario url, array_v1 name node wh scenario (Some m) url = None) /\
  (forall name node wh scenario url c, checksum_v1 m = Some c ->
   array_v1 name node wh scenario (Some m) url = Some (mkTablesArray name node wh scenario (Some c) url None)) /\
  (forall name url kwargs c, checksum_v1 m = Some c -> se_checksum (series_v1 name url kwargs (Some m)) = Some c) /\
  (forall name url kwargs, se_checksum (series_v1 name url kwargs None) = None) /\
  (forall name node wh scenario url, array_v1 name node wh scenario None url = Some (mkTablesArray name node wh scenario None url None)).
Proof.
  intros m ND. unfold array_v1, checksum_v1. split; [|split; [|split; [|split; [|split; [|split]]]]].
  - intros h Hin. rewrite (lookup_In _ _ _ ND Hin). reflexivity.
  - intros h N Hin. rewrite (proj2 (lookup_None _ _) N), (lookup_In _ _ _ ND Hin). reflexivity.
  - intros N1 N2. rewrite (proj2 (lookup_None _ _) N1), (proj2 (lookup_None _ _) N2). split; reflexivity.
  - intros name node wh scenario url c ->. reflexivity.
  - intros name url kwargs c H. exact H.
  - reflexivity.
  - reflexivity.
Qed.
Print Assumptions C82_v1_checksum.

(** A data frame with only other ones is converted as if it had none: the file is
    not checked any more. *)
Theorem C82_v1_checksum_lost_refuted : forall name url kwargs m, ~ mentions "md5" m -> ~ mentions "sha256" m ->
  series_v1 name url kwargs (Some m) = series_v1 name url kwargs None.
Proof.
  intros name url kwargs m N1 N2. unfold series_v1, checksum_v1. rewrite (proj2 (lookup_None _ _) N1), (proj2 (lookup_None _ _) N2). reflexivity.
Qed.
Print Assumptions C82_v1_checksum_lost_refuted.

(** The index of a data frame: a column that is named is the column with the
    times; without one it is the first.  All other keywords are kept, but
    "parse_dates" for a ".csv" file. *)
Theorem C82_v1_index_partial : forall name url kwargs sums, NoDup (map fst kwargs) ->
  (forall c, In ("index_col", PyParams.JStr c) kwargs -> se_time_col (series_v1 name url kwargs sums) = Some c) /\
  (~ mentions "index_col" kwargs -> se_time_col (series_v1 name url kwargs sums) = None) /\
  se_name (series_v1 name url kwargs sums) = name /\ se_url (series_v1 name url kwargs sums) = url /\
  exists kept, se_source (series_v1 name url kwargs sums) = Pandas (Some kept) /\
    forall w v, In (w, v) kept <-> In (w, v) kwargs /\ w <> "index_col" /\ (ends_in "csv" url -> w <> "parse_dates").
Proof.
  intros name url kwargs sums ND. unfold series_v1. cbv zeta. cbn [se_time_col se_name se_url se_source]. split; [|split; [|split; [|split]]].
  - intros c Hin. rewrite (lookup_In _ _ _ ND Hin). reflexivity.
  - intros N. rewrite (proj2 (lookup_None _ _) N). reflexivity.
  - reflexivity.
  - reflexivity.
  - assert (R : forall k (m : list (string * PyParams.json)) w v, In (w, v) (remove k m) <-> In (w, v) m /\ w <> k).
    { intros k m w v. unfold remove. rewrite filter_In. cbn [fst]. rewrite negb_true_iff, String.eqb_neq. reflexivity. }
    destruct (path_extension url) as [e|] eqn:E; [destruct (String.eqb_spec e "csv") as [-> |N]|]; eexists; (split; [reflexivity|]); intros w v; rewrite !R.
    + apply extension_ends in E; [|discriminate]. tauto.
    + split; [|tauto]. intros [H1 H2]. split; [exact H1|]. split; [exact H2|]. intros F. apply extension_ends in F; [|discriminate]. congruence.
    + split; [|tauto]. intros [H1 H2]. split; [exact H1|]. split; [exact H2|]. intros F. apply extension_ends in F; [|discriminate]. congruence.
Qed.
Print Assumptions C82_v1_index_partial.

(** An index given by its position is forgotten: whatever its number, the first
    column is taken. *)
Theorem C82_v1_index_number_refuted : forall name url before n after sums, ~ mentions "index_col" before -> ~ mentions "index_col" after ->
  series_v1 name url (before ++ ("index_col", PyParams.JNum n) :: after) sums = series_v1 name url (before ++ after) sums.
Proof.
  intros name url before n after sums N1 N2.
  assert (R : remove "index_col" (before ++ ("index_col", PyParams.JNum n) :: after) = remove "index_col" (before ++ after)).
  { unfold remove. rewrite !filter_app. reflexivity. }
  assert (L1 : lookup "index_col" (before ++ after) = None).
  { apply lookup_None. intros (v & Hin). apply in_app_or in Hin. destruct Hin; [apply N1 | apply N2]; exists v; assumption. }
  assert (L2 : lookup "index_col" (before ++ ("index_col", PyParams.JNum n) :: after) = Some (PyParams.JNum n)).
  { clear R L1. induction before as [|[k v] l IH]; [reflexivity|]. unfold lookup in *. cbn [app find fst]. destruct (String.eqb_spec k "index_col") as [-> |N].
    - exfalso. apply N1. exists v. left. reflexivity.
    - apply IH. intros (v' & Hin). apply N1. exists v'. right. exact Hin. }
  unfold series_v1. cbv zeta. rewrite R, L1, L2. reflexivity.
Qed.
Print Assumptions C82_v1_index_number_refuted.

(** The dates of a file whose name ends in ".CSV", or any other spelling than
    ".csv": asking for what pywr does anyway makes it fail to load. *)
Theorem C82_v1_parse_dates_refuted : forall raw md5 sha256 cols wt pc pr steps dp fs k name dirs stem e kwargs sums f,
  stem <> "" -> no_dot e -> any_case "csv" e -> e <> "csv" -> mentions "parse_dates" kwargs ->
  load_series (raw := raw) md5 sha256 cols wt pc pr true steps dp fs k
    (series_v1 name (mkPath false (dirs ++ [(stem ++ String "." e)%string])) kwargs sums) <> Ok f.
Proof.
  intros raw md5 sha256 cols wt pc pr steps dp fs k name dirs stem e kwargs sums f Hs Hd Hc He Hm H.
  set (url := mkPath false (dirs ++ [(stem ++ String "." e)%string])) in *.
  assert (En : e <> "") by (intros ->; destruct Hc).
  assert (Hx : path_extension url = Some e) by (apply extension_ends; [exact En|]; exists dirs, stem; auto).
  set (kept := remove "index_col" kwargs).
  assert (Hsrc : se_source (series_v1 name url kwargs sums) = Pandas (Some kept)).
  { unfold series_v1. cbv zeta. rewrite Hx. destruct (String.eqb_spec e "csv"); [contradiction|]. reflexivity. }
  apply (C82_pandas raw md5 sha256 cols wt pc pr true steps dp fs k _ _ f Hsrc) in H. destruct H as (_ & _ & b & df & g & Hg & _ & Ht & _).
  assert (Hp : path_extension (place dp url) = Some e).
  { unfold place. destruct dp as [dir|]; [|exact Hx]. cbn [pa_absolute url]. apply extension_ends; [exact En|].
    exists (pa_parts dir ++ dirs), stem. split; [exact Hs|]. split; [exact Hd|]. cbn [pa_parts url]. rewrite app_assoc. reflexivity. }
  assert (G : g = PfCsv).
  { change (se_url (series_v1 name url kwargs sums)) with url in Hg.
    apply format_lower in Hg; [|destruct g; apply small_words|destruct g; discriminate]. destruct Hg as (e' & He' & Hl). rewrite Hp in He'. injection He' as <-.
    apply any_case_lower in Hc; [|apply small_words]. rewrite Hc in Hl. destruct g; [reflexivity | discriminate Hl | discriminate Hl]. }
  subst g. apply (Ht "parse_dates"); [cbn; auto|]. apply has_key_mentions. rewrite has_key_py. unfold kept. rewrite has_key_remove. apply has_key_mentions in Hm. rewrite Hm. reflexivity.
Qed.
Print Assumptions C82_v1_parse_dates_refuted.

(** ** Arrays *)

(** What is loaded: all of the dataset for a scenario group, or its first column. *)
Theorem C82_array : forall md5 sha256 rd dp fs k p b,
  load_array md5 sha256 rd true dp fs k p = Ok b <->
  (forall c, ta_checksum p = Some c -> exists s, fs k (place dp (ta_url p)) = Some s /\ is_for md5 sha256 c s) /\
  exists s a, fs (S k) (place dp (ta_url p)) = Some s /\ rd s (ta_wh p) (ta_node p) = Some a /\
    match ta_scenario p with
    | Some g => b = BArray2 a g (ta_offset p)
    | None => 0 < a2_width a /\ b = BArray1 (map (fun r => nth 0 r 0%Q) (a2_rows a)) (ta_offset p)
    end.
Proof.
  intros md5 sha256 rd dp fs k p b. unfold load_array. cbv zeta. rewrite array_path_place.
  destruct (check_opt _ _ _ _ _) as [[]|e|] eqn:E.
  - rewrite check_opt_iff in E. split.
    + intros H. split; [exact E|]. destruct (fs (S k) (place dp (ta_url p))) as [s|]; [|discriminate]. exists s. destruct (rd s (ta_wh p) (ta_node p)) as [a|] eqn:Er; [|discriminate]. exists a.
      split; [reflexivity|]. split; [first [exact Er | reflexivity]|]. destruct (ta_scenario p); [congruence|]. unfold first_column in H. destruct (Nat.eqb_spec (a2_width a) 0); [discriminate|]. cbn [rbind] in H. split; [lia | congruence].
    + intros (_ & s & a & -> & -> & H). destruct (ta_scenario p); [congruence|]. destruct H as [Hw ->]. unfold first_column. destruct (Nat.eqb_spec (a2_width a) 0); [lia|]. reflexivity.
  - split; [discriminate|]. intros (H & _). rewrite <- check_opt_iff in H. rewrite E in H. discriminate.
  - exfalso. exact (check_opt_not_panic _ _ _ _ _ E).
Qed.
Print Assumptions C82_array.

(** The value in a scenario is in the column of the member of the group that the
    scenario is for, in the row of the time-step. *)
Lemma kept_width {A} d k w (rows kept : list (list A)) : Forall (fun r => length r = w) rows -> array2_build d k rows = Ok kept ->
  exists w', Forall (fun r => length r = w') kept.
Proof.
  intros Hw H. unfold array2_build in H. apply rmap_Ok_Forall2 in H. unfold group_row in H.
  destruct (index_or_panic (dom_map d) k) as [[cols|]| |] eqn:E; cbn [rbind] in H.
  - exists (length cols). clear E Hw. induction H as [|x y l l' Hx H IH]; constructor; [|exact IH]. unfold subset_row in Hx. apply rmap_Ok_Forall2 in Hx. symmetry. exact (Forall2_length' _ _ _ Hx).
  - exists w. clear E. induction H as [|x y l l' Hx H IH]; constructor; inversion Hw; subst; [congruence | apply IH; assumption].
  - exists w. destruct H as [|x y l l' Hx H]; [constructor | discriminate].
  - exists w. destruct H as [|x y l l' Hx H]; [constructor | discriminate].
Qed.
Theorem C82_array_scenario : forall checked gs d s k g group name a offset t,
  gs <> [] -> Forall built gs -> Forall subset_in_range gs -> build_domain (DomainBuilder gs None) = Ok d -> In s (dom_indices d) ->
  nth_error gs k = Some g -> group name = Some k ->
  a2_rows a <> [] -> (Z.of_nat (length (a2_rows a)) < 2 ^ 31)%Z -> Forall (fun r => length r = g_size g) (a2_rows a) -> (0 <= t)%Z ->
  exists member, nth_error (members s) k = Some member /\
    (forall o, offset = Some o -> fits_i32 t -> fits_i32 (t + o) ->
     exists row v, nearest_entry (a2_rows a) (t + o) row /\ nth_error row member = Some v /\ array_value checked d group (BArray2 a name offset) s t = Ok v) /\
    (forall row, offset = None -> nth_error (a2_rows a) (Z.to_nat t) = Some row ->
     exists v, nth_error row member = Some v /\ array_value checked d group (BArray2 a name offset) s t = Ok v).
Proof.
  intros checked gs d s k g group name a offset t Hne Hb Hr Hd Hs Hk Hg Hrows Hlen Hw Ht.
  pose proof (full_aligned gs d Hne Hb Hr Hd) as Ha. pose proof Hw as Hw'. rewrite Forall_forall in Hw'.
  assert (Hm : exists i, nth_error (members s) k = Some i).
  { destruct (a2_rows a) as [|r0 rest]; [congruence|].
    destruct (aligned_lookup d gs s k g r0 Ha Hs Hk (Hw' r0 (or_introl eq_refl))) as (i & v & Hi & _). eauto. }
  destruct Hm as [i Hi].
  assert (Hrow : forall row, In row (a2_rows a) -> exists v, nth_error row i = Some v /\ array_lookup d k row s = Ok v).
  { intros row Hin. destruct (aligned_lookup d gs s k g row Ha Hs Hk (Hw' row Hin)) as (i' & v & Hi' & Hv & Hl & _).
    assert (i' = i) by congruence. subst. eauto. }
  exists i. split; [exact Hi|]. split.
  - intros o -> Ht1 Ht2. destruct (array2_scenario d k s i (a2_rows a) Hrow Hrows Hlen) as (kept & m & H1 & H2 & H3).
    destruct (kept_width d k (g_size g) _ _ Hw H1) as (w & Hkw).
    assert (F : Forall (fun r => Z.of_nat (length r) = match kept with r :: _ => Z.of_nat (length r) | [] => 0%Z end) kept).
    { destruct kept as [|r0 kept]; [constructor|]. inversion Hkw as [|? ? E _]; subst. eapply Forall_impl; [|exact Hkw]. cbn beta. intros r ->. reflexivity. }
    destruct (H3 checked t o _ Ht1 Ht2 F) as (row & v & Hn & Hv & Hc). exists row, v. split; [exact Hn|]. split; [exact Hv|].
    cbn [array_value]. rewrite Hg, H1, H2, Hc. reflexivity.
  - intros row -> Hrt. destruct (array2_no_offset d k s i (a2_rows a) checked t Hrow Hrows Ht) as (kept & m & H1 & H2 & _ & H3).
    destruct (H3 row (match kept with r :: _ => Z.of_nat (length r) | [] => 0%Z end) Hrt) as (v & Hv & Hc). exists v. split; [exact Hv|].
    cbn [array_value]. rewrite Hg, H1, H2, Hc. reflexivity.
Qed.
Print Assumptions C82_array_scenario.

(** Without a scenario group the other columns are dropped in silence ... *)
Theorem C82_array_columns_refuted : forall md5 sha256 rd rd' dp fs k p s a a',
  ta_scenario p = None -> fs (S k) (place dp (ta_url p)) = Some s ->
  rd s (ta_wh p) (ta_node p) = Some a -> rd' s (ta_wh p) (ta_node p) = Some a' ->
  0 < a2_width a -> 0 < a2_width a' -> map (fun r => nth 0 r 0%Q) (a2_rows a) = map (fun r => nth 0 r 0%Q) (a2_rows a') ->
  load_array md5 sha256 rd true dp fs k p = load_array md5 sha256 rd' true dp fs k p.
Proof.
  intros md5 sha256 rd rd' dp fs k p s a a' Hs Hf Ha Ha' Hw Hw' Hc. unfold load_array. cbv zeta. rewrite array_path_place.
  destruct (check_opt _ _ _ _ _); [|reflexivity|reflexivity]. rewrite Hf, Ha, Ha', Hs. unfold first_column.
  destruct (Nat.eqb_spec (a2_width a) 0); [lia|]. destruct (Nat.eqb_spec (a2_width a') 0); [lia|]. rewrite Hc. reflexivity.
Qed.
Print Assumptions C82_array_columns_refuted.

(** ... and a dataset with no column makes the program panic. *)
Theorem C82_array_no_column_refuted : forall md5 sha256 rd dp fs k p s a,
  ta_scenario p = None -> ta_checksum p = None -> fs (S k) (place dp (ta_url p)) = Some s -> rd s (ta_wh p) (ta_node p) = Some a -> a2_width a = 0 ->
  load_array md5 sha256 rd true dp fs k p = Panic.
Proof.
  intros md5 sha256 rd dp fs k p s a Hs Hc Hf Ha Hw. unfold load_array. cbv zeta. rewrite array_path_place, Hc. cbn [check_opt]. rewrite Hf, Ha, Hs.
  unfold first_column. rewrite Hw. reflexivity.
Qed.
Print Assumptions C82_array_no_column_refuted.

(** ** Examples *)

(** A digest for the examples: the first two bytes. *)
Definition toy (s : string) : string := substring 0 2 s.
Definition toy_csv (s : string) : list csv_record := [["name"; "value"]; [substring 0 1 s; substring 1 1 s]].
Definition toy_number (s : string) : option Q := if String.eqb s "7" then Some 7%Q else if String.eqb s "8" then Some 8%Q else None.
Definition toy_table : file_table := mkFileTable "t" ScalarTable (LookupRow 1) (mkPath false ["t.csv"]) (Some (MD5 "6137")).
Definition toy_dir : path := mkPath true ["data"].
Definition toy_disk : disk := fun _ p => match pa_parts p with ["data"; "t.csv"] => Some "a7" | _ => None end.
Definition toy_changing : disk := fun k p => match pa_parts p with ["data"; "t.csv"] => Some (match k with 0 => "a7" | _ => "a8" end) | _ => None end.
Example C82_example :
  spells "6137" (toy "a7") /\ ~ spells "6137" (toy "a8") /\ unchanged toy_disk (place (Some toy_dir) (ft_url toy_table)) /\
  load_file_table toy toy toy_number (fun _ => None) toy_csv (Some toy_dir) toy_disk 0 toy_table = Ok (FloatScalar (mkTable 1 [(["a"], SFloat 7)])) /\
  load_file_table toy toy toy_number (fun _ => None) toy_csv (Some toy_dir) toy_changing 0 toy_table = Ok (FloatScalar (mkTable 1 [(["a"], SFloat 8)])) /\
  load_file_table toy toy toy_number (fun _ => None) toy_csv (Some toy_dir) toy_changing 1 toy_table =
    Err (TableChecksum (ChecksumMismatch "6138" "6137" (mkPath true ["data"; "t.csv"]))) /\
  load_file_table toy toy toy_number (fun _ => None) toy_csv None toy_disk 0 toy_table = Err (TableChecksum (ChecksumIo (mkPath false ["t.csv"]))).
Proof.
  split; [apply spells_encode; reflexivity|]. split; [intros H; apply spells_encode in H; discriminate H|]. split; [intros j k; reflexivity|].
  repeat split.
Qed.
Example C82_capitals_example : has_capital "4A37" /\ spells_any_case "4A37" "J7" /\ check toy toy (MD5 "4A37") (Some "J7") toy_dir = Err (ChecksumMismatch "4a37" "4A37" toy_dir).
Proof.
  split; [right; left; vm_compute; lia|]. split; [|reflexivity]. split; [exists 4, 10; repeat split | split; [exists 3, 7; repeat split | exact I]].
Qed.
Example C82_formats_example :
  format_of "csv" (mkPath false ["d.x"; "flows.CSV"]) /\ format_of "parquet" (mkPath true ["flows.parquet"]) /\
  path_extension (mkPath false ["flows"]) = None /\ path_extension (mkPath false [".csv"]) = None.
Proof.
  split; [|split; [|split; reflexivity]].
  - apply format_lower; [apply small_words | discriminate|]. exists "CSV". split; reflexivity.
  - apply format_lower; [apply small_words | discriminate|]. exists "parquet". split; reflexivity.
Qed.
Example C82_v1_example :
  series_v1 "s" (mkPath false ["f.csv"]) [("index_col", PyParams.JStr "Date"); ("parse_dates", PyParams.JBool true); ("dayfirst", PyParams.JBool true)] (Some [("sha1", "00")]) =
    mkSeries "s" (Some "Date") (mkPath false ["f.csv"]) None (Pandas (Some [("dayfirst", PyParams.JBool true)])).
Proof. reflexivity. Qed.
Definition toy_group : group := Group "g" 2 None None.
Example C82_array_example :
  match build_domain (DomainBuilder [toy_group] None) with
  | Ok d => map (fun s => array_value true d (fun _ => Some 0) (BArray2 (mkArray2 [[1; 2]; [3; 4]]%Q 2) "g" None) s 1) (dom_indices d) = [Ok 3; Ok 4]%Q /\
            map (fun s => array_value true d (fun _ => Some 0) (BArray1 [1; 3]%Q None) s 1) (dom_indices d) = [Ok 3; Ok 3]%Q
  | _ => False
  end.
Proof. vm_compute. auto. Qed.
