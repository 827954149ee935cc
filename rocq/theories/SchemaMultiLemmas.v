(** Lemmas for C73. *)
From Coq Require Import QArith.
From Verif Require Import Base Scenario Calendar Timestep Run MultiNetwork MultiNetworkSpec MultiNetworkLemmas NetworkBuildLemmas SchemaDomain SchemaMulti SchemaMultiSpec.
Local Open Scope nat_scope.

Lemma combination_loop_ids gs m combs : forall n ix, combination_loop gs m n combs = Ok ix -> map simulation_id ix = seq n (length ix).
Proof.
  induction combs as [|c cs IH]; intros n ix H; cbn [combination_loop] in H; [injection H as <-; reflexivity|].
  apply rbind_Ok in H. destruct H as (s & Hs & H). apply rbind_Ok in H. destruct H as (r & Hr & H). injection H as <-.
  cbn [map length seq]. rewrite (IH _ _ Hr). f_equal. unfold combination_scenario in Hs.
  apply rbind_Ok in Hs. destruct Hs as (? & _ & Hs). apply rbind_Ok in Hs. destruct Hs as (? & _ & Hs). apply rbind_Ok in Hs. destruct Hs as (? & _ & Hs).
  injection Hs as <-. reflexivity.
Qed.
Lemma full_loop_ids gs sl ids : forall n ix, full_loop gs sl n ids = Ok ix -> map simulation_id ix = seq n (length ix).
Proof.
  induction ids as [|i ids IH]; intros n ix H; cbn [full_loop] in H; [injection H as <-; reflexivity|].
  apply rbind_Ok in H. destruct H as (ls & _ & H). destruct (sim_indices gs (decode gs i)); [|exact (IH _ _ H)].
  apply rbind_Ok in H. destruct H as (r & Hr & H). injection H as <-. cbn [map length seq]. rewrite (IH _ _ Hr). reflexivity.
Qed.
Lemma domain_numbered b d : build_domain b = Ok d -> numbered (dom_indices d).
Proof.
  unfold build_domain, numbered. destruct (d_groups b) as [|g gs]; [intros H; injection H as <-; reflexivity|].
  destruct (_ && _); [discriminate|]. destruct (d_combinations b) as [raw|]; intros H.
  - apply rbind_Ok in H. destruct H as (c & _ & H). apply rbind_Ok in H. destruct H as (m & _ & H). apply rbind_Ok in H. destruct H as (ix & Hix & H).
    injection H as <-. exact (combination_loop_ids _ _ _ _ _ Hix).
  - apply rbind_Ok in H. destruct H as (ix & Hix & H). injection H as <-. exact (full_loop_ids _ _ _ _ _ Hix).
Qed.
Lemma file_domain_numbered fuel t s d : domain_of_file fuel t s = Ok d -> numbered (dom_indices (md_scenarios d)).
Proof.
  unfold domain_of_file. intros H. apply rbind_Ok in H. destruct H as (b & _ & H). apply rbind_Ok in H. destruct H as (ts & _ & H).
  apply rbind_Ok in H. destruct H as (sc & Hs & H). injection H as <-. cbn. apply (domain_numbered b).
  destruct (build_domain b); cbn in Hs; congruence || discriminate Hs.
Qed.

Lemma set_nth_length' {A} (l : list A) : forall i a, length (SchemaMulti.set_nth l i a) = length l.
Proof. induction l as [|x l IH]; intros [|i] a; cbn; auto. Qed.
Lemma set_nth_nth' {A} (l : list A) : forall i a j, nth_error (SchemaMulti.set_nth l i a) j =
  if (i =? j) && (j <? length l) then Some a else nth_error l j.
Proof.
  induction l as [|x l IH]; intros [|i] a [|j]; cbn [SchemaMulti.set_nth nth_error Nat.eqb andb length]; try reflexivity.
  - rewrite andb_false_r. reflexivity.
  - rewrite IH. reflexivity.
Qed.

Lemma lookup_rev_map (names : list string) : NoDup names -> forall k n, nth_error names k = Some n ->
  lookup n (rev (combine names (seq 0 (length names)))) = Some k.
Proof.
  assert (G : forall names i, NoDup names -> forall k n m, nth_error names k = Some n ->
    lookup n (rev (combine names (seq i (length names))) ++ m) = Some (i + k)).
  { clear. induction names as [|n0 names IH]; intros i Hnd k n m Hk; [destruct k; discriminate Hk|].
    inversion Hnd as [|? ? Hni Hnd']; subst. cbn [length seq combine rev]. rewrite <- app_assoc. destruct k as [|k]; cbn [nth_error] in Hk.
    - injection Hk as ->. rewrite lookup_app. assert (lookup n (rev (combine names (seq (S i) (length names)))) = None) as ->.
      { apply lookup_None. rewrite map_rev, <- in_rev. intros Hin. apply Hni. clear - Hin. revert Hin. generalize (S i).
        induction names as [|x names IH]; intros j Hin; [destruct Hin|]. cbn in Hin. destruct Hin as [<-|Hin]; [left; reflexivity | right; exact (IH _ Hin)]. }
      cbn. rewrite String.eqb_refl. f_equal. lia.
    - rewrite (IH (S i) Hnd' k n _ Hk). f_equal. lia. }
  intros Hnd k n Hk. specialize (G names 0 Hnd k n [] Hk). rewrite app_nil_r in G. exact G.
Qed.
Lemma lookup_rev_inv (names : list string) k n : lookup n (rev (combine names (seq 0 (length names)))) = Some k -> nth_error names k = Some n.
Proof.
  intros H. assert (Hin : In (n, k) (rev (combine names (seq 0 (length names))))).
  { revert H. generalize (rev (combine names (seq 0 (length names)))). induction l as [|[x a] l IH]; cbn; [discriminate|].
    destruct (String.eqb_spec x n) as [->|]; [intros H; injection H as ->; left; reflexivity | intros H; right; exact (IH H)]. }
  apply in_rev in Hin. clear H. assert (G : forall i, In (n, k) (combine names (seq i (length names))) -> i <= k /\ nth_error names (k - i) = Some n).
  { clear Hin. induction names as [|x names IH]; intros i Hin; [destruct Hin|]. cbn in Hin. destruct Hin as [Hin|Hin].
    - injection Hin as -> ->. rewrite Nat.sub_diag. split; [lia | reflexivity].
    - destruct (IH _ Hin) as [H1 H2]. split; [lia|]. replace (k - i) with (S (k - S i)) by lia. exact H2. }
  destruct (G 0 Hin) as [_ G']. rewrite Nat.sub_0_r in G'. exact G'.
Qed.

(** The position of an entry's transfer among all. *)
Lemma concat_split {A} (ls : list (list A)) : forall k l i a, nth_error ls k = Some l -> nth_error l i = Some a ->
  exists before after, concat ls = before ++ a :: after /\ length before = length (concat (firstn k ls)) + i.
Proof.
  induction ls as [|l0 ls IH]; intros [|k] l i a Hk Hi; cbn in Hk; try discriminate Hk.
  - injection Hk as ->. destruct (nth_error_split _ _ Hi) as (l1 & l2 & -> & Hl). exists l1, (l2 ++ concat ls). cbn. rewrite <- app_assoc. split; [reflexivity | exact Hl].
  - destruct (IH k l i a Hk Hi) as (b & c & E1 & E2). exists (l0 ++ b), c. cbn [concat firstn]. rewrite E1, <- app_assoc. split; [reflexivity|]. rewrite !app_length, E2. lia.
Qed.
Lemma concat_nth {A} (ls : list (list A)) : forall k l i, nth_error ls k = Some l -> i < length l ->
  nth_error (concat ls) (length (concat (firstn k ls)) + i) = nth_error l i.
Proof.
  induction ls as [|l0 ls IH]; intros [|k] l i Hk Hi; cbn in Hk; try discriminate Hk.
  - injection Hk as ->. cbn. apply nth_error_app1. exact Hi.
  - cbn [concat firstn]. rewrite app_length, nth_error_app2 by lia. rewrite <- (IH k l i Hk Hi). f_equal. lia.
Qed.
Lemma concat_firstn_length {A B} (ls : list (list A)) (ms : list (list B)) k : Forall2 (fun l m => length l = length m) ls ms ->
  length (concat (firstn k ls)) = length (concat (firstn k ms)).
Proof.
  intros H. revert k. induction H as [|l m ls ms Hl _ IH]; intros [|k]; try reflexivity. cbn [firstn concat]. rewrite !app_length, Hl, (IH k). reflexivity.
Qed.
Section Lemmas.
Set Default Proof Using "Type".
Context {E Schema Loaded Builder FileMetric Unresolved : Type}.
Notation file_transfer := (file_transfer (FileMetric := FileMetric)).
Notation file_entry := (file_entry (Schema := Schema) (FileMetric := FileMetric)).
Notation transfer_builder := (transfer_builder (Unresolved := Unresolved)).
Variable read : path -> res E Schema.
Variable add_to_network : Schema -> model_domain -> option path -> list file_transfer -> res E (Builder * Loaded).
Variable load_metric : Loaded -> model_domain -> option path -> FileMetric -> Builder -> res E (Builder * Unresolved).
Variable dom : model_domain.
Variable dp : option path.
Notation prepared := (prepared load_metric).

Lemma tagf_Ok {A} (f : E -> file_error (E := E)) (r : res E A) a : tagf f r = Ok a <-> r = Ok a.
Proof. destruct r; cbn; split; intros H; try discriminate H; congruence. Qed.

Lemma load_network_Ok (e : file_entry) bl : load_network read add_to_network dom dp e = Ok bl <->
  exists s, means_schema read dp (fe_network e) s /\ add_to_network s dom dp (fe_transfers e) = Ok bl.
Proof.
  unfold load_network. destruct (fe_network e) as [p|s].
  - split.
    + intros H. apply rbind_Ok in H. destruct H as (s & Hr & H). apply tagf_Ok in Hr. apply tagf_Ok in H. exists s. split; [|exact H].
      unfold full_path, join in Hr. destruct dp as [d|].
      * destruct (pa_absolute p) eqn:Ea; cbn in Hr; [apply MeansAbsolute; assumption | apply MeansInData; assumption].
      * apply MeansRelative. exact Hr.
    + intros (s & Hm & H). assert (Hr : read (full_path dp p) = Ok s).
      { inversion Hm as [|? ? ? Ha Hr|? ? Hr|d ? ? Ha Hr]; subst; unfold full_path, join.
        - rewrite Ha. destruct dp; exact Hr.
        - exact Hr.
        - rewrite Ha. exact Hr. }
      rewrite Hr. cbn. rewrite H. reflexivity.
  - split.
    + intros H. apply tagf_Ok in H. exists s. split; [constructor | exact H].
    + intros (s' & Hm & H). inversion Hm; subst. rewrite H. reflexivity.
Qed.

Lemma load_networks_Ok (es : list file_entry) : forall i m nets m', load_networks read add_to_network dom dp i es m = Ok (nets, m') ->
  Forall2 (fun e bl => load_network read add_to_network dom dp e = Ok bl) es nets /\
  m' = rev (combine (map fe_name es) (seq i (length es))) ++ m.
Proof.
  induction es as [|e es IH]; intros i m nets m' H; cbn [load_networks] in H.
  - injection H as <- <-. split; [constructor | reflexivity].
  - apply rbind_Ok in H. destruct H as (bl & Hb & H). apply rbind_Ok in H. destruct H as ([nets1 m1] & Hr & H). injection H as <- <-. cbn [fst snd] in *.
    destruct (IH _ _ _ _ Hr) as [H1 H2]. split; [constructor; assumption|]. cbn [map length seq combine rev]. rewrite H2, <- app_assoc. reflexivity.
Qed.

(** The loops over the transfers, flattened. *)
Lemma load_transfers_app m ts1 : forall nets ts2, load_transfers load_metric dom dp m nets (ts1 ++ ts2) =
  rbind (load_transfers load_metric dom dp m nets ts1) (fun r =>
  rbind (load_transfers load_metric dom dp m (fst r) ts2) (fun r' => Ok (fst r', snd r ++ snd r'))).
Proof.
  induction ts1 as [|t ts1 IH]; intros nets ts2.
  - cbn. destruct (load_transfers load_metric dom dp m nets ts2) as [[a b]| |]; reflexivity.
  - cbn [app load_transfers]. destruct (load_transfer load_metric dom dp m nets t) as [[n1 tb]| |]; cbn [rbind fst snd]; [|reflexivity|reflexivity].
    rewrite IH. destruct (load_transfers load_metric dom dp m n1 ts1) as [[n2 tbs]| |]; cbn [rbind fst snd]; [|reflexivity|reflexivity].
    destruct (load_transfers load_metric dom dp m n2 ts2) as [[n3 tbs']| |]; reflexivity.
Qed.
Definition carries (t : file_transfer) (tb : transfer_builder) : Prop :=
  tb_name tb = xf_name t /\ tb_from tb = xf_from t /\ tb_initial tb = xf_initial t.
Lemma load_transfers_carries m ts : forall nets nets' tbs, load_transfers load_metric dom dp m nets ts = Ok (nets', tbs) -> Forall2 carries ts tbs.
Proof.
  induction ts as [|t ts IH]; intros nets nets' tbs H; cbn [load_transfers] in H; [injection H as <- <-; constructor|].
  apply rbind_Ok in H. destruct H as ([n1 tb] & Ht & H). apply rbind_Ok in H. destruct H as ([n2 tbs'] & Hr & H). injection H as <- <-. cbn [fst snd] in *.
  constructor; [|exact (IH _ _ _ Hr)]. unfold load_transfer in Ht. destruct (lookup (xf_from t) m); [|discriminate Ht].
  apply rbind_Ok in Ht. destruct Ht as (bl & _ & Ht). apply rbind_Ok in Ht. destruct Ht as (r & _ & Ht). injection Ht as <- <-. repeat split.
Qed.
Lemma load_all_flat m (es : list file_entry) : forall nets nets' tbss, load_all_transfers load_metric dom dp m nets es = Ok (nets', tbss) ->
  load_transfers load_metric dom dp m nets (concat (map fe_transfers es)) = Ok (nets', concat tbss) /\
  Forall2 (fun e tbs => Forall2 carries (fe_transfers e) tbs) es tbss.
Proof.
  induction es as [|e es IH]; intros nets nets' tbss H; cbn [load_all_transfers] in H; [injection H as <- <-; split; [reflexivity | constructor]|].
  apply rbind_Ok in H. destruct H as ([n1 tbs] & Ht & H). apply rbind_Ok in H. destruct H as ([n2 tbss'] & Hr & H). injection H as <- <-. cbn [fst snd] in *.
  destruct (IH _ _ _ Hr) as [H1 H2]. split.
  - cbn [map concat]. rewrite load_transfers_app, Ht. cbn [rbind fst snd]. rewrite H1. reflexivity.
  - constructor; [exact (load_transfers_carries _ _ _ _ _ Ht) | exact H2].
Qed.

Definition from_is (n : string) (t : file_transfer) : bool := String.eqb (xf_from t) n.

(** What happens to network number [j], the one called [n]. *)
Lemma load_transfers_network m n j ts : (forall n', lookup n' m = Some j <-> n' = n) ->
  forall nets nets' tbs b L, load_transfers load_metric dom dp m nets ts = Ok (nets', tbs) -> nth_error nets j = Some (b, L) ->
  exists b', nth_error nets' j = Some (b', L) /\ prepared L dom dp b (filter (from_is n) ts) b'.
Proof.
  intros Hm. induction ts as [|t ts IH]; intros nets nets' tbs b L H Hj; cbn [load_transfers] in H.
  - injection H as <- <-. exists b. split; [exact Hj | constructor].
  - apply rbind_Ok in H. destruct H as ([n1 tb] & Ht & H). apply rbind_Ok in H. destruct H as ([n2 tbs'] & Hr & H). injection H as <- <-. cbn [fst snd] in *.
    unfold load_transfer in Ht. destruct (lookup (xf_from t) m) as [idx|] eqn:El; [|discriminate Ht].
    apply rbind_Ok in Ht. destruct Ht as ([b0 L0] & Hi & Ht). apply rbind_Ok in Ht. destruct Ht as ([b1 u] & Hl & Ht). injection Ht as <- <-. cbn [fst snd] in *.
    apply tagf_Ok in Hl. unfold index_or_panic in Hi. destruct (nth_error nets idx) as [bl|] eqn:En; [|discriminate Hi]. injection Hi as ->.
    cbn [filter]. unfold from_is at 1. destruct (String.eqb_spec (xf_from t) n) as [Hf|Hf].
    + apply Hm in Hf. assert (idx = j) as -> by congruence. rewrite En in Hj. injection Hj as -> ->.
      destruct (IH _ _ _ b1 L Hr) as (b' & H1 & H2).
      { rewrite set_nth_nth', Nat.eqb_refl. assert (Hlt : j < length nets) by (exact (nth_error_Some_lt _ _ _ En)). apply Nat.ltb_lt in Hlt. rewrite Hlt. reflexivity. }
      exists b'. split; [exact H1|]. econstructor; [exact Hl | exact H2].
    + apply (IH _ _ _ b L Hr). rewrite set_nth_nth'. destruct (Nat.eqb_spec idx j) as [->|]; [|exact Hj]. exfalso. apply Hf. apply Hm. exact El.
Qed.

Lemma prepared_app L b ts1 b1 ts2 b2 : prepared L dom dp b ts1 b1 -> prepared L dom dp b1 ts2 b2 -> prepared L dom dp b (ts1 ++ ts2) b2.
Proof. intros H1 H2. induction H1; [exact H2|]. cbn. econstructor; [eassumption | apply IHprepared; exact H2]. Qed.

(** A transfer of the file, and what becomes of it in the network it names. *)
Lemma load_transfers_one m n j before t after : (forall n', lookup n' m = Some j <-> n' = n) -> xf_from t = n ->
  forall nets nets' tbs b L, load_transfers load_metric dom dp m nets (before ++ t :: after) = Ok (nets', tbs) -> nth_error nets j = Some (b, L) ->
  exists b1 b2 b' u tb, nth_error tbs (length before) = Some tb /\ tb_metric tb = u /\ nth_error nets' j = Some (b', L) /\
    prepared L dom dp b (filter (from_is n) before) b1 /\ load_metric L dom dp (xf_metric t) b1 = Ok (b2, u) /\
    prepared L dom dp b2 (filter (from_is n) after) b'.
Proof.
  intros Hm Hf nets nets' tbs b L H Hj. rewrite load_transfers_app in H. apply rbind_Ok in H. destruct H as ([n1 tbs1] & H1 & H).
  apply rbind_Ok in H. destruct H as ([n2 tbs2] & H2 & H). injection H as <- <-. cbn [fst snd] in *.
  destruct (load_transfers_network m n j before Hm _ _ _ _ _ H1 Hj) as (b1 & Hb1 & Hp1).
  cbn [load_transfers] in H2. apply rbind_Ok in H2. destruct H2 as ([n3 tb] & Ht & H2). apply rbind_Ok in H2. destruct H2 as ([n4 tbs3] & Hr & H2). injection H2 as <- <-. cbn [fst snd] in *.
  unfold load_transfer in Ht. rewrite (proj2 (Hm (xf_from t)) Hf) in Ht. unfold index_or_panic in Ht. rewrite Hb1 in Ht. cbn [rbind fst snd] in Ht.
  apply rbind_Ok in Ht. destruct Ht as ([b2 u] & Hl & Ht). apply tagf_Ok in Hl. injection Ht as <- <-. cbn [fst snd] in *.
  destruct (load_transfers_network m n j after Hm _ _ _ b2 L Hr) as (b' & Hb' & Hp2).
  { rewrite set_nth_nth', Nat.eqb_refl. assert (Hlt : j < length n1) by (exact (nth_error_Some_lt _ _ _ Hb1)). apply Nat.ltb_lt in Hlt. rewrite Hlt. reflexivity. }
  exists b1, b2, b', u, (TransferBuilder (xf_name t) (xf_from t) u (xf_initial t)). split; [|split; [reflexivity|]].
  - rewrite nth_error_app2; rewrite (Forall2_length' _ _ _ (load_transfers_carries _ _ _ _ _ H1)); [|apply le_n]. rewrite Nat.sub_diag. cbn. reflexivity.
  - auto.
Qed.

Lemma load_transfers_length m ts : forall nets nets' tbs, load_transfers load_metric dom dp m nets ts = Ok (nets', tbs) -> length nets' = length nets.
Proof.
  induction ts as [|t ts IH]; intros nets nets' tbs H; cbn [load_transfers] in H; [injection H as <- <-; reflexivity|].
  apply rbind_Ok in H. destruct H as ([n1 tb] & Ht & H). apply rbind_Ok in H. destruct H as ([n2 tbs'] & Hr & H). injection H as <- <-. cbn [fst snd] in *.
  rewrite (IH _ _ _ Hr). unfold load_transfer in Ht. destruct (lookup (xf_from t) m); [|discriminate Ht].
  apply rbind_Ok in Ht. destruct Ht as (bl & _ & Ht). apply rbind_Ok in Ht. destruct Ht as (r & _ & Ht). injection Ht as <- <-. apply set_nth_length'.
Qed.

Lemma make_entries_spec (es : list file_entry) : forall nets (tbss : list (list transfer_builder)), length nets = length es -> length tbss = length es ->
  map eb_name (make_entries es nets tbss) = map fe_name es /\
  forall k f, nth_error es k = Some f -> exists (n : Builder * Loaded) tbs, nth_error nets k = Some n /\ nth_error tbss k = Some tbs /\
    nth_error (make_entries es nets tbss) k = Some (EntryBuilder (fe_name f) (fst n) tbs).
Proof.
  induction es as [|e es IH]; intros [|n nets] [|tbs tbss] H1 H2; cbn in H1, H2; try discriminate H1; try discriminate H2.
  - split; [reflexivity|]. intros k f Hk. destruct k; discriminate Hk.
  - destruct (IH nets tbss) as [IH1 IH2]; [injection H1; auto | injection H2; auto|]. split; [cbn; f_equal; exact IH1|]. intros [|k] f Hk; cbn in Hk.
    + injection Hk as ->. exists n, tbs. cbn. auto.
    + destruct (IH2 k f Hk) as (n' & t' & ? & ? & ?). exists n', t'. cbn. auto.
Qed.

End Lemmas.
