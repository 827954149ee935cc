(** Lemmas for C79. *)
From Verif Require Import NetworkBuildLemmas.
From Verif Require Import Base Calendar Network NetworkBuild NetworkSpec Lp LpSpec LpColLemmas LpRowLemmas LpUpdateLemmas LpLemmas LpDynLemmas.
From Verif Require Import Backends BackendsSpec BackendsLemmas Ffi FfiSpec.
Open Scope nat_scope.

(** ** The programme of a network names its own rows and columns only *)
Definition row_ok (nc : nat) (r : lrow) : Prop := NoDup (map fst (l_cols r)) /\ forall c, In c (map fst (l_cols r)) -> c < nc.
Definition up_ok (nc nr : nat) (u : nat * nat * Q) : Prop := fst (fst u) < nr /\ snd (fst u) < nc.

Section Created.
Variable net : network.
Hypothesis wf : wf_network net.
Variable fm : Q.
Variable order : list (list nat).
Variable b0 : built.
Variables V F : list row.
Hypothesis Hcr : created net fm order b0 V F.
Let base := cm_ncols (edge_columns net).
Let nc := length (lp_cols (bt_lp b0)).

Lemma nc_eq : nc = base + length order.
Proof. unfold nc. rewrite (cr_cols _ _ _ _ _ _ Hcr), app_length, !repeat_length. reflexivity. Qed.
Lemma bins_lt i c : In c (node_bin_cols base order i) -> c < nc.
Proof.
  intros H. destruct (node_bin_cols_ge _ _ _ _ H) as (k & s & -> & Hk & _). apply nth_error_Some_lt in Hk. rewrite nc_eq. lia.
Qed.
Lemma base_lt c : c < base -> c < nc.
Proof. rewrite nc_eq. lia. Qed.
Lemma excl_lt sets : forall cols cols', exclusivity_cols base order sets cols = Ok cols' ->
  (forall c, In c (map fst cols) -> c < nc) -> forall c, In c (map fst cols') -> c < nc.
Proof.
  induction sets as [|s sets IH]; intros cols cols' H H0 c Hc; cbn [exclusivity_cols] in H; [injection H as <-; apply H0; exact Hc|].
  unfold set_bin_col in H. destruct (position (nats_eqb s) order) as [k|] eqn:E; [|discriminate].
  apply (IH _ _ H); [|exact Hc]. intros c' Hc'. apply add_element_keys in Hc'. destruct Hc' as [-> |Hc']; [|apply H0; exact Hc'].
  destruct (position_Some _ _ _ E) as (x & Hx & _). apply nth_error_Some_lt in Hx. rewrite nc_eq. lia.
Qed.
Lemma bin_keys_lt i n c cb v v' : nth_error (net_nodes net) i = Some n -> In cb (node_bin_cols base order i) ->
  In c (map fst (add_element cb v (add_node (col_for_edge net) n v' []))) -> c < nc.
Proof.
  intros Hn Hcb Hc. apply add_element_keys in Hc. destruct Hc as [-> |Hc]; [apply (bins_lt i _ Hcb)|].
  apply add_node_keys in Hc. destruct Hc as [[]|Hc]. apply base_lt. apply (node_cols_lt net wf i n c Hn Hc).
Qed.
Lemma created_rows_ok : Forall (row_ok nc) (lp_rows (bt_lp b0)).
Proof.
  destruct (created_ready _ _ _ _ _ _ Hcr) as [Hnd _]. unfold nodup_keys in Hnd. rewrite Forall_forall in *.
  intros r0 H. split; [apply Hnd; exact H|]. intros c Hc. apply In_nth_error in H. destruct H as (i & Hi).
  destruct (nth_rows _ _ _ _ _ _ Hcr i r0 Hi) as [(_ & r & Hr & ->)|(_ & r & Hr & ->)]; apply nth_error_In in Hr; cbn [finish_row l_cols] in Hc.
  - destruct (cr_V _ _ _ _ _ _ Hcr r Hr) as [(nr & n & Hin & Hn & ->)|[(a & _ & Ha)|[(a & ps & p & _ & _ & _ & _ & Hp)|(v & _ & Hv)]]].
    + destruct (cr_nodes _ _ _ _ _ _ Hcr nr Hin) as (n' & Hn' & Hok & _). rewrite Hn in Hn'. injection Hn' as <-.
      destruct Hok as (_ & _ & Hok). destruct (nr_type nr) as [|cb|cb]; cbn [expected_node_row r_cols] in Hc.
      * apply add_node_keys in Hc. destruct Hc as [[]|Hc]. apply base_lt. apply (node_cols_lt net wf _ n c Hn Hc).
      * apply (bin_keys_lt _ n c cb _ _ Hn Hok Hc).
      * assert (Hcb : In cb (node_bin_cols base order (nr_node nr))) by apply Hok. apply (bin_keys_lt _ n c cb _ _ Hn Hcb Hc).
    + apply base_lt. apply (plain_agg net wf a r Ha). exact Hc.
    + apply base_lt. apply (row_keys_range net wf p r c Hp Hc).
    + apply base_lt. apply (plain_vs net wf v r Hv). exact Hc.
  - apply (cr_fixed _ _ _ _ _ _ Hcr) in Hr.
    destruct Hr as [(n & Hn & Ht & _ & ->)|[(k & n & Hn & mn & mx & _ & Hr)|[(a & ps & p & _ & _ & _ & _ & Hp)|(a & _ & mn & mx & cols & _ & Hcs & ->)]]].
    + cbn [balance_row r_cols] in Hc. apply In_nth_error in Hn. destruct Hn as (k & Hn). apply base_lt.
      assert (Hcol : forall e, In e (n_in n) \/ In e (n_out n) -> col_for_edge net e < base).
      { intros e He. apply (edge_column_exists net wf). destruct (wf_nodes net wf k n Hn) as (E1 & E2 & _). rewrite E1, E2 in He.
        destruct He as [He|He]; [apply (in_edges_lt net k e He) | apply (out_edges_lt net k e He)]. }
      rewrite !add_edges_keys in Hc. cbn [map In] in Hc.
      destruct Hc as [[[]|Hc]|Hc]; apply in_map_iff in Hc; destruct Hc as (e & <- & He); apply Hcol; auto.
    + fold base in Hr. destruct (node_bin_cols base order k) as [|c1 l] eqn:Eb.
      * subst r. cbn [r_cols] in Hc. apply add_node_keys in Hc. destruct Hc as [[]|Hc]. apply base_lt. apply (node_cols_lt net wf _ n c Hn Hc).
      * destruct Hr as (cb & Hcb & Hr). rewrite <- Eb in Hcb. destruct Hr as [-> |[_ ->]]; cbn [r_cols] in Hc; apply (bin_keys_lt _ n c cb _ _ Hn Hcb Hc).
    + apply base_lt. apply (row_keys_range net wf p r c Hp Hc).
    + cbn [r_cols] in Hc. apply (excl_lt _ _ _ Hcs); [intros c' [] | exact Hc].
Qed.

Lemma coef_columns s ops r c v : update_ops net b0 s = Ok ops -> In (OCoef r c v) ops -> c < nc.
Proof.
  intros H Hin. unfold update_ops, ures in H. apply rbind_Ok in H. destruct H as (fops & Hf & H). injection H as <-. apply rmap_Ok_Forall2 in Hf.
  rewrite !in_app_iff in Hin. destruct Hin as [Hin|[Hin|[Hin|Hin]]].
  - apply in_flat_map in Hin. destruct Hin as (nr & Hnr & Hin). destruct (cr_nodes _ _ _ _ _ _ Hcr nr Hnr) as (n & Hn & Hok & _).
    unfold node_row_ops in Hin. rewrite Hn in Hin. destruct Hok as (_ & _ & Hok).
    destruct (match get_bounds s (nr_node nr) n with BFlow mn mx => (mn, mx) | BVolume av mi => ((- av / st_days s)%Q, (mi / st_days s)%Q) end) as [lb ub].
    destruct (nr_type nr); destruct Hin as [Hin|[]]; try discriminate; injection Hin as _ <- _; apply (bins_lt (nr_node nr)); apply Hok.
  - apply in_concat in Hin. destruct Hin as (os & Hos & Hin). destruct (Forall2_In_r _ _ _ _ Hf Hos) as (fi & Hfi & Hop).
    destruct (proj1 (proj1 (agg_ops_In net wf _ _ _ _ Hop)) Hin) as (j & q & ri' & Hp & [Ho|(c' & v' & Hpc & Ho)]); [discriminate|].
    injection Ho as <- <- <-. apply base_lt. destruct Hpc as (f0 & f1 & _ & _ & Hpc).
    destruct Hpc as [[Hpc _]|[Hpc _]]; apply (column_lt net wf _ _ Hpc).
  - exfalso. apply in_map_iff in Hin. destruct Hin as (z & Hz & _). discriminate.
  - exfalso. apply in_map_iff in Hin. destruct Hin as ([r' [i vs]] & Hz & _). unfold vs_ops in Hz.
    destruct (vs_is_active _ _); [destruct (vs_available_missing s i vs)|]; discriminate.
Qed.
Lemma ups_ok s ops : update_ops net b0 s = Ok ops -> Forall (up_ok nc (length (lp_rows (bt_lp b0)))) (coef_list ops).
Proof.
  intros H. rewrite Forall_forall. intros [[r c] v] Hin. unfold coef_list in Hin. apply in_flat_map in Hin.
  destruct Hin as (o & Ho & Hin). destruct o as [?|r' c' v']; [destruct Hin|]. destruct Hin as [Hin|[]]. injection Hin as -> -> ->. split; cbn [fst snd].
  - pose proof (op_rows _ _ _ _ _ _ Hcr s ops _ H Ho) as Hr. cbn in Hr. rewrite (cr_rows _ _ _ _ _ _ Hcr), app_length, !map_length. lia.
  - apply (coef_columns s ops r c v H Ho).
Qed.
End Created.

(** ** Lists of calls *)
Lemma in_firstn' {A} n (l : list A) x : In x (firstn n l) -> In x l.
Proof. intros H. rewrite <- (firstn_skipn n l). apply in_app_iff. left. exact H. Qed.
Lemma in_skipn' {A} n (l : list A) x : In x (skipn n l) -> In x l.
Proof. intros H. rewrite <- (firstn_skipn n l). apply in_app_iff. right. exact H. Qed.
Lemma safe_app cs cs' m : safe (cs ++ cs') m <-> safe cs m /\ safe cs' (calls_on cs m).
Proof.
  revert m. induction cs as [|c cs IH]; intros m; cbn [app safe calls_on fold_left]; [tauto|]. rewrite IH. unfold calls_on. tauto.
Qed.
Lemma calls_app cs cs' m : calls_on (cs ++ cs') m = calls_on cs' (calls_on cs m).
Proof. apply fold_left_app. Qed.
Definition size (p : problem) (nc nr : nat) : Prop := length (pb_cols p) = nc /\ length (pb_rows p) = nr.
Lemma each_col_size p f nc nr : size p nc nr -> size (each_col p f) nc nr.
Proof. unfold size, each_col. cbn. rewrite map_length, combine_length, seq_length, Nat.min_id. tauto. Qed.
Lemma change_rows_size p f nc nr : size p nc nr -> size (change_rows p f) nc nr.
Proof. unfold size, change_rows. cbn. rewrite map_length, combine_length, seq_length, Nat.min_id. tauto. Qed.
Lemma change_coef_size p r c v nc nr : size p nc nr -> size (change_coefficient p r c v) nc nr.
Proof. unfold size, change_coefficient. cbn. rewrite upd_length. tauto. Qed.
Lemma change_costs_size p o nc nr : size p nc nr -> size (change_costs p o) nc nr.
Proof. unfold size, change_costs. cbn. rewrite map_length, combine_length, seq_length, Nat.min_id. tauto. Qed.

(** A list of calls that keep the size and are allowed at it. *)
Definition keeps (c : call) : Prop := match c with Create | Delete => False | _ => forall p nc nr, size p nc nr -> size (effect c p) nc nr end.
Lemma steady cs nc nr : (forall c, In c cs -> keeps c /\ forall p, size p nc nr -> allowed p c) ->
  forall p, size p nc nr -> safe cs (Some p) /\ exists q, calls_on cs (Some p) = Some q /\ size q nc nr.
Proof.
  induction cs as [|c cs IH]; intros H p Hp; [cbn; eauto|].
  destruct (H c (or_introl eq_refl)) as [Hk Ha]. specialize (Ha p Hp).
  assert (Hon : call_on (Some p) c = Some (effect c p)) by (destruct c; try destruct Hk; reflexivity).
  assert (Hm : may (Some p) c) by (destruct c; try destruct Hk; exact Ha).
  assert (Hs : size (effect c p) nc nr) by (destruct c; try destruct Hk; apply Hk; exact Hp).
  destruct (IH (fun d Hd => H d (or_intror Hd)) _ Hs) as [H1 H2]. cbn [safe calls_on fold_left]. rewrite Hon. split; [split; assumption | exact H2].
Qed.

(** ** The arrays *)
Section Shape.
Variables (fm : Q) (cols : list column) (obj : list Q) (rows : list lrow) (ups : list (nat * nat * Q)).
Let nc := length cols.
Let nr := length rows.
Hypothesis Hobj : length obj = nc.
Hypothesis Hrows : Forall (row_ok nc) rows.
Hypothesis Hups : Forall (up_ok nc nr) ups.
Let a := arr_of fm cols obj rows ups.

Lemma len_col_lower : length (ar_col_lower a) = nc. Proof. apply map_length. Qed.
Lemma len_col_upper : length (ar_col_upper a) = nc. Proof. apply map_length. Qed.
Lemma len_col_type : length (ar_col_type a) = nc. Proof. apply map_length. Qed.
Lemma len_obj : length (ar_obj a) = nc. Proof. exact Hobj. Qed.
Lemma len_lower : length (ar_lower a) = nr. Proof. apply map_length. Qed.
Lemma len_upper : length (ar_upper a) = nr. Proof. apply map_length. Qed.
Lemma len_mask : length (ar_mask a) = nr. Proof. apply map_length. Qed.
Lemma starts_length css : forall k, length (starts k css) = S (length css).
Proof. induction css as [|c css IH]; intros k; cbn; [reflexivity | rewrite IH; reflexivity]. Qed.
Lemma len_starts : length (ar_starts a) = S nr.
Proof. unfold a, arr_of. cbn [ar_starts]. rewrite starts_length, map_length. reflexivity. Qed.
Lemma len_columns : length (ar_columns a) = length (ar_elements a).
Proof.
  unfold a, arr_of. cbn [ar_columns ar_elements]. rewrite length_elements. induction (map l_cols rows) as [|c l IH]; cbn; [reflexivity|].
  rewrite !app_length, map_length, IH. reflexivity.
Qed.
Lemma columns_lt c : In c (ar_columns a) -> c < nc.
Proof.
  unfold a, arr_of. cbn [ar_columns]. intros H. apply in_flat_map in H. destruct H as (cs & Hcs & Hc).
  apply in_map_iff in Hcs. destruct Hcs as (r & <- & Hr). rewrite Forall_forall in Hrows. apply (Hrows r Hr). exact Hc.
Qed.
Lemma starts_row i : i < nr -> exists st en, nth_error (ar_starts a) i = Some st /\ nth_error (ar_starts a) (S i) = Some en /\
  st <= en <= length (ar_elements a) /\ NoDup (slice st en (ar_columns a)) /\ (S i = nr -> en = length (ar_elements a)).
Proof.
  intros Hi. destruct (nth_error_lt_Some rows i Hi) as (r & Hr).
  assert (Hc : nth_error (map l_cols rows) i = Some (l_cols r)) by (rewrite nth_error_map, Hr; reflexivity).
  destruct (starts_nth _ 0 i _ Hc) as (st & H1 & H2 & _ & H4 & H5 & H6). rewrite Nat.sub_0_r in H4.
  exists st, (st + length (l_cols r)). unfold a, arr_of. cbn [ar_starts ar_columns ar_elements]. rewrite length_elements.
  split; [exact H1|]. split; [exact H2|]. split; [lia|]. split.
  - rewrite (H4 nat fst). rewrite Forall_forall in Hrows. apply (Hrows r (nth_error_In _ _ Hr)).
  - intros Hl. specialize (H6 ltac:(rewrite map_length; exact Hl)). lia.
Qed.
Lemma starts_end : nth nr (ar_starts a) 0 = length (ar_elements a).
Proof.
  unfold a, arr_of, nr. cbn [ar_starts ar_elements]. rewrite length_elements, <- (map_length l_cols rows).
  assert (G : forall css k, nth (length css) (starts k css) 0 = k + length (concat css)).
  { induction css as [|c css IH]; intros k; cbn; [lia|]. rewrite IH, app_length. lia. }
  rewrite G. reflexivity.
Qed.
Lemma arrays_within (stop : nat -> nat) : (forall i, i < nr -> stop i = nth (S i) (ar_starts a) 0) ->
  rows_within nr (length (ar_elements a)) nc (ar_starts a) stop (ar_columns a).
Proof.
  intros Hstop. split.
  - intros _. unfold a, arr_of. cbn [ar_starts]. destruct (map l_cols rows); reflexivity.
  - intros i Hi. destruct (starts_row i Hi) as (st & en & H1 & H2 & H3 & H4 & _). rewrite (Hstop i Hi).
    rewrite (nth_error_nth _ _ _ H1), (nth_error_nth _ _ _ H2). split; [lia|]. split; [reflexivity|]. split; [exact H4|].
    intros j Hj. apply columns_lt. apply nth_In. rewrite len_columns. lia.
Qed.

(** *** HiGHS *)
Lemma highs_setup_safe : safe (highs_setup_calls a) None /\ exists p, calls_on (highs_setup_calls a) None = Some p /\ size p nc nr.
Proof.
  unfold highs_setup_calls. cbn [app safe]. set (c1 := H_addCols _ _ _ _). set (ints := map _ _). set (c2 := H_addRows _ _ _ _ _ _ _).
  assert (S1 : size (effect c1 (mkPb [] [])) nc 0).
  { unfold size, c1. cbn [effect pb_cols pb_rows app length]. rewrite map_length, seq_length, len_col_upper. split; reflexivity. }
  destruct (steady ints nc 0) with (p := effect c1 (mkPb [] [])) as [Hs (q & Hq & Sq)]; [|exact S1|].
  { intros c Hc. unfold ints in Hc. apply in_map_iff in Hc. destruct Hc as ([i t] & <- & Hin). cbn [fst snd]. split.
    - intros p n1 n2 Hp. unfold size in *. cbn [effect pb_cols pb_rows]. rewrite upd_length. exact Hp.
    - intros p [Hp _]. cbn [allowed]. rewrite Hp. apply in_combine_l in Hin. apply in_seq in Hin. rewrite len_col_type in Hin. lia. }
  split.
  - split; [exact I|]. split.
    + change (allowed (mkPb [] []) c1). unfold c1, allowed, holds. rewrite len_col_upper, len_col_lower, len_obj. lia.
    + change (call_on (call_on None Create) c1) with (Some (effect c1 (mkPb [] []))). apply safe_app. split; [exact Hs|]. rewrite Hq.
      cbn [safe]. split; [|exact I]. unfold c2. cbn [may allowed]. destruct Sq as [-> _]. unfold holds.
      rewrite len_lower, len_upper, len_starts, len_columns. repeat (split; [lia|]). apply arrays_within.
      intros i Hi. destruct (Nat.eqb_spec (S i) nr) as [E|E]; [|reflexivity]. rewrite E. symmetry. apply starts_end.
  - change (calls_on (Create :: c1 :: ints ++ [c2]) None) with (calls_on (ints ++ [c2]) (Some (effect c1 (mkPb [] [])))).
    rewrite calls_app, Hq. eexists. split; [reflexivity|]. destruct Sq as [S2 S3]. unfold size, c2. cbn [effect pb_cols pb_rows].
    rewrite app_length, map_length, seq_length, len_upper, S3. split; [exact S2 | reflexivity].
Qed.
Lemma highs_send_safe p : 0 < nc -> size p nc nr ->
  safe (highs_send_calls a) (Some p) /\ exists q, calls_on (highs_send_calls a) (Some p) = Some q /\ size q nc nr.
Proof.
  intros Hnc. apply steady. intros c [<-|[<-|Hc]].
  - split; [intros q n1 n2 Hq; cbn [effect]; apply each_col_size; exact Hq|]. intros q [Hq _]. cbn [allowed]. right.
    rewrite Hq, len_col_upper, len_obj. lia.
  - split; [intros q n1 n2 Hq; cbn [effect]; apply change_rows_size; exact Hq|]. intros q [_ Hq]. cbn [allowed]. unfold holds.
    rewrite Hq, len_mask, len_lower, len_upper. lia.
  - apply in_map_iff in Hc. destruct Hc as (u & <- & Hu). split; [intros q n1 n2 Hq; cbn [effect]; apply change_coef_size; exact Hq|].
    intros q [Hq1 Hq2]. cbn [allowed]. rewrite Hq1, Hq2. rewrite Forall_forall in Hups. apply (Hups u Hu).
Qed.
Lemma highs_run_safe r1 r2 p : size p nc nr ->
  safe (fst (highs_run_calls a r1 r2)) (Some p) /\ calls_on (fst (highs_run_calls a r1 r2)) (Some p) = Some p.
Proof.
  intros [H1 H2]. unfold highs_run_calls. rewrite len_col_upper, len_upper.
  destruct r1, r2; cbn; rewrite ?H1, ?H2; repeat split; auto.
Qed.

(** *** CLP *)
Lemma clp_setup_safe : safe (clp_setup_calls a) None /\ exists p, calls_on (clp_setup_calls a) None = Some p /\ size p nc nr.
Proof.
  unfold clp_setup_calls. set (p1 := effect (C_resize 0 (length (ar_col_upper a))) (mkPb [] [])).
  assert (S1 : size p1 nc 0).
  { unfold size, p1. cbn [effect pb_cols pb_rows app length]. rewrite repeat_length, len_col_upper. split; lia. }
  set (c1 := C_chgColumnLower (ar_col_lower a)). set (c2 := C_chgColumnUpper (ar_col_upper a)). set (c3 := C_chgObjCoefficients (ar_obj a)).
  set (c4 := C_addRows _ _ _ _ _ _).
  assert (S4 : size (effect c3 (effect c2 (effect c1 p1))) nc 0) by (unfold c1, c2, c3; cbn [effect]; do 3 apply each_col_size; exact S1).
  split.
  - cbn [safe]. split; [exact I|]. split; [cbn; lia|].
    change (call_on (call_on None Create) (C_resize 0 (length (ar_col_upper a)))) with (Some p1).
    split; [unfold c1; cbn [may allowed]; unfold holds; rewrite (proj1 S1), len_col_lower; lia|]. change (call_on (Some p1) c1) with (Some (effect c1 p1)).
    assert (S2 : size (effect c1 p1) nc 0) by (apply each_col_size; exact S1).
    split; [unfold c2; cbn [may allowed]; unfold holds; rewrite (proj1 S2), len_col_upper; lia|].
    change (call_on (Some (effect c1 p1)) c2) with (Some (effect c2 (effect c1 p1))).
    assert (S3 : size (effect c2 (effect c1 p1)) nc 0) by (apply each_col_size; exact S2).
    split; [unfold c3; cbn [may allowed]; unfold holds; rewrite (proj1 S3), len_obj; lia|].
    change (call_on (Some (effect c2 (effect c1 p1))) c3) with (Some (effect c3 (effect c2 (effect c1 p1)))).
    split; [|split; exact I]. unfold c4. cbn [may allowed]. rewrite (proj1 S4), len_lower. unfold holds.
    rewrite len_lower, len_upper, len_starts, starts_end, len_columns. repeat (split; [lia|]). apply arrays_within. reflexivity.
  - change (calls_on _ None) with (Some (effect c4 (effect c3 (effect c2 (effect c1 p1))))). eexists. split; [reflexivity|].
    destruct S4 as [S4 S5]. unfold size. unfold c4. cbn [effect]. cbn [pb_cols pb_rows]. rewrite app_length, map_length, seq_length, len_lower, S5. split; [exact S4 | reflexivity].
Qed.
Lemma clp_send_safe p : size p nc nr ->
  safe (clp_send_calls a) (Some p) /\ exists q, calls_on (clp_send_calls a) (Some p) = Some q /\ size q nc nr.
Proof.
  apply steady. intros c [<-|[<-|[<-|Hc]]].
  - split; [intros q n1 n2 Hq; cbn [effect]; apply each_col_size; exact Hq|]. intros q [Hq _]. cbn [allowed]. unfold holds. rewrite Hq, len_obj. lia.
  - split; [intros q n1 n2 Hq; cbn [effect]; apply change_rows_size; exact Hq|]. intros q [_ Hq]. cbn [allowed]. unfold holds. rewrite Hq, len_lower. lia.
  - split; [intros q n1 n2 Hq; cbn [effect]; apply change_rows_size; exact Hq|]. intros q [_ Hq]. cbn [allowed]. unfold holds. rewrite Hq, len_upper. lia.
  - apply in_map_iff in Hc. destruct Hc as (u & <- & Hu). split; [intros q n1 n2 Hq; cbn [effect]; apply change_coef_size; exact Hq|].
    intros q [Hq1 Hq2]. cbn [allowed]. rewrite Hq1, Hq2. rewrite Forall_forall in Hups. apply (Hups u Hu).
Qed.
Lemma clp_run_safe r1 p : size p nc nr ->
  safe (fst (clp_run_calls a r1)) (Some p) /\ calls_on (fst (clp_run_calls a r1)) (Some p) = Some p.
Proof.
  intros [H1 H2]. unfold clp_run_calls. rewrite len_col_upper. destruct r1; cbn; rewrite ?H1; repeat split; auto.
Qed.

(** *** CBC *)
Lemma cbc_cols_ok : exists cs, rmap (cbc_col_call a) (seq 0 nc) = Ok cs /\ length cs = nc /\
  Forall (fun c => exists l u o t, c = B_addCol l u o t) cs.
Proof.
  assert (G : forall n k, k + n <= nc -> exists cs, rmap (cbc_col_call a) (seq k n) = Ok cs /\ length cs = n /\
             Forall (fun c => exists l u o t, c = B_addCol l u o t) cs).
  { induction n as [|n IH]; intros k Hk; cbn [seq rmap]; [exists []; repeat split; constructor|].
    destruct (IH (S k) ltac:(lia)) as (cs & H1 & H2 & H3).
    destruct (nth_error_lt_Some (ar_col_lower a) k) as (l & El); [rewrite len_col_lower; lia|].
    destruct (nth_error_lt_Some (ar_col_upper a) k) as (u & Eu); [rewrite len_col_upper; lia|].
    destruct (nth_error_lt_Some (ar_col_type a) k) as (t & Et); [rewrite len_col_type; lia|].
    destruct (nth_error_lt_Some (ar_obj a) k) as (o & Eo); [rewrite len_obj; lia|].
    exists (B_addCol l u o (is_int t) :: cs). unfold cbc_col_call at 1. rewrite El, Eu, Et, Eo. cbn [rbind]. rewrite H1. cbn [rbind].
    split; [reflexivity|]. split; [cbn; rewrite H2; reflexivity|]. constructor; [eauto | exact H3]. }
  apply (G nc 0). lia.
Qed.
Lemma cbc_cols_safe cs : Forall (fun c => exists l u o t, c = B_addCol l u o t) cs -> forall p n m, size p n m ->
  safe cs (Some p) /\ exists q, calls_on cs (Some p) = Some q /\ size q (n + length cs) m.
Proof.
  induction 1 as [|c cs (l & u & o & t & ->) _ IH]; intros p n m Hp.
  - split; [exact I|]. exists p. split; [reflexivity|]. cbn. rewrite Nat.add_0_r. exact Hp.
  - assert (Hs : size (effect (B_addCol l u o t) p) (S n) m).
    { destruct Hp as [H1 H2]. unfold size. cbn. rewrite app_length, H1. cbn. split; [lia | exact H2]. }
    destruct (IH _ _ _ Hs) as [H1 (q & Hq & H2)]. cbn [safe]. split; [split; [exact I | exact H1]|].
    exists q. split; [exact Hq|]. cbn [length]. replace (n + S (length cs)) with (S n + length cs) by lia. exact H2.
Qed.
Lemma cbc_row_safe i p : i < nr -> size p nc i -> exists cs, cbc_row_calls a i = Ok cs /\ safe cs (Some p) /\
  exists q, calls_on cs (Some p) = Some q /\ size q nc (S i).
Proof.
  intros Hi [Hp1 Hp2]. destruct (starts_row i Hi) as (st & en & H1 & H2 & H3 & H4 & _). unfold cbc_row_calls. rewrite H1, H2.
  unfold checked_slice. rewrite len_columns.
  assert ((st <=? en) && (en <=? length (ar_elements a)) = true) as -> by (apply andb_true_iff; split; apply Nat.leb_le; lia).
  cbn [rbind]. destruct (nth_error_lt_Some (ar_upper a) i) as (u & Eu); [rewrite len_upper; exact Hi|].
  destruct (nth_error_lt_Some (ar_lower a) i) as (l & El); [rewrite len_lower; exact Hi|]. rewrite Eu, El.
  eexists. split; [reflexivity|].
  assert (Lc : length (slice st en (ar_columns a)) = en - st) by (unfold slice; rewrite firstn_length, skipn_length, len_columns; lia).
  assert (Le : length (slice st en (ar_elements a)) = en - st) by (unfold slice; rewrite firstn_length, skipn_length; lia).
  split.
  - cbn [safe may call_on option_map allowed effect pb_cols pb_rows]. unfold holds. rewrite Lc, Le. rewrite firstn_all2 by lia.
    split; [split; [lia|]; split; [lia|]; split; [exact H4|]|].
    { intros c Hc. rewrite Hp1. apply columns_lt. unfold slice in Hc.
      apply (in_firstn' _ _ _) in Hc. apply (in_skipn' _ _ _) in Hc. exact Hc. }
    rewrite app_length, upd_length, app_length, Hp2. cbn [length]. repeat split; lia.
  - eexists. split; [reflexivity|]. unfold size. cbn [effect pb_cols pb_rows]. rewrite !upd_length, app_length, Hp2. cbn. split; [exact Hp1 | lia].
Qed.
Lemma cbc_rows_safe n : forall k p, k + n = nr -> size p nc k -> exists css, rmap (cbc_row_calls a) (seq k n) = Ok css /\
  safe (concat css) (Some p) /\ exists q, calls_on (concat css) (Some p) = Some q /\ size q nc nr.
Proof.
  induction n as [|n IH]; intros k p Hk Hp; cbn [seq rmap].
  - exists []. split; [reflexivity|]. split; [exact I|]. exists p. split; [reflexivity|]. replace nr with k by lia. exact Hp.
  - destruct (cbc_row_safe k p ltac:(lia) Hp) as (cs & E & S1 & q & Eq & Sq).
    destruct (IH (S k) q ltac:(lia) Sq) as (css & E2 & S2 & q2 & Eq2 & Sq2). rewrite E. cbn [rbind]. rewrite E2. cbn [rbind].
    exists (cs :: css). split; [reflexivity|]. cbn [concat]. rewrite safe_app, calls_app, Eq. split; [split; assumption|]. exists q2. auto.
Qed.
Lemma cbc_setup_safe : exists cs, cbc_setup_calls a = Ok cs /\ safe cs None /\ exists p, calls_on cs None = Some p /\ size p nc nr.
Proof.
  unfold cbc_setup_calls. rewrite len_col_lower, len_lower. destruct cbc_cols_ok as (cs & E1 & L1 & F1). rewrite E1. cbn [rbind].
  destruct (cbc_cols_safe cs F1 (mkPb [] []) 0 0 (conj eq_refl eq_refl)) as [S1 (p & Ep & Sp)]. rewrite L1 in Sp.
  destruct (cbc_rows_safe nr 0 p eq_refl Sp) as (css & E2 & S2 & q & Eq & Sq). rewrite E2. cbn [rbind].
  eexists. split; [reflexivity|]. split.
  - cbn [safe]. split; [exact I|]. change (call_on None Create) with (Some (mkPb [] [])). rewrite safe_app, Ep. split; assumption.
  - exists q. change (calls_on (Create :: cs ++ concat css) None) with (calls_on (cs ++ concat css) (Some (mkPb [] []))).
    rewrite calls_app, Ep. split; assumption.
Qed.
Lemma cbc_send_safe p : size p nc nr ->
  safe (cbc_send_calls a) (Some p) /\ exists q, calls_on (cbc_send_calls a) (Some p) = Some q /\ size q nc nr.
Proof.
  apply steady. intros c Hc. unfold cbc_send_calls in Hc. rewrite !in_app_iff in Hc.
  assert (Hn : forall (l : list Q) iv, In iv (numbered l) -> fst iv < length l)
    by (intros l [i v] H; apply in_combine_l in H; apply in_seq in H; cbn; lia).
  destruct Hc as [Hc|[Hc|Hc]]; apply in_map_iff in Hc; destruct Hc as (iv & <- & Hin); apply Hn in Hin;
    rewrite ?len_obj, ?len_lower, ?len_upper in Hin; (split; [intros q n1 n2 Hq; unfold size in *; cbn [effect pb_cols pb_rows]; rewrite upd_length; exact Hq|]);
    intros q [Hq1 Hq2]; cbn [allowed]; lia.
Qed.
Lemma cbc_run_safe r1 p : size p nc nr ->
  safe (fst (cbc_run_calls a r1)) (Some p) /\ calls_on (fst (cbc_run_calls a r1)) (Some p) = Some p.
Proof.
  intros [H1 H2]. unfold cbc_run_calls. rewrite len_col_upper. destruct (ar_updates a), r1; cbn; rewrite ?H1; repeat split; auto.
Qed.
End Shape.
