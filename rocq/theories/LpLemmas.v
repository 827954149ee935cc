(** From feasible columns to edge flows and back; the objective. *)
From Verif Require Import Base Calendar Network NetworkBuild NetworkSpec NetworkBuildLemmas Lp LpSpec
  LpColLemmas LpRowLemmas LpUpdateLemmas.
From Coq Require Import Sorted.
Open Scope nat_scope.

Lemma get_min_spec e m q : (get_min e m <= q)%Q <-> match m with Some m => (metric_value e m <= q)%Q | None => (0 <= q)%Q end.
Proof. destruct m; reflexivity. Qed.
Lemma get_max_spec e m q : (q <= get_max e m)%Q <-> match m with Some m => (q <= metric_value e m)%Q | None => (q <= F64_MAX)%Q end.
Proof. destruct m; reflexivity. Qed.
Lemma within_limits_iff e lo hi q : within_limits e lo hi q <-> (get_min e lo <= q <= get_max e hi)%Q.
Proof. unfold within_limits. rewrite get_min_spec, get_max_spec. reflexivity. Qed.
Lemma within_limits_eq e lo hi q q' : (q == q')%Q -> within_limits e lo hi q -> within_limits e lo hi q'.
Proof. rewrite !within_limits_iff. intros H. rewrite H. auto. Qed.

Lemma const_bounds_now n mn mx s i : get_const_bounds n = Some (mn, mx) -> get_bounds s i n = BFlow mn mx.
Proof.
  unfold get_const_bounds, get_bounds, get_const_min, get_const_max, get_min, get_max, metric_const, metric_value.
  destruct (n_type n); try discriminate; destruct (n_min n) as [[q|k]|], (n_max n) as [[q'|k']|]; try discriminate;
    intros H; injection H as <- <-; reflexivity.
Qed.
Lemma const_bounds_not_storage n b : get_const_bounds n = Some b -> n_type n <> TStorage.
Proof. unfold get_const_bounds. destruct (n_type n); congruence. Qed.

(** Bounds of a node row and the specification of a node. *)
Definition node_lb (s : lp_state) (i : nat) (n : node) : Q :=
  match get_bounds s i n with BFlow mn _ => mn | BVolume av _ => (- av / st_days s)%Q end.
Definition node_ub (s : lp_state) (i : nat) (n : node) : Q :=
  match get_bounds s i n with BFlow _ mx => mx | BVolume _ mi => (mi / st_days s)%Q end.
Lemma div_days_le a d q : (0 < d)%Q -> (a / d <= q <-> a <= d * q)%Q.
Proof.
  intros Hd. split; intros H.
  - assert (H1 : (a == d * (a / d))%Q) by (field; lra). rewrite H1. apply Qmult_le_l; assumption.
  - apply Qle_shift_div_r; [exact Hd | lra].
Qed.
Lemma div_days_ge a d q : (0 < d)%Q -> (q <= a / d <-> d * q <= a)%Q.
Proof.
  intros Hd. split; intros H.
  - assert (H1 : (a == d * (a / d))%Q) by (field; lra). rewrite H1. apply Qmult_le_l; assumption.
  - apply Qle_shift_div_l; [exact Hd | lra].
Qed.
Lemma node_ok_iff net s f i n : (0 < st_days s)%Q -> nth_error (net_nodes net) i = Some n ->
  (node_ok net s f i n <-> (node_lb s i n <= node_flow net f i <= node_ub s i n)%Q).
Proof.
  intros Hd Hn. unfold node_ok, node_lb, node_ub, get_bounds, node_flow. rewrite Hn.
  destruct (n_type n) eqn:Ht; try (rewrite within_limits_iff; reflexivity).
  rewrite within_limits_iff. unfold end_volume. rewrite (div_days_le _ _ _ Hd), (div_days_ge _ _ _ Hd).
  split; intros [H1 H2]; split; lra.
Qed.

Lemma Qmin_cases a b c : (Qmin a b <= c <-> a <= c \/ b <= c)%Q.
Proof. rewrite Q.min_le_iff. reflexivity. Qed.

Lemma vs_ok_iff net s f i v : (0 < st_days s)%Q ->
  (vs_ok net s f i v <->
   (vs_is_active (v_period v) (st_date s) = true ->
    - fst (vs_available_missing s i v) / st_days s <= - vs_use net f v <= snd (vs_available_missing s i v) / st_days s)%Q).
Proof.
  intros Hd. unfold vs_ok, vs_end_volume, vs_available_missing, vs_lower, vs_upper. cbn [fst snd].
  change (match v_minv v with Some m => metric_value (st_env s) m | None => 0%Q end) with (get_min (st_env s) (v_minv v)).
  change (match v_maxv v with Some m => metric_value (st_env s) m | None => F64_MAX end) with (get_max (st_env s) (v_maxv v)).
  set (lo := get_min _ _). set (hi := get_max _ _). set (cur := st_vs_volume s i). set (u := vs_use net f v).
  rewrite (div_days_le _ _ _ Hd), (div_days_ge _ _ _ Hd).
  assert (Hav : (fmax (cur - lo) 0 == cur - Qmin cur lo)%Q).
  { unfold fmax. destruct (Qle_bool (cur - lo) 0) eqn:E.
    - apply Qle_bool_iff in E. rewrite Q.min_l by lra. lra.
    - rewrite Q.min_r; [lra|]. apply Qnot_lt_le. intros H. assert (Hx : (cur - lo <= 0)%Q) by lra. apply Qle_bool_iff in Hx. congruence. }
  assert (Hmi : (fmax (hi - cur) 0 == Qmax cur hi - cur)%Q).
  { unfold fmax. destruct (Qle_bool (hi - cur) 0) eqn:E.
    - apply Qle_bool_iff in E. rewrite Q.max_l by lra. lra.
    - rewrite Q.max_r; [lra|]. apply Qnot_lt_le. intros H. assert (Hx : (hi - cur <= 0)%Q) by lra. apply Qle_bool_iff in Hx. congruence. }
  rewrite Hav, Hmi. split; intros H Ha; specialize (H Ha); lra.
Qed.

Lemma node_bin_cols_ge base order i c : In c (node_bin_cols base order i) ->
  exists k s, c = base + k /\ nth_error order k = Some s /\ In i s.
Proof.
  unfold node_bin_cols. intros H. apply in_flat_map in H. destruct H as ([k s] & Hks & H). cbn [fst snd] in H.
  exists k, s. split; [apply repeat_spec in H; exact H|]. apply combine_seq_In in Hks. destruct Hks as [_ Hks].
  rewrite Nat.sub_0_r in Hks. split; [exact Hks|].
  apply (count_occ_In Nat.eq_dec). destruct (count_occ Nat.eq_dec s i); [destruct H | lia].
Qed.
Lemma node_bin_cols_In base order i k s : nth_error order k = Some s -> In i s -> In (base + k) (node_bin_cols base order i).
Proof.
  intros Hk Hi. unfold node_bin_cols. apply in_flat_map. exists (k, s). split.
  - apply combine_seq_In. split; [lia|]. rewrite Nat.sub_0_r. exact Hk.
  - cbn [fst snd]. apply (count_occ_In Nat.eq_dec) in Hi. destruct (count_occ Nat.eq_dec s i); [lia | left; reflexivity].
Qed.
Lemma no_bins net order i base : valid_order net order -> (~ in_exclusive_set net i <-> node_bin_cols base order i = []).
Proof.
  intros [_ Hv]. split.
  - intros Hn. destruct (node_bin_cols base order i) as [|c l] eqn:E; [reflexivity|]. exfalso. apply Hn.
    assert (Hin : In c (node_bin_cols base order i)) by (rewrite E; left; reflexivity).
    apply node_bin_cols_ge in Hin. destruct Hin as (k & s & _ & Hk & Hi). apply nth_error_In, Hv in Hk.
    destruct Hk as (a & Ha & He & Hs). exists a, s. split; [exact Ha|]. split; [|auto].
    unfold has_exclusivity in He. destruct (a_rel a) as [[|mn mx]|]; try discriminate. eauto.
  - intros Hb (a & ns & Ha & (mn & mx & He) & Hns & Hi).
    assert (Hx : In ns order) by (apply Hv; exists a; split; [exact Ha|]; split; [unfold has_exclusivity; rewrite He; reflexivity | exact Hns]).
    apply In_nth_error in Hx. destruct Hx as (k & Hk). pose proof (node_bin_cols_In base order i k ns Hk Hi) as H. rewrite Hb in H. destruct H.
Qed.

(** ** One time-step *)
Section OneStep.
Variable net : network.
Hypothesis wf : wf_network net.
Variable fm : Q.
Variable order : list (list nat).
Variable b0 : built.
Variables V F : list row.
Hypothesis Hcr : created net fm order b0 V F.
Let base := cm_ncols (edge_columns net).

Lemma node_edges_lt i n e : nth_error (net_nodes net) i = Some n -> In e (node_edges n) -> e < length (net_edges net).
Proof.
  intros Hn He. destruct (wf_nodes net wf i n Hn) as (Hi & Ho & _). unfold node_edges in He.
  destruct (n_type n); rewrite ?in_app_iff in He; rewrite ?Hi, ?Ho in He;
    repeat match goal with H : _ \/ _ |- _ => destruct H as [H|H] end;
    first [apply (in_edges_lt net i e He) | apply (out_edges_lt net i e He)].
Qed.
Lemma node_cols_lt i n c : nth_error (net_nodes net) i = Some n -> In c (map (col_for_edge net) (node_edges n)) -> c < base.
Proof.
  intros Hn Hc. apply in_map_iff in Hc. destruct Hc as (e & <- & He).
  apply (edge_column_exists net wf). apply (node_edges_lt i n e Hn He).
Qed.
Lemma get_nodes_In is ns n : get_nodes net is = Ok ns -> In n ns -> exists i, In i is /\ nth_error (net_nodes net) i = Some n.
Proof.
  intros H Hn. apply rmap_Ok_Forall2 in H. destruct (Forall2_In_r _ _ _ _ H Hn) as (i & Hi & He). exists i. split; [exact Hi|].
  cbn in He. destruct (nth_error (net_nodes net) i); congruence.
Qed.

(** Rows that the coefficients of an update leave alone. *)
Definition plain (r : row) : Prop := r_upper r = None /\ forall c, In c (map fst (r_cols r)) -> c < base.
Lemma plain_continuous i n : nth_error (net_nodes net) i = Some n -> plain (expected_node_row net n RContinuous).
Proof.
  intros Hn. split; [reflexivity|]. cbn [expected_node_row r_cols]. intros c Hc. apply add_node_keys in Hc.
  destruct Hc as [[]|Hc]. apply (node_cols_lt i n c Hn Hc).
Qed.
Lemma plain_agg a r : agg_row net a r -> plain r.
Proof.
  intros (ns & Hns & ->). split; [reflexivity|]. cbn [r_cols]. intros c Hc. apply add_nodes_keys in Hc.
  destruct Hc as [[]|(n & Hn & Hc)]. destruct (get_nodes_In _ _ _ Hns Hn) as (i & _ & Hi). apply (node_cols_lt i n c Hi Hc).
Qed.
Lemma plain_vs v r : vs_row net v r -> plain r.
Proof.
  intros (cols & Hc & ->). split; [reflexivity|]. cbn [r_cols].
  assert (G : forall terms cols0 cols, vs_row_cols net (col_for_edge net) terms cols0 = Ok cols ->
            (forall c, In c (map fst cols0) -> c < base) -> forall c, In c (map fst cols) -> c < base).
  { induction terms as [|[i f] terms IH]; intros cols0 cols1 H H0 c Hin; cbn [vs_row_cols] in H.
    - injection H as <-. apply H0. exact Hin.
    - destruct (nth_error (net_nodes net) i) as [n|] eqn:E; [|discriminate]. apply (IH _ _ H); [|exact Hin].
      intros c' Hc'. apply add_node_keys in Hc'. destruct Hc' as [Hc'|Hc']; [apply H0; exact Hc' | apply (node_cols_lt i n c' E Hc')]. }
  apply (G _ _ _ Hc). intros c [].
Qed.

Lemma plain_no_coefs s ops i r : update_ops net b0 s = Ok ops -> row_at V i r -> plain r -> coefs_at i ops = [].
Proof.
  intros Ho (r' & Hr' & Heq) [Hup Hk]. destruct (coefs_at i ops) as [|[c v] l] eqn:E; [reflexivity|]. exfalso.
  assert (Hin : In (OCoef i c v) ops) by (apply coefs_at_In; rewrite E; left; reflexivity). clear E.
  unfold update_ops, ures in Ho. apply rbind_Ok in Ho. destruct Ho as (f & Hf & Ho). injection Ho as <-.
  rewrite !in_app_iff in Hin. destruct Hin as [Hin|[Hin|[Hin|Hin]]].
  - apply in_flat_map in Hin. destruct Hin as (nr & Hnr & Hin). destruct (cr_nodes _ _ _ _ _ _ Hcr nr Hnr) as (n & Hn & (_ & _ & Hbin) & (r2 & Hr2 & Heq2)).
    assert (Hex : exists c0, c0 = c /\ nr_row nr = i /\ (nr_type nr = RBinaryUpper c \/ nr_type nr = RBinaryLower c)).
    { unfold node_row_ops in Hin. rewrite Hn in Hin.
      destruct (match get_bounds s (nr_node nr) n with BFlow mn mx => (mn, mx) | BVolume av mi => ((- av / st_days s)%Q, (mi / st_days s)%Q) end) as [lb ub].
      destruct (nr_type nr) eqn:Et; destruct Hin as [Hin|[]]; [discriminate| |];
        assert (nr_row nr = i) by congruence; match type of Hin with _ = OCoef _ ?x _ => idtac end;
        match type of Hin with OCoef _ ?y _ = _ => assert (y = c) as -> by congruence end; exists c; auto. }
    destruct Hex as (_ & _ & <- & Ht). rewrite Hr' in Hr2. injection Hr2 as <-.
    apply row_eqb_keys in Heq. apply row_eqb_keys in Heq2. rewrite Heq in Heq2.
    assert (Hc : In c (map fst (r_cols r))).
    { rewrite Heq2. destruct Ht as [-> | ->]; cbn [expected_node_row r_cols]; unfold bin_upper_cols, bin_lower_cols; apply add_element_keys; left; reflexivity. }
    apply Hk in Hc. assert (Hge : In c (node_bin_cols base order (nr_node nr))) by (destruct Ht as [Ht|Ht]; rewrite Ht in Hbin; exact Hbin).
    apply node_bin_cols_ge in Hge. destruct Hge as (k & s' & -> & _). lia.
  - apply in_concat in Hin. destruct Hin as (os & Hos & Hin). apply rmap_Ok_Forall2 in Hf.
    destruct (Forall2_In_r _ _ _ _ Hf Hos) as (fi & Hfi & Hop). destruct (factor_ops_rows net s fi os _ Hop Hin) as (i' & Hi' & Hi2).
    cbn in Hi2. subst i'. destruct (cr_factors _ _ _ _ _ _ Hcr fi Hfi) as (a & ps & _ & _ & Hps).
    destruct (Forall2_In_r _ _ _ _ Hps Hi') as (p & _ & Hok). destruct Hok as (_ & r2 & (f0 & f1 & ns0 & ns1 & _ & _ & _ & _ & ->) & (r3 & Hr3 & Heq3)).
    rewrite Hr' in Hr3. injection Hr3 as <-. apply row_eqb_upper in Heq. apply row_eqb_upper in Heq3. rewrite Heq, Hup in Heq3. discriminate.
  - apply in_map_iff in Hin. destruct Hin as (ra & Hc & _). discriminate.
  - apply in_map_iff in Hin. destruct Hin as ([r2 [i2 v2]] & Hc & _). unfold vs_ops in Hc.
    destruct (vs_is_active _ _); [destruct (vs_available_missing _ _ _)|]; discriminate.
Qed.

Section Solved.
Variable s : lp_state.
Variable b : built.
Hypothesis Hup : update net b0 s = Ok b.
Variable x : nat -> Q.
Hypothesis Hfe : feasible (bt_lp b) x.

Lemma solved_facts : exists ops, update_ops net b0 s = Ok ops /\
   (forall i c, nth_error (lp_cols (bt_lp b0)) i = Some c ->
      (col_lower c <= x i <= col_upper c)%Q /\ (col_type_of c = ColInteger -> is_integer (x i))) /\
   (forall r, In r F -> (r_lower r <= row_value (r_cols r) x <= match r_upper r with Some u => u | None => fm end)%Q) /\
   (forall i r, nth_error V i = Some r ->
      (- fm <= row_value (setcs (coefs_at i ops) (r_cols r)) x <= fm)%Q /\
      forall lb ub, In (OBound i lb ub) ops -> (lb <= row_value (setcs (coefs_at i ops) (r_cols r)) x <= ub)%Q).
Proof.
  destruct (feasible_iff net fm order b0 V F Hcr s b x Hup) as (ops & Ho & Hiff). exists ops. split; [exact Ho|]. apply Hiff, Hfe.
Qed.

Lemma solved_balanced : balanced net (edge_flow net x).
Proof.
  destruct solved_facts as (ops & Ho & _ & HF & _). intros i n Hn Ht.
  destruct (wf_nodes net wf i n Hn) as (Hi & Hout & _).
  destruct (Nat.eq_dec (length (r_cols (balance_row net n))) 1) as [Hl|Hl].
  - destruct (skipped_row_shape net wf i n Hn Ht Hl) as (e & f & He & Hf & Hc). unfold inflow, outflow. rewrite <- Hi, <- Hout, He, Hf. cbn.
    unfold edge_flow. rewrite Hc. reflexivity.
  - assert (Hin : In (balance_row net n) F).
    { apply (cr_fixed _ _ _ _ _ _ Hcr). left. exists n. split; [apply (nth_error_In _ _ Hn)|]. auto. }
    apply HF in Hin. cbn [balance_row r_lower r_upper r_cols] in Hin. rewrite !row_value_add_edges in Hin.
    unfold inflow, outflow. rewrite <- Hi, <- Hout. unfold edge_flow. cbn [row_value map] in Hin.
    change (row_value [] x) with 0%Q in Hin. lra.
Qed.

Lemma solved_plain ops i r : update_ops net b0 s = Ok ops -> row_at V i r -> plain r ->
  (forall i r, nth_error V i = Some r ->
      (- fm <= row_value (setcs (coefs_at i ops) (r_cols r)) x <= fm)%Q /\
      forall lb ub, In (OBound i lb ub) ops -> (lb <= row_value (setcs (coefs_at i ops) (r_cols r)) x <= ub)%Q) ->
  forall lb ub, In (OBound i lb ub) ops -> (lb <= row_value (r_cols r) x <= ub)%Q.
Proof.
  intros Ho Hat Hp HV lb ub Hin. pose proof (plain_no_coefs s ops i r Ho Hat Hp) as Hc.
  destruct Hat as (r' & Hr' & Heq). destruct (HV i r' Hr') as [_ H]. specialize (H lb ub Hin). rewrite Hc, setcs_nil in H.
  rewrite (row_eqb_value _ _ x Heq) in H. exact H.
Qed.

Lemma solved_node i n : (0 < st_days s)%Q -> nth_error (net_nodes net) i = Some n -> node_bin_cols base order i = [] ->
  node_ok net s (edge_flow net x) i n.
Proof.
  intros Hd Hn Hb. apply (node_ok_iff net s _ i n Hd Hn). destruct solved_facts as (ops & Ho & _ & HF & HV).
  destruct (get_const_bounds n) as [[mn mx]|] eqn:Ec.
  - assert (Hin : In (mkRow mn (Some mx) (add_node (col_for_edge net) n 1 [])) F).
    { apply (cr_fixed _ _ _ _ _ _ Hcr). right; left. exists i, n. split; [exact Hn|]. exists mn, mx. split; [exact Ec|]. fold base. rewrite Hb. reflexivity. }
    apply HF in Hin. cbn [r_lower r_upper r_cols] in Hin. rewrite (row_value_add_node net wf n i _ _ _ Hn) in Hin.
    change (row_value [] x) with 0%Q in Hin. unfold node_lb, node_ub. rewrite (const_bounds_now _ _ _ _ _ Ec). lra.
  - destruct (cr_nodes_all _ _ _ _ _ _ Hcr i n Hn Ec) as [Hc _]. destruct (Hc Hb) as (r & Hr).
    destruct (cr_nodes _ _ _ _ _ _ Hcr _ Hr) as (n' & Hn' & _ & Hat). cbn [nr_node nr_type nr_row] in Hn', Hat. rewrite Hn in Hn'. injection Hn' as <-.
    assert (Hop : In (OBound r (node_lb s i n) (node_ub s i n)) ops).
    { pose proof Ho as Ho'. unfold update_ops, ures in Ho'. apply rbind_Ok in Ho'. destruct Ho' as (f & _ & Ho'). injection Ho' as <-.
      apply in_app_iff. left. apply in_flat_map. exists (mkNr r i RContinuous). split; [exact Hr|].
      unfold node_row_ops. cbn [nr_node nr_type nr_row]. rewrite Hn. unfold node_lb, node_ub. destruct (get_bounds s i n); left; reflexivity. }
    pose proof (solved_plain ops r _ Ho Hat (plain_continuous i n Hn) HV _ _ Hop) as H. cbn [expected_node_row r_cols] in H.
    rewrite (row_value_add_node net wf n i _ _ _ Hn) in H. change (row_value [] x) with 0%Q in H. lra.
Qed.

Lemma solved_agg a : In a (net_aggs net) ->
  within_limits (st_env s) (a_min a) (a_max a) (group_flow net (edge_flow net x) (concat (a_nodes a))).
Proof.
  intros Ha. rewrite within_limits_iff. destruct solved_facts as (ops & Ho & _ & _ & HV).
  apply In_nth_error in Ha. destruct Ha as (k & Hk). pose proof (cr_aggs _ _ _ _ _ _ Hcr) as HA.
  pose proof (Forall2_length' _ _ _ HA) as Hlen.
  destruct (nth_error_lt_Some (bt_aggs b0) k) as (i & Hi); [rewrite Hlen; apply (nth_error_Some_lt _ _ _ Hk)|].
  pose proof (Forall2_nth_error _ _ _ k i a HA Hi Hk) as (r & Hr & Hat).
  assert (Hop : In (agg_ops s (i, a)) ops).
  { pose proof Ho as Ho'. unfold update_ops, ures in Ho'. apply rbind_Ok in Ho'. destruct Ho' as (f & _ & Ho'). injection Ho' as <-.
    apply in_app_iff. right. apply in_app_iff. right. apply in_app_iff. left. apply (in_map (agg_ops s)). apply nth_error_In with (n := k).
    clear - Hi Hk. revert Hi Hk. generalize (bt_aggs b0) (net_aggs net). induction k as [|k IH]; intros [|? l] [|? l'] H1 H2; try discriminate; cbn in *; [congruence|].
    apply IH; assumption. }
  pose proof (solved_plain ops i r Ho Hat (plain_agg a r Hr) HV _ _ Hop) as H. destruct Hr as (ns & Hns & ->). cbn [r_cols fst snd] in H.
  rewrite (row_value_add_nodes net wf _ _ _ _ Hns) in H. change (row_value [] x) with 0%Q in H. cbn [fst snd] in H. lra.
Qed.

Lemma nth_combine {A B} (l : list A) (l' : list B) : forall k a b, nth_error l k = Some a -> nth_error l' k = Some b ->
  nth_error (combine l l') k = Some (a, b).
Proof.
  revert l'. induction l as [|x0 l IH]; intros [|y l'] [|k] a b' H1 H2; try discriminate; cbn in *; [congruence|].
  apply IH; assumption.
Qed.
Lemma nth_seq n k : k < n -> nth_error (seq 0 n) k = Some k.
Proof.
  intros H. rewrite (nth_error_nth' _ 0) by (rewrite seq_length; exact H). rewrite seq_nth by exact H. reflexivity.
Qed.

Lemma solved_vs k v : (0 < st_days s)%Q -> nth_error (net_vss net) k = Some v -> vs_ok net s (edge_flow net x) k v.
Proof.
  intros Hd Hk. apply (vs_ok_iff net s _ k v Hd). intros Hact. destruct solved_facts as (ops & Ho & _ & _ & HV).
  pose proof (cr_vss _ _ _ _ _ _ Hcr) as HA. pose proof (Forall2_length' _ _ _ HA) as Hlen.
  destruct (nth_error_lt_Some (bt_vss b0) k) as (i & Hi); [rewrite Hlen; apply (nth_error_Some_lt _ _ _ Hk)|].
  pose proof (Forall2_nth_error _ _ _ k i v HA Hi Hk) as (r & Hr & Hat).
  assert (Hop : In (vs_ops (lp_fmax (bt_lp b0)) s (i, (k, v))) ops).
  { pose proof Ho as Ho'. unfold update_ops, ures in Ho'. apply rbind_Ok in Ho'. destruct Ho' as (f & _ & Ho'). injection Ho' as <-.
    apply in_app_iff. right. apply in_app_iff. right. apply in_app_iff. right. apply in_map. apply nth_error_In with (n := k).
    apply nth_combine; [exact Hi|]. apply nth_combine; [|exact Hk]. apply nth_seq. apply (nth_error_Some_lt _ _ _ Hk). }
  unfold vs_ops in Hop. rewrite Hact in Hop. destruct (vs_available_missing s k v) as [av mi] eqn:Ea. cbn [fst snd].
  pose proof (solved_plain ops i r Ho Hat (plain_vs v r Hr) HV _ _ Hop) as H. destruct Hr as (cols & Hc & ->). cbn [r_cols] in H.
  rewrite (row_value_vs net wf x _ _ _ Hc) in H. change (row_value [] x) with 0%Q in H. unfold vs_use. lra.
Qed.

Lemma solved_edge e : e < length (net_edges net) -> (0 <= edge_flow net x e <= fm)%Q.
Proof.
  intros He. destruct solved_facts as (ops & _ & HC & _). destruct (edge_column_exists net wf e He) as [_ Hlt].
  specialize (HC (col_for_edge net e) (mkCol 0 fm ColContinuous)). rewrite (cr_cols _ _ _ _ _ _ Hcr) in HC.
  rewrite nth_error_app1 in HC by (rewrite repeat_length; exact Hlt). rewrite nth_error_repeat in HC by exact Hlt.
  destruct (HC eq_refl) as [H _]. exact H.
Qed.
End Solved.

(** From allowed flows to a feasible solution. *)
Lemma node_flow_ext f g i : (forall e, e < length (net_edges net) -> (f e == g e)%Q) -> (node_flow net f i == node_flow net g i)%Q.
Proof.
  intros H. unfold node_flow, inflow, outflow. destruct (nth_error (net_nodes net) i) as [n|]; [|reflexivity].
  assert (Hi : (qsum (map f (in_edges net i)) == qsum (map g (in_edges net i)))%Q) by (apply qsum_ext; intros e He; apply H, (in_edges_lt net i e He)).
  assert (Ho : (qsum (map f (out_edges net i)) == qsum (map g (out_edges net i)))%Q) by (apply qsum_ext; intros e He; apply H, (out_edges_lt net i e He)).
  destruct (n_type n); rewrite ?Hi, ?Ho; reflexivity.
Qed.
Lemma group_flow_ext f g is : (forall e, e < length (net_edges net) -> (f e == g e)%Q) -> (group_flow net f is == group_flow net g is)%Q.
Proof. intros H. unfold group_flow. apply qsum_ext. intros i _. apply node_flow_ext, H. Qed.
Lemma vs_use_ext f g v : (forall e, e < length (net_edges net) -> (f e == g e)%Q) -> (vs_use net f v == vs_use net g v)%Q.
Proof. intros H. unfold vs_use. apply qsum_ext. intros t _. rewrite (node_flow_ext f g _ H). reflexivity. Qed.

Lemma realise s b fl : (0 < st_days s)%Q -> (0 <= fm)%Q -> no_relationships net -> order = [] ->
  update net b0 s = Ok b -> flows_ok net s fm fl -> totals_finite net fm fl ->
  exists x, feasible (bt_lp b) x /\ forall e, e < length (net_edges net) -> (edge_flow net x e == fl e)%Q.
Proof.
  intros Hd Hfm Hno Hord Hupd Hok Htf. exists (col_value net fl).
  assert (Hedge : forall e, e < length (net_edges net) -> (edge_flow net (col_value net fl) e == fl e)%Q).
  { intros e He. unfold edge_flow. apply col_value_edge; [exact wf | apply (fo_balanced _ _ _ _ Hok) | exact He]. }
  split; [|exact Hedge]. set (x := col_value net fl) in *.
  destruct (feasible_iff net fm order b0 V F Hcr s b x Hupd) as (ops & Ho & Hiff). apply Hiff. clear Hiff.
  assert (Hbins : forall i, node_bin_cols base order i = []) by (intros i; subst order; reflexivity).
  assert (Hnf : forall a, In a (net_aggs net) -> const_factor_pairs a = None).
  { intros a Ha. unfold const_factor_pairs. rewrite (Hno a Ha). reflexivity. }
  split; [|split].
  - rewrite (cr_cols _ _ _ _ _ _ Hcr), Hord. cbn [length repeat]. rewrite app_nil_r. intros c cl Hc.
    apply nth_error_In, repeat_spec in Hc. subst cl. cbn [col_lower col_upper col_type_of]. split; [|discriminate].
    unfold x, col_value. destruct (find _ _) as [e|] eqn:E; [|lra]. apply find_some in E. destruct E as [Hin _].
    apply in_seq in Hin. apply (fo_edges _ _ _ _ Hok). lia.
  - intros r Hr. apply (cr_fixed _ _ _ _ _ _ Hcr) in Hr.
    destruct Hr as [(n & Hn & Ht & _ & ->)|[(k & n & Hn & mn & mx & Hc & Hr)|[(a & ps & p & Ha & Hc & _)|(a & Ha & mn & mx & cols & Hc & _)]]].
    + apply In_nth_error in Hn. destruct Hn as (i & Hn). cbn [balance_row r_lower r_upper r_cols]. rewrite !row_value_add_edges.
      change (row_value [] x) with 0%Q. destruct (wf_nodes net wf i n Hn) as (Hi & Hout & _).
      pose proof (fo_balanced _ _ _ _ Hok i n Hn Ht) as Hb. unfold inflow, outflow in Hb. rewrite Hi, Hout.
      assert (H1 : (qsum (map (fun e => x (col_for_edge net e)) (in_edges net i)) == qsum (map fl (in_edges net i)))%Q).
      { apply qsum_ext. intros e He. apply Hedge, (in_edges_lt net i e He). }
      assert (H2 : (qsum (map (fun e => x (col_for_edge net e)) (out_edges net i)) == qsum (map fl (out_edges net i)))%Q).
      { apply qsum_ext. intros e He. apply Hedge, (out_edges_lt net i e He). }
      rewrite H1, H2. lra.
    + fold base in Hr. rewrite Hbins in Hr. subst r. cbn [r_lower r_upper r_cols]. rewrite (row_value_add_node net wf n k _ _ _ Hn).
      change (row_value [] x) with 0%Q. rewrite (node_flow_ext _ fl k Hedge).
      pose proof (proj1 (node_ok_iff net s fl k n Hd Hn) (fo_nodes _ _ _ _ Hok k n Hn)) as H.
      unfold node_lb, node_ub in H. rewrite (const_bounds_now _ _ _ _ _ Hc) in H. lra.
    + rewrite (Hnf a Ha) in Hc. discriminate.
    + rewrite (Hno a Ha) in Hc. discriminate.
  - (* variable rows *)
    assert (Hplain : forall i r, nth_error V i = Some r -> plain r /\ (- fm <= row_value (r_cols r) x <= fm)%Q).
    { intros i r Hr. apply nth_error_In in Hr. destruct (cr_V _ _ _ _ _ _ Hcr r Hr) as [(nr & n & Hnr & Hn & ->)|[(a & Ha & Hrow)|[(a & ps & p & Ha & Hc & _)|(v & Hv & Hrow)]]].
      - destruct (cr_nodes _ _ _ _ _ _ Hcr nr Hnr) as (n' & Hn' & (_ & _ & Hbin) & _). fold base in Hbin. rewrite Hbins in Hbin.
        destruct (nr_type nr); [|destruct Hbin | destruct Hbin]. split; [apply (plain_continuous _ n Hn)|].
        cbn [expected_node_row r_cols]. rewrite (row_value_add_node net wf n _ _ _ _ Hn). change (row_value [] x) with 0%Q.
        rewrite (node_flow_ext _ fl _ Hedge). pose proof (tf_nodes _ _ _ Htf (nr_node nr) (nth_error_Some_lt _ _ _ Hn)). lra.
      - split; [apply (plain_agg a r Hrow)|]. destruct Hrow as (ns & Hns & ->). cbn [r_cols].
        rewrite (row_value_add_nodes net wf _ _ _ _ Hns). change (row_value [] x) with 0%Q. rewrite (group_flow_ext _ fl _ Hedge).
        pose proof (tf_aggs _ _ _ Htf a Ha). lra.
      - rewrite (Hnf a Ha) in Hc. discriminate.
      - split; [apply (plain_vs v r Hrow)|]. destruct Hrow as (cols & Hc & ->). cbn [r_cols].
        rewrite (row_value_vs net wf x _ _ _ Hc). change (row_value [] x) with 0%Q.
        pose proof (vs_use_ext (edge_flow net x) fl v Hedge) as Hu. pose proof (tf_vss _ _ _ Htf v Hv) as H. unfold vs_use in Hu, H. lra. }
    intros i r Hr. destruct (Hplain i r Hr) as [Hp Hrange].
    assert (Hat : row_at V i r) by (exists r; split; [exact Hr | apply row_eqb_refl]).
    pose proof (plain_no_coefs s ops i r Ho Hat Hp) as Hnc. rewrite Hnc, setcs_nil. split; [exact Hrange|].
    intros lb ub Hin. pose proof Ho as Ho'. unfold update_ops, ures in Ho'. apply rbind_Ok in Ho'. destruct Ho' as (f & Hf & Ho').
    injection Ho' as <-. rewrite !in_app_iff in Hin. destruct Hin as [Hin|[Hin|[Hin|Hin]]].
    + apply in_flat_map in Hin. destruct Hin as (nr & Hnr & Hin). destruct (cr_nodes _ _ _ _ _ _ Hcr nr Hnr) as (n & Hn & (_ & _ & Hbin) & (r2 & Hr2 & Heq2)).
      fold base in Hbin. rewrite Hbins in Hbin. destruct (nr_type nr) eqn:Et; [|destruct Hbin | destruct Hbin].
      unfold node_row_ops in Hin. rewrite Hn, Et in Hin.
      assert (Hb : nr_row nr = i /\ lb = node_lb s (nr_node nr) n /\ ub = node_ub s (nr_node nr) n).
      { unfold node_lb, node_ub. destruct (get_bounds s (nr_node nr) n); destruct Hin as [Hin|[]]; injection Hin as <- <- <-; auto. }
      destruct Hb as (<- & -> & ->). rewrite Hr in Hr2. injection Hr2 as <-. rewrite (row_eqb_value _ _ x Heq2). cbn [expected_node_row r_cols].
      rewrite (row_value_add_node net wf n _ _ _ _ Hn). change (row_value [] x) with 0%Q. rewrite (node_flow_ext _ fl _ Hedge).
      pose proof (proj1 (node_ok_iff net s fl _ n Hd Hn) (fo_nodes _ _ _ _ Hok _ n Hn)). lra.
    + exfalso. apply in_concat in Hin. destruct Hin as (os & Hos & _). apply rmap_Ok_Forall2 in Hf.
      destruct (Forall2_In_r _ _ _ _ Hf Hos) as (fi & Hfi & _). destruct (cr_factors _ _ _ _ _ _ Hcr fi Hfi) as (a & ps & Ha & Hc & _).
      rewrite (Hnf a (nth_error_In _ _ Ha)) in Hc. discriminate.
    + apply in_map_iff in Hin. destruct Hin as ([r2 a] & He & Hin). unfold agg_ops in He. cbn [fst snd] in He. injection He as <- <- <-.
      apply In_nth_error in Hin. destruct Hin as (k & Hk).
      assert (Hk2 : nth_error (bt_aggs b0) k = Some r2 /\ nth_error (net_aggs net) k = Some a).
      { clear - Hk. revert Hk. generalize (bt_aggs b0) (net_aggs net). induction k as [|k IH]; intros [|? l] [|? l'] H; try discriminate; cbn in *.
        - injection H as -> ->. auto.
        - apply IH. exact H. }
      destruct Hk2 as [Hk1 Hk2]. pose proof (Forall2_nth_error _ _ _ k r2 a (cr_aggs _ _ _ _ _ _ Hcr) Hk1 Hk2) as (r3 & Hrow & (r4 & Hr4 & Heq)).
      rewrite Hr in Hr4. injection Hr4 as <-. rewrite (row_eqb_value _ _ x Heq). destruct Hrow as (ns & Hns & ->). cbn [r_cols].
      rewrite (row_value_add_nodes net wf _ _ _ _ Hns). change (row_value [] x) with 0%Q. rewrite (group_flow_ext _ fl _ Hedge).
      pose proof (fo_aggs _ _ _ _ Hok a (nth_error_In _ _ Hk2)) as H. rewrite within_limits_iff in H. lra.
    + apply in_map_iff in Hin. destruct Hin as ([r2 [k v]] & He & Hin).
      apply In_nth_error in Hin. destruct Hin as (j & Hj).
      assert (Hj2 : nth_error (bt_vss b0) j = Some r2 /\ nth_error (combine (seq 0 (length (net_vss net))) (net_vss net)) j = Some (k, v)).
      { clear - Hj. revert Hj. generalize (bt_vss b0) (combine (seq 0 (length (net_vss net))) (net_vss net)). induction j as [|j IH]; intros [|? l] [|? l'] H; try discriminate; cbn in *.
        - injection H as -> ->. auto.
        - apply IH. exact H. }
      destruct Hj2 as [Hj1 Hj2]. assert (Hkv : k = j /\ nth_error (net_vss net) j = Some v).
      { pose proof (nth_error_In _ _ Hj2) as Hin. apply combine_seq_In in Hin. destruct Hin as [_ Hin]. rewrite Nat.sub_0_r in Hin.
        assert (Hlt : j < length (net_vss net)). { apply nth_error_Some_lt in Hj2. rewrite combine_length in Hj2. lia. }
        destruct (nth_error_lt_Some (net_vss net) j Hlt) as (v' & Hv'). rewrite (nth_combine _ _ j j v' (nth_seq _ _ Hlt) Hv') in Hj2.
        injection Hj2 as <- <-. auto. }
      destruct Hkv as [-> Hv]. pose proof (Forall2_nth_error _ _ _ j r2 v (cr_vss _ _ _ _ _ _ Hcr) Hj1 Hv) as (r3 & Hrow & (r4 & Hr4 & Heq)).
      pose proof (proj1 (vs_ok_iff net s fl j v Hd) (fo_vss _ _ _ _ Hok j v Hv)) as Hvok.
      unfold vs_ops in He. destruct (vs_is_active (v_period v) (st_date s)) eqn:Eact.
      * destruct (vs_available_missing s j v) as [av mi]. injection He as <- <- <-. specialize (Hvok eq_refl). cbn [fst snd] in Hvok.
        rewrite Hr in Hr4. injection Hr4 as <-. rewrite (row_eqb_value _ _ x Heq). destruct Hrow as (cols & Hc & ->). cbn [r_cols].
        rewrite (row_value_vs net wf x _ _ _ Hc). change (row_value [] x) with 0%Q.
        pose proof (vs_use_ext (edge_flow net x) fl v Hedge) as Hu. unfold vs_use in Hu, Hvok. lra.
      * injection He as <- <- <-. rewrite (cr_fmax _ _ _ _ _ _ Hcr). exact Hrange.
Qed.
End OneStep.

(** ** The objective *)
Definition obj_value (k : nat) (obj : list Q) (x : nat -> Q) : Q :=
  qsum (map (fun io => snd io * x (fst io))%Q (combine (seq k (length obj)) obj)).
Lemma obj_value_cons k q obj x : (obj_value k (q :: obj) x == q * x k + obj_value (S k) obj x)%Q.
Proof. reflexivity. Qed.
Lemma obj_value_upd q x obj : forall k c, c < length obj ->
  (obj_value k (upd c (fun v => v + q)%Q obj) x == obj_value k obj x + q * x (k + c)%nat)%Q.
Proof.
  induction obj as [|v obj IH]; intros k [|c] H; cbn [length] in H; try lia; cbn [upd]; rewrite !obj_value_cons.
  - rewrite Nat.add_0_r. lra.
  - rewrite IH by lia. replace (S k + c) with (k + S c) by lia. lra.
Qed.
Lemma obj_value_zero x (obj : list Q) : forall k, (obj_value k (map (fun _ => 0%Q) obj) x == 0)%Q.
Proof. induction obj as [|v obj IH]; intros k; cbn [map]; [reflexivity|]. rewrite obj_value_cons, IH. lra. Qed.

Lemma objective_edges net (wf : wf_network net) e obj x :
  cm_ncols (edge_columns net) <= length obj ->
  (obj_value 0 (update_edge_objectives net e obj) x ==
   qsum (map (fun ie => edge_cost net e (snd ie) * edge_flow net x (fst ie))
             (combine (seq 0 (length (net_edges net))) (net_edges net))))%Q.
Proof.
  intros Hl. unfold update_edge_objectives.
  assert (Hlt : forall ie, In ie (combine (seq 0 (length (net_edges net))) (net_edges net)) -> fst ie < length (net_edges net)).
  { intros [i ed] H. apply in_combine_l, in_seq in H. cbn. lia. }
  revert Hlt. generalize (combine (seq 0 (length (net_edges net))) (net_edges net)).
  pose proof (obj_value_zero x obj 0) as Hz. rewrite <- (map_length (fun _ => 0%Q) obj) in Hl. revert Hl Hz.
  generalize (map (fun _ => 0%Q) obj). intros o Hl Hz l Hlt.
  transitivity (obj_value 0 o x + qsum (map (fun ie => edge_cost net e (snd ie) * edge_flow net x (fst ie)) l))%Q; [|rewrite Hz; lra].
  clear Hz. revert o Hl. induction l as [|[i ed] l IH]; intros o Hl; cbn [fold_left map].
  - cbn. lra.
  - assert (Hi : i < length (net_edges net)) by (apply (Hlt (i, ed)); left; reflexivity).
    destruct (edge_column_exists net wf i Hi) as [_ Hc].
    rewrite IH; [|intros ie Hie; apply Hlt; right; exact Hie | rewrite upd_length; exact Hl].
    cbn [fst snd]. rewrite obj_value_upd by lia. rewrite qsum_cons. cbn [Nat.add]. unfold edge_flow. cbn [fst snd]. lra.
Qed.

(** Summing over edges is summing over nodes. *)
Lemma qsum_zero {A} (l : list A) : (qsum (map (fun _ => 0%Q) l) == 0)%Q.
Proof. induction l as [|a l IH]; cbn [map]; [reflexivity|]. rewrite qsum_cons, IH. lra. Qed.
Lemma qsum_plus {A} (f g : A -> Q) l : (qsum (map (fun a => f a + g a) l) == qsum (map f l) + qsum (map g l))%Q.
Proof. induction l as [|a l IH]; cbn [map]; [reflexivity|]. rewrite !qsum_cons, IH. lra. Qed.
Lemma qsum_filter_cons {A} (p : A -> bool) (g : A -> Q) a l :
  (qsum (map g (filter p (a :: l))) == (if p a then g a else 0) + qsum (map g (filter p l)))%Q.
Proof. cbn [filter]. destruct (p a); cbn [map]; rewrite ?qsum_cons; lra. Qed.
Lemma qsum_indicator j n (q : Q) : forall k, (qsum (map (fun i => if j =? i then q else 0) (seq k n)) == if (k <=? j) && (j <? k + n) then q else 0)%Q.
Proof.
  induction n as [|n IH]; intros k; cbn [seq map].
  - destruct ((k <=? j) && (j <? k + 0)) eqn:E; [exfalso; lia | reflexivity].
  - rewrite qsum_cons, IH. destruct (j =? k) eqn:E1, ((S k <=? j) && (j <? S k + n)) eqn:E2, ((k <=? j) && (j <? k + S n)) eqn:E3; try (exfalso; lia); lra.
Qed.
Lemma partition_sum (key : nat -> nat) (h : nat -> Q) (f : nat -> Q) n l :
  (forall e, In e l -> key e < n) ->
  (qsum (map (fun e => h (key e) * f e) l) ==
   qsum (map (fun i => h i * qsum (map f (filter (fun e => (key e =? i)%nat) l))) (seq 0 n)))%Q.
Proof.
  induction l as [|e l IH]; intros H; cbn [map].
  - cbn. rewrite <- (qsum_zero (seq 0 n)). apply qsum_ext. intros i _. lra.
  - rewrite qsum_cons, IH by (intros e' He'; apply H; right; exact He').
    transitivity (qsum (map (fun i => (if key e =? i then h (key e) * f e else 0) + h i * qsum (map f (filter (fun e => key e =? i) l))) (seq 0 n)))%Q.
    + rewrite qsum_plus, qsum_indicator. assert (Hk : key e < n) by (apply H; left; reflexivity).
      destruct ((0 <=? key e) && (key e <? 0 + n)) eqn:E; [lra | exfalso; lia].
    + apply qsum_ext. intros i _. rewrite qsum_filter_cons. destruct (key e =? i) eqn:E; [apply Nat.eqb_eq in E; subst i|]; lra.
Qed.

Definition from_of (net : network) (e : nat) : nat := match nth_error (net_edges net) e with Some ed => e_from ed | None => 0 end.
Definition to_of (net : network) (e : nat) : nat := match nth_error (net_edges net) e with Some ed => e_to ed | None => 0 end.
Lemma out_edges_filter net i : out_edges net i = filter (fun e => from_of net e =? i) (edge_ids net).
Proof.
  unfold out_edges, edge_ids. apply filter_ext_in. intros e He. apply in_seq in He. unfold starts_at, from_of.
  destruct (nth_error (net_edges net) e) eqn:E; [reflexivity|]. apply nth_error_None in E. lia.
Qed.
Lemma in_edges_filter net i : in_edges net i = filter (fun e => to_of net e =? i) (edge_ids net).
Proof.
  unfold in_edges, edge_ids. apply filter_ext_in. intros e He. apply in_seq in He. unfold ends_at, to_of.
  destruct (nth_error (net_edges net) e) eqn:E; [reflexivity|]. apply nth_error_None in E. lia.
Qed.
Lemma sum_out net (wf : wf_network net) h f :
  (qsum (map (fun e => h (from_of net e) * f e) (edge_ids net)) ==
   qsum (map (fun i => h i * outflow net f i) (seq 0 (length (net_nodes net)))))%Q.
Proof.
  rewrite (partition_sum (from_of net) h f (length (net_nodes net)) (edge_ids net)).
  - apply qsum_ext. intros i _. unfold outflow. rewrite out_edges_filter. reflexivity.
  - intros e He. apply in_seq in He. unfold from_of. destruct (nth_error_lt_Some (net_edges net) e) as (ed & Hed); [lia|].
    rewrite Hed. apply (wf_edges net wf ed (nth_error_In _ _ Hed)).
Qed.
Lemma sum_in net (wf : wf_network net) h f :
  (qsum (map (fun e => h (to_of net e) * f e) (edge_ids net)) ==
   qsum (map (fun i => h i * inflow net f i) (seq 0 (length (net_nodes net)))))%Q.
Proof.
  rewrite (partition_sum (to_of net) h f (length (net_nodes net)) (edge_ids net)).
  - apply qsum_ext. intros i _. unfold inflow. rewrite in_edges_filter. reflexivity.
  - intros e He. apply in_seq in He. unfold to_of. destruct (nth_error_lt_Some (net_edges net) e) as (ed & Hed); [lia|].
    rewrite Hed. apply (wf_edges net wf ed (nth_error_In _ _ Hed)).
Qed.

Lemma qsum_combine_seq {A} (g : nat -> A -> Q) (l : list A) (d : A) : forall k,
  (qsum (map (fun ia => g (fst ia) (snd ia)) (combine (seq k (length l)) l)) ==
   qsum (map (fun i => g i (nth (i - k) l d)) (seq k (length l))))%Q.
Proof.
  induction l as [|a l IH]; intros k; cbn [length seq combine map]; [reflexivity|].
  rewrite !qsum_cons, IH. cbn [fst snd]. rewrite Nat.sub_diag. cbn [nth].
  assert (H : (qsum (map (fun i => g i (nth (i - S k) l d)) (seq (S k) (length l))) ==
               qsum (map (fun i => g i (nth (i - k) (a :: l) d)) (seq (S k) (length l))))%Q).
  { apply qsum_ext. intros i Hi. apply in_seq in Hi. replace (i - k) with (S (i - S k)) by lia. reflexivity. }
  rewrite H. reflexivity.
Qed.

Lemma edge_costs_are_node_costs net (wf : wf_network net) s f : balanced net f ->
  (qsum (map (fun ie => edge_cost net (st_env s) (snd ie) * f (fst ie))
             (combine (seq 0 (length (net_edges net))) (net_edges net))) == total_cost net s f)%Q.
Proof.
  intros Hb. set (e0 := mkEdge 0 0). rewrite (qsum_combine_seq (fun i ed => edge_cost net (st_env s) ed * f i)%Q _ e0 0).
  set (hout := fun i => match nth_error (net_nodes net) i with Some n => outgoing_cost net (st_env s) n | None => 0%Q end).
  set (hin := fun i => match nth_error (net_nodes net) i with Some n => incoming_cost net (st_env s) n | None => 0%Q end).
  transitivity (qsum (map (fun e => hout (from_of net e) * f e + hin (to_of net e) * f e) (edge_ids net)))%Q.
  { apply qsum_ext. intros i Hi. apply in_seq in Hi. unfold edge_cost, from_of, to_of, hout, hin.
    rewrite Nat.sub_0_r. destruct (nth_error_lt_Some (net_edges net) i) as (ed & Hed); [lia|]. rewrite (nth_error_nth _ _ e0 Hed), Hed. lra. }
  rewrite qsum_plus, (sum_out net wf), (sum_in net wf), <- qsum_plus. unfold total_cost. apply qsum_ext.
  intros i Hi. apply in_seq in Hi. unfold hout, hin. destruct (nth_error (net_nodes net) i) as [n|] eqn:En; [|lra].
  destruct (wf_nodes net wf i n En) as (Hin & Hout & Hdeg). unfold node_flow, node_cost_of, outgoing_cost, incoming_cost. rewrite En.
  destruct (n_type n) eqn:Ht.
  - destruct Hdeg as [H0 _]. unfold inflow. rewrite <- Hin, H0. cbn. lra.
  - destruct Hdeg as [_ H0]. unfold outflow. rewrite <- Hout, H0. cbn. lra.
  - rewrite (Hb i n En Ht). field.
  - lra.
Qed.

(** ** Creation succeeds *)
Section Success.
Variable net : network.
Hypothesis wf : wf_network net.
Variable fm : Q.

Lemma get_nodes_ok is : (forall i, In i is -> i < length (net_nodes net)) -> exists ns, get_nodes net is = Ok ns.
Proof.
  intros H. apply rmap_Ok_ex. intros i Hi. destruct (nth_error_lt_Some (net_nodes net) i (H i Hi)) as (n & Hn).
  exists n. rewrite Hn. reflexivity.
Qed.
Lemma mass_balance_ok ns : (forall n, In n ns -> n_type n = TLink -> n_in n <> [] /\ n_out n <> []) ->
  forall b, exists b', mass_balance_rows (col_for_edge net) b ns = Ok b'.
Proof.
  induction ns as [|n ns IH]; intros H b; cbn [mass_balance_rows]; [eauto|].
  assert (H1 : exists b1, mass_balance_row (col_for_edge net) b n = Ok b1).
  { unfold mass_balance_row. destruct (n_type n) eqn:Et; eauto. destruct (H n (or_introl eq_refl) Et) as [H1 H2].
    destruct (n_in n); [congruence|]. destruct (n_out n); [congruence|]. destruct (_ =? 1); eauto. }
  destruct H1 as (b1 & ->). cbn [rbind]. apply IH. intros m Hm. apply H. right. exact Hm.
Qed.
Lemma agg_constraints_ok aggs : (forall a ns i, In a aggs -> In ns (a_nodes a) -> In i ns -> i < length (net_nodes net)) ->
  forall b, exists r, agg_constraints net (col_for_edge net) aggs b = Ok r.
Proof.
  induction aggs as [|a aggs IH]; intros H b; cbn [agg_constraints]; [eauto|].
  destruct (get_nodes_ok (concat (a_nodes a))) as (ns & ->).
  { intros i Hi. apply in_concat in Hi. destruct Hi as (l & Hl & Hi). apply (H a l i (or_introl eq_refl) Hl Hi). }
  cbn [rbind]. destruct (add_variable_row b _) as [b1 i]. destruct (IH (fun a ns i Ha => H a ns i (or_intror Ha)) b1) as ([b2 is] & ->). cbn. eauto.
Qed.
Lemma vs_constraints_ok vss : (forall v i, In v vss -> In i (v_nodes v) -> i < length (net_nodes net)) ->
  forall b, exists r, vs_constraints net (col_for_edge net) vss b = Ok r.
Proof.
  induction vss as [|v vss IH]; intros H b; cbn [vs_constraints]; [eauto|].
  assert (H1 : exists cols, vs_row_cols net (col_for_edge net) (vs_terms v) [] = Ok cols).
  { assert (Hv : forall t, In t (vs_terms v) -> fst t < length (net_nodes net)).
    { intros [i f] Ht. apply in_combine_l in Ht. apply (H v i (or_introl eq_refl) Ht). }
    revert Hv. generalize (vs_terms v). intros terms. generalize (@nil (nat * Q)). induction terms as [|[i f] terms IHt]; intros c Hv; cbn [vs_row_cols]; [eauto|].
    destruct (nth_error_lt_Some (net_nodes net) i (Hv (i, f) (or_introl eq_refl))) as (n & ->). apply IHt. intros t Ht. apply Hv. right. exact Ht. }
  destruct H1 as (cols & ->). cbn [rbind]. destruct (add_variable_row b _) as [b1 i].
  destruct (IH (fun v i Hv => H v i (or_intror Hv)) b1) as ([b2 is] & ->). cbn. eauto.
Qed.
Lemma factor_constraints_none aggs : (forall a, In a aggs -> a_rel a = None) ->
  forall i b, factor_constraints net (col_for_edge net) i aggs b = Ok (b, []).
Proof.
  induction aggs as [|a aggs IH]; intros H i b; cbn [factor_constraints]; [reflexivity|].
  unfold const_factor_pairs. rewrite (H a (or_introl eq_refl)). apply IH. intros a' Ha. apply H. right. exact Ha.
Qed.
Lemma exclusivity_none aggs base order : (forall a, In a aggs -> a_rel a = None) ->
  forall b, exclusivity_constraints base order aggs b = Ok b.
Proof.
  induction aggs as [|a aggs IH]; intros H b; cbn [exclusivity_constraints]; [reflexivity|].
  rewrite (H a (or_introl eq_refl)). apply IH. intros a' Ha. apply H. right. exact Ha.
Qed.
Lemma create_succeeds order : net_edges net <> [] -> no_relationships net -> exists b, create fm order net = Ok b.
Proof.
  intros He Hno. unfold create. destruct (length (net_edges net) <? 1) eqn:E.
  { apply Nat.ltb_lt in E. destruct (net_edges net); [congruence | cbn in E; lia]. }
  destruct (mass_balance_ok (net_nodes net)) with (b := mkRb [] []) as (b1 & ->).
  { intros n Hn Ht. apply In_nth_error in Hn. destruct Hn as (i & Hn). destruct (wf_nodes net wf i n Hn) as (_ & _ & Hd).
    rewrite Ht in Hd. exact Hd. }
  cbn [rbind]. destruct (node_constraints _ _ _ _ _ _) as [b2 nids].
  destruct (agg_constraints_ok (net_aggs net) (wf_aggs net wf) b2) as ([b3 aids] & ->). cbn [rbind].
  rewrite (factor_constraints_none _ Hno). cbn [rbind].
  destruct (vs_constraints_ok (net_vss net) (wf_vss net wf) b3) as ([b5 vids] & ->). cbn [rbind].
  rewrite (exclusivity_none _ _ _ Hno). cbn. eauto.
Qed.
Lemma update_succeeds b0 V F s : created net fm [] b0 V F -> no_relationships net -> exists b, update net b0 s = Ok b.
Proof.
  intros Hcr Hno.
  assert (Hf : bt_factors b0 = []).
  { destruct (bt_factors b0) as [|fi l] eqn:E; [reflexivity|]. exfalso.
    destruct (cr_factors _ _ _ _ _ _ Hcr fi) as (a & ps & Ha & Hc & _); [rewrite E; left; reflexivity|].
    unfold const_factor_pairs in Hc. rewrite (Hno a (nth_error_In _ _ Ha)) in Hc. discriminate. }
  assert (Ho : exists ops, update_ops net b0 s = Ok ops).
  { unfold update_ops. rewrite Hf. cbn. eauto. }
  destruct Ho as (ops & Ho). unfold update. rewrite Ho. cbn [rbind].
  destruct (created_ready net fm [] b0 V F Hcr) as [Hnd _].
  destruct (apply_coefs_spec ops (fold_left apply_bound ops (map (reset_row (lp_fmax (bt_lp b0))) (lp_rows (bt_lp b0))))) as [A _].
  { apply (nodup_keys_shape (lp_rows (bt_lp b0))); [rewrite shape_reset_bounds; reflexivity | exact Hnd]. }
  destruct A as (rows & -> & _); [|cbn; eauto]. apply forallb_forall. intros o Hin. destruct o as [r lb ub|r c v]; [reflexivity|]. exfalso.
  unfold update_ops in Ho. rewrite Hf in Ho. cbn in Ho. injection Ho as <-. rewrite !in_app_iff in Hin. destruct Hin as [Hin|[Hin|Hin]].
  - apply in_flat_map in Hin. destruct Hin as (nr & Hnr & Hin). destruct (cr_nodes _ _ _ _ _ _ Hcr nr Hnr) as (n & Hn & (_ & _ & Hbin) & _).
    cbn in Hbin. destruct (nr_type nr) eqn:Et; [|destruct Hbin | destruct Hbin]. unfold node_row_ops in Hin. rewrite Hn, Et in Hin.
    destruct (get_bounds s (nr_node nr) n); destruct Hin as [Hin|[]]; discriminate.
  - apply in_map_iff in Hin. destruct Hin as (ra & Hc & _). discriminate.
  - apply in_map_iff in Hin. destruct Hin as ([r2 [i2 v2]] & Hc & _). unfold vs_ops in Hc.
    destruct (vs_is_active _ _); [destruct (vs_available_missing _ _ _)|]; discriminate.
Qed.
End Success.
