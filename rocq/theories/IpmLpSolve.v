(** From near-optimal columns to near-best flows. *)
From Coq Require Import Reals Qreals Sorted Relations.
From Verif Require Import Base IpmCholesky IpmStep IpmSpec IpmRunSpec IpmDense IpmSymbolic IpmNumeric IpmStepLemmas.
From Verif Require Import Calendar Network NetworkBuild NetworkSpec NetworkBuildLemmas Lp LpSpec LpColLemmas LpRowLemmas IpmLp IpmLpSpec IpmLpCols IpmLpRows IpmLpIndep IpmLpPosed IpmLpUpdate.
From Coq Require Import Lra.
Open Scope nat_scope.

Lemma lsum_ext {A} (f g : A -> R) l : (forall e, In e l -> f e = g e) -> lsum (map f l) = lsum (map g l).
Proof. intros H. f_equal. apply map_ext_in. exact H. Qed.
Lemma rsum_le n f g : (forall k, k < n -> (f k <= g k)%R) -> (rsum n f <= rsum n g)%R.
Proof. intros H. induction n as [|n IH]; cbn [rsum]; [lra|]. pose proof (H n ltac:(lia)). assert (rsum n f <= rsum n g)%R by (apply IH; intros; apply H; lia). lra. Qed.

Section Obj.
Variable net : network.
Hypothesis wf : wf_network net.
Notation col := (col_for_edge net).
Notation ncols := (cm_ncols (edge_columns net)).
Notation m := (length (net_edges net)).

(** *** The objective *)
Variables (l : nat) (x : nat -> R).
Hypothesis Hl : l < 4.
Let ov (o : list (list Q)) : R := rsum ncols (fun k => Q2R (num o k l) * x k)%R.
Lemma ov_upd o c v : four o -> length o = ncols -> c < ncols -> length v = 4 ->
  ov (Lp.upd c (fun u => lanes2 Qplus u v) o) = (ov o + Q2R (nth l v 0%Q) * x c)%R.
Proof.
  intros Hf Ho Hc Hv. unfold ov. rewrite <- (rsum_one ncols c (Q2R (nth l v 0%Q) * x c)%R Hc). rewrite <- rsum_plus. apply rsum_ext. intros k Hk. unfold num.
  destruct (Nat.eqb_spec k c) as [->|Hne].
  - rewrite upd_nth_same by lia. rewrite lanes2_nth by (rewrite ?four_nth by (assumption || lia); lia). rewrite Q2R_plus. lra.
  - rewrite upd_nth_other by exact Hne. lra.
Qed.
Lemma objective_cost sts s obj : length obj = ncols -> length sts <= 4 -> nth_error sts l = Some s ->
  IpmSpec.objective ncols (lane_number (ipm_objectives net sts obj) l) x = (- r_cost net s (fun e => x (col e)))%R.
Proof.
  intros Ho H4 Hs. change (IpmSpec.objective ncols (lane_number (ipm_objectives net sts obj) l) x) with (ov (ipm_objectives net sts obj)).
  unfold ipm_objectives, r_cost. set (o0 := map (fun _ : list Q => splat 0) obj).
  assert (Z : ov o0 = 0%R).
  { apply rsum_0. intros k Hk. assert (E : num o0 k l = 0%Q); [|rewrite E; unfold Q2R; cbn; lra]. unfold num, o0. set (g := fun _ : list Q => splat 0). rewrite nth_indep with (d' := g []) by (rewrite map_length; lia). rewrite map_nth. unfold g, splat. destruct l as [|[|[|[|?]]]]; try reflexivity; lia. }
  assert (F : four o0) by (intros v Hv; apply in_map_iff in Hv; destruct Hv as (? & <- & _); reflexivity).
  assert (L : length o0 = ncols) by (unfold o0; rewrite map_length; exact Ho).
  assert (Hlt : forall ie, In ie (combine (seq 0 m) (net_edges net)) -> col (fst ie) < ncols).
  { intros [e ed] Hin. apply in_combine_l in Hin. apply in_seq in Hin. cbn [fst]. apply (edge_column_exists net wf e). lia. }
  revert Hlt. generalize (combine (seq 0 m) (net_edges net)) as es. intros es Hlt.
  assert (G : forall o, four o -> length o = ncols -> ov (fold_left (fun o ie => Lp.upd (col (fst ie)) (fun v => lanes2 Qplus v (pad (map (fun s => (- edge_cost net (st_env s) (snd ie))%Q) sts))) o) es o)
              = (ov o - lsum (map (fun ie => Q2R (edge_cost net (st_env s) (snd ie)) * x (col (fst ie))) es))%R).
  { clear o0 Z F L. induction es as [|ie es IH]; intros o F L; cbn [fold_left map]; [cbn; lra|].
    set (v := pad (map (fun s => (- edge_cost net (st_env s) (snd ie))%Q) sts)).
    assert (Hv : length v = 4) by (apply pad_length; rewrite map_length; exact H4).
    rewrite IH; [|intros; apply Hlt; right; assumption | | rewrite upd_length; exact L].
    - rewrite ov_upd by (try assumption; apply Hlt; left; reflexivity). unfold v. rewrite pad_nth by (rewrite map_length; apply (nth_error_Some_lt _ _ _ Hs)).
      rewrite (nth_error_nth (map (fun s => (- edge_cost net (st_env s) (snd ie))%Q) sts) l 0%Q (x := (- edge_cost net (st_env s) (snd ie))%Q)) by (rewrite nth_error_map, Hs; reflexivity).
      rewrite Q2R_opp. unfold lsum. cbn [fold_right]. lra.
    - intros u Hu. apply upd_In in Hu. destruct Hu as [Hu|(y & Hy & ->)]; [apply F, Hu | apply lanes2_length; [apply F, Hy | exact Hv]]. }
  rewrite (G o0 F L), Z. lra.
Qed.
End Obj.

Section Solve.
Variable net : network.
Hypothesis wf : wf_network net.
Notation col := (col_for_edge net).
Notation ncols := (cm_ncols (edge_columns net)).
Notation m := (length (net_edges net)).

(** *** Sizes *)
Lemma columns_le_edges g : (forall k, (0 <= g k)%R) -> (rsum ncols g <= rsum m (fun e => g (col e)))%R.
Proof.
  intros Hg. apply Rle_trans with (rsum ncols (fun c => rsum m (fun e => if c =? col e then g c else 0)))%R.
  - apply rsum_le. intros c Hc. destruct (column_has_edge net wf c Hc) as (e & He & Ec). 
    apply Rle_trans with (rsum m (fun e' => if e' =? e then g c else 0))%R; [rewrite rsum_one by exact He; lra|]. apply rsum_le. intros e' _. destruct (Nat.eqb_spec e' e) as [->|].
    + rewrite Ec, Nat.eqb_refl. lra.
    + destruct (c =? col e'); [apply Hg | lra].
  - rewrite rsum_swap. apply rsum_le. intros e He. rewrite (rsum_pick ncols (col e) g) by (apply (edge_column_exists net wf e He)). lra.
Qed.
Lemma norm_le_size x : (norm ncols x <= size net (fun e => x (col e)))%R.
Proof. unfold size, norm. apply sqrt_le_1_alt. apply (columns_le_edges (fun k => x k * x k)%R). intros k. apply Rle_0_sqr. Qed.
Lemma norm_pos n x : (0 <= norm n x)%R.
Proof. apply sqrt_pos. Qed.

(** *** Flows and columns *)
Lemma r_inflow_ext f g i : (forall e, e < m -> f e = g e) -> r_inflow net f i = r_inflow net g i.
Proof. intros H. apply lsum_ext. intros e He. apply H. apply (in_edges_lt net i e He). Qed.
Lemma r_outflow_ext f g i : (forall e, e < m -> f e = g e) -> r_outflow net f i = r_outflow net g i.
Proof. intros H. apply lsum_ext. intros e He. apply H. apply (out_edges_lt net i e He). Qed.
Lemma r_node_flow_ext f g i n : (forall e, e < m -> f e = g e) -> r_node_flow net f i n = r_node_flow net g i n.
Proof. intros H. unfold r_node_flow. rewrite (r_inflow_ext f g i H), (r_outflow_ext f g i H). reflexivity. Qed.
Lemma r_cost_ext s f g : (forall e, e < m -> f e = g e) -> r_cost net s f = r_cost net s g.
Proof. intros H. apply lsum_ext. intros [e ed] He. apply in_combine_l in He. apply in_seq in He. cbn [fst snd]. rewrite H by lia. reflexivity. Qed.
Lemma size_ext f g : (forall e, e < m -> f e = g e) -> size net f = size net g.
Proof. intros H. unfold size, norm. f_equal. apply rsum_ext. intros e He. rewrite H by exact He. reflexivity. Qed.

Definition r_balanced (f : nat -> R) : Prop := forall i n, nth_error (net_nodes net) i = Some n -> n_type n = TLink -> r_inflow net f i = r_outflow net f i.
Lemma r_same_balanced f e e' : r_balanced f -> same net e e' -> f e = f e'.
Proof.
  intros Hb Hs. induction Hs as [e f' (i & n & Hn & Ht & Hi & Ho) | e | e f' _ IH | e f' g _ IH1 _ IH2]; [|reflexivity | congruence | congruence].
  specialize (Hb i n Hn Ht). unfold r_inflow, r_outflow in Hb. rewrite Hi, Ho in Hb. cbn in Hb. lra.
Qed.
Definition r_col_value (f : nat -> R) (c : nat) : R := match find (fun e => col e =? c) (edge_ids net) with Some e => f e | None => 0%R end.
Lemma r_col_value_edge f e : r_balanced f -> e < m -> r_col_value f (col e) = f e.
Proof.
  intros Hb He. unfold r_col_value. destruct (find _ (edge_ids net)) as [e'|] eqn:E.
  - apply find_some in E. destruct E as [Hin Hc]. apply Nat.eqb_eq in Hc. unfold edge_ids in Hin. apply in_seq in Hin. apply (r_same_balanced f e' e Hb). apply (same_column net wf); [lia | exact He | exact Hc].
  - exfalso. assert (Hin : In e (edge_ids net)) by (apply in_seq; lia). pose proof (find_none _ _ E e Hin) as Hc. cbn in Hc. rewrite Nat.eqb_refl in Hc. discriminate.
Qed.

Lemma q2r_bmax : Q2R B_MAX = 999999%R.
Proof. unfold Q2R, B_MAX. cbn [Qnum Qden]. rewrite <- RMicromega.Rinv_1. lra. Qed.
Lemma q2r_le a b : (a <= b)%Q -> (Q2R a <= Q2R b)%R.
Proof. apply Qle_Rle. Qed.

Section Lane.
Variables (b : ibuilt) (sts : list lp_state) (l : nat) (s : lp_state) (t : tolerances) (x : nat -> R) (obj0 : list (list Q)).
Hypothesis Hb : built_as net b.
Hypothesis Hu : storages_used net.
Hypothesis Hbo : bounds_ok net b sts.
Hypothesis H4 : length sts <= 4.
Hypothesis Hs : nth_error sts l = Some s.
Hypothesis Hobj : il_obj (ib_lp b) = ipm_objectives net sts obj0.
Hypothesis Htp : (0 <= t_primal t)%R.
Hypothesis Htd : (0 <= t_dual t)%R.
Hypothesis Hto : (0 <= t_optimality t)%R.
Notation lp := (ib_lp b).
Notation nq := (length (il_ineq lp)).
Notation f := (fun e => x (col e)).
Hypothesis Hno : near_optimal (real_matrix lp) ncols nq (chunk_data t lp l) x.

Lemma row_is i y : times ncols (dense (real_matrix lp)) y i = ivalue (nth i (full_matrix lp) []) y.
Proof.
  destruct (matrix_well_formed net wf b Hu Hb) as (Hwf & _). rewrite <- (row_times _ _ Hwf). unfold ivalue, row_of, real_matrix. change (@nil (nat * R)) with (real_row []). rewrite map_nth. reflexivity.
Qed.
Lemma ineq_row i r y : nth_error (il_ineq lp) i = Some r -> times ncols (dense (real_matrix lp)) y i = ivalue r y.
Proof.
  intros Hi. rewrite row_is. unfold full_matrix. rewrite app_nth1 by (apply (nth_error_Some_lt _ _ _ Hi)). rewrite (nth_error_nth _ _ _ Hi). reflexivity.
Qed.
Lemma rows_total : length (real_matrix lp) = nq + length (il_eq lp).
Proof. unfold real_matrix, full_matrix. rewrite map_length, app_length. reflexivity. Qed.
Lemma lane_lt : l < length sts.
Proof. apply (nth_error_Some_lt _ _ _ Hs). Qed.
Let slack := (t_primal t * (1 + size net f))%R.
Lemma slack_ge : (t_primal t * (1 + norm ncols x) <= slack)%R.
Proof. unfold slack. pose proof (norm_le_size x). apply Rmult_le_compat_l; [exact Htp | lra]. Qed.
Lemma slack_pos : (0 <= slack)%R.
Proof. pose proof slack_ge. pose proof (norm_pos ncols x). assert (0 <= t_primal t * (1 + norm ncols x))%R by (apply Rmult_le_pos; lra). lra. Qed.

Lemma pair_kept p n r ub : nth_error (net_nodes net) p = Some n -> In (r, ub) (combine (node_upper_rows col n) (node_limits sts p n)) ->
  (ivalue r x <= Q2R (nth l ub 0%Q) + slack /\ ivalue r x <= 999999 + slack)%R.
Proof.
  intros Hn Hin. destruct (bo_below net b sts Hbo l p n r ub lane_lt Hn Hin) as (i & r' & Hi & He & Hle). destruct Hno as (_ & H & _).
  pose proof (nth_error_Some_lt _ _ _ Hi) as Hlt. specialize (H i ltac:(rewrite rows_total; lia) Hlt). rewrite (ineq_row i r' x Hi), (ivalue_eqb r' r x He) in H.
  pose proof (bo_cut net b sts Hbo i l Hlt lane_lt) as Hcut. apply q2r_le in Hcut. apply q2r_le in Hle. rewrite q2r_bmax in Hcut.
  cbn [chunk_data d_b d_primal] in H. change (lane_number (il_upper lp) l i) with (Q2R (num (il_upper lp) i l)) in H. pose proof slack_ge. lra.
Qed.
(** The value of a node's limit in the state. *)
Lemma nth_state (g : lp_state -> Q) : nth l (map g sts) 0%Q = g s.
Proof. apply nth_error_nth. rewrite nth_error_map, Hs. reflexivity. Qed.
Lemma max_pair p n mx : n_type n <> TStorage -> n_max n = Some mx ->
  exists ub, In (add_node col n 1 [], ub) (combine (node_upper_rows col n) (node_limits sts p n)) /\ nth l ub 0%Q = fmin (metric_value (st_env s) mx) B_MAX.
Proof.
  intros Ht Hm. unfold node_upper_rows, node_limits. rewrite Hm. eexists. destruct (n_type n) eqn:E; try congruence; (split; [left; reflexivity | rewrite nth_state; unfold get_bounds; rewrite E, Hm; reflexivity]).
Qed.
Lemma storage_pairs p n : n_type n = TStorage ->
  exists ub1 ub2, combine (node_upper_rows col n) (node_limits sts p n) = [(add_node col n 1 [], ub1); (clone_negative (add_node col n 1 []), ub2)] /\
    nth l ub1 0%Q = ((get_max (st_env s) (n_maxv n) - st_volume s p) / st_days s)%Q /\ nth l ub2 0%Q = ((st_volume s p - get_min (st_env s) (n_minv n)) / st_days s)%Q.
Proof.
  intros Ht. unfold node_upper_rows, node_limits. rewrite Ht. do 2 eexists. split; [reflexivity|]. rewrite !nth_state. unfold get_bounds. rewrite Ht. auto.
Qed.

Lemma link_row p n : nth_error (net_nodes net) p = Some n -> n_type n = TLink ->
  (forall y, ivalue (bcols net n) y = 0%R) \/ exists i, nq <= i < length (real_matrix lp) /\ forall y, times ncols (dense (real_matrix lp)) y i = ivalue (bcols net n) y.
Proof.
  intros Hn Ht. destruct (has_row net n) eqn:Er.
  - right. assert (Hin : In (bcols net n) (il_eq lp)) by (rewrite (ba_eq net b Hb); apply in_map, filter_In; split; [apply (nth_error_In _ _ Hn) | exact Er]).
    apply In_nth_error in Hin. destruct Hin as (j & Hj). exists (nq + j). rewrite rows_total. split; [pose proof (nth_error_Some_lt _ _ _ Hj); lia|].
    intros y. rewrite row_is. unfold full_matrix. rewrite app_nth2 by lia. replace (nq + j - nq) with j by lia. rewrite (nth_error_nth _ _ _ Hj). reflexivity.
  - left. intros y. rewrite (ivalue_bcols net wf p n y Hn).
    assert (Hm : mergedb net p = true) by (unfold mergedb; rewrite Hn; unfold has_row, is_link in *; rewrite Ht in *; cbn [andb] in *; destruct (length (bcols net n) =? 1); [reflexivity | discriminate]).
    destruct (merged_shape net wf p Hm) as (e & g & Hi & Ho & Hc & _). unfold r_inflow, r_outflow. rewrite Hi, Ho. cbn. rewrite Hc. lra.
Qed.
Lemma eq_row i : nq <= i < length (real_matrix lp) -> exists p n, nth_error (net_nodes net) p = Some n /\ n_type n = TLink /\ forall y, times ncols (dense (real_matrix lp)) y i = ivalue (bcols net n) y.
Proof.
  intros Hi. rewrite rows_total in Hi. destruct (nth_error_lt_Some (il_eq lp) (i - nq) ltac:(lia)) as (r & Hr). pose proof (nth_error_In _ _ Hr) as Hin. rewrite (ba_eq net b Hb) in Hin. apply in_map_iff in Hin. destruct Hin as (n & <- & Hin).
  apply filter_In in Hin. destruct Hin as (Hin & Hh). apply In_nth_error in Hin. destruct Hin as (p & Hp). exists p, n. split; [exact Hp|]. split; [unfold has_row, is_link in Hh; destruct (n_type n); try discriminate; reflexivity|].
  intros y. rewrite row_is. unfold full_matrix. rewrite app_nth2 by lia. rewrite (nth_error_nth _ _ _ Hr). reflexivity.
Qed.
Lemma eq_bound i : nq <= i -> lane_number (il_upper lp) l i = 0%R.
Proof. intros Hi. change (lane_number (il_upper lp) l i) with (Q2R (num (il_upper lp) i l)). rewrite (bo_zero net b sts Hbo i l Hi). unfold Q2R. cbn. lra. Qed.

Lemma lane_keeps : keeps net s slack f.
Proof.
  constructor.
  - intros p n Hn Ht. rewrite <- (ivalue_bcols net wf p n x Hn). destruct (link_row p n Hn Ht) as [H|(i & Hi & H)]; [rewrite H, Rabs_R0; apply slack_pos|].
    destruct Hno as (_ & _ & He & _). specialize (He i ltac:(lia) ltac:(lia)). rewrite H in He. cbn [chunk_data d_b d_primal] in He. rewrite eq_bound, Rminus_0_r in He by lia. pose proof slack_ge. lra.
  - intros p n mx Hn Ht Hm. destruct (max_pair p n mx Ht Hm) as (ub & Hin & Hub). destruct (pair_kept p n _ _ Hn Hin) as (H1 & H2). rewrite (ivalue_add_node net wf p n x Hn) in H1, H2. rewrite Hub in H1. split; [|exact H2].
    pose proof (q2r_le _ _ (fmin_le_l (metric_value (st_env s) mx) B_MAX)). lra.
  - intros p n Hn Ht. destruct (storage_pairs p n Ht) as (u1 & u2 & Ec & Hu1 & Hu2). destruct (pair_kept p n (add_node col n 1 []) u1 Hn) as (H1 & H2); [rewrite Ec; left; reflexivity|]. rewrite (ivalue_add_node net wf p n x Hn) in H1, H2. rewrite Hu1 in H1. split; assumption.
  - intros p n Hn Ht. destruct (storage_pairs p n Ht) as (u1 & u2 & Ec & Hu1 & Hu2). destruct (pair_kept p n (clone_negative (add_node col n 1 [])) u2 Hn) as (H1 & H2); [rewrite Ec; right; left; reflexivity|]. rewrite ivalue_negative, (ivalue_add_node net wf p n x Hn) in H1, H2. rewrite Hu2 in H1. split; assumption.
Qed.

Lemma allocation_balanced f' : allocation net s f' -> r_balanced f'.
Proof. intros (_ & H) i n Hn Ht. pose proof (k_links _ _ _ _ H i n Hn Ht) as E. pose proof (Rabs_pos (r_inflow net f' i - r_outflow net f' i)). assert (E' : Rabs (r_inflow net f' i - r_outflow net f' i) = 0%R) by lra. destruct (Req_dec (r_inflow net f' i - r_outflow net f' i) 0) as [Z|Z]; [lra|]. apply Rabs_no_R0 in Z. contradiction. Qed.
Lemma allocation_feasible f' : allocation net s f' -> IpmSpec.feasible (length (real_matrix lp)) ncols nq (dense (real_matrix lp)) (lane_number (il_upper lp) l) (r_col_value f').
Proof.
  intros Ha. pose proof (allocation_balanced f' Ha) as Hbal. destruct Ha as (Hpos & Hk).
  assert (E : forall e, e < m -> r_col_value f' (col e) = f' e) by (intros e He; apply r_col_value_edge; assumption).
  split; [|split].
  - intros k Hkk. destruct (column_has_edge net wf k Hkk) as (e & He & <-). rewrite E by exact He. apply Hpos, He.
  - intros i _ Hi. destruct (nth_error_lt_Some (il_ineq lp) i Hi) as (r' & Hr'). rewrite (ineq_row i r' _ Hr').
    destruct (bo_tight net b sts Hbo l i r' lane_lt Hr') as (p & n & r & ub & Hn & Hin & He & Hnum). rewrite (ivalue_eqb r' r _ He).
    change (lane_number (il_upper lp) l i) with (Q2R (num (il_upper lp) i l)).
    assert (G : (ivalue r (r_col_value f') <= Q2R (nth l ub 0%Q) /\ ivalue r (r_col_value f') <= 999999)%R).
    { assert (Hf : r_node_flow net (fun e => r_col_value f' (col e)) p n = r_node_flow net f' p n) by (apply r_node_flow_ext, E).
      assert (Hcase : n_type n = TStorage \/ n_type n <> TStorage) by (destruct (n_type n); auto; right; discriminate). destruct Hcase as [Ht|Ht].
      - destruct (storage_pairs p n Ht) as (u1 & u2 & Ec & Hu1 & Hu2). rewrite Ec in Hin. cbn [In] in Hin. destruct Hin as [Eq|[Eq|[]]]; injection Eq as <- <-.
        + rewrite (ivalue_add_node net wf p n _ Hn), Hf, Hu1. destruct (k_filling _ _ _ _ Hk p n Hn Ht). lra.
        + rewrite ivalue_negative, (ivalue_add_node net wf p n _ Hn), Hf, Hu2. destruct (k_draining _ _ _ _ Hk p n Hn Ht). lra.
      - destruct (n_max n) as [mx|] eqn:Em.
        + assert (Er : r = add_node col n 1 [] /\ nth l ub 0%Q = fmin (metric_value (st_env s) mx) B_MAX).
          { unfold node_upper_rows, node_limits in Hin. rewrite Em in Hin. destruct (n_type n) eqn:E0; try congruence; cbn [combine In] in Hin; destruct Hin as [Eq|[]]; injection Eq as <- <-; (split; [reflexivity|]); rewrite nth_state; unfold get_bounds; rewrite E0, Em; reflexivity. }
          destruct Er as (-> & Hub). rewrite (ivalue_add_node net wf p n _ Hn), Hf, Hub. destruct (k_max _ _ _ _ Hk p n mx Hn Ht Em) as (K1 & K2). split; [|lra].
          unfold fmin. destruct (Qle_bool _ _); [lra | rewrite q2r_bmax; lra].
        + exfalso. unfold node_upper_rows, node_limits in Hin. rewrite Em in Hin. destruct (n_type n); try congruence; destruct Hin. }
    destruct Hnum as [-> | ->]; [rewrite q2r_bmax|]; apply G.
  - intros i Hi Hge. destruct (eq_row i ltac:(lia)) as (p & n & Hn & Ht & H). rewrite H, (ivalue_bcols net wf p n _ Hn), eq_bound by exact Hge.
    rewrite (r_inflow_ext _ f' p E), (r_outflow_ext _ f' p E). rewrite (Hbal p n Hn Ht). lra.
Qed.
Lemma lane_near_best : near_best net lp s t f.
Proof.
  destruct Hno as (Hpos & _ & _ & y & Hy & Hdual & Hopt). split; [|split; [exact lane_keeps|]].
  - intros e He. apply Hpos. apply (edge_column_exists net wf e He).
  - exists y. split; [exact Hy|]. cbv zeta. split.
    + intros k Hk. rewrite (ba_ncols net b Hb) in Hk. specialize (Hdual k Hk). cbn [chunk_data d_b d_c d_primal d_dual d_optimality] in Hdual. pose proof lane_lt.
      assert (Ho0 : length obj0 = ncols) by (rewrite <- (objectives_length net sts obj0), <- Hobj; apply (ba_obj net b Hb)).
      pose proof (objective_cost net wf l (fun j => if j =? k then 1 else 0)%R ltac:(lia) sts s obj0 Ho0 H4 Hs) as Hc. unfold IpmSpec.objective in Hc. rewrite <- Hobj in Hc.
      rewrite (rsum_unique ncols k) in Hc; [rewrite Nat.eqb_refl in Hc | exact Hk | intros j _ Hj; destruct (Nat.eqb_spec j k); [congruence | lra]]. unfold column_cost. lra.
    + intros f' Ha. specialize (Hopt _ (allocation_feasible f' Ha)). pose proof (allocation_balanced f' Ha) as Hbal.
      assert (E : forall e, e < m -> r_col_value f' (col e) = f' e) by (intros e He; apply r_col_value_edge; assumption).
      cbn [chunk_data d_b d_c d_primal d_dual d_optimality] in Hopt. pose proof lane_lt.
      assert (Ho0 : length obj0 = ncols) by (rewrite <- (objectives_length net sts obj0), <- Hobj; apply (ba_obj net b Hb)).
      rewrite Hobj in Hopt. rewrite !(objective_cost net wf l) with (s := s) in Hopt by (assumption || lia).
      rewrite (r_cost_ext s _ f' E) in Hopt.
      pose proof (norm_le_size x) as N1. pose proof (norm_le_size (fun k => r_col_value f' k - x k)%R) as N2.
      rewrite (size_ext _ (fun e => f' e - x (col e))%R) in N2 by (intros e He; rewrite E by exact He; reflexivity).
      set (price := norm (length (real_matrix lp)) y) in *. assert (0 <= price)%R by apply norm_pos. pose proof (norm_pos ncols x).
      assert (A1 : (t_optimality t * (1 + norm ncols x + price) <= t_optimality t * (1 + size net f + price))%R) by (apply Rmult_le_compat_l; lra).
      assert (A2 : (t_primal t * (1 + norm ncols x) * price <= t_primal t * (1 + size net f) * price)%R) by (apply Rmult_le_compat_r; [lra|]; apply Rmult_le_compat_l; lra).
      assert (A3 : (t_dual t * (1 + price) * norm ncols (fun k => r_col_value f' k - x k) <= t_dual t * (1 + price) * size net (fun e => f' e - x (col e)))%R) by (apply Rmult_le_compat_l; [apply Rmult_le_pos; lra | exact N2]).
      lra.
Qed.
End Lane.
End Solve.
