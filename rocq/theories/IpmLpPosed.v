(** The programme of the interior point solver is one the method is meant for. *)
From Coq Require Import Reals Qreals Sorted Relations.
From Verif Require Import Base IpmCholesky IpmStep IpmSpec IpmRunSpec IpmDense IpmSymbolic IpmNumeric IpmStepLemmas.
From Verif Require Import Calendar Network NetworkBuild NetworkSpec NetworkBuildLemmas Lp LpSpec LpColLemmas LpRowLemmas IpmLp IpmLpSpec IpmLpCols IpmLpRows IpmLpIndep.
From Coq Require Import Lra.
Open Scope nat_scope.

Lemma add_upper_rows_spec : forall rs rows rows2 ids, add_upper_rows rows rs = (rows2, ids) ->
  (exists ext, rows2 = rows ++ ext) /\
  Forall2 (fun id r => exists r', nth_error rows2 id = Some r' /\ cols_eqb r' r = true) ids rs /\
  (forall i r, nth_error rows2 i = Some r -> nth_error rows i = Some r \/ exists j, nth_error ids j = Some i /\ nth_error rs j = Some r).
Proof.
  induction rs as [|r rs IH]; intros rows rows2 ids H; cbn [add_upper_rows] in H.
  - injection H as <- <-. split; [exists []; rewrite app_nil_r; reflexivity|]. split; [constructor | auto].
  - unfold add_upper_row in H. destruct (position _ rows) as [p|] eqn:E.
    + destruct (add_upper_rows rows rs) as [rows3 is] eqn:E2. injection H as <- <-. destruct (IH _ _ _ E2) as ((ext & ->) & Hf & Hc).
      split; [eauto|]. split.
      * constructor; [|exact Hf]. apply position_Some in E. destruct E as (r' & Hr & He & _). exists r'. split; [|exact He]. rewrite nth_error_app1 by (apply (nth_error_Some_lt _ _ _ Hr)). exact Hr.
      * intros i r0 Hi. destruct (Hc i r0 Hi) as [Hl|(j & Hj1 & Hj2)]; [auto|]. right. exists (S j). auto.
    + destruct (add_upper_rows (rows ++ [r]) rs) as [rows3 is] eqn:E2. injection H as <- <-. destruct (IH _ _ _ E2) as ((ext & ->) & Hf & Hc).
      rewrite <- app_assoc in *. cbn [app] in *. split; [eauto|]. split.
      * constructor; [|exact Hf]. exists r. split; [|apply cols_eqb_refl]. rewrite nth_error_app2, Nat.sub_diag by lia. reflexivity.
      * intros i r0 Hi. destruct (Hc i r0 Hi) as [Hl|(j & Hj1 & Hj2)]; [|right; exists (S j); auto].
        destruct (Nat.lt_ge_cases i (length rows)) as [Hlt|Hge]; [rewrite nth_error_app1 in Hl by exact Hlt; auto|].
        rewrite nth_error_app2 in Hl by exact Hge. destruct (i - length rows) as [|d] eqn:Ed; [|destruct d; discriminate]. injection Hl as <-. right. exists 0. split; [|reflexivity]. cbn. f_equal. lia.
Qed.

Lemma filter_nth {A} (h : A -> bool) (d : A) l : filter h l = map (fun p => nth p l d) (filter (fun p => h (nth p l d)) (seq 0 (length l))).
Proof.
  assert (E : l = map (fun p => nth p l d) (seq 0 (length l))).
  { apply nth_ext with (d := d) (d' := d); [rewrite map_length, seq_length; reflexivity|]. intros k Hk. set (f := fun p => nth p l d). rewrite nth_indep with (l := map f _) (d' := f 0) by (rewrite map_length, seq_length; exact Hk). rewrite map_nth, seq_nth by exact Hk. reflexivity. }
  rewrite E at 1. generalize (seq 0 (length l)) as s. induction s as [|k s IH]; [reflexivity|]. cbn [map filter]. destruct (h (nth k l d)); cbn [map]; rewrite IH; reflexivity.
Qed.

Section Posed.
Variable net : network.
Hypothesis wf : wf_network net.
Notation col := (col_for_edge net).
Notation ncols := (cm_ncols (edge_columns net)).
Let d0 : node := mkNode TInput [] [] None None None None (IVAbsolute 0) (mkCost None [] None).

Record built_as (b : ibuilt) : Prop := {
  ba_eq : il_eq (ib_lp b) = map (bcols net) (filter (has_row net) (net_nodes net));
  ba_ineq : add_upper_rows [] (flat_map (node_upper_rows col) (net_nodes net)) = (il_ineq (ib_lp b), ib_node_rows b);
  ba_ncols : il_ncols (ib_lp b) = ncols;
  ba_upper : length (il_upper (ib_lp b)) = length (il_ineq (ib_lp b)) + length (il_eq (ib_lp b));
  ba_lanes : forall v, In v (il_upper (ib_lp b)) -> length v = 4;
  ba_zero : forall i, length (il_ineq (ib_lp b)) <= i -> forall l, nth l (nth i (il_upper (ib_lp b)) []) 0%Q = 0%Q;
  ba_obj : length (il_obj (ib_lp b)) = ncols }.

Lemma create_built b : ipm_create net = Ok b -> built_as b.
Proof.
  unfold ipm_create. destruct (net_edges net); [discriminate|]. destruct (balance_rows_exist net wf) as (eqs & Heq). rewrite Heq.
  destruct (add_upper_rows [] _) as [ineqs ids] eqn:E. intros H. injection H as <-. constructor; cbn [ib_lp il_eq il_ineq il_ncols il_upper il_obj ib_node_rows].
  - apply (balance_rows_Ok net eqs _ Heq).
  - exact E.
  - reflexivity.
  - rewrite repeat_length. lia.
  - intros v Hv. apply repeat_spec in Hv. subst v. reflexivity.
  - intros i Hi ln. destruct (nth_in_or_default i (repeat (splat 0) (length eqs + length ineqs)) []) as [Hin| ->].
    + apply repeat_spec in Hin. rewrite Hin. destruct ln as [|[|[|[|ln]]]]; try reflexivity. destruct ln; reflexivity.
    + destruct ln; reflexivity.
  - apply repeat_length.
Qed.
Lemma create_exists : net_edges net <> [] -> exists b, ipm_create net = Ok b.
Proof.
  intros He. unfold ipm_create. destruct (net_edges net); [congruence|]. destruct (balance_rows_exist net wf) as (eqs & ->).
  destruct (add_upper_rows [] _) as [ineqs ids]. eexists. reflexivity.
Qed.

Definition row_fine (r : list (nat * Q)) : Prop := StronglySorted lt (map fst r) /\ Forall (fun k => k < ncols) (map fst r) /\ r <> [].
Lemma keys_fine r es : sorted_cols r -> (forall k, In k (map fst r) <-> In k (map col es)) -> es <> [] -> (forall e, In e es -> e < length (net_edges net)) -> row_fine r.
Proof.
  intros Hs Hk Hne Hlt. split; [exact Hs|]. split.
  - apply Forall_forall. intros k Hin. apply Hk in Hin. apply in_map_iff in Hin. destruct Hin as (e & <- & He). apply (edge_column_exists net wf e (Hlt e He)).
  - intros ->. destruct es as [|e es]; [congruence|]. destruct (proj2 (Hk (col e)) (or_introl eq_refl)).
Qed.
Lemma bcols_fine i n : nth_error (net_nodes net) i = Some n -> n_type n = TLink -> row_fine (bcols net n).
Proof.
  intros Hn Ht. destruct (wf_nodes net wf i n Hn) as (Hi & Ho & Hd). rewrite Ht in Hd. destruct Hd as (Hd & _). apply keys_fine with (n_in n ++ n_out n).
  - unfold bcols. repeat apply add_edges_sorted. constructor.
  - intros k. unfold bcols. rewrite !add_edges_keys, map_app, in_app_iff. cbn. tauto.
  - destruct (n_in n); [congruence | discriminate].
  - intros e He. rewrite Hi, Ho in He. apply in_app_or in He. destruct He as [He|He]; [apply (in_edges_lt net _ _ He) | apply (out_edges_lt net _ _ He)].
Qed.
Lemma node_row_fine i n : storages_used net -> nth_error (net_nodes net) i = Some n -> row_fine (add_node col n 1 []).
Proof.
  intros Hu Hn. destruct (wf_nodes net wf i n Hn) as (Hi & Ho & Hd). apply keys_fine with (node_edges n).
  - apply add_node_sorted. constructor.
  - intros k. rewrite add_node_keys. cbn. tauto.
  - unfold node_edges. destruct (n_type n) eqn:Ht; cbn in Hd; try tauto. destruct (Hu i n Hn Ht) as [H|H]; destruct (n_in n); try discriminate; try congruence. cbn [app]. exact H.
  - intros e He. assert (He' : In e (n_in n ++ n_out n)) by (unfold node_edges in He; apply in_or_app; destruct (n_type n); auto; apply in_app_or, He).
    rewrite Hi, Ho in He'. apply in_app_or in He'. destruct He' as [H|H]; [apply (in_edges_lt net _ _ H) | apply (out_edges_lt net _ _ H)].
Qed.
Lemma negative_fine r : row_fine r -> row_fine (clone_negative r).
Proof.
  assert (E : map fst (clone_negative r) = map fst r) by (unfold clone_negative; rewrite map_map; reflexivity).
  intros (H1 & H2 & H3). unfold row_fine. rewrite E. split; [exact H1|]. split; [exact H2|]. destruct r; [congruence | discriminate].
Qed.
Lemma rows_fine b : storages_used net -> built_as b -> forall r, In r (full_matrix (ib_lp b)) -> row_fine r.
Proof.
  intros Hu Hb r Hr. apply in_app_or in Hr. destruct Hr as [Hr|Hr].
  - apply In_nth_error in Hr. destruct Hr as (i & Hi). destruct (add_upper_rows_spec _ _ _ _ (ba_ineq b Hb)) as (_ & _ & Hc).
    destruct (Hc i r Hi) as [H|(j & _ & Hj)]; [destruct i; discriminate|]. apply nth_error_In in Hj. apply in_flat_map in Hj. destruct Hj as (n & Hin & Hnr).
    apply In_nth_error in Hin. destruct Hin as (p & Hp). pose proof (node_row_fine p n Hu Hp) as Hf. unfold node_upper_rows in Hnr.
    destruct (n_type n); [destruct (n_max n); cbn in Hnr; [destruct Hnr as [<-|[]]; exact Hf | contradiction].. | destruct Hnr as [<-|[<-|[]]]; [exact Hf | apply negative_fine, Hf]].
  - rewrite (ba_eq b Hb) in Hr. apply in_map_iff in Hr. destruct Hr as (n & <- & Hin). apply filter_In in Hin. destruct Hin as (Hin & Hl). apply In_nth_error in Hin. destruct Hin as (p & Hp).
    apply (bcols_fine p n Hp). unfold has_row, is_link in Hl. destruct (n_type n); try discriminate. reflexivity.
Qed.
Lemma keys_real r : map fst (real_row r) = map fst r.
Proof. unfold real_row. rewrite map_map. reflexivity. Qed.
Lemma matrix_well_formed b : storages_used net -> built_as b -> well_formed ncols (real_matrix (ib_lp b)) /\ no_empty_row (real_matrix (ib_lp b)).
Proof.
  intros Hu Hb. split; intros row Hin; apply in_map_iff in Hin; destruct Hin as (r & <- & Hr); destruct (rows_fine b Hu Hb r Hr) as (H1 & H2 & H3).
  - rewrite keys_real. auto.
  - destruct r; [congruence | discriminate].
Qed.
Lemma dense_entry b i k : storages_used net -> built_as b -> k < ncols -> dense (real_matrix (ib_lp b)) i k = ivalue (nth i (full_matrix (ib_lp b)) []) (ind k).
Proof.
  intros Hu Hb Hk. destruct (matrix_well_formed b Hu Hb) as (Hwf & _). unfold ivalue.
  replace (real_row (nth i (full_matrix (ib_lp b)) [])) with (row_of (real_matrix (ib_lp b)) i) by (unfold row_of, real_matrix; change (@nil (nat * R)) with (real_row []); apply map_nth).
  rewrite (row_times _ _ Hwf). unfold times. rewrite (rsum_unique ncols k); [unfold ind; rewrite Nat.eqb_refl; lra | exact Hk|]. intros j Hj Hne. unfold ind. destruct (Nat.eqb_spec j k); [congruence | lra].
Qed.

Let rl := filter (fun p => has_row net (nth p (net_nodes net) d0)) (seq 0 (length (net_nodes net))).
Lemma posed b : anchored net -> storages_used net -> built_as b -> well_posed (real_matrix (ib_lp b)) (il_ncols (ib_lp b)) (length (il_ineq (ib_lp b))).
Proof.
  intros Ha Hu Hb. rewrite (ba_ncols b Hb). destruct (matrix_well_formed b Hu Hb) as (Hwf & Hne). split; [exact Hwf|]. split; [exact Hne|].
  assert (El : length (real_matrix (ib_lp b)) = length (il_ineq (ib_lp b)) + length (il_eq (ib_lp b))) by (unfold real_matrix, full_matrix; rewrite map_length, app_length; reflexivity).
  split; [lia|]. intros v Hz Hs.
  assert (Erl : il_eq (ib_lp b) = map (fun p => bcols net (nth p (net_nodes net) d0)) rl) by (rewrite (ba_eq b Hb), (filter_nth (has_row net) d0 (net_nodes net)), map_map; reflexivity).
  assert (Elen : length (il_eq (ib_lp b)) = length rl) by (rewrite Erl, map_length; reflexivity).
  set (w0 := length (il_ineq (ib_lp b))) in *.
  assert (Hv : forall j, j < length rl -> v (w0 + j) = 0%R).
  { apply (rows_independent net wf Ha rl) with (v := fun j => v (w0 + j)).
    - apply NoDup_filter, seq_NoDup.
    - intros p. unfold rl. rewrite filter_In, in_seq. split.
      + intros (Hp & Hr). exists (nth p (net_nodes net) d0). split; [apply nth_error_nth'; lia | exact Hr].
      + intros (n & Hn & Hr). pose proof (nth_error_Some_lt _ _ _ Hn). rewrite (nth_error_nth _ _ _ Hn). split; [lia | exact Hr].
    - intros k Hk. specialize (Hs k Hk). rewrite El, rsum_app in Hs. rewrite (rsum_0 w0) in Hs by (intros i Hi; rewrite (Hz i Hi); lra). rewrite Rplus_0_l in Hs.
      rewrite <- Hs, Elen. apply rsum_ext. intros j Hj. f_equal. rewrite (dense_entry b _ k Hu Hb Hk).
      unfold full_matrix. rewrite app_nth2 by (unfold w0; lia). replace (w0 + j - length (il_ineq (ib_lp b))) with j by (unfold w0; lia). rewrite Erl.
      assert (Hin : In (nth j rl 0) rl) by (apply nth_In, Hj). apply filter_In in Hin. destruct Hin as (Hin & _). apply in_seq in Hin.
      set (g := fun p => bcols net (nth p (net_nodes net) d0)). rewrite nth_indep with (l := map g rl) (d' := g 0) by (rewrite map_length; exact Hj). rewrite map_nth. unfold g.
      symmetry. apply (ivalue_bcols net wf). apply nth_error_nth'. lia. }
  intros i Hi. destruct (Nat.lt_ge_cases i w0) as [Hlt|Hge]; [apply Hz, Hlt|]. replace i with (w0 + (i - w0)) by lia. apply Hv. lia.
Qed.
End Posed.
