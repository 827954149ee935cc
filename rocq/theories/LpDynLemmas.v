(** Factors that change from time-step to time-step. *)
From Verif Require Import Base Calendar Network NetworkBuild NetworkSpec NetworkBuildLemmas Lp LpSpec
  LpColLemmas LpRowLemmas LpUpdateLemmas LpLemmas LpRelLemmas.
From Coq Require Import Sorting.Permutation.
Open Scope nat_scope.

Lemma last_val_all cvs k w v : In k (map fst cvs) -> (forall v', In (k, v') cvs -> v' = v) -> last_val cvs k w = v.
Proof.
  unfold last_val. revert w. induction cvs as [|[c v'] cvs IH]; intros w Hin Hall; [destruct Hin|]. cbn [fold_left].
  destruct (in_dec Nat.eq_dec k (map fst cvs)) as [Hk|Hk].
  - apply IH; [exact Hk|]. intros u Hu. apply Hall. right. exact Hu.
  - destruct Hin as [Hc|Hin]; [|contradiction]. cbn in Hc. subst c.
    assert (v' = v) by (apply Hall; left; reflexivity). subst v'.
    pose proof (last_val_notin cvs k (if k =? k then v else w) Hk) as H. unfold last_val in H.
    cbn [fst snd] in *. rewrite H, Nat.eqb_refl. reflexivity.
Qed.

Lemma setcs_value cvs cols (c : nat -> Q) x : (forall k, In k (map fst cols) -> In k (map fst cvs)) ->
  (forall k v, In (k, v) cvs -> v = c k) ->
  (row_value (setcs cvs cols) x == qsum (map (fun k => c k * x k)%Q (map fst cols)))%Q.
Proof.
  intros H1 H2. unfold row_value, setcs. rewrite !map_map. apply qsum_ext. intros [k w] Hk. cbn [fst snd].
  rewrite (last_val_all cvs k w (c k)); [reflexivity | apply H1; apply in_map_iff; exists (k, w); auto |].
  intros v' Hv'. apply H2. exact Hv'.
Qed.

Lemma qsum_perm l l' : Permutation l l' -> (qsum l == qsum l')%Q.
Proof. induction 1; rewrite ?qsum_cons; try lra. Qed.

Section Pairs.
Variable net : network.
Hypothesis wf : wf_network net.
Let col := col_for_edge net.

Lemma flow_edges_node i n : nth_error (net_nodes net) i = Some n -> node_edges n = flow_edges net i.
Proof.
  intros Hn. destruct (wf_nodes net wf i n Hn) as (Hi & Ho & _). unfold node_edges, flow_edges. rewrite Hn, <- Hi, <- Ho. destruct (n_type n); reflexivity.
Qed.
Lemma get_nodes_keys g ns c : get_nodes net g = Ok ns -> (In c (group_columns net g) <-> exists n, In n ns /\ In c (map col (node_edges n))).
Proof.
  intros H. apply rmap_Ok_Forall2 in H. unfold group_columns. rewrite in_flat_map. split.
  - intros (i & Hi & Hc). destruct (Forall2_In_l _ _ _ _ H Hi) as (n & Hn & Hin). cbn in Hin.
    destruct (nth_error (net_nodes net) i) as [n'|] eqn:E; [|discriminate]. injection Hin as ->. exists n. split; [exact Hn|].
    rewrite (flow_edges_node i n E). exact Hc.
  - intros (n & Hn & Hc). destruct (Forall2_In_r _ _ _ _ H Hn) as (i & Hi & Hin). cbn in Hin.
    destruct (nth_error (net_nodes net) i) as [n'|] eqn:E; [|discriminate]. injection Hin as ->. exists i. split; [exact Hi|].
    rewrite <- (flow_edges_node i n E). exact Hc.
Qed.
Lemma pair_row_keys p r c : pair_row net p r -> (In c (map fst (r_cols r)) <-> In c (group_columns net (cp_n0 p)) \/ In c (group_columns net (cp_n1 p))).
Proof.
  intros (f0 & f1 & ns0 & ns1 & _ & _ & H0 & H1 & ->). cbn [r_cols]. rewrite !add_nodes_keys, (get_nodes_keys _ _ _ H0), (get_nodes_keys _ _ _ H1).
  cbn [map In]. fold col. tauto.
Qed.
Lemma pair_row_nodup p r : pair_row net p r -> NoDup (map fst (r_cols r)).
Proof.
  intros (f0 & f1 & ns0 & ns1 & _ & _ & _ & _ & ->). cbn [r_cols]. apply sorted_NoDup. do 2 apply add_nodes_sorted. apply nil_sorted.
Qed.
Lemma column_lt g c : In c (group_columns net g) -> c < cm_ncols (edge_columns net).
Proof.
  unfold group_columns. intros H. apply in_flat_map in H. destruct H as (i & _ & H). apply in_map_iff in H. destruct H as (e & <- & He).
  apply (edge_column_exists net wf). unfold flow_edges in He. destruct (nth_error (net_nodes net) i) as [n|]; [|destruct He].
  destruct (n_type n); rewrite ?in_app_iff in He.
  - apply (out_edges_lt net i e He).
  - apply (in_edges_lt net i e He).
  - apply (out_edges_lt net i e He).
  - destruct He as [He|He]; [apply (in_edges_lt net i e He) | apply (out_edges_lt net i e He)].
Qed.

Lemma group_flow_cols g x : (forall i, In i g -> exists n, nth_error (net_nodes net) i = Some n /\ n_type n <> TStorage) ->
  (group_flow net (edge_flow net x) g == qsum (map x (group_columns net g)))%Q.
Proof.
  unfold group_flow, group_columns. induction g as [|i g IH]; intros H; cbn [map flat_map]; [reflexivity|].
  rewrite qsum_cons, map_app, qsum_app, IH by (intros j Hj; apply H; right; exact Hj).
  destruct (H i (or_introl eq_refl)) as (n & Hn & Ht). unfold node_flow, flow_edges, inflow, outflow, edge_flow. rewrite Hn.
  destruct (n_type n); try congruence; rewrite map_map; reflexivity.
Qed.

(** Where coefficient changes come from. *)
Definition pair_coef (q : factor_pair) (c : nat) (v : Q) : Prop :=
  exists f0 f1, fp_f0 q = Fin f0 /\ fp_f1 q = Fin f1 /\
    ((In c (group_columns net (fp_n0 q)) /\ v = f0) \/ (In c (group_columns net (fp_n1 q)) /\ v = f1)).

Lemma coef_ops_In r n f o : In o (coef_ops col r n f) <-> exists e, In e (node_edges n) /\ o = OCoef r (col e) f.
Proof.
  unfold coef_ops, node_edges. destruct (n_type n); rewrite ?in_app_iff, !in_map_iff.
  4: split; [intros [(e & <- & He)|(e & <- & He)]; exists e; rewrite in_app_iff; auto |
             intros (e & He & ->); rewrite in_app_iff in He; destruct He; [left|right]; exists e; auto].
  all: split; intros (e & H1 & H2); exists e; auto.
Qed.
Lemma pair_ops_In q r ops o : factor_pair_ops net q (Some r) = Ok ops ->
  (In o ops <-> o = OBound r (fp_rhs q) (fp_rhs q) \/ exists c v, pair_coef q c v /\ o = OCoef r c v) /\
  exists f0 f1, fp_f0 q = Fin f0 /\ fp_f1 q = Fin f1.
Proof.
  unfold factor_pair_ops. destruct (get_nodes net (fp_n0 q)) as [ns0| |] eqn:H0; try discriminate.
  destruct (get_nodes net (fp_n1 q)) as [ns1| |] eqn:H1; try discriminate.
  destruct (fp_f0 q) as [f0|] eqn:E0, (fp_f1 q) as [f1|] eqn:E1; try discriminate. intros H. injection H as <-.
  split; [|exists f0, f1; auto]. fold col. rewrite !in_app_iff, !in_flat_map. cbn [In]. split.
  - intros [(n & Hn & Ho)|[(n & Hn & Ho)|[<-|[]]]]; [right|right|left; reflexivity];
      apply coef_ops_In in Ho; destruct Ho as (e & He & ->); exists (col e); [exists f0 | exists f1]; (split; [|reflexivity]);
      exists f0, f1; (split; [exact E0|]); (split; [exact E1|]); [left | right]; (split; [|reflexivity]).
    + apply (get_nodes_keys _ _ _ H0). exists n. split; [exact Hn | apply in_map; exact He].
    + apply (get_nodes_keys _ _ _ H1). exists n. split; [exact Hn | apply in_map; exact He].
  - intros [-> | (c & v & (g0 & g1 & G0 & G1 & Hc) & ->)]; [right; right; left; reflexivity|]. rewrite E0 in G0. rewrite E1 in G1.
    injection G0 as <-. injection G1 as <-. destruct Hc as [[Hc ->]|[Hc ->]].
    + left. apply (get_nodes_keys _ _ _ H0) in Hc. destruct Hc as (n & Hn & Hc). exists n. split; [exact Hn|]. apply coef_ops_In.
      apply in_map_iff in Hc. destruct Hc as (e & <- & He). exists e. auto.
    + right; left. apply (get_nodes_keys _ _ _ H1) in Hc. destruct Hc as (n & Hn & Hc). exists n. split; [exact Hn|]. apply coef_ops_In.
      apply in_map_iff in Hc. destruct Hc as (e & <- & He). exists e. auto.
Qed.

(** A pair of aggregated node [fst fi] and the row it was given. *)
Definition has_pair (s : lp_state) (fi : nat * list (option nat)) (j : nat) (q : factor_pair) (ri : nat) : Prop :=
  exists a dps, nth_error (net_aggs net) (fst fi) = Some a /\ norm_factor_pairs (st_env s) a = Some (Ok dps) /\
    nth_error dps j = Some q /\ nth_error (snd fi) j = Some (Some ri) /\ length (snd fi) = length dps.

Lemma combine_nth_error {A B} (l : list A) (l' : list B) i a b : nth_error l i = Some a -> nth_error l' i = Some b ->
  nth_error (combine l l') i = Some (a, b).
Proof. revert l' i. induction l as [|x l IH]; intros [|y l'] [|i]; cbn; try discriminate; [congruence | apply IH]. Qed.
Lemma combine_nth_error_inv {A B} (l : list A) (l' : list B) i a b : nth_error (combine l l') i = Some (a, b) ->
  nth_error l i = Some a /\ nth_error l' i = Some b.
Proof. revert l' i. induction l as [|x l IH]; intros [|y l'] [|i]; cbn; try discriminate; [intros H; injection H; intros -> ->; auto | apply IH]. Qed.

Lemma agg_ops_In s fi ops o : factor_agg_ops net s fi = Ok ops ->
  (In o ops <-> exists j q ri, has_pair s fi j q ri /\
      (o = OBound ri (fp_rhs q) (fp_rhs q) \/ exists c v, pair_coef q c v /\ o = OCoef ri c v)) /\
  (forall j q ri, has_pair s fi j q ri -> exists f0 f1, fp_f0 q = Fin f0 /\ fp_f1 q = Fin f1).
Proof.
  unfold factor_agg_ops. destruct (nth_error (net_aggs net) (fst fi)) as [a|] eqn:Ea.
  2:{ intros H. injection H as <-. split; [split; [intros []|]|]; intros H; [destruct H as (j & q & ri & (a & dps & Ha & _) & _); congruence|].
      intros q ri (a & dps & Ha & _). congruence. }
  destruct (norm_factor_pairs (st_env s) a) as [[dps| |]|] eqn:Ed; try discriminate. destruct (length (snd fi) =? length dps) eqn:El; [|discriminate].
  apply Nat.eqb_eq in El. unfold ures. intros H. apply rbind_Ok in H. destruct H as (l & Hl & H). injection H as <-.
  apply rmap_Ok_Forall2 in Hl. split; [split|].
  - intros Hin. apply in_concat in Hin. destruct Hin as (os & Hos & Hin). destruct (In_nth_error _ _ Hos) as (j & Hj).
    assert (Hlt : j < length (combine dps (snd fi))) by (rewrite (Forall2_length' _ _ _ Hl); apply (nth_error_Some_lt _ _ _ Hj)).
    destruct (nth_error_lt_Some _ _ Hlt) as ([q ri] & Hq). pose proof (Forall2_nth_error _ _ _ j _ _ Hl Hq Hj) as Hop. cbn [fst snd] in Hop.
    apply combine_nth_error_inv in Hq. destruct Hq as [Hq Hr]. destruct ri as [ri|]; [|injection Hop as <-; destruct Hin].
    exists j, q, ri. split; [exists a, dps; auto|]. apply (proj1 (pair_ops_In _ _ _ o Hop)). exact Hin.
  - intros (j & q & ri & (a' & dps' & Ha & Hd & Hq & Hr & _) & Ho). rewrite Ea in Ha. injection Ha as <-. rewrite Ed in Hd. injection Hd as <-.
    pose proof (combine_nth_error _ _ _ _ _ Hq Hr) as Hc. assert (Hlt : j < length l) by (rewrite <- (Forall2_length' _ _ _ Hl); apply (nth_error_Some_lt _ _ _ Hc)).
    destruct (nth_error_lt_Some _ _ Hlt) as (os & Hj). pose proof (Forall2_nth_error _ _ _ j _ _ Hl Hc Hj) as Hop. cbn [fst snd] in Hop.
    apply in_concat. exists os. split; [apply (nth_error_In _ _ Hj)|]. apply (proj1 (pair_ops_In _ _ _ o Hop)). exact Ho.
  - intros j q ri (a' & dps' & Ha & Hd & Hq & Hr & _). rewrite Ea in Ha. injection Ha as <-. rewrite Ed in Hd. injection Hd as <-.
    pose proof (combine_nth_error _ _ _ _ _ Hq Hr) as Hc. assert (Hlt : j < length l) by (rewrite <- (Forall2_length' _ _ _ Hl); apply (nth_error_Some_lt _ _ _ Hc)).
    destruct (nth_error_lt_Some _ _ Hlt) as (os & Hj). pose proof (Forall2_nth_error _ _ _ j _ _ Hl Hc Hj) as Hop. cbn [fst snd] in Hop.
    apply (proj2 (pair_ops_In _ _ _ (OBound 0 0 0) Hop)).
Qed.

Lemma update_coef_origin b0 s ops ri c v : update_ops net b0 s = Ok ops ->
  (In (OCoef ri c v) ops -> (exists nr cb, In nr (bt_nodes b0) /\ nr_row nr = ri /\ (nr_type nr = RBinaryUpper cb \/ nr_type nr = RBinaryLower cb)) \/
     (exists fi j q, In fi (bt_factors b0) /\ has_pair s fi j q ri /\ pair_coef q c v)) /\
  (forall fi j q, In fi (bt_factors b0) -> has_pair s fi j q ri -> (pair_coef q c v -> In (OCoef ri c v) ops) /\
     In (OBound ri (fp_rhs q) (fp_rhs q)) ops /\ exists f0 f1, fp_f0 q = Fin f0 /\ fp_f1 q = Fin f1).
Proof.
  unfold update_ops, ures. intros H. apply rbind_Ok in H. destruct H as (fops & Hf & H). injection H as <-. apply rmap_Ok_Forall2 in Hf. split.
  - rewrite !in_app_iff. intros [Hin|[Hin|[Hin|Hin]]].
    + left. apply in_flat_map in Hin. destruct Hin as (nr & Hnr & Hin). unfold node_row_ops in Hin.
      destruct (nth_error (net_nodes net) (nr_node nr)) as [n|]; [|destruct Hin]. destruct (get_bounds s (nr_node nr) n);
        destruct (nr_type nr) as [|cb|cb] eqn:Et; destruct Hin as [Hin|[]]; try discriminate; injection Hin as <- _ _; exists nr, cb; auto.
    + right. apply in_concat in Hin. destruct Hin as (os & Hos & Hin). destruct (Forall2_In_r _ _ _ _ Hf Hos) as (fi & Hfi & Hop).
      destruct (proj1 (proj1 (agg_ops_In _ _ _ _ Hop)) Hin) as (j & q & ri' & Hp & [Ho|(c' & v' & Hpc & Ho)]); [discriminate|].
      injection Ho as <- <- <-. exists fi, j, q. auto.
    + exfalso. apply in_map_iff in Hin. destruct Hin as (z & Hz & _). discriminate.
    + exfalso. apply in_map_iff in Hin. destruct Hin as ([r [i vs]] & Hz & _). unfold vs_ops in Hz. destruct (vs_is_active _ _); [destruct (vs_available_missing s i vs)|]; discriminate.
  - intros fi j q Hfi Hp. destruct (Forall2_In_l _ _ _ _ Hf Hfi) as (os & Hos & Hop). cbn in Hop.
    assert (Hins : forall o, In o os -> In o (flat_map (node_row_ops net s) (bt_nodes b0) ++ concat fops ++
        map (agg_ops s) (combine (bt_aggs b0) (net_aggs net)) ++
        map (vs_ops (lp_fmax (bt_lp b0)) s) (combine (bt_vss b0) (combine (seq 0 (length (net_vss net))) (net_vss net))))).
    { intros o Ho. rewrite !in_app_iff. right; left. apply in_concat. exists os. auto. }
    split; [|split].
    + intros Hpc. apply Hins. apply (proj1 (agg_ops_In _ _ _ _ Hop)). exists j, q, ri. split; [exact Hp|]. right. exists c, v. auto.
    + apply Hins. apply (proj1 (agg_ops_In _ _ _ _ Hop)). exists j, q, ri. auto.
    + apply (proj2 (agg_ops_In _ _ _ (OBound 0 0 0) Hop) j q ri Hp).
Qed.
End Pairs.

(** The pairs prepared at set-up and those of a time-step. *)
Definition pair_agree (rhs_const : Prop) (p : const_pair) (q : factor_pair) : Prop :=
  cp_n0 p = fp_n0 q /\ cp_n1 p = fp_n1 q /\ (forall g, cp_f0 p = Some g -> fp_f0 q = g) /\ (forall g, cp_f1 p = Some g -> fp_f1 q = g) /\
  (rhs_const -> cp_rhs p = fp_rhs q).
Definition const_rhs (a : agg_node) : Prop :=
  match a_rel a with Some (RFactored (FCoefficients _ (Some (MDyn _)))) => False | _ => True end.

Lemma all_const_values e fs : forallb is_some (map metric_const fs) = true -> map oget (map metric_const fs) = map (metric_value e) fs.
Proof. induction fs as [|[q|k] fs IH]; cbn; intros H; [reflexivity | f_equal; apply IH; exact H | discriminate]. Qed.

Lemma Forall2_map_same {A B C} (P : B -> C -> Prop) (f : A -> B) (g : A -> C) l : (forall a, In a l -> P (f a) (g a)) -> Forall2 P (map f l) (map g l).
Proof. induction l as [|a l IH]; intros H; cbn; constructor; [apply H; left; reflexivity | apply IH; intros b Hb; apply H; right; exact Hb]. Qed.
Lemma combine_map_r {A B C} (f : B -> C) (l : list A) (l' : list B) : combine l (map f l') = map (fun ab => (fst ab, f (snd ab))) (combine l l').
Proof. revert l'. induction l as [|a l IH]; intros [|b l']; cbn; try reflexivity. f_equal. apply IH. Qed.
Lemma metric_const_value e m q : metric_const m = Some q -> metric_value e m = q.
Proof. destruct m; cbn; congruence. Qed.

Lemma pairs_agree e a ps dps : const_factor_pairs a = Some (Ok ps) -> norm_factor_pairs e a = Some (Ok dps) ->
  Forall2 (pair_agree (const_rhs a)) ps dps.
Proof.
  unfold const_factor_pairs, norm_factor_pairs, const_rhs. destruct (a_rel a) as [[[fs|fs|fs rhs]|]|]; try discriminate; intros H H'; injection H as H; injection H' as H'.
  - unfold proportion_pairs in H'. unfold const_proportion_pairs in H. destruct (a_nodes a) as [|n0 rest]; [discriminate|].
    destruct (length fs =? length rest); [|discriminate]. cbn [negb] in H, H'.
    destruct (existsb _ (map (metric_value e) fs)); [discriminate|]. destruct (existsb oneg _); [discriminate|].
    destruct (Qle_bool 1 (qsum (map (metric_value e) fs))) eqn:Et; [discriminate|]. injection H' as <-.
    destruct (forallb is_some (map metric_const fs)) eqn:Eall; cbn [negb] in H.
    + rewrite (all_const_values e _ Eall) in H. rewrite Et in H. injection H as <-. rewrite !combine_map_r, !map_map. apply Forall2_map_same.
      intros [n1 m] Hin. apply in_combine_r in Hin. cbn [fst snd]. unfold pair_agree. cbn.
      assert (Hc : exists q, metric_const m = Some q).
      { rewrite forallb_forall in Eall. specialize (Eall (metric_const m) (in_map _ _ _ Hin)). destruct (metric_const m); [eauto | discriminate]. }
      destruct Hc as (q & Hq). rewrite Hq, (metric_const_value e m q Hq). repeat split; intros g Hg; injection Hg as <-; reflexivity.
    + injection H as <-. rewrite !combine_map_r, !map_map. apply Forall2_map_same. intros [n1 m] _. cbn [fst snd]. unfold pair_agree. cbn.
      repeat split; intros g Hg; [injection Hg as <-; reflexivity | discriminate].
  - unfold ratio_pairs in H'. unfold const_ratio_pairs in H. destruct (length fs =? length (a_nodes a)); [|discriminate]. cbn [negb] in H, H'.
    destruct (a_nodes a) as [|n0 rest], fs as [|m0 mrest]; try discriminate. destruct (negb _); [discriminate|]. destruct (oneg (metric_const m0)); [discriminate|].
    injection H' as <-. apply rmap_Ok_Forall2 in H. clear - H. revert mrest ps H. induction rest as [|g rest IH]; intros [|m mrest] ps H; cbn in H |- *;
      inversion H as [|? p ? ps' Hp Hr]; subst; constructor.
    + cbn in Hp. destruct (oneg (metric_const m)); [discriminate|]. injection Hp as <-. unfold pair_agree. cbn. repeat split; intros h Hh; [injection Hh as <-; reflexivity|].
      destruct (metric_const m) as [q|] eqn:E1; [|discriminate]. destruct (metric_const m0) as [q0|] eqn:E0; [|discriminate].
      rewrite (metric_const_value e _ _ E1), (metric_const_value e _ _ E0). congruence.
    + apply IH. exact Hr.
  - unfold coefficient_pairs in H'. unfold const_coefficient_pairs in H. destruct (length fs =? length (a_nodes a)); [|discriminate]. cbn [negb] in H, H'.
    destruct (a_nodes a) as [|n0 [|n1 [|? ?]]], fs as [|m0 [|m1 [|? ?]]]; try discriminate. injection H as <-. injection H' as <-.
    constructor; [|constructor]. unfold pair_agree. cbn. split; [reflexivity|]. split; [reflexivity|]. split; [|split].
    + intros g. destruct (metric_const m0) eqn:E; [|discriminate]. intros Hg. injection Hg as <-. rewrite (metric_const_value e _ _ E). reflexivity.
    + intros g. destruct (metric_const m1) eqn:E; [|discriminate]. intros Hg. injection Hg as <-. rewrite (metric_const_value e _ _ E). reflexivity.
    + destruct rhs as [[q|k]|]; intros Hr; [reflexivity | destruct Hr | reflexivity].
Qed.

Lemma dps_groups e a dps j q : norm_factor_pairs e a = Some (Ok dps) -> nth_error dps j = Some q ->
  nth_error (a_nodes a) 0 = Some (fp_n0 q) /\ nth_error (a_nodes a) (S j) = Some (fp_n1 q).
Proof.
  unfold norm_factor_pairs. destruct (a_rel a) as [[[fs|fs|fs rhs]|]|]; try discriminate; intros H Hq; injection H as H.
  - unfold proportion_pairs in H. destruct (a_nodes a) as [|n0 rest]; [discriminate|]. destruct (negb _); [discriminate|].
    destruct (existsb _ _); [discriminate|]. destruct (Qle_bool 1 _); [discriminate|]. injection H as <-.
    rewrite nth_error_map in Hq. destruct (nth_error (combine rest _) j) as [[n1 v]|] eqn:E; [|discriminate]. injection Hq as <-.
    apply combine_nth_error_inv in E. cbn. split; [reflexivity | apply E].
  - unfold ratio_pairs in H. destruct (negb _); [discriminate|]. destruct (a_nodes a) as [|n0 rest], fs as [|m0 mrest]; try discriminate.
    destruct (negb _); [discriminate|]. injection H as <-. rewrite nth_error_map in Hq. destruct (nth_error (combine rest _) j) as [[n1 v]|] eqn:E; [|discriminate].
    injection Hq as <-. apply combine_nth_error_inv in E. cbn. split; [reflexivity | apply E].
  - unfold coefficient_pairs in H. destruct (negb _); [discriminate|]. destruct (a_nodes a) as [|n0 [|n1 [|? ?]]], fs as [|m0 [|m1 [|? ?]]]; try discriminate.
    injection H as <-. destruct j as [|[|j]]; cbn in Hq; try discriminate. injection Hq as <-. cbn. auto.
Qed.

Lemma NoDup_app_l {A} (l l' : list A) : NoDup (l ++ l') -> NoDup l.
Proof. induction l as [|a l IH]; cbn; intros H; [constructor|]. inversion H as [|? ? Ha Hl]; subst. constructor; [|apply IH; exact Hl]. intros Hin. apply Ha, in_app_iff. auto. Qed.
Lemma NoDup_app_r {A} (l l' : list A) : NoDup (l ++ l') -> NoDup l'.
Proof. induction l as [|a l IH]; cbn; intros H; [exact H|]. inversion H; subst. apply IH. assumption. Qed.
Lemma NoDup_app_disj {A} (l l' : list A) a : NoDup (l ++ l') -> In a l -> ~ In a l'.
Proof.
  induction l as [|b l IH]; cbn; intros H Hin; [destruct Hin|]. inversion H as [|? ? Hb Hl]; subst.
  destruct Hin as [<-|Hin]; [|apply IH; assumption]. intros Hin. apply Hb, in_app_iff. auto.
Qed.
Lemma NoDup_app_intro {A} (l l' : list A) : NoDup l -> NoDup l' -> (forall a, In a l -> ~ In a l') -> NoDup (l ++ l').
Proof.
  induction l as [|a l IH]; cbn; intros H H' Hd; [exact H'|]. inversion H as [|? ? Ha Hl]; subst. constructor.
  - rewrite in_app_iff. intros [Hin|Hin]; [contradiction | apply (Hd a (or_introl eq_refl) Hin)].
  - apply IH; [exact Hl | exact H' | intros b Hb; apply Hd; right; exact Hb].
Qed.

Lemma group_columns_app net g h : group_columns net (g ++ h) = group_columns net g ++ group_columns net h.
Proof. unfold group_columns. apply flat_map_app. Qed.
Lemma group_columns_concat net gs c : In c (group_columns net (concat gs)) <-> exists g, In g gs /\ In c (group_columns net g).
Proof.
  induction gs as [|g gs IH]; cbn [concat]; [split; [intros [] | intros (g & [] & _)]|]. rewrite group_columns_app, in_app_iff, IH. split.
  - intros [H|(h & Hh & H)]; [exists g; split; [left; reflexivity | exact H] | exists h; split; [right; exact Hh | exact H]].
  - intros (h & [<-|Hh] & H); [left; exact H | right; exists h; auto].
Qed.
Lemma groups_nodup net gs i g : NoDup (group_columns net (concat gs)) -> nth_error gs i = Some g -> NoDup (group_columns net g).
Proof.
  revert i. induction gs as [|h gs IH]; intros [|i] Hnd Hi; cbn in Hi; try discriminate; cbn [concat] in Hnd; rewrite group_columns_app in Hnd.
  - injection Hi as ->. apply (NoDup_app_l _ _ Hnd).
  - apply (IH i (NoDup_app_r _ _ Hnd) Hi).
Qed.
Lemma groups_disjoint net gs : forall i j g h c, NoDup (group_columns net (concat gs)) -> i <> j -> nth_error gs i = Some g -> nth_error gs j = Some h ->
  In c (group_columns net g) -> ~ In c (group_columns net h).
Proof.
  induction gs as [|k gs IH]; intros [|i] [|j] g h c Hnd Hij Hi Hj Hc; cbn in Hi, Hj; try discriminate; cbn [concat] in Hnd; rewrite group_columns_app in Hnd.
  - congruence.
  - injection Hi as ->. intros Hh. apply (NoDup_app_disj _ _ c Hnd Hc). apply group_columns_concat. exists h. split; [apply (nth_error_In _ _ Hj) | exact Hh].
  - injection Hj as ->. intros Hh. apply (NoDup_app_disj _ _ c Hnd Hh). apply group_columns_concat. exists g. split; [apply (nth_error_In _ _ Hi) | exact Hc].
  - apply (IH i j g h c (NoDup_app_r _ _ Hnd)); [lia | exact Hi | exact Hj | exact Hc].
Qed.

Section Dynamic.
Variable net : network.
Hypothesis wf : wf_network net.
Variable fm : Q.
Variable order : list (list nat).
Variable b0 : built.
Variables V F : list row.
Hypothesis Hcr : created net fm order b0 V F.
Variable s : lp_state.
Variable b : built.
Hypothesis Hup : update net b0 s = Ok b.
Variable x : nat -> Q.
Hypothesis Hfe : feasible (bt_lp b) x.
Let f := edge_flow net x.

Lemma node_in_range a g i : In a (net_aggs net) -> In g (a_nodes a) -> In i g -> exists n, nth_error (net_nodes net) i = Some n.
Proof. intros Ha Hg Hi. apply nth_error_lt_Some, (wf_aggs net wf a g i Ha Hg Hi). Qed.

Lemma columns_nonempty a g : In a (net_aggs net) -> In g (a_nodes a) -> g <> [] ->
  (forall i n, In i g -> nth_error (net_nodes net) i = Some n -> n_type n <> TStorage) -> exists c, In c (group_columns net g).
Proof.
  intros Ha Hg Hne Hst. destruct g as [|i g]; [congruence|]. destruct (node_in_range a _ i Ha Hg (or_introl eq_refl)) as (n & Hn).
  specialize (Hst i n (or_introl eq_refl) Hn). destruct (wf_nodes net wf i n Hn) as (Hi & Ho & Hd). unfold group_columns. cbn [flat_map].
  assert (He : exists e, In e (flow_edges net i)).
  { unfold flow_edges. rewrite Hn, <- Hi, <- Ho. destruct (n_type n); cbn in Hd; try congruence.
    - destruct (n_out n) as [|e l]; [destruct Hd; congruence | exists e; left; reflexivity].
    - destruct (n_in n) as [|e l]; [destruct Hd; congruence | exists e; left; reflexivity].
    - destruct (n_out n) as [|e l]; [destruct Hd; congruence | exists e; left; reflexivity]. }
  destruct He as (e & He). exists (col_for_edge net e). apply in_app_iff. left. apply in_map. exact He.
Qed.

Lemma row_keys_range p r c : pair_row net p r -> In c (map fst (r_cols r)) -> c < cm_ncols (edge_columns net).
Proof. intros Hp Hc. apply (pair_row_keys net wf p r c Hp) in Hc. destruct Hc as [Hc|Hc]; apply (column_lt net wf _ _ Hc). Qed.

Lemma dynamic_pair_holds k a is ps dps j p q ri : nth_error (net_aggs net) k = Some a -> factors_separate net k a ->
  In (k, is) (bt_factors b0) -> const_factor_pairs a = Some (Ok ps) -> norm_factor_pairs (st_env s) a = Some (Ok dps) ->
  nth_error ps j = Some p -> nth_error dps j = Some q -> nth_error is j = Some (Some ri) ->
  exists f0 f1, fp_f0 q = Fin f0 /\ fp_f1 q = Fin f1 /\
    (f0 * group_flow net f (fp_n0 q) + f1 * group_flow net f (fp_n1 q) == fp_rhs q)%Q.
Proof.
  intros Ha Hsep Hin Hc Hd Hp Hq Hri. pose proof (nth_error_In _ _ Ha) as HaIn.
  destruct (solved_facts net fm order b0 V F Hcr s b Hup x Hfe) as (ops & Ho & _ & _ & HV).
  destruct (cr_factors _ _ _ _ _ _ Hcr _ Hin) as (a' & ps' & Ha' & Hc' & Hids). cbn [fst snd] in Ha', Hids. rewrite Ha in Ha'. injection Ha' as <-.
  rewrite Hc in Hc'. injection Hc' as <-.
  pose proof (pairs_agree _ _ _ _ Hc Hd) as Hag.
  assert (Hlen : length is = length dps) by (rewrite <- (Forall2_length' _ _ _ Hids); apply (Forall2_length' _ _ _ Hag)).
  assert (Hpair : has_pair net s (k, is) j q ri) by (exists a, dps; auto).
  destruct (proj2 (update_coef_origin net wf b0 s ops ri 0 0 Ho) _ _ _ Hin Hpair) as (_ & Hob & f0 & f1 & Hf0 & Hf1).
  exists f0, f1. split; [exact Hf0|]. split; [exact Hf1|].
  pose proof (Forall2_nth_error _ _ _ j _ _ Hids Hp Hri) as Hid. cbn in Hid. destruct Hid as (_ & r & Hr & r' & Hr' & Heq).
  pose proof (Forall2_nth_error _ _ _ j _ _ Hag Hp Hq) as (Hn0 & Hn1 & _).
  destruct (dps_groups _ _ _ _ _ Hd Hq) as (Hg0 & Hg1).
  assert (Hdisj : forall c, In c (group_columns net (fp_n0 q)) -> ~ In c (group_columns net (fp_n1 q))).
  { intros c. apply (groups_disjoint net (a_nodes a) 0 (S j) (fp_n0 q) (fp_n1 q) c (fs_distinct _ _ _ Hsep)); [lia | exact Hg0 | exact Hg1]. }
  assert (Hst : forall g i n, In g (a_nodes a) -> In i g -> nth_error (net_nodes net) i = Some n -> n_type n <> TStorage).
  { intros g i n Hg Hi. apply (fs_no_storage _ _ _ Hsep). apply in_concat. exists g. auto. }
  set (co := fun c => if in_dec Nat.eq_dec c (group_columns net (fp_n0 q)) then f0 else f1).
  assert (Hkeys : forall c, In c (map fst (r_cols r')) <-> In c (group_columns net (fp_n0 q)) \/ In c (group_columns net (fp_n1 q))).
  { intros c. rewrite (row_eqb_keys _ _ Heq), (pair_row_keys net wf p r c Hr), Hn0, Hn1. reflexivity. }
  assert (Hcoefs : forall c v, In (OCoef ri c v) ops -> v = co c).
  { intros c v Hop. assert (Hpc : pair_coef net q c v).
    - destruct (proj1 (update_coef_origin net wf b0 s ops ri c v Ho) Hop) as [(nr & cb & Hnr & Hrow & Hty)|(fi' & j' & q' & Hfi' & Hp' & Hpc)].
      + exfalso. destruct (cr_nodes _ _ _ _ _ _ Hcr nr Hnr) as (n & Hn & (_ & _ & Hb) & (r2 & Hr2 & Heq2)). rewrite Hrow, Hr' in Hr2. injection Hr2 as <-.
        assert (Hcb : In cb (node_bin_cols (cm_ncols (edge_columns net)) order (nr_node nr))) by (destruct Hty as [Hty|Hty]; rewrite Hty in Hb; exact Hb).
        destruct (node_bin_cols_ge _ _ _ _ Hcb) as (kk & _ & Hge & _).
        assert (Hkb : In cb (map fst (r_cols r'))).
        { rewrite (row_eqb_keys _ _ Heq2). destruct Hty as [Hty|Hty]; rewrite Hty; cbn [expected_node_row r_cols]; unfold bin_upper_cols, bin_lower_cols; apply add_element_keys; left; reflexivity. }
        rewrite (row_eqb_keys _ _ Heq) in Hkb. pose proof (row_keys_range p r cb Hr Hkb). lia.
      + destruct Hp' as (a2 & dps2 & Ha2 & Hd2 & Hq2 & Hri2 & Hlen2).
        destruct (cr_factors _ _ _ _ _ _ Hcr _ Hfi') as (a3 & ps3 & Ha3 & Hc3 & Hids3). rewrite Ha2 in Ha3. injection Ha3 as <-.
        pose proof (pairs_agree _ _ _ _ Hc3 Hd2) as Hag2.
        assert (Hlt : j' < length ps3) by (rewrite (Forall2_length' _ _ _ Hag2); apply (nth_error_Some_lt _ _ _ Hq2)).
        destruct (nth_error_lt_Some _ _ Hlt) as (p3 & Hp3).
        pose proof (Forall2_nth_error _ _ _ j' _ _ Hids3 Hp3 Hri2) as Hid3. cbn in Hid3. destruct Hid3 as (_ & r3 & Hr3 & r3' & Hr3' & Heq3).
        rewrite Hr' in Hr3'. injection Hr3' as <-.
        pose proof (Forall2_nth_error _ _ _ j' _ _ Hag2 Hp3 Hq2) as (Hm0 & Hm1 & _).
        assert (Hkeys3 : forall c, In c (map fst (r_cols r')) <-> In c (group_columns net (fp_n0 q')) \/ In c (group_columns net (fp_n1 q'))).
        { intros d. rewrite (row_eqb_keys _ _ Heq3), (pair_row_keys net wf p3 r3 d Hr3), Hm0, Hm1. reflexivity. }
        destruct (dps_groups _ _ _ _ _ Hd2 Hq2) as (Hh0 & Hh1).
        destruct (Nat.eq_dec (fst fi') k) as [Hk|Hk].
        * rewrite Hk, Ha in Ha2. injection Ha2 as <-. rewrite Hd in Hd2. injection Hd2 as <-.
          destruct (Nat.eq_dec j' j) as [->|Hj]; [rewrite Hq in Hq2; injection Hq2 as <-; exact Hpc|]. exfalso.
          destruct (columns_nonempty a (fp_n1 q') HaIn (nth_error_In _ _ Hh1) (fs_nonempty _ _ _ Hsep _ (nth_error_In _ _ Hh1))
                      (fun i n => Hst _ i n (nth_error_In _ _ Hh1))) as (d & Hdd).
          assert (Hd' : In d (map fst (r_cols r'))) by (apply Hkeys3; right; exact Hdd). apply Hkeys in Hd'. destruct Hd' as [Hd'|Hd'].
          -- revert Hd'. apply (groups_disjoint net (a_nodes a) (S j') 0 (fp_n1 q') (fp_n0 q) d (fs_distinct _ _ _ Hsep)); [lia | exact Hh1 | exact Hg0 | exact Hdd].
          -- revert Hd'. apply (groups_disjoint net (a_nodes a) (S j') (S j) (fp_n1 q') (fp_n1 q) d (fs_distinct _ _ _ Hsep)); [lia | exact Hh1 | exact Hg1 | exact Hdd].
        * exfalso. assert (Hrel : exists fs, a_rel a2 = Some (RFactored fs)).
          { unfold norm_factor_pairs in Hd2. destruct (a_rel a2) as [[fs|]|]; [eauto | discriminate | discriminate]. }
          destruct Hrel as (fs & Hrel).
          destruct (columns_nonempty a (fp_n0 q) HaIn (nth_error_In _ _ Hg0) (fs_nonempty _ _ _ Hsep _ (nth_error_In _ _ Hg0))
                      (fun i n => Hst _ i n (nth_error_In _ _ Hg0))) as (d & Hdd).
          apply (fs_others _ _ _ Hsep (fst fi') a2 fs Hk Ha2 Hrel d).
          -- apply group_columns_concat. exists (fp_n0 q). split; [apply (nth_error_In _ _ Hg0) | exact Hdd].
          -- assert (Hd' : In d (map fst (r_cols r'))) by (apply Hkeys; left; exact Hdd). apply Hkeys3 in Hd'. apply group_columns_concat.
             destruct Hd' as [Hd'|Hd']; [exists (fp_n0 q') | exists (fp_n1 q')]; (split; [|exact Hd']); [apply (nth_error_In _ _ Hh0) | apply (nth_error_In _ _ Hh1)].
    - destruct Hpc as (g0 & g1 & G0 & G1 & Hcv). rewrite Hf0 in G0. rewrite Hf1 in G1. injection G0 as <-. injection G1 as <-. unfold co.
      destruct (in_dec Nat.eq_dec c (group_columns net (fp_n0 q))) as [Hi|Hi]; destruct Hcv as [[Hcc ->]|[Hcc ->]]; try reflexivity; [exfalso; exact (Hdisj c Hi Hcc) | contradiction]. }
  destruct (HV ri r' Hr') as [_ Hb]. specialize (Hb _ _ Hob).
  rewrite (setcs_value (coefs_at ri ops) (r_cols r') co x) in Hb.
  2:{ intros c Hkc. apply Hkeys in Hkc. apply in_map_iff. exists (c, co c). split; [reflexivity|]. apply coefs_at_In.
      apply (proj1 (proj2 (update_coef_origin net wf b0 s ops ri c (co c) Ho) _ _ _ Hin Hpair)). exists f0, f1. split; [exact Hf0|]. split; [exact Hf1|].
      unfold co. destruct (in_dec Nat.eq_dec c (group_columns net (fp_n0 q))) as [Hi|Hi]; [left; auto | right; tauto]. }
  2:{ intros c v Hcv. apply coefs_at_In in Hcv. apply Hcoefs. exact Hcv. }
  assert (Hperm : Permutation (map fst (r_cols r')) (group_columns net (fp_n0 q) ++ group_columns net (fp_n1 q))).
  { apply NoDup_Permutation.
    - rewrite (row_eqb_keys _ _ Heq). apply (pair_row_nodup net p r Hr).
    - apply NoDup_app_intro; [apply (groups_nodup net (a_nodes a) 0 _ (fs_distinct _ _ _ Hsep) Hg0) | apply (groups_nodup net (a_nodes a) (S j) _ (fs_distinct _ _ _ Hsep) Hg1) | exact Hdisj].
    - intros c. rewrite Hkeys, in_app_iff. reflexivity. }
  pose proof (qsum_perm _ _ (Permutation_map (fun c => co c * x c)%Q Hperm)) as Hsum. rewrite map_app, qsum_app in Hsum.
  assert (Hnn : forall g, In g (a_nodes a) -> forall i, In i g -> exists n, nth_error (net_nodes net) i = Some n /\ n_type n <> TStorage).
  { intros g Hg i Hi. destruct (node_in_range a g i HaIn Hg Hi) as (n & Hn). exists n. split; [exact Hn | exact (Hst g i n Hg Hi Hn)]. }
  unfold f. rewrite (group_flow_cols net _ x (Hnn _ (nth_error_In _ _ Hg0))), (group_flow_cols net _ x (Hnn _ (nth_error_In _ _ Hg1))).
  assert (E0 : (qsum (map (fun c => co c * x c)%Q (group_columns net (fp_n0 q))) == f0 * qsum (map x (group_columns net (fp_n0 q))))%Q).
  { rewrite <- qsum_scale, ?map_map. apply qsum_ext. intros c Hcc. unfold co. destruct (in_dec _ _ _); [reflexivity | contradiction]. }
  assert (E1 : (qsum (map (fun c => co c * x c)%Q (group_columns net (fp_n1 q))) == f1 * qsum (map x (group_columns net (fp_n1 q))))%Q).
  { rewrite <- qsum_scale, ?map_map. apply qsum_ext. intros c Hcc. unfold co. destruct (in_dec _ _ _) as [Hi|Hi]; [exfalso; exact (Hdisj c Hi Hcc) | reflexivity]. }
  rewrite E0, E1 in Hsum. rewrite Hsum in Hb. lra.
Qed.
End Dynamic.

Lemma prop_pairs_dyn (G : list nat -> Q) c (n0 : list nat) : forall rest vs, length rest = length vs ->
  (forall n1 v, In (n1, v) (combine rest vs) -> exists f1, fdiv (- c) v = Fin f1 /\ (G n0 + f1 * G n1 == 0)%Q) ->
  Forall2 (fun g v => (G g * c == v * G n0)%Q) rest vs.
Proof.
  induction rest as [|g rest IH]; intros [|v vs] Hl Hcp; try discriminate; [constructor|]. constructor.
  - destruct (Hcp _ _ (or_introl eq_refl)) as (f1 & H1 & H2). unfold fdiv in H1. destruct (Qeq_bool v 0) eqn:Ev; [discriminate|].
    apply Qeq_bool_neq in Ev. injection H1 as <-.
    assert (H3 : (v * (G n0 + - c / v * G g) == 0)%Q) by (rewrite H2; lra).
    assert (H4 : (v * (G n0 + - c / v * G g) == v * G n0 - c * G g)%Q) by (field; exact Ev).
    lra.
  - apply IH; [cbn in Hl; lia|]. intros n1 v1 Hp. apply Hcp. right. exact Hp.
Qed.
Lemma metric_const_oneg e m : (0 <= metric_value e m)%Q -> oneg (metric_const m) = false.
Proof. destruct m as [q|k]; cbn; intros H; [|reflexivity]. apply Qle_bool_iff in H. rewrite H. reflexivity. Qed.
Lemma metrics_not_neg e fs : Forall (fun m => 0 <= metric_value e m)%Q fs ->
  existsb oneg (map metric_const fs) = false /\ existsb (fun v => negb (Qle_bool 0 v)) (map (metric_value e) fs) = false.
Proof.
  induction 1 as [|m fs Hm H [IH1 IH2]]; [split; reflexivity|]. cbn [map existsb]. rewrite IH1, IH2, (metric_const_oneg e m Hm).
  apply Qle_bool_iff in Hm. rewrite Hm. split; reflexivity.
Qed.

Section Solved.
Variable net : network.
Hypothesis wf : wf_network net.
Variable fm : Q.
Variable order : list (list nat).
Variable b0 : built.
Variables V F : list row.
Hypothesis Hcr : created net fm order b0 V F.
Variable s : lp_state.
Variable b : built.
Hypothesis Hup : update net b0 s = Ok b.
Variable x : nat -> Q.
Hypothesis Hfe : feasible (bt_lp b) x.
Let f := edge_flow net x.

Lemma all_pairs_hold k a ps dps : nth_error (net_aggs net) k = Some a -> factors_separate net k a ->
  const_factor_pairs a = Some (Ok ps) -> norm_factor_pairs (st_env s) a = Some (Ok dps) ->
  (forall p, In p ps -> pair_const p = true -> const_rhs a) -> forall q, In q dps ->
  exists f0 f1, fp_f0 q = Fin f0 /\ fp_f1 q = Fin f1 /\
    (f0 * group_flow net f (fp_n0 q) + f1 * group_flow net f (fp_n1 q) == fp_rhs q)%Q.
Proof.
  intros Ha Hsep Hc Hd Hrhs q Hq. destruct (In_nth_error _ _ Hq) as (j & Hj).
  pose proof (pairs_agree _ _ _ _ Hc Hd) as Hag.
  assert (Hlt : j < length ps) by (rewrite (Forall2_length' _ _ _ Hag); apply (nth_error_Some_lt _ _ _ Hj)).
  destruct (nth_error_lt_Some _ _ Hlt) as (p & Hp). pose proof (Forall2_nth_error _ _ _ j _ _ Hag Hp Hj) as (Hn0 & Hn1 & H0 & H1 & Hr).
  destruct (cr_factors_all _ _ _ _ _ _ Hcr k a ps Ha Hc) as ((is & His) & _).
  destruct (cr_factors _ _ _ _ _ _ Hcr _ His) as (a' & ps' & Ha' & Hc' & Hids). cbn [fst snd] in Ha', Hids. rewrite Ha in Ha'. injection Ha' as <-.
  rewrite Hc in Hc'. injection Hc' as <-. assert (Hlt' : j < length is) by (rewrite <- (Forall2_length' _ _ _ Hids); exact Hlt).
  destruct (nth_error_lt_Some _ _ Hlt') as ([ri|] & Hri).
  - exact (dynamic_pair_holds net wf fm order b0 V F Hcr s b Hup x Hfe k a is ps dps j p q ri Ha Hsep His Hc Hd Hp Hj Hri).
  - pose proof (Forall2_nth_error _ _ _ j _ _ Hids Hp Hri) as Hpc. cbn in Hpc.
    destruct (const_pair_holds net wf fm order b0 V F Hcr s b Hup x Hfe a ps p (nth_error_In _ _ Ha) Hc (nth_error_In _ _ Hp) Hpc) as (f0 & f1 & E0 & E1 & E).
    exists f0, f1. split; [apply H0; exact E0|]. split; [apply H1; exact E1|]. rewrite <- Hn0, <- Hn1, <- Hr; [exact E|].
    apply (Hrhs p (nth_error_In _ _ Hp) Hpc).
Qed.

Lemma dyn_proportions k a fs : nth_error (net_aggs net) k = Some a -> factors_separate net k a ->
  a_rel a = Some (RFactored (FProportion fs)) -> S (length fs) = length (a_nodes a) ->
  Forall (fun m => 0 <= metric_value (st_env s) m)%Q fs -> (qsum (map (metric_value (st_env s)) fs) < 1)%Q ->
  proportions_hold net f (a_nodes a) (map (metric_value (st_env s)) fs).
Proof.
  intros Ha Hsep Hr Hl Hpos Hsum. destruct (metrics_not_neg _ _ Hpos) as [Hn1 Hn2]. set (vs := map (metric_value (st_env s)) fs) in *.
  assert (Hlt : Qle_bool 1 (qsum vs) = false) by (destruct (Qle_bool 1 (qsum vs)) eqn:E; [apply Qle_bool_iff in E; exfalso; lra | reflexivity]).
  destruct (a_nodes a) as [|n0 rest] eqn:En; [discriminate|]. cbn [length] in Hl. injection Hl as Hl.
  assert (Hc : exists ps, const_factor_pairs a = Some (Ok ps)).
  { unfold const_factor_pairs. rewrite Hr, En. unfold const_proportion_pairs. rewrite Hl, Nat.eqb_refl, Hn1. cbn [negb].
    destruct (forallb is_some (map metric_const fs)) eqn:Eall; cbn [negb]; [|eauto]. rewrite (all_const_values (st_env s) _ Eall). fold vs. rewrite Hlt. eauto. }
  destruct Hc as (ps & Hc). set (f0 := (1 - qsum vs)%Q).
  assert (Hd : norm_factor_pairs (st_env s) a = Some (Ok (map (fun n1v => mkFp n0 (Fin 1) (fst n1v) (fdiv (- f0) (snd n1v)) 0) (combine rest vs)))).
  { unfold norm_factor_pairs. rewrite Hr, En. unfold proportion_pairs. rewrite Hl, Nat.eqb_refl. cbn [negb]. fold vs. rewrite Hn2, Hlt. reflexivity. }
  assert (Heach : Forall2 (fun g v => (group_flow net f g * f0 == v * group_flow net f n0)%Q) rest vs).
  { apply (prop_pairs_dyn (group_flow net f)); [unfold vs; rewrite map_length; lia|]. intros n1 v Hin.
    destruct (all_pairs_hold k a ps _ Ha Hsep Hc Hd) with (q := mkFp n0 (Fin 1) n1 (fdiv (- f0) v) 0) as (g0 & g1 & G0 & G1 & H).
    - intros _ _ _. unfold const_rhs. rewrite Hr. exact I.
    - apply in_map_iff. exists (n1, v). auto.
    - cbn [fp_f0 fp_f1 fp_n0 fp_n1 fp_rhs] in G0, G1, H. injection G0 as <-. exists g1. split; [exact G1 | lra]. }
  unfold proportions_hold. cbn [map]. rewrite qsum_cons. pose proof (prop_total _ _ _ _ _ Heach) as Htot.
  split.
  - fold f0. unfold f0 in *. lra.
  - assert (Hf0 : (0 < f0)%Q) by (unfold f0; lra).
    revert Heach. apply Forall2_impl'. intros g v _ _ H.
    assert (Hgoal : (f0 * group_flow net f g == f0 * (v * (group_flow net f n0 + qsum (map (group_flow net f) rest))))%Q).
    { transitivity (v * group_flow net f n0)%Q; [lra|].
      transitivity (v * (f0 * group_flow net f n0 + f0 * qsum (map (group_flow net f) rest)))%Q; [|lra].
      rewrite Htot. assert (E : (f0 * group_flow net f n0 + qsum vs * group_flow net f n0 == group_flow net f n0)%Q) by (unfold f0; lra).
      rewrite E. reflexivity. }
    apply Qmult_inj_l in Hgoal; [exact Hgoal | lra].
Qed.

Lemma const_ratio_ok e n0 (f0 : option Q) : forall rest fs, Forall (fun m => 0 <= metric_value e m)%Q fs ->
  exists ps, rmap (fun n1m : list nat * metric =>
             let v1 := metric_const (snd n1m) in
             if oneg v1 then Err NegativeFactor
             else Ok (mkCp n0 (Some (Fin 1)) (fst n1m) (match v1, f0 with Some v, Some f => Some (fdiv (- f) v) | _, _ => None end) 0%Q))
           (combine rest fs) = Ok ps.
Proof.
  induction rest as [|g rest IH]; intros [|m fs] H; try (eexists; reflexivity). inversion H as [|? ? Hm Hfs]; subst. destruct (IH fs Hfs) as (ps & Hps).
  cbn zeta in Hps |- *. cbn [combine rmap fst snd]. rewrite (metric_const_oneg e m Hm), Hps. eauto.
Qed.

Lemma dyn_ratios k a fs : nth_error (net_aggs net) k = Some a -> factors_separate net k a ->
  a_rel a = Some (RFactored (FRatio fs)) -> length fs = length (a_nodes a) -> fs <> [] ->
  Forall (fun m => 0 <= metric_value (st_env s) m)%Q fs -> ratios_hold net f (a_nodes a) (map (metric_value (st_env s)) fs).
Proof.
  intros Ha Hsep Hr Hl Hne Hpos. destruct fs as [|m0 fs]; [congruence|]. destruct (a_nodes a) as [|n0 rest] eqn:En; [discriminate|].
  pose proof Hl as Hl'. cbn [length] in Hl. injection Hl as Hl. inversion Hpos as [|? ? Hm0 Hfs]; subst. cbn [map ratios_hold].
  destruct (const_ratio_ok (st_env s) n0 (metric_const m0) rest fs Hfs) as (ps & Hps).
  assert (Hc : const_factor_pairs a = Some (Ok ps)).
  { unfold const_factor_pairs. rewrite Hr, En. unfold const_ratio_pairs. rewrite Hl', Nat.eqb_refl, (metric_const_oneg _ _ Hm0). cbn [negb]. f_equal. exact Hps. }
  set (f0 := metric_value (st_env s) m0) in *.
  assert (Hd : norm_factor_pairs (st_env s) a = Some (Ok (map (fun n1m => mkFp n0 (Fin 1) (fst n1m) (fdiv (- f0) (metric_value (st_env s) (snd n1m))) 0) (combine rest fs)))).
  { unfold norm_factor_pairs. rewrite Hr, En. unfold ratio_pairs. rewrite Hl', Nat.eqb_refl. cbn [negb]. fold f0. apply Qle_bool_iff in Hm0. rewrite Hm0. reflexivity. }
  assert (Heach : Forall2 (fun g v => (group_flow net f g * f0 == v * group_flow net f n0)%Q) rest (map (metric_value (st_env s)) fs)).
  { apply (prop_pairs_dyn (group_flow net f)); [rewrite map_length; lia|]. intros n1 v Hin. rewrite combine_map_r in Hin. apply in_map_iff in Hin.
    destruct Hin as ([n1' m] & Hv & Hin). cbn [fst snd] in Hv. injection Hv as -> <-.
    destruct (all_pairs_hold k a ps _ Ha Hsep Hc Hd) with (q := mkFp n0 (Fin 1) n1 (fdiv (- f0) (metric_value (st_env s) m)) 0) as (g0 & g1 & G0 & G1 & H).
    - intros _ _ _. unfold const_rhs. rewrite Hr. exact I.
    - apply in_map_iff. exists (n1, m). auto.
    - cbn [fp_f0 fp_f1 fp_n0 fp_n1 fp_rhs] in G0, G1, H. injection G0 as <-. exists g1. split; [exact G1 | lra]. }
  revert Heach. apply Forall2_impl'. intros g v _ _ H. lra.
Qed.

Lemma dyn_coefficients k a m0 m1 rhs : nth_error (net_aggs net) k = Some a -> factors_separate net k a ->
  a_rel a = Some (RFactored (FCoefficients [m0; m1] rhs)) -> length (a_nodes a) = 2 ->
  (metric_const m0 = None \/ metric_const m1 = None \/ match rhs with Some m => metric_const m <> None | None => True end) ->
  coefficients_hold net f (a_nodes a) [metric_value (st_env s) m0; metric_value (st_env s) m1]
    (match rhs with Some m => metric_value (st_env s) m | None => 0%Q end).
Proof.
  intros Ha Hsep Hr Hl Hx. destruct (a_nodes a) as [|n0 [|n1 [|? ?]]] eqn:En; try discriminate. cbn [coefficients_hold].
  set (q := mkFp n0 (Fin (metric_value (st_env s) m0)) n1 (Fin (metric_value (st_env s) m1)) (match rhs with Some m => metric_value (st_env s) m | None => 0%Q end)).
  set (fin := fun o : option Q => match o with Some q => Some (Fin q) | None => None end).
  set (p := mkCp n0 (fin (metric_const m0)) n1 (fin (metric_const m1)) (match rhs with Some m => oget (metric_const m) | None => 0%Q end)).
  assert (Hc : const_factor_pairs a = Some (Ok [p])) by (unfold const_factor_pairs; rewrite Hr, En; reflexivity).
  assert (Hd : norm_factor_pairs (st_env s) a = Some (Ok [q])) by (unfold norm_factor_pairs; rewrite Hr, En; reflexivity).
  destruct (all_pairs_hold k a [p] [q] Ha Hsep Hc Hd) with (q := q) as (g0 & g1 & G0 & G1 & H).
  - intros p' [<-|[]] Hp'. unfold const_rhs. rewrite Hr. destruct rhs as [[v|j]|]; try exact I. unfold pair_const, p in Hp'. cbn in Hp'.
    unfold fin in Hp'. destruct (metric_const m0), (metric_const m1); cbn in Hp'; try discriminate. destruct Hx as [Hx|[Hx|Hx]]; cbn in Hx; congruence.
  - left. reflexivity.
  - cbn in G0, G1, H. injection G0 as <-. injection G1 as <-. exact H.
Qed.
End Solved.
