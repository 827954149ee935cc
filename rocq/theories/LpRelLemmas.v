(** Factors and mutual exclusivity of aggregated nodes in a solved time-step. *)
From Verif Require Import Base Calendar Network NetworkBuild NetworkSpec NetworkBuildLemmas Lp LpSpec
  LpColLemmas LpRowLemmas LpUpdateLemmas LpLemmas.
Open Scope nat_scope.

Lemma nats_eqb_eq a b : nats_eqb a b = true <-> a = b.
Proof.
  revert b. induction a as [|x a IH]; intros [|y b]; cbn; split; intros H; try reflexivity; try discriminate.
  - apply andb_prop in H. destruct H as [H1 H2]. apply Nat.eqb_eq in H1. apply IH in H2. congruence.
  - injection H as -> ->. rewrite Nat.eqb_refl. apply IH. reflexivity.
Qed.

Lemma bin_values q : is_integer q -> (0 <= q <= 1)%Q -> (q == 0)%Q \/ (q == 1)%Q.
Proof.
  intros (z & Hz) [H1 H2]. rewrite Hz in H1, H2. change 0%Q with (inject_Z 0) in H1. change 1%Q with (inject_Z 1) in H2.
  rewrite <- Zle_Qle in H1, H2. assert (z = 0 \/ z = 1)%Z as [-> | ->] by lia; [left | right]; exact Hz.
Qed.

Lemma map_const_Some vs : forallb is_some (map metric_const (map MConst vs)) = true.
Proof. induction vs; cbn; auto. Qed.
Lemma map_const_oget vs : map oget (map metric_const (map MConst vs)) = vs.
Proof. induction vs as [|v vs IH]; cbn; [reflexivity|]. f_equal. exact IH. Qed.
Lemma map_const_neg vs : Forall (fun v => 0 <= v)%Q vs -> existsb oneg (map metric_const (map MConst vs)) = false.
Proof.
  induction 1 as [|v vs Hv H IH]; cbn; [reflexivity|]. rewrite IH, orb_false_r. apply Qle_bool_iff in Hv. rewrite Hv. reflexivity.
Qed.

Lemma prop_pairs (G : list nat -> Q) c (n0 : list nat) : forall rest vs, length rest = length vs ->
  (forall p, In p (map (fun n1v => mkCp n0 (Some (Fin 1)) (fst n1v) (match snd n1v with Some v => Some (fdiv (- c) v) | None => None end) 0%Q)
                 (combine rest (map metric_const (map MConst vs)))) -> exists f1, cp_f1 p = Some (Fin f1) /\ (G n0 + f1 * G (cp_n1 p) == 0)%Q) ->
  Forall2 (fun g v => ~ (v == 0)%Q /\ (G g * c == v * G n0)%Q) rest vs.
Proof.
  induction rest as [|g rest IH]; intros [|v vs] Hl Hcp; try discriminate; [constructor|]. constructor.
  - destruct (Hcp _ (or_introl eq_refl)) as (f1 & H1 & H2). cbn in H1, H2. unfold fdiv in H1. destruct (Qeq_bool v 0) eqn:Ev; [discriminate|].
    apply Qeq_bool_neq in Ev. injection H1 as <-. split; [exact Ev|].
    assert (H3 : (v * (G n0 + - c / v * G g) == 0)%Q) by (rewrite H2; lra).
    assert (H4 : (v * (G n0 + - c / v * G g) == v * G n0 - c * G g)%Q) by (field; exact Ev).
    lra.
  - apply IH; [cbn in Hl; lia|]. intros p Hp. apply Hcp. right. exact Hp.
Qed.

Lemma prop_total (G : list nat -> Q) c T : forall gs vs, Forall2 (fun g v => (G g * c == v * T)%Q) gs vs ->
  (c * qsum (map G gs) == qsum vs * T)%Q.
Proof.
  intros gs vs H. induction H as [|g v gs vs H Hs IH]; cbn [map]; [cbn; lra|]. rewrite !qsum_cons, Qmult_plus_distr_r, IH. lra.
Qed.

Section OneStep.
Variable net : network.
Hypothesis wf : wf_network net.
Variable fm : Q.
Variable order : list (list nat).
Variable b0 : built.
Variables V F : list row.
Hypothesis Hcr : created net fm order b0 V F.
Let base := cm_ncols (edge_columns net).
Variable s : lp_state.
Variable b : built.
Hypothesis Hup : update net b0 s = Ok b.
Variable x : nat -> Q.
Hypothesis Hfe : feasible (bt_lp b) x.
Let f := edge_flow net x.

Lemma const_pair_holds a ps p : In a (net_aggs net) -> const_factor_pairs a = Some (Ok ps) -> In p ps -> pair_const p = true ->
  exists f0 f1, cp_f0 p = Some (Fin f0) /\ cp_f1 p = Some (Fin f1) /\
    (f0 * group_flow net f (cp_n0 p) + f1 * group_flow net f (cp_n1 p) == cp_rhs p)%Q.
Proof.
  intros Ha Hc Hp Hcon. destruct (solved_facts net fm order b0 V F Hcr s b Hup x Hfe) as (ops & Ho & _ & HF & _).
  destruct (In_nth_error _ _ Ha) as (k & Hk). destruct (cr_factors_all _ _ _ _ _ _ Hcr k a ps Hk Hc) as [_ Hx].
  destruct (Hx p Hp) as (r & Hr). assert (Hin : In r F).
  { apply (cr_fixed _ _ _ _ _ _ Hcr). right; right; left. exists a, ps, p. auto. }
  apply HF in Hin. destruct Hr as (f0 & f1 & ns0 & ns1 & H0 & H1 & Hn0 & Hn1 & ->). cbn [r_lower r_upper r_cols] in Hin.
  exists f0, f1. unfold pair_const in Hcon. apply andb_prop in Hcon. destruct Hcon as [Hc0 Hc1].
  destruct (cp_f0 p) as [g0|]; [|discriminate]. destruct (cp_f1 p) as [g1|]; [|discriminate]. cbn in H0, H1. subst g0 g1.
  split; [reflexivity|]. split; [reflexivity|].
  rewrite (row_value_add_nodes net wf _ _ _ _ Hn1), (row_value_add_nodes net wf _ _ _ _ Hn0) in Hin.
  change (row_value [] x) with 0%Q in Hin. fold f in Hin. lra.
Qed.

Lemma const_proportions a vs : In a (net_aggs net) -> a_rel a = Some (RFactored (FProportion (map MConst vs))) ->
  S (length vs) = length (a_nodes a) -> Forall (fun v => 0 <= v)%Q vs -> (qsum vs < 1)%Q ->
  proportions_hold net f (a_nodes a) vs.
Proof.
  intros Ha Hr Hl Hpos Hsum. destruct (a_nodes a) as [|n0 rest] eqn:En; [discriminate|].
  cbn [length] in Hl. injection Hl as Hl. set (f0 := (1 - qsum vs)%Q).
  set (ps := map (fun n1v => mkCp n0 (Some (Fin 1)) (fst n1v) (match snd n1v with Some v => Some (fdiv (- f0) v) | None => None end) 0)
                 (combine rest (map metric_const (map MConst vs)))).
  assert (Hc : const_factor_pairs a = Some (Ok ps)).
  { unfold const_factor_pairs. rewrite Hr, En. f_equal. unfold const_proportion_pairs. rewrite map_length, Hl, Nat.eqb_refl. cbn [negb].
    rewrite (map_const_neg _ Hpos), map_const_Some. cbn [negb]. rewrite map_const_oget.
    destruct (Qle_bool 1 (qsum vs)) eqn:E; [apply Qle_bool_iff in E; exfalso; lra|]. reflexivity. }
  assert (Heach : Forall2 (fun g v => ~ (v == 0)%Q /\ (group_flow net f g * f0 == v * group_flow net f n0)%Q) rest vs).
  { assert (Hcp : forall p, In p ps -> exists f1, cp_f1 p = Some (Fin f1) /\ (group_flow net f n0 + f1 * group_flow net f (cp_n1 p) == 0)%Q).
    { intros p Hp. assert (Hshape : cp_n0 p = n0 /\ cp_f0 p = Some (Fin 1) /\ cp_rhs p = 0%Q /\ cp_f1 p <> None).
      { unfold ps in Hp. apply in_map_iff in Hp. destruct Hp as ([g o] & <- & Hgo). cbn. apply in_combine_r in Hgo.
        apply in_map_iff in Hgo. destruct Hgo as (m & <- & Hm). apply in_map_iff in Hm. destruct Hm as (v & <- & _). cbn. repeat split. discriminate. }
      destruct Hshape as (S0 & S1 & S2 & S3). assert (Hpc : pair_const p = true) by (unfold pair_const; rewrite S1; destruct (cp_f1 p); [reflexivity | congruence]).
      destruct (const_pair_holds a ps p Ha Hc Hp Hpc) as (g0 & g1 & H0 & H1 & H). rewrite S1 in H0. injection H0 as <-. exists g1.
      split; [exact H1|]. rewrite S0, S2 in H. lra. }
    apply (prop_pairs (group_flow net f)); [symmetry; exact Hl | exact Hcp]. }
  unfold proportions_hold. cbn [map]. rewrite qsum_cons.
  assert (Htot : (f0 * qsum (map (group_flow net f) rest) == qsum vs * group_flow net f n0)%Q).
  { apply prop_total. revert Heach. apply Forall2_impl'. intros g v _ _ [_ H]. exact H. }
  split.
  - fold f0. unfold f0 in *. lra.
  - assert (Hf0 : (0 < f0)%Q) by (unfold f0; lra).
    revert Heach. apply Forall2_impl'. intros g v _ _ [_ H].
    assert (Hgoal : (f0 * group_flow net f g == f0 * (v * (group_flow net f n0 + qsum (map (group_flow net f) rest))))%Q).
    { transitivity (v * group_flow net f n0)%Q; [lra|].
      transitivity (v * (f0 * group_flow net f n0 + f0 * qsum (map (group_flow net f) rest)))%Q; [|lra].
      rewrite Htot. assert (E : (f0 * group_flow net f n0 + qsum vs * group_flow net f n0 == group_flow net f n0)%Q) by (unfold f0; lra).
      rewrite E. reflexivity. }
    apply Qmult_inj_l in Hgoal; [exact Hgoal | lra].
Qed.

Lemma const_ratios a vs : In a (net_aggs net) -> a_rel a = Some (RFactored (FRatio (map MConst vs))) ->
  length vs = length (a_nodes a) -> vs <> [] -> Forall (fun v => 0 <= v)%Q vs -> ratios_hold net f (a_nodes a) vs.
Proof.
  intros Ha Hr Hl Hne Hpos. destruct vs as [|v0 vs]; [congruence|]. destruct (a_nodes a) as [|n0 rest] eqn:En; [discriminate|].
  cbn [length] in Hl. injection Hl as Hl. inversion Hpos as [|? ? Hv0 Hvs]; subst. cbn [ratios_hold].
  set (mk := fun n1m : list nat * metric => mkCp n0 (Some (Fin 1)) (fst n1m)
                (match metric_const (snd n1m) with Some v => Some (fdiv (- v0) v) | None => None end) 0%Q).
  assert (Hps : rmap (fun n1m : list nat * metric =>
             let v1 := metric_const (snd n1m) in
             if oneg v1 then Err NegativeFactor
             else Ok (mkCp n0 (Some (Fin 1)) (fst n1m) (match v1, Some v0 with Some v, Some f => Some (fdiv (- f) v) | _, _ => None end) 0))
           (combine rest (map MConst vs)) = Ok (map mk (combine rest (map MConst vs)))).
  { clear - Hvs. revert vs Hvs. induction rest as [|g rest IH]; intros [|v vs] Hvs; try reflexivity. inversion Hvs as [|? ? Hv Hvs']; subst.
    specialize (IH vs Hvs'). cbn zeta in IH |- *. cbn [map combine rmap]. cbn [snd metric_const oneg] in IH |- *. apply Qle_bool_iff in Hv. rewrite Hv. cbn [negb rbind]. rewrite IH. reflexivity. }
  assert (Hc : const_factor_pairs a = Some (Ok (map mk (combine rest (map MConst vs))))).
  { unfold const_factor_pairs. rewrite Hr, En. f_equal. unfold const_ratio_pairs. cbn [map length]. rewrite map_length, Hl, Nat.eqb_refl. cbn [negb].
    cbn [metric_const oneg]. apply Qle_bool_iff in Hv0. rewrite Hv0. cbn [negb]. exact Hps. }
  assert (Hcp : forall p, In p (map mk (combine rest (map MConst vs))) -> exists f1, cp_f1 p = Some (Fin f1) /\ (group_flow net f n0 + f1 * group_flow net f (cp_n1 p) == 0)%Q).
  { intros p Hp. assert (Hshape : cp_n0 p = n0 /\ cp_f0 p = Some (Fin 1) /\ cp_rhs p = 0%Q /\ cp_f1 p <> None).
    { pose proof Hp as Hp'. apply in_map_iff in Hp'. destruct Hp' as ([g o] & <- & Hgo). cbn. apply in_combine_r in Hgo.
      apply in_map_iff in Hgo. destruct Hgo as (v & <- & _). cbn. repeat split. discriminate. }
    destruct Hshape as (S0 & S1 & S2 & S3). assert (Hpc : pair_const p = true) by (unfold pair_const; rewrite S1; destruct (cp_f1 p); [reflexivity | congruence]).
    destruct (const_pair_holds a _ p Ha Hc Hp Hpc) as (g0 & g1 & H0 & H1 & H). rewrite S1 in H0. injection H0 as <-. exists g1.
    split; [exact H1|]. rewrite S0, S2 in H. lra. }
  clear Hps Hc Hvs Hpos En Hr. revert vs Hl Hne Hcp. induction rest as [|g rest IH]; intros [|v vs] Hl Hne Hcp; try discriminate; [constructor|]. constructor.
  - destruct (Hcp _ (or_introl eq_refl)) as (f1 & H1 & H2). cbn in H1, H2. unfold fdiv in H1. destruct (Qeq_bool v 0) eqn:Ev; [discriminate|].
    apply Qeq_bool_neq in Ev. injection H1 as <-.
    assert (H3 : (v * (group_flow net f n0 + - v0 / v * group_flow net f g) == 0)%Q) by (rewrite H2; lra).
    assert (H4 : (v * (group_flow net f n0 + - v0 / v * group_flow net f g) == v * group_flow net f n0 - v0 * group_flow net f g)%Q) by (field; exact Ev).
    lra.
  - apply IH; [cbn in Hl; lia | discriminate |]. intros p Hp. apply Hcp. right. exact Hp.
Qed.

Lemma const_coefficients a c0 c1 rhs : In a (net_aggs net) ->
  (a_rel a = Some (RFactored (FCoefficients [MConst c0; MConst c1] (Some (MConst rhs)))) \/
   (a_rel a = Some (RFactored (FCoefficients [MConst c0; MConst c1] None)) /\ rhs = 0%Q)) ->
  length (a_nodes a) = 2 -> coefficients_hold net f (a_nodes a) [c0; c1] rhs.
Proof.
  intros Ha Hr Hl. destruct (a_nodes a) as [|n0 [|n1 [|? ?]]] eqn:En; try discriminate. cbn [coefficients_hold].
  set (p := mkCp n0 (Some (Fin c0)) n1 (Some (Fin c1)) rhs).
  assert (Hc : const_factor_pairs a = Some (Ok [p])).
  { unfold const_factor_pairs. destruct Hr as [Hr|[Hr Hz]]; rewrite Hr, En; [reflexivity | subst rhs; reflexivity]. }
  destruct (const_pair_holds a [p] p Ha Hc (or_introl eq_refl) eq_refl) as (g0 & g1 & H0 & H1 & H). cbn in H0, H1, H.
  injection H0 as <-. injection H1 as <-. exact H.
Qed.

(** Mutual exclusivity. *)
Hypothesis Hord : valid_order net order.

Definition set_col (ns : list nat) : nat := match set_bin_col base order ns with Some c => c | None => 0 end.
Lemma set_col_bin ns : In ns order -> exists k, nth_error order k = Some ns /\ set_bin_col base order ns = Some (base + k).
Proof.
  intros H. unfold set_bin_col. destruct (position (nats_eqb ns) order) as [k|] eqn:E.
  - apply position_Some in E. destruct E as (ns' & Hk & He & _). apply nats_eqb_eq in He. subst ns'. exists k. auto.
  - exfalso. apply In_nth_error in H. destruct H as (k & Hk). pose proof (proj1 (position_None _ _) E) as Hn.
    specialize (Hn ns (nth_error_In _ _ Hk)). rewrite (proj2 (nats_eqb_eq ns ns) eq_refl) in Hn. discriminate.
Qed.
Lemma bin_col_value k : k < length order -> (x (base + k) == 0)%Q \/ (x (base + k) == 1)%Q.
Proof.
  intros Hk. destruct (solved_facts net fm order b0 V F Hcr s b Hup x Hfe) as (ops & _ & HC & _).
  specialize (HC (base + k) (mkCol 0 1 ColInteger)). rewrite (cr_cols _ _ _ _ _ _ Hcr) in HC. fold base in HC.
  rewrite nth_error_app2 in HC by (rewrite repeat_length; lia). rewrite repeat_length in HC.
  replace (base + k - base) with k in HC by lia. rewrite nth_error_repeat in HC by exact Hk.
  destruct (HC eq_refl) as [H1 H2]. apply bin_values; [apply H2; reflexivity | exact H1].
Qed.
Lemma excl_cols_value sets : forall cols cols', exclusivity_cols base order sets cols = Ok cols' ->
  (row_value cols' x == row_value cols x + qsum (map (fun ns => x (set_col ns)) sets))%Q.
Proof.
  induction sets as [|ns sets IH]; intros cols cols' H; cbn [exclusivity_cols] in H.
  - injection H as <-. cbn. lra.
  - destruct (set_bin_col base order ns) as [c|] eqn:E; [|discriminate]. rewrite (IH _ _ H), row_value_add_element. cbn [map].
    rewrite qsum_cons. unfold set_col at 2. rewrite E. lra.
Qed.
Lemma const_limits_bounds n mn mx : n_type n <> TStorage ->
  (n_min n = Some (MConst mn) \/ (n_min n = None /\ mn = 0%Q)) ->
  (n_max n = Some (MConst mx) \/ (n_max n = None /\ mx = F64_MAX)) -> get_const_bounds n = Some (mn, mx).
Proof.
  intros Ht Hmn Hmx. unfold get_const_bounds. destruct Hmn as [-> | [-> ->]], Hmx as [-> | [-> ->]]; cbn; destruct (n_type n); try congruence; reflexivity.
Qed.

Lemma set_facts a mn mx ns : In a (net_aggs net) -> a_rel a = Some (RExclusive mn mx) -> In ns (a_nodes a) ->
  exists k, nth_error order k = Some ns /\ set_col ns = base + k /\ ((x (set_col ns) == 0)%Q \/ (x (set_col ns) == 1)%Q).
Proof.
  intros Ha Hr Hns. assert (Hin : In ns order).
  { apply (proj2 Hord). exists a. split; [exact Ha|]. split; [unfold has_exclusivity; rewrite Hr; reflexivity | exact Hns]. }
  destruct (set_col_bin ns Hin) as (k & Hk & Hc). exists k. split; [exact Hk|]. assert (Hs : set_col ns = base + k) by (unfold set_col; rewrite Hc; reflexivity).
  split; [exact Hs|]. rewrite Hs. apply bin_col_value. apply (nth_error_Some_lt _ _ _ Hk).
Qed.

Lemma bin_rows a mn mx ns i n lo hi : In a (net_aggs net) -> a_rel a = Some (RExclusive mn mx) -> In ns (a_nodes a) -> In i ns ->
  nth_error (net_nodes net) i = Some n -> get_const_bounds n = Some (lo, hi) ->
  (node_flow net f i <= fmin hi (inject_Z 1000000) * x (set_col ns))%Q /\
  (~ (lo == 0)%Q -> fmax lo (1 # 1000000) * x (set_col ns) <= node_flow net f i)%Q.
Proof.
  intros Ha Hr Hns Hi Hn Hc. destruct (set_facts a mn mx ns Ha Hr Hns) as (k & Hk & Hs & _).
  destruct (solved_facts net fm order b0 V F Hcr s b Hup x Hfe) as (ops & _ & _ & HF & _).
  pose proof (node_bin_cols_In base order i k ns Hk Hi) as Hbin. rewrite <- Hs in Hbin.
  assert (Hrow : forall r, (r = mkRow 0 (Some fm) (bin_upper_cols net n (set_col ns) (fmin hi (inject_Z 1000000))) \/
              (Qeq_bool lo 0 = false /\ r = mkRow 0 (Some fm) (bin_lower_cols net n (set_col ns) (- fmax lo (1 # 1000000))))) -> In r F).
  { intros r Hr'. apply (cr_fixed _ _ _ _ _ _ Hcr). right; left. exists i, n. split; [exact Hn|]. exists lo, hi. split; [exact Hc|]. fold base.
    destruct (node_bin_cols base order i) as [|c l] eqn:E; [destruct Hbin|]. exists (set_col ns). split; [exact Hbin | exact Hr']. }
  split.
  - pose proof (HF _ (Hrow _ (or_introl eq_refl))) as H. cbn [r_lower r_upper r_cols] in H. unfold bin_upper_cols in H.
    rewrite row_value_add_element, (row_value_add_node net wf n i _ _ _ Hn) in H. change (row_value [] x) with 0%Q in H. fold f in H. lra.
  - intros Hlo. assert (Hq : Qeq_bool lo 0 = false) by (destruct (Qeq_bool lo 0) eqn:E; [apply Qeq_bool_iff in E; contradiction | reflexivity]).
    pose proof (HF _ (Hrow _ (or_intror (conj Hq eq_refl)))) as H. cbn [r_lower r_upper r_cols] in H. unfold bin_lower_cols in H.
    rewrite row_value_add_element, (row_value_add_node net wf n i _ _ _ Hn) in H. change (row_value [] x) with 0%Q in H. fold f in H. lra.
Qed.

Lemma excl_row_holds a mn mx : In a (net_aggs net) -> a_rel a = Some (RExclusive mn mx) ->
  (inject_Z (Z.of_nat mn) <= qsum (map (fun ns => x (set_col ns)) (a_nodes a)) <= inject_Z (Z.of_nat mx))%Q.
Proof.
  intros Ha Hr. destruct (solved_facts net fm order b0 V F Hcr s b Hup x Hfe) as (ops & _ & _ & HF & _).
  destruct (cr_excl _ _ _ _ _ _ Hcr a Ha) as (r & Hrow); [unfold has_exclusivity; rewrite Hr; reflexivity|].
  assert (Hin : In r F) by (apply (cr_fixed _ _ _ _ _ _ Hcr); right; right; right; exists a; auto).
  apply HF in Hin. destruct Hrow as (mn' & mx' & cols & Hr' & Hc & ->). rewrite Hr in Hr'. injection Hr' as <- <-.
  cbn [r_lower r_upper r_cols] in Hin. rewrite (excl_cols_value _ _ _ Hc) in Hin. change (row_value [] x) with 0%Q in Hin. lra.
Qed.

Lemma count_le (p : list nat -> bool) sets : (forall ns, In ns sets -> (p ns = true -> 1 <= x (set_col ns)) /\ 0 <= x (set_col ns))%Q ->
  (inject_Z (Z.of_nat (length (filter p sets))) <= qsum (map (fun ns => x (set_col ns)) sets))%Q.
Proof.
  induction sets as [|ns sets IH]; intros H; cbn [filter map]; [apply Qle_refl|]. rewrite qsum_cons.
  assert (H1 := IH (fun m Hm => H m (or_intror Hm))). destruct (H ns (or_introl eq_refl)) as [H2 H3].
  destruct (p ns); [|lra]. cbn [length]. rewrite Nat2Z.inj_succ, <- Z.add_1_l, inject_Z_plus. specialize (H2 eq_refl). change (inject_Z 1) with 1%Q. lra.
Qed.
Lemma count_ge (p : list nat -> bool) sets : (forall ns, In ns sets -> (p ns = false -> x (set_col ns) <= 0) /\ x (set_col ns) <= 1)%Q ->
  (qsum (map (fun ns => x (set_col ns)) sets) <= inject_Z (Z.of_nat (length (filter p sets))))%Q.
Proof.
  induction sets as [|ns sets IH]; intros H; cbn [filter map]; [apply Qle_refl|]. rewrite qsum_cons.
  assert (H1 := IH (fun m Hm => H m (or_intror Hm))). destruct (H ns (or_introl eq_refl)) as [H2 H3].
  destruct (p ns); [|specialize (H2 eq_refl); lra]. cbn [length]. rewrite Nat2Z.inj_succ, <- Z.add_1_l, inject_Z_plus. change (inject_Z 1) with 1%Q. lra.
Qed.
Lemma carries_true i : carries net f i = true <-> (0 < node_flow net f i)%Q.
Proof.
  unfold carries. destruct (Qle_bool (node_flow net f i) 0) eqn:E; cbn.
  - apply Qle_bool_iff in E. split; [discriminate | lra].
  - split; [intros _ | reflexivity]. apply Qnot_le_lt. intros H. apply Qle_bool_iff in H. congruence.
Qed.

Lemma exclusivity_max a mn mx : In a (net_aggs net) -> a_rel a = Some (RExclusive mn mx) ->
  constant_limits net (a_nodes a) (fun _ _ => True) -> sets_active net f (a_nodes a) <= mx.
Proof.
  intros Ha Hr Hlim. pose proof (excl_row_holds a mn mx Ha Hr) as [_ Hmx]. unfold sets_active.
  assert (Hc : (inject_Z (Z.of_nat (length (filter (existsb (carries net f)) (a_nodes a)))) <= qsum (map (fun ns => x (set_col ns)) (a_nodes a)))%Q); cycle 1.
  { assert (Hle := Qle_trans _ _ _ Hc Hmx). rewrite <- Zle_Qle in Hle. lia. }
  apply count_le. intros ns Hns. destruct (set_facts a mn mx ns Ha Hr Hns) as (k & _ & _ & Hval). split; [|destruct Hval; lra].
  intros Hex. apply existsb_exists in Hex. destruct Hex as (i & Hi & Hci). apply carries_true in Hci.
  destruct (Hlim ns i Hns Hi) as (n & lo & hi & Hn & Ht & Hlo & Hhi & _).
  pose proof (const_limits_bounds n lo hi Ht Hlo Hhi) as Hcb. destruct (bin_rows a mn mx ns i n lo hi Ha Hr Hns Hi Hn Hcb) as [H1 _].
  destruct Hval as [H0|H0]; [|lra]. exfalso. rewrite H0 in H1. lra.
Qed.

Lemma exclusivity_min a mn mx : In a (net_aggs net) -> a_rel a = Some (RExclusive mn mx) ->
  constant_limits net (a_nodes a) (fun lo _ => ~ (lo == 0)%Q) -> mn <= sets_fully_active net f (a_nodes a).
Proof.
  intros Ha Hr Hlim. pose proof (excl_row_holds a mn mx Ha Hr) as [Hmn _]. unfold sets_fully_active.
  assert (Hc : (qsum (map (fun ns => x (set_col ns)) (a_nodes a)) <= inject_Z (Z.of_nat (length (filter (forallb (carries net f)) (a_nodes a)))))%Q).
  { apply count_ge. intros ns Hns. destruct (set_facts a mn mx ns Ha Hr Hns) as (k & _ & _ & Hval). split; [|destruct Hval; lra].
    intros Hfa. destruct Hval as [H0|H0]; [lra|]. exfalso.
    assert (Hall : forallb (carries net f) ns = true); [|congruence]. apply forallb_forall. intros i Hi. apply carries_true.
    destruct (Hlim ns i Hns Hi) as (n & lo & hi & Hn & Ht & Hlo & Hhi & Hz).
    pose proof (const_limits_bounds n lo hi Ht Hlo Hhi) as Hcb. destruct (bin_rows a mn mx ns i n lo hi Ha Hr Hns Hi Hn Hcb) as [_ H1].
    specialize (H1 Hz). rewrite H0 in H1. assert (Hm : (1 # 1000000 <= fmax lo (1 # 1000000))%Q).
    { pose proof (proj1 (fmax_le lo (1 # 1000000) (fmax lo (1 # 1000000))) (Qle_refl _)) as [_ H]. exact H. }
    assert (Hp : (0 < 1 # 1000000)%Q) by reflexivity. lra. }
  assert (Hle : (inject_Z (Z.of_nat mn) <= inject_Z (Z.of_nat (length (filter (forallb (carries net f)) (a_nodes a)))))%Q) by (apply (Qle_trans _ _ _ Hmn Hc)).
  rewrite <- Zle_Qle in Hle. lia.
Qed.

Lemma exclusivity_limits a mn mx ns i n lo hi : In a (net_aggs net) -> a_rel a = Some (RExclusive mn mx) -> In ns (a_nodes a) -> In i ns ->
  nth_error (net_nodes net) i = Some n -> n_type n <> TStorage ->
  (n_min n = Some (MConst lo) \/ (n_min n = None /\ lo = 0%Q)) ->
  (n_max n = Some (MConst hi) \/ (n_max n = None /\ hi = F64_MAX)) -> (0 <= hi)%Q -> (0 <= node_flow net f i)%Q ->
  (node_flow net f i <= hi)%Q /\ ((node_flow net f i == 0)%Q \/ (0 <= lo -> lo <= node_flow net f i)%Q).
Proof.
  intros Ha Hr Hns Hi Hn Ht Hlo Hhi Hpos Hnn. pose proof (const_limits_bounds n lo hi Ht Hlo Hhi) as Hcb.
  destruct (bin_rows a mn mx ns i n lo hi Ha Hr Hns Hi Hn Hcb) as [H1 H2].
  destruct (set_facts a mn mx ns Ha Hr Hns) as (k & _ & _ & Hval).
  assert (Hm : (fmin hi (inject_Z 1000000) <= hi)%Q).
  { apply (proj1 (fmin_ge hi (inject_Z 1000000) (fmin hi (inject_Z 1000000))) (Qle_refl _)). }
  destruct Hval as [H0|H0]; rewrite H0 in H1, H2.
  - split; [lra|]. left. lra.
  - split; [lra|]. right. intros Hl0. destruct (Qeq_dec lo 0) as [Hz|Hz]; [rewrite Hz; exact Hnn|]. specialize (H2 Hz).
    pose proof (proj1 (fmax_le lo (1 # 1000000) (fmax lo (1 # 1000000))) (Qle_refl _)) as [H _]. lra.
Qed.
End OneStep.

(** A decision procedure for concrete cases. *)
Definition qinrange (lo q hi : Q) : bool := andb (Qle_bool lo q) (Qle_bool q hi).
Definition feasible_check (l : lp) (x : nat -> Q) : bool :=
  andb (forallb (fun ic => andb (qinrange (col_lower (snd ic)) (x (fst ic)) (col_upper (snd ic)))
                         (match col_type_of (snd ic) with ColInteger => (Zpos (Qden (Qred (x (fst ic)))) =? 1)%Z | ColContinuous => true end))
                (combine (seq 0 (length (lp_cols l))) (lp_cols l)))
       (forallb (fun r => qinrange (l_lower r) (row_value (l_cols r) x) (l_upper r)) (lp_rows l)).
Lemma qinrange_true lo q hi : qinrange lo q hi = true -> (lo <= q <= hi)%Q.
Proof. unfold qinrange. intros H. apply andb_prop in H. destruct H as [H1 H2]. apply Qle_bool_iff in H1, H2. auto. Qed.
Lemma feasible_check_sound l x : feasible_check l x = true -> feasible l x.
Proof.
  unfold feasible_check. intros H. apply andb_prop in H. destruct H as [H1 H2]. split.
  - intros i c Hc. rewrite forallb_forall in H1. specialize (H1 (i, c)). cbn [fst snd] in H1.
    assert (Hin : In (i, c) (combine (seq 0 (length (lp_cols l))) (lp_cols l))).
    { apply combine_seq_In. split; [lia|]. rewrite Nat.sub_0_r. exact Hc. }
    specialize (H1 Hin). apply andb_prop in H1. destruct H1 as [H1 H3]. split; [apply qinrange_true; exact H1|].
    intros Ht. rewrite Ht in H3. apply Z.eqb_eq in H3. exists (Qnum (Qred (x i))). rewrite <- (Qred_correct (x i)) at 1.
    unfold inject_Z. destruct (Qred (x i)) as [n d]. cbn in *. injection H3 as ->. reflexivity.
  - intros r Hr. rewrite forallb_forall in H2. apply qinrange_true, H2, Hr.
Qed.

Lemma fold_Qplus l : forall a, (fold_left Qplus l a == a + qsum l)%Q.
Proof. induction l as [|q l IH]; intros a; cbn [fold_left]; [cbn; lra|]. rewrite IH, qsum_cons. lra. Qed.
Lemma fold_fmax l : forall a, In (fold_left fmax l a) (a :: l) /\ (forall c, In c (a :: l) -> (c <= fold_left fmax l a)%Q).
Proof.
  induction l as [|q l IH]; intros a; cbn [fold_left].
  - split; [left; reflexivity|]. intros c [<- | []]. apply Qle_refl.
  - destruct (IH (fmax a q)) as [H1 H2]. pose proof (proj1 (fmax_le a q (fmax a q)) (Qle_refl _)) as [Ha Hq].
    assert (Hm := H2 _ (or_introl eq_refl)). split.
    + destruct H1 as [H1|H1]; [|right; right; exact H1]. rewrite <- H1. unfold fmax. destruct (Qle_bool a q); cbn; auto.
    + intros c [<- | [<- | Hc]]; [lra | lra |]. apply H2. right. exact Hc.
Qed.
Lemma fold_fmin l : forall a, In (fold_left fmin l a) (a :: l) /\ (forall c, In c (a :: l) -> (fold_left fmin l a <= c)%Q).
Proof.
  induction l as [|q l IH]; intros a; cbn [fold_left].
  - split; [left; reflexivity|]. intros c [<- | []]. apply Qle_refl.
  - destruct (IH (fmin a q)) as [H1 H2]. pose proof (proj1 (fmin_ge a q (fmin a q)) (Qle_refl _)) as [Ha Hq].
    assert (Hm := H2 _ (or_introl eq_refl)). split.
    + destruct H1 as [H1|H1]; [|right; right; exact H1]. rewrite <- H1. unfold fmin. destruct (Qle_bool a q); cbn; auto.
    + intros c [<- | [<- | Hc]]; [lra | lra |]. apply H2. right. exact Hc.
Qed.
Lemma node_cost_spec net s n : (forall k, In k (c_vs (n_cost n)) -> k < length (net_vss net)) ->
  is_node_cost net s n (node_cost_of net s n).
Proof.
  intros Hk. unfold is_node_cost, node_cost_of, get_cost.
  set (d := mkVs [] [] (IVAbsolute 0) None None ResetNever ResetInitial None AlwaysActive None).
  assert (E : flat_map (fun i => match nth_error (net_vss net) i with Some v => [vs_cost (st_env s) v] | None => [] end) (c_vs (n_cost n))
    = map (fun v => match v_cost v with Some m => metric_value (st_env s) m | None => 0%Q end) (map (fun k => nth k (net_vss net) d) (c_vs (n_cost n)))).
  { revert Hk. generalize (c_vs (n_cost n)). induction l as [|k l IH]; intros Hk; [reflexivity|]. cbn [flat_map map].
    rewrite (IH (fun j Hj => Hk j (or_intror Hj))). rewrite (nth_error_nth' _ d (Hk k (or_introl eq_refl))). reflexivity. }
  rewrite E. destruct (c_agg (n_cost n)) as [[| |]|].
  - apply fold_Qplus.
  - apply fold_fmax.
  - apply fold_fmin.
  - reflexivity.
Qed.

Definition solved_check (net : network) (fm : Q) (order : list (list nat)) (ss : list lp_state) (s : lp_state) (x : nat -> Q) : bool :=
  match create fm order net with
  | Ok b0 => match updates net b0 (ss ++ [s]) with Ok b => feasible_check (bt_lp b) x | _ => false end
  | _ => false
  end.
Lemma solved_check_sound net fm order ss s x : valid_order net order -> solved_check net fm order ss s x = true -> solved net fm order ss s x.
Proof.
  intros Ho H. split; [exact Ho|]. unfold solved_check in H. destruct (create fm order net) as [b0| |]; try discriminate.
  exists b0. destruct (updates net b0 (ss ++ [s])) as [b| |]; try discriminate. exists b. split; [reflexivity|]. split; [reflexivity|].
  apply feasible_check_sound. exact H.
Qed.
Lemma valid_order_nil net : forallb (fun a => negb (has_exclusivity a)) (net_aggs net) = true -> valid_order net [].
Proof.
  intros H. split; [constructor|]. intros t. split; [intros []|]. intros (a & Ha & Hx & _). rewrite forallb_forall in H. specialize (H a Ha).
  rewrite Hx in H. discriminate.
Qed.
