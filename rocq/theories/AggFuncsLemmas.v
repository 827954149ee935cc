(** Proofs about the aggregation functions. *)
From Coq Require Import QArith Qabs Lqa Permutation.
From Verif Require Import Base Calendar Network AggFuncs AggFuncsSpec LpRowLemmas LpDynLemmas LpUpdateLemmas.
Local Open Scope Q_scope.

Lemma fold_left_plus l : forall a, fold_left Qplus l a == a + qsum l.
Proof. induction l as [|x l IH]; intros a; cbn [fold_left]; [unfold qsum; cbn [fold_right]; lra|]. rewrite IH, qsum_cons. lra. Qed.
Lemma iter_sum_qsum l : iter_sum l == qsum l.
Proof. unfold iter_sum. rewrite fold_left_plus. lra. Qed.

Lemma fold_left_mult l : forall a, fold_left Qmult l a == a * qprod l.
Proof. induction l as [|x l IH]; intros a; unfold qprod in *; cbn [fold_left fold_right]; [ring|]. rewrite IH. ring. Qed.
Lemma iter_product_qprod l : iter_product l == qprod l.
Proof. unfold iter_product. rewrite fold_left_mult. ring. Qed.
Lemma qprod_perm l l' : Permutation l l' -> qprod l == qprod l'.
Proof. unfold qprod. induction 1; cbn [fold_right]; [reflexivity| rewrite IHPermutation; reflexivity | ring | rewrite IHPermutation1; assumption]. Qed.

Lemma filter_perm {A} (p : A -> bool) l l' : Permutation l l' -> length (filter p l) = length (filter p l').
Proof. induction 1; cbn; [reflexivity| destruct (p x); cbn; congruence | destruct (p x), (p y); reflexivity | congruence]. Qed.
Lemma existsb_perm {A} (p : A -> bool) l l' : Permutation l l' -> existsb p l = existsb p l'.
Proof. induction 1; cbn; [reflexivity | congruence | destruct (p x), (p y); reflexivity | congruence]. Qed.
Lemma forallb_perm {A} (p : A -> bool) l l' : Permutation l l' -> forallb p l = forallb p l'.
Proof. induction 1; cbn; [reflexivity | congruence | destruct (p x), (p y); reflexivity | congruence]. Qed.

(** Minimum and maximum. *)

Lemma Qle_bool_false a b : Qle_bool a b = false -> b < a.
Proof. intros H. apply Qnot_le_lt. intros H'. apply Qle_bool_iff in H'. congruence. Qed.

Lemma fold_min_spec l : forall a, is_min (a :: l) (fold_left fmin l a).
Proof.
  induction l as [|x l IH]; intros a; cbn [fold_left].
  - split; [left; reflexivity|]. intros y [->|[]]. lra.
  - destruct (IH (fmin a x)) as [H1 H2]. split.
    + destruct H1 as [H1|H1]; [|right; right; exact H1]. rewrite <- H1. unfold fmin. destruct (Qle_bool a x); cbn; tauto.
    + assert (H := H2 _ (or_introl eq_refl)). apply fmin_ge in H. intros y [->|[->|Hy]]; [tauto|tauto|]. apply H2. right. exact Hy.
Qed.
Lemma fold_max_spec l : forall a, is_max (a :: l) (fold_left fmax l a).
Proof.
  induction l as [|x l IH]; intros a; cbn [fold_left].
  - split; [left; reflexivity|]. intros y [->|[]]. lra.
  - destruct (IH (fmax a x)) as [H1 H2]. split.
    + destruct H1 as [H1|H1]; [|right; right; exact H1]. rewrite <- H1. unfold fmax. destruct (Qle_bool a x); cbn; tauto.
    + assert (H := H2 _ (or_introl eq_refl)). apply fmax_le in H. intros y [->|[->|Hy]]; [tauto|tauto|]. apply H2. right. exact Hy.
Qed.
Lemma iter_min_spec l : match iter_min l with Some m => is_min l m | None => l = [] end.
Proof. destruct l as [|x l]; [reflexivity|]. apply fold_min_spec. Qed.
Lemma iter_max_spec l : match iter_max l with Some m => is_max l m | None => l = [] end.
Proof. destruct l as [|x l]; [reflexivity|]. apply fold_max_spec. Qed.

Lemma is_min_unique l l' m m' : Permutation l l' -> is_min l m -> is_min l' m' -> m == m'.
Proof.
  intros HP [H1 H2] [H1' H2']. apply Qle_antisym.
  - apply H2. eapply Permutation_in; [symmetry; exact HP|exact H1'].
  - apply H2'. eapply Permutation_in; [exact HP|exact H1].
Qed.
Lemma is_max_unique l l' m m' : Permutation l l' -> is_max l m -> is_max l' m' -> m == m'.
Proof.
  intros HP [H1 H2] [H1' H2']. apply Qle_antisym.
  - apply H2'. eapply Permutation_in; [exact HP|exact H1].
  - apply H2. eapply Permutation_in; [symmetry; exact HP|exact H1'].
Qed.

Lemma calc_iter_min l : is_min (F64_MAX :: l) (calc_iter_f64 FMin l).
Proof. apply fold_min_spec. Qed.
Lemma calc_iter_max l : is_max (- F64_MAX :: l) (calc_iter_f64 FMax l).
Proof. apply fold_max_spec. Qed.
Lemma fold_min_finite x l : x <= F64_MAX -> fold_left fmin (x :: l) F64_MAX == fold_left fmin l x.
Proof.
  intros H. cbn [fold_left]. assert (E : fmin F64_MAX x == x).
  { unfold fmin. destruct (Qle_bool F64_MAX x) eqn:E; [|reflexivity]. apply Qle_bool_iff in E. lra. }
  assert (Hf : forall l a b, a == b -> fold_left fmin l a == fold_left fmin l b).
  { clear. induction l as [|y l IH]; intros a b Hab; [exact Hab|]. cbn. apply IH. unfold fmin.
    destruct (Qle_bool a y) eqn:E1, (Qle_bool b y) eqn:E2; try assumption; try reflexivity.
    - apply Qle_bool_iff in E1. apply Qle_bool_false in E2. lra.
    - apply Qle_bool_iff in E2. apply Qle_bool_false in E1. lra. }
  apply Hf. exact E.
Qed.

(** With at least one value, all of them finite, the minimum and the maximum are
    values of the list. *)
Lemma finite_min l : l <> [] -> (forall x, In x l -> x <= F64_MAX) -> exists m, calc_iter_f64 FMin l == m /\ is_min l m.
Proof.
  intros Hne Hf. destruct l as [|x l]; [congruence|]. exists (fold_left fmin l x). split.
  - apply fold_min_finite. apply Hf. left. reflexivity.
  - apply fold_min_spec.
Qed.
Lemma finite_max l : l <> [] -> (forall x, In x l -> - F64_MAX <= x) -> exists m, calc_iter_f64 FMax l == m /\ is_max l m.
Proof.
  intros Hne Hf. destruct l as [|x l]; [congruence|]. exists (fold_left fmax l x). split; [|apply fold_max_spec].
  cbn [calc_iter_f64 fold_left]. replace (fmax (- F64_MAX) x) with x; [reflexivity|].
  unfold fmax. assert (H : - F64_MAX <= x) by (apply Hf; left; reflexivity). apply Qle_bool_iff in H. rewrite H. reflexivity.
Qed.

(** Order independence *)
Lemma qlen_perm (l l' : list Q) : Permutation l l' -> length l = length l'.
Proof. apply Permutation_length. Qed.
Lemma order_iter f l l' : Permutation l l' -> calc_iter_f64 f l == calc_iter_f64 f l'.
Proof.
  intros HP. destruct f; cbn [calc_iter_f64].
  - rewrite !iter_sum_qsum. apply qsum_perm. exact HP.
  - rewrite (Permutation_length HP). destruct (length l' =? 0)%nat; [reflexivity|].
    rewrite !iter_sum_qsum, (qsum_perm _ _ HP). reflexivity.
  - rewrite !iter_product_qprod. apply qprod_perm. exact HP.
  - eapply is_min_unique; [|apply (calc_iter_min l)|apply (calc_iter_min l')]. constructor. exact HP.
  - eapply is_max_unique; [|apply (calc_iter_max l)|apply (calc_iter_max l')]. constructor. exact HP.
  - unfold iter_count. rewrite (filter_perm _ _ _ HP). reflexivity.
  - unfold iter_count. rewrite (filter_perm _ _ _ HP). reflexivity.
  - rewrite (existsb_perm _ _ _ HP). reflexivity.
Qed.


Lemma order_periods f l l' : Permutation l l' -> opt_eq (calc_period_values f l) (calc_period_values f l').
Proof.
  intros HP. pose proof (Permutation_map pv_value HP) as HV. destruct f; cbn [calc_period_values].
  - cbn. rewrite !iter_sum_qsum. apply qsum_perm. exact HV.
  - cbv zeta. pose proof (qsum_perm _ _ (Permutation_map (fun v => fractional_days (pv_dur v)) HP)) as Hd.
    pose proof (qsum_perm _ _ (Permutation_map (fun v => pv_value v * fractional_days (pv_dur v)) HP)) as Hs.
    rewrite <- !iter_sum_qsum in Hd, Hs.
    destruct (Qeq_bool (iter_sum (map (fun v => fractional_days (pv_dur v)) l)) 0) eqn:E1,
             (Qeq_bool (iter_sum (map (fun v => fractional_days (pv_dur v)) l')) 0) eqn:E2; cbn.
    + exact I.
    + apply Qeq_bool_iff in E1. apply Qeq_bool_neq in E2. apply E2. rewrite <- Hd. exact E1.
    + apply Qeq_bool_iff in E2. apply Qeq_bool_neq in E1. apply E1. rewrite Hd. exact E2.
    + rewrite Hd, Hs. reflexivity.
  - cbn. rewrite !iter_product_qprod. apply qprod_perm. exact HV.
  - pose proof (iter_min_spec (map pv_value l)) as H1. pose proof (iter_min_spec (map pv_value l')) as H2.
    destruct (iter_min (map pv_value l)), (iter_min (map pv_value l')); cbn; try exact I.
    + eapply is_min_unique; eassumption.
    + rewrite H2 in HV. apply Permutation_sym, Permutation_nil in HV. rewrite HV in H1. destruct H1 as [[] _].
    + rewrite H1 in HV. apply Permutation_nil in HV. rewrite HV in H2. destruct H2 as [[] _].
  - pose proof (iter_max_spec (map pv_value l)) as H1. pose proof (iter_max_spec (map pv_value l')) as H2.
    destruct (iter_max (map pv_value l)), (iter_max (map pv_value l')); cbn; try exact I.
    + eapply is_max_unique; eassumption.
    + rewrite H2 in HV. apply Permutation_sym, Permutation_nil in HV. rewrite HV in H1. destruct H1 as [[] _].
    + rewrite H1 in HV. apply Permutation_nil in HV. rewrite HV in H2. destruct H2 as [[] _].
  - cbn. unfold iter_count. rewrite (filter_perm _ _ _ HV). reflexivity.
  - cbn. unfold iter_count. rewrite (filter_perm _ _ _ HV). reflexivity.
  - cbn. rewrite (existsb_perm _ _ _ HV). reflexivity.
Qed.

(** Means *)
Lemma qsum_bounds l lo hi : (forall x, In x l -> lo <= x /\ x <= hi) ->
  inject_Z (Z.of_nat (length l)) * lo <= qsum l /\ qsum l <= inject_Z (Z.of_nat (length l)) * hi.
Proof.
  induction l as [|x l IH]; intros H; cbn [length qsum fold_right].
  - change (inject_Z (Z.of_nat 0)) with 0. lra.
  - destruct (H x (or_introl eq_refl)). destruct IH as [I1 I2]; [intros y Hy; apply H; right; exact Hy|].
    change (fold_right Qplus 0 l) with (qsum l).
    rewrite Nat2Z.inj_succ, <- Z.add_1_r, inject_Z_plus. change (inject_Z 1) with 1. split; lra.
Qed.
Lemma length_pos {A} (l : list A) : l <> [] -> 0 < inject_Z (Z.of_nat (length l)).
Proof. intros H. destruct l; [congruence|]. change 0 with (inject_Z 0). rewrite <- Zlt_Qlt. cbn. lia. Qed.
Lemma mean_formula l : l <> [] -> calc_iter_f64 FMean l * inject_Z (Z.of_nat (length l)) == qsum l.
Proof.
  intros H. pose proof (length_pos l H). cbn [calc_iter_f64]. destruct l as [|x l]; [congruence|]. cbn [length Nat.eqb].
  rewrite iter_sum_qsum. field. cbn [length] in H0. lra.
Qed.
Lemma mean_bounds l lo hi : l <> [] -> (forall x, In x l -> lo <= x /\ x <= hi) ->
  lo <= calc_iter_f64 FMean l /\ calc_iter_f64 FMean l <= hi.
Proof.
  intros Hne H. pose proof (length_pos l Hne) as Hp. pose proof (mean_formula l Hne) as Hm. destruct (qsum_bounds l lo hi H) as [H1 H2].
  rewrite <- Hm, (Qmult_comm (inject_Z _)) in H1. rewrite <- Hm, (Qmult_comm (inject_Z _) hi) in H2.
  split; eapply Qmult_le_r; eassumption.
Qed.

Lemma weighted_formula l : ~ qsum (map days_of l) == 0 ->
  exists m, calc_period_values FMean l = Some m /\ m * qsum (map days_of l) == qsum (map (fun v => pv_value v * days_of v) l).
Proof.
  intros H. cbn [calc_period_values]. cbv zeta. change (fun v => fractional_days (pv_dur v)) with days_of.
  destruct (Qeq_bool (iter_sum (map days_of l)) 0) eqn:E.
  - apply Qeq_bool_iff in E. rewrite iter_sum_qsum in E. tauto.
  - eexists. split; [reflexivity|]. change (fun v => pv_value v * fractional_days (pv_dur v)) with (fun v => pv_value v * days_of v).
    rewrite !iter_sum_qsum. field. exact H.
Qed.
Lemma weighted_none l : qsum (map days_of l) == 0 -> calc_period_values FMean l = None.
Proof.
  intros H. cbn [calc_period_values]. cbv zeta. change (fun v => fractional_days (pv_dur v)) with days_of.
  rewrite <- iter_sum_qsum in H. apply Qeq_bool_iff in H. rewrite H. reflexivity.
Qed.
Lemma days_nonneg v : (0 <= pv_dur v)%Z -> 0 <= days_of v.
Proof.
  intros H. unfold days_of. apply Qle_shift_div_l; [reflexivity|].
  rewrite Qmult_0_l. change 0 with (inject_Z 0). rewrite <- Zle_Qle. exact H.
Qed.
Lemma weighted_qsum_bounds l lo hi : (forall v, In v l -> (0 <= pv_dur v)%Z /\ lo <= pv_value v /\ pv_value v <= hi) ->
  lo * qsum (map days_of l) <= qsum (map (fun v => pv_value v * days_of v) l) /\
  qsum (map (fun v => pv_value v * days_of v) l) <= hi * qsum (map days_of l) /\ 0 <= qsum (map days_of l).
Proof.
  induction l as [|v l IH]; intros H; cbn [map qsum fold_right].
  - lra.
  - destruct (H v (or_introl eq_refl)) as (Hd & Hl & Hh). apply days_nonneg in Hd.
    destruct IH as (I1 & I2 & I3); [intros y Hy; apply H; right; exact Hy|].
    change (fold_right Qplus 0 (map days_of l)) with (qsum (map days_of l)).
    change (fold_right Qplus 0 (map (fun v => pv_value v * days_of v) l)) with (qsum (map (fun v => pv_value v * days_of v) l)).
    repeat split; nra.
Qed.
Lemma weighted_bounds l lo hi m :
  (forall v, In v l -> (0 <= pv_dur v)%Z /\ lo <= pv_value v /\ pv_value v <= hi) ->
  calc_period_values FMean l = Some m -> lo <= m /\ m <= hi.
Proof.
  intros H Hm. destruct (weighted_qsum_bounds l lo hi H) as (H1 & H2 & H3).
  assert (Hne : ~ qsum (map days_of l) == 0) by (intros Hz; apply weighted_none in Hz; congruence).
  destruct (weighted_formula l Hne) as (m' & Hm' & Hf). rewrite Hm in Hm'. injection Hm' as <-.
  assert (0 < qsum (map days_of l)) by (apply Qnot_le_lt; intros Hz; apply Hne; lra).
  rewrite <- Hf in H1, H2. split; eapply Qmult_le_r; eassumption.
Qed.
Lemma weighted_equal l d : l <> [] -> (0 < d)%Z -> (forall v, In v l -> pv_dur v = d) ->
  exists m, calc_period_values FMean l = Some m /\ m == calc_iter_f64 FMean (map pv_value l).
Proof.
  intros Hne Hd Hl. set (q := inject_Z d / inject_Z NS_PER_DAY).
  assert (Hq : 0 < q). { unfold q. apply Qlt_shift_div_l; [reflexivity|]. rewrite Qmult_0_l. change 0 with (inject_Z 0). rewrite <- Zlt_Qlt. exact Hd. }
  assert (E1 : qsum (map days_of l) == inject_Z (Z.of_nat (length l)) * q).
  { clear Hne. induction l as [|v l IH]; [cbn [map qsum fold_right length]; change (inject_Z (Z.of_nat 0)) with 0; lra|]. cbn [map qsum fold_right length].
    change (fold_right Qplus 0 (map days_of l)) with (qsum (map days_of l)). rewrite IH by (intros w Hw; apply Hl; right; exact Hw).
    unfold days_of. rewrite (Hl v (or_introl eq_refl)). fold q. rewrite Nat2Z.inj_succ, <- Z.add_1_r, inject_Z_plus. change (inject_Z 1) with 1. ring. }
  assert (E2 : qsum (map (fun v => pv_value v * days_of v) l) == q * qsum (map pv_value l)).
  { rewrite <- qsum_scale. apply qsum_ext. intros v Hv. unfold days_of. rewrite (Hl v Hv). fold q. ring. }
  pose proof (length_pos l Hne) as Hp.
  assert (Hnz : ~ qsum (map days_of l) == 0) by (rewrite E1; intros Hz; apply Qmult_integral in Hz; destruct Hz; lra).
  destruct (weighted_formula l Hnz) as (m & Hm & Hf). exists m. split; [exact Hm|].
  rewrite E1, E2 in Hf.
  assert (Hne' : map pv_value l <> []) by (destruct l; [congruence|discriminate]).
  pose proof (mean_formula _ Hne') as Hmean. rewrite map_length in Hmean.
  rewrite <- Hmean in Hf.
  apply (Qmult_inj_r m (calc_iter_f64 FMean (map pv_value l)) (inject_Z (Z.of_nat (length l)) * q)).
  - intros Hz. apply Qmult_integral in Hz. destruct Hz; lra.
  - rewrite Hf. ring.
Qed.

(** Integer aggregation *)

Lemma fold_plus_wrapping l : forall a, (0 <= a <= U64_MAX)%Z -> in_u64 l -> fold_u64 Wrapping Z.add l a = Ok ((a + zsum l) mod 2 ^ 64)%Z.
Proof.
  induction l as [|x l IH]; intros a Ha Hl; cbn [fold_u64 zsum fold_right].
  - rewrite Z.add_0_r, Z.mod_small by (unfold U64_MAX in *; lia). reflexivity.
  - change (fold_right Z.add 0%Z l) with (zsum l).
    assert (Hx : (0 <= x <= U64_MAX)%Z) by (apply Hl; left; reflexivity).
    assert (Hl' : in_u64 l) by (intros y Hy; apply Hl; right; exact Hy).
    unfold fit. destruct (a + x <=? U64_MAX)%Z eqn:E; cbn [rbind].
    + rewrite IH by (try assumption; lia). do 2 f_equal. lia.
    + rewrite IH by (try assumption; unfold U64_MAX; pose proof (Z.mod_pos_bound (a + x) (2 ^ 64) eq_refl); lia).
      rewrite Z.add_mod_idemp_l by lia. do 2 f_equal. lia.
Qed.
Lemma fold_mult_wrapping l : forall a, (0 <= a <= U64_MAX)%Z -> in_u64 l -> fold_u64 Wrapping Z.mul l a = Ok ((a * zprod l) mod 2 ^ 64)%Z.
Proof.
  induction l as [|x l IH]; intros a Ha Hl; cbn [fold_u64 zprod fold_right].
  - rewrite Z.mul_1_r, Z.mod_small by (unfold U64_MAX in *; lia). reflexivity.
  - change (fold_right Z.mul 1%Z l) with (zprod l).
    assert (Hx : (0 <= x <= U64_MAX)%Z) by (apply Hl; left; reflexivity).
    assert (Hl' : in_u64 l) by (intros y Hy; apply Hl; right; exact Hy).
    unfold fit. destruct (a * x <=? U64_MAX)%Z eqn:E; cbn [rbind].
    + rewrite IH by (try assumption; nia). do 2 f_equal. lia.
    + rewrite IH by (try assumption; unfold U64_MAX; pose proof (Z.mod_pos_bound (a * x) (2 ^ 64) eq_refl); lia).
      rewrite Z.mul_mod_idemp_l by lia. do 2 f_equal. lia.
Qed.
Lemma zsum_nonneg l : in_u64 l -> (0 <= zsum l)%Z.
Proof.
  induction l as [|x l IH]; intros H; cbn; [lia|]. assert (0 <= x <= U64_MAX)%Z by (apply H; left; reflexivity).
  assert (0 <= zsum l)%Z by (apply IH; intros y Hy; apply H; right; exact Hy). unfold zsum in *. lia.
Qed.
Lemma fold_plus_checked l : forall a, (0 <= a <= U64_MAX)%Z -> in_u64 l ->
  fold_u64 Checked Z.add l a = if (a + zsum l <=? U64_MAX)%Z then Ok (a + zsum l)%Z else Panic.
Proof.
  induction l as [|x l IH]; intros a Ha Hl; cbn [fold_u64 zsum fold_right].
  - rewrite Z.add_0_r. destruct (a <=? U64_MAX)%Z eqn:E; [reflexivity|lia].
  - change (fold_right Z.add 0%Z l) with (zsum l).
    assert (Hx : (0 <= x <= U64_MAX)%Z) by (apply Hl; left; reflexivity).
    assert (Hl' : in_u64 l) by (intros y Hy; apply Hl; right; exact Hy). pose proof (zsum_nonneg l Hl').
    unfold fit. destruct (a + x <=? U64_MAX)%Z eqn:E; cbn [rbind].
    + rewrite IH by (try assumption; lia). replace (a + (x + zsum l))%Z with (a + x + zsum l)%Z by lia. reflexivity.
    + destruct (a + (x + zsum l) <=? U64_MAX)%Z eqn:E2; [lia|reflexivity].
Qed.
Lemma zprod_pos l : in_u64 l -> ~ In 0%Z l -> (1 <= zprod l)%Z.
Proof.
  induction l as [|x l IH]; intros H H0; cbn; [lia|]. assert (0 <= x <= U64_MAX)%Z by (apply H; left; reflexivity).
  assert (x <> 0)%Z by (intros ->; apply H0; left; reflexivity).
  assert (1 <= zprod l)%Z by (apply IH; [intros y Hy; apply H; right; exact Hy|intros Hy; apply H0; right; exact Hy]). unfold zprod in *. nia.
Qed.
Lemma fold_mult_checked l : forall a, (1 <= a <= U64_MAX)%Z -> in_u64 l -> ~ In 0%Z l ->
  fold_u64 Checked Z.mul l a = if (a * zprod l <=? U64_MAX)%Z then Ok (a * zprod l)%Z else Panic.
Proof.
  induction l as [|x l IH]; intros a Ha Hl H0; cbn [fold_u64 zprod fold_right].
  - rewrite Z.mul_1_r. destruct (a <=? U64_MAX)%Z eqn:E; [reflexivity|lia].
  - change (fold_right Z.mul 1%Z l) with (zprod l).
    assert (Hx : (0 <= x <= U64_MAX)%Z) by (apply Hl; left; reflexivity).
    assert (x <> 0)%Z by (intros ->; apply H0; left; reflexivity).
    assert (Hl' : in_u64 l) by (intros y Hy; apply Hl; right; exact Hy).
    assert (H0' : ~ In 0%Z l) by (intros Hy; apply H0; right; exact Hy). pose proof (zprod_pos l Hl' H0').
    unfold fit. destruct (a * x <=? U64_MAX)%Z eqn:E; cbn [rbind].
    + rewrite IH by (try assumption; nia). replace (a * (x * zprod l))%Z with (a * x * zprod l)%Z by lia. reflexivity.
    + destruct (a * (x * zprod l) <=? U64_MAX)%Z eqn:E2; [nia|reflexivity].
Qed.
Lemma zsum_perm l l' : Permutation l l' -> zsum l = zsum l'.
Proof. unfold zsum. induction 1; cbn; lia. Qed.
Lemma zprod_perm l l' : Permutation l l' -> zprod l = zprod l'.
Proof. unfold zprod. induction 1; cbn; [reflexivity| congruence | lia | congruence]. Qed.
Lemma in_u64_perm l l' : Permutation l l' -> in_u64 l -> in_u64 l'.
Proof. intros HP H x Hx. apply H. eapply Permutation_in; [symmetry; exact HP|exact Hx]. Qed.

Lemma fold_zmin_spec l : forall a, is_zmin (a :: l) (fold_left Z.min l a).
Proof.
  induction l as [|x l IH]; intros a; cbn [fold_left].
  - split; [left; reflexivity|]. intros y [->|[]]. lia.
  - destruct (IH (Z.min a x)) as [H1 H2]. split.
    + destruct H1 as [H1|H1]; [|right; right; exact H1]. rewrite <- H1. destruct (Z.min_spec a x) as [[_ ->]|[_ ->]]; cbn; tauto.
    + assert (H := H2 _ (or_introl eq_refl)). intros y [->|[->|Hy]]; [lia|lia|]. apply H2. right. exact Hy.
Qed.
Lemma fold_zmax_spec l : forall a, is_zmax (a :: l) (fold_left Z.max l a).
Proof.
  induction l as [|x l IH]; intros a; cbn [fold_left].
  - split; [left; reflexivity|]. intros y [->|[]]. lia.
  - destruct (IH (Z.max a x)) as [H1 H2]. split.
    + destruct H1 as [H1|H1]; [|right; right; exact H1]. rewrite <- H1. destruct (Z.max_spec a x) as [[_ ->]|[_ ->]]; cbn; tauto.
    + assert (H := H2 _ (or_introl eq_refl)). intros y [->|[->|Hy]]; [lia|lia|]. apply H2. right. exact Hy.
Qed.

Lemma order_u64 p f l l' : Permutation l l' -> in_u64 l -> (p = Checked -> f = UProduct -> ~ In 0%Z l) ->
  calc_iter_u64 p f l = calc_iter_u64 p f l'.
Proof.
  intros HP HU H0. pose proof (in_u64_perm _ _ HP HU) as HU'. destruct f; cbn [calc_iter_u64].
  - destruct p.
    + rewrite !fold_plus_checked by (try assumption; cbv; split; discriminate). rewrite (zsum_perm _ _ HP). reflexivity.
    + rewrite !fold_plus_wrapping by (try assumption; cbv; split; discriminate). rewrite (zsum_perm _ _ HP). reflexivity.
  - destruct p.
    + assert (H1 : ~ In 0%Z l) by (apply H0; reflexivity).
      assert (H1' : ~ In 0%Z l') by (intros H; apply H1; eapply Permutation_in; [symmetry; exact HP|exact H]).
      rewrite !fold_mult_checked by (try assumption; cbv; split; discriminate). rewrite (zprod_perm _ _ HP). reflexivity.
    + rewrite !fold_mult_wrapping by (try assumption; cbv; split; discriminate). rewrite (zprod_perm _ _ HP). reflexivity.
  - destruct l as [|x l].
    + apply Permutation_nil in HP. rewrite HP. reflexivity.
    + destruct l' as [|x' l']; [apply Permutation_sym, Permutation_nil in HP; discriminate|]. f_equal.
      destruct (fold_zmin_spec l x) as [A1 A2], (fold_zmin_spec l' x') as [B1 B2].
      apply Z.le_antisymm; [apply A2; eapply Permutation_in; [symmetry; exact HP|exact B1]|apply B2; eapply Permutation_in; [exact HP|exact A1]].
  - destruct l as [|x l].
    + apply Permutation_nil in HP. rewrite HP. reflexivity.
    + destruct l' as [|x' l']; [apply Permutation_sym, Permutation_nil in HP; discriminate|]. f_equal.
      destruct (fold_zmax_spec l x) as [A1 A2], (fold_zmax_spec l' x') as [B1 B2].
      apply Z.le_antisymm; [apply B2; eapply Permutation_in; [exact HP|exact A1]|apply A2; eapply Permutation_in; [symmetry; exact HP|exact B1]].
  - rewrite (existsb_perm _ _ _ HP). reflexivity.
  - rewrite (forallb_perm _ _ _ HP). reflexivity.
Qed.

(** Counts *)
Lemma filter_how_many {A} (P : A -> Prop) (p : A -> bool) l :
  (forall x, In x l -> p x = true <-> P x) -> how_many P l (length (filter p l)).
Proof.
  induction l as [|x l IH]; intros H; cbn [filter]; [constructor|].
  assert (Hx := H x (or_introl eq_refl)). assert (Hl := IH (fun y Hy => H y (or_intror Hy))).
  destruct (p x) eqn:E; cbn [length]; constructor; try tauto. intros HP. apply Hx in HP. discriminate.
Qed.
Lemma non_zero_iff x : non_zero x = true <-> ~ x == 0.
Proof.
  unfold non_zero. rewrite negb_true_iff. split.
  - intros H Hx. apply Qeq_bool_iff in Hx. congruence.
  - intros H. destruct (Qeq_bool x 0) eqn:E; [|reflexivity]. apply Qeq_bool_iff in E. tauto.
Qed.
Lemma above_iff t x : above t x = true <-> t < Qabs x.
Proof.
  unfold above. rewrite negb_true_iff. split.
  - apply Qle_bool_false.
  - intros H. destruct (Qle_bool (Qabs x) t) eqn:E; [|reflexivity]. apply Qle_bool_iff in E. lra.
Qed.
Lemma any_spec t l : (calc_iter_f64 (FAnyNonZero t) l == 1 <-> exists x, In x l /\ t < Qabs x) /\
  (calc_iter_f64 (FAnyNonZero t) l == 0 <-> forall x, In x l -> Qabs x <= t).
Proof.
  cbn [calc_iter_f64]. destruct (existsb (above t) l) eqn:E; cbn [bool_f64]; split; split.
  - intros _. apply existsb_exists in E. destruct E as (x & Hx & H). exists x. apply above_iff in H. tauto.
  - intros _. reflexivity.
  - intros H. discriminate.
  - intros H. apply existsb_exists in E. destruct E as (x & Hx & Ha). apply above_iff in Ha. pose proof (H x Hx). lra.
  - intros H. discriminate.
  - intros (x & Hx & H). apply above_iff in H. assert (existsb (above t) l = true) by (apply existsb_exists; exists x; tauto). congruence.
  - intros _ x Hx. apply Qnot_lt_le. intros H. apply above_iff in H.
    assert (existsb (above t) l = true) by (apply existsb_exists; exists x; tauto). congruence.
  - intros _. reflexivity.
Qed.
Lemma u64_any_all p l :
  (exists v, calc_iter_u64 p UAny l = Ok v /\ (v = 1%Z /\ (exists x, In x l /\ x <> 0%Z) \/ v = 0%Z /\ forall x, In x l -> x = 0%Z)) /\
  (exists v, calc_iter_u64 p UAll l = Ok v /\ (v = 1%Z /\ (forall x, In x l -> x <> 0%Z) \/ v = 0%Z /\ In 0%Z l)).
Proof.
  split; (eexists; split; [reflexivity|]).
  - destruct (existsb (fun b => negb (b =? 0)%Z) l) eqn:E; cbn [bool_u64]; [left|right]; (split; [reflexivity|]).
    + apply existsb_exists in E. destruct E as (x & Hx & H). exists x. split; [exact Hx|]. intros ->. discriminate.
    + intros x Hx. destruct (Z.eq_dec x 0) as [|Hn]; [assumption|].
      assert (existsb (fun b => negb (b =? 0)%Z) l = true); [|congruence]. apply existsb_exists. exists x. split; [exact Hx|].
      apply negb_true_iff. apply Z.eqb_neq. exact Hn.
  - destruct (forallb (fun b => negb (b =? 0)%Z) l) eqn:E; cbn [bool_u64]; [left|right]; (split; [reflexivity|]).
    + intros x Hx. rewrite forallb_forall in E. specialize (E x Hx). intros ->. discriminate.
    + destruct (in_dec Z.eq_dec 0%Z l) as [|Hn]; [assumption|]. exfalso.
      assert (forallb (fun b => negb (b =? 0)%Z) l = true); [|congruence]. apply forallb_forall. intros x Hx.
      apply negb_true_iff. apply Z.eqb_neq. intros ->. exact (Hn Hx).
Qed.
Lemma u64_min_max p l : l <> [] ->
  (exists m, calc_iter_u64 p UMin l = Ok m /\ is_zmin l m) /\ (exists m, calc_iter_u64 p UMax l = Ok m /\ is_zmax l m).
Proof.
  intros H. destruct l as [|x l]; [congruence|]. split; (eexists; split; [reflexivity|]).
  - apply fold_zmin_spec.
  - apply fold_zmax_spec.
Qed.
Lemma u64_sum p l : in_u64 l -> (zsum l <= U64_MAX)%Z -> calc_iter_u64 p USum l = Ok (zsum l).
Proof.
  intros HU H. pose proof (zsum_nonneg l HU). cbn [calc_iter_u64]. destruct p.
  - rewrite fold_plus_checked by (try assumption; cbv; split; discriminate). cbn [Z.add].
    destruct (zsum l <=? U64_MAX)%Z eqn:E; [reflexivity|lia].
  - rewrite fold_plus_wrapping by (try assumption; cbv; split; discriminate). cbn [Z.add].
    rewrite Z.mod_small by (unfold U64_MAX in *; lia). reflexivity.
Qed.
Lemma zprod_zero l : In 0%Z l -> zprod l = 0%Z.
Proof. induction l as [|x l IH]; intros []; unfold zprod in *; cbn [fold_right]; [subst; lia|]. rewrite IH by assumption. lia. Qed.
Lemma u64_product p l : in_u64 l -> ~ In 0%Z l -> (zprod l <= U64_MAX)%Z -> calc_iter_u64 p UProduct l = Ok (zprod l).
Proof.
  intros HU H0 H. pose proof (zprod_pos l HU H0). cbn [calc_iter_u64]. destruct p.
  - rewrite fold_mult_checked by (try assumption; cbv; split; discriminate). rewrite Z.mul_1_l.
    destruct (zprod l <=? U64_MAX)%Z eqn:E; [reflexivity|lia].
  - rewrite fold_mult_wrapping by (try assumption; cbv; split; discriminate). rewrite Z.mul_1_l.
    rewrite Z.mod_small by (unfold U64_MAX in *; lia). reflexivity.
Qed.
Lemma u64_product_wrapping_zero l : in_u64 l -> In 0%Z l -> calc_iter_u64 Wrapping UProduct l = Ok 0%Z.
Proof.
  intros HU H. cbn [calc_iter_u64]. rewrite fold_mult_wrapping by (try assumption; cbv; split; discriminate).
  rewrite (zprod_zero l H). reflexivity.
Qed.
