(** Proofs about array lookups and variables. *)
From Coq Require Import QArith Lqa.
From Verif Require Import Base Scenario ScenarioSpec Lookups LookupsSpec.
Local Open Scope Z_scope.

(** * Array lookups *)

Lemma as_i32_id v : fits_i32 v -> as_i32 v = v.
Proof.
  unfold fits_i32, as_i32. intros H. rewrite Z.mod_small; lia.
Qed.

Lemma i32_arith_fits {E} c v : fits_i32 v -> i32_arith (E := E) c v = Ok v.
Proof.
  unfold fits_i32, i32_arith, I32_MAX. intros H.
  replace ((- 2 ^ 31 <=? v) && (v <=? 2147483647))%bool with true by (symmetry; lia). reflexivity.
Qed.

Lemma timestep_index_offset c len o t :
  0 < len < 2 ^ 31 -> fits_i32 t -> fits_i32 (t + o) ->
  timestep_index c len (Some o) t = Ok (Z.min (Z.max (t + o) 0) (len - 1)).
Proof.
  intros Hl Ht Ho. unfold timestep_index.
  rewrite (as_i32_id t) by assumption. rewrite i32_arith_fits by assumption. cbn [rbind].
  rewrite (as_i32_id len) by (unfold fits_i32; lia).
  rewrite i32_arith_fits by (unfold fits_i32; lia). cbn [rbind]. f_equal.
  unfold i32_as_usize. apply Z.mod_small. lia.
Qed.

Lemma get_row_in {A} (l : list A) i : 0 <= i < Z.of_nat (length l) ->
  exists v, get_row l i = Some v /\ nth_error l (Z.to_nat i) = Some v.
Proof.
  intros H. unfold get_row. replace (i <? Z.of_nat (length l)) with true by lia.
  destruct (nth_error l (Z.to_nat i)) eqn:E; [eauto|].
  apply nth_error_None in E. lia.
Qed.

Lemma get_row_out {A} (l : list A) i : Z.of_nat (length l) <= i -> get_row l i = None.
Proof. intros H. unfold get_row. replace (i <? Z.of_nat (length l)) with false by lia. reflexivity. Qed.

Lemma nearest_clamp {A} (l : list A) i v : (0 < length l)%nat ->
  nth_error l (Z.to_nat (Z.min (Z.max i 0) (Z.of_nat (length l) - 1))) = Some v ->
  nearest_entry l i v.
Proof.
  intros Hl H. unfold nearest_entry.
  destruct (Z_lt_dec i 0) as [H0|H0].
  - left. split; [assumption|]. replace (Z.to_nat _) with 0%nat in H by lia. exact H.
  - destruct (Z_lt_dec i (Z.of_nat (length l))) as [H1|H1].
    + right; left. split; [lia|]. replace (Z.to_nat _) with (Z.to_nat i) in H by lia. exact H.
    + right; right. split; [lia|]. replace (Z.to_nat _) with (length l - 1)%nat in H by lia. exact H.
Qed.

Lemma array1_offset {A} c (l : list A) o t :
  l <> [] -> Z.of_nat (length l) < 2 ^ 31 -> fits_i32 t -> fits_i32 (t + o) ->
  exists v, array1_compute c l (Some o) t = Ok v /\ nearest_entry l (t + o) v.
Proof.
  intros Hne Hl Ht Ho.
  assert (Hp : (0 < length l)%nat) by (destruct l; [congruence | cbn; lia]).
  unfold array1_compute. rewrite timestep_index_offset by (lia || assumption). cbn [rbind].
  destruct (get_row_in l (Z.min (Z.max (t + o) 0) (Z.of_nat (length l) - 1)) ltac:(lia)) as [v [Hg Hn]].
  exists v. rewrite Hg. split; [reflexivity|]. apply nearest_clamp; assumption.
Qed.

Lemma array1_no_offset {A} c (l : list A) t : 0 <= t ->
  (forall v, nth_error l (Z.to_nat t) = Some v -> array1_compute c l None t = Ok v) /\
  (Z.of_nat (length l) <= t -> array1_compute c l None t = Err (OutOfBounds t (Z.of_nat (length l)) 0)).
Proof.
  intros Ht. unfold array1_compute. cbn [timestep_index rbind]. split.
  - intros v Hv. pose proof (nth_error_Some_lt _ _ _ Hv).
    destruct (get_row_in l t ltac:(lia)) as [w [Hg Hn]]. rewrite Hg. congruence.
  - intros H. rewrite get_row_out by assumption. reflexivity.
Qed.

Lemma array1_empty {A} c o t : fits_i32 t -> 0 <= t -> (forall z, o = Some z -> fits_i32 (t + z)) ->
  exists e, array1_compute c (@nil A) o t = Err e.
Proof.
  intros Ht H0 Ho. unfold array1_compute. destruct o as [z|]; cbn [timestep_index].
  - rewrite (as_i32_id t) by assumption. rewrite i32_arith_fits by auto. cbn [rbind].
    rewrite i32_arith_fits by (unfold fits_i32; vm_compute; split; congruence). cbn [rbind].
    rewrite get_row_out; [eauto|]. cbn [length]. unfold i32_as_usize.
    apply Z.mod_pos_bound. lia.
  - cbn [rbind]. rewrite get_row_out; [eauto | exact H0].
Qed.

Lemma get_row_In {A} (l : list A) i v : get_row l i = Some v -> In v l.
Proof.
  unfold get_row. destruct (_ <? _); [|discriminate]. apply nth_error_In.
Qed.

Lemma array1_within {A} c (l : list A) o t v : array1_compute c l o t = Ok v -> In v l.
Proof.
  unfold array1_compute. destruct (timestep_index _ _ _ _); cbn [rbind]; try discriminate.
  destruct (get_row l a) eqn:E; [|discriminate]. injection 1 as <-. eapply get_row_In; eauto.
Qed.

Lemma array2_within {A} c (l : list (list A)) w o s t v :
  array2_compute c l w o s t = Ok v -> exists row, In row l /\ get_row row s = Some v.
Proof.
  unfold array2_compute. destruct (timestep_index _ _ _ _); cbn [rbind]; try discriminate.
  destruct (get_row l a) as [row|] eqn:E.
  - destruct (get_row row s) as [x|] eqn:E2.
    + injection 1 as <-. exists row. split; [eapply get_row_In; eauto | assumption].
    + repeat destruct (_ <=? _); discriminate.
  - repeat destruct (_ <=? _); discriminate.
Qed.

Lemma array2_offset {A} c (l : list (list A)) w o s t :
  l <> [] -> Z.of_nat (length l) < 2 ^ 31 -> fits_i32 t -> fits_i32 (t + o) ->
  0 <= s < w -> Forall (fun r => Z.of_nat (length r) = w) l ->
  exists row v, array2_compute c l w (Some o) s t = Ok v /\ nearest_entry l (t + o) row /\
                nth_error row (Z.to_nat s) = Some v.
Proof.
  intros Hne Hl Ht Ho Hs Hw.
  assert (Hp : (0 < length l)%nat) by (destruct l; [congruence | cbn; lia]).
  unfold array2_compute. rewrite timestep_index_offset by (lia || assumption). cbn [rbind].
  destruct (get_row_in l (Z.min (Z.max (t + o) 0) (Z.of_nat (length l) - 1)) ltac:(lia)) as [row [Hg Hn]].
  rewrite Hg. rewrite Forall_forall in Hw.
  pose proof (Hw row (nth_error_In _ _ Hn)) as Hr.
  destruct (get_row_in row s ltac:(lia)) as [v [Hg' Hn']].
  exists row, v. rewrite Hg'. split; [reflexivity|]. split; [apply nearest_clamp; assumption | assumption].
Qed.

Lemma array2_bad_column {A} c (l : list (list A)) w o s t :
  l <> [] -> Z.of_nat (length l) < 2 ^ 31 -> fits_i32 t -> fits_i32 (t + o) ->
  w <= s -> Forall (fun r => Z.of_nat (length r) = w) l ->
  array2_compute c l w (Some o) s t = Err (OutOfBounds s w 1).
Proof.
  intros Hne Hl Ht Ho Hs Hw.
  assert (Hp : (0 < length l)%nat) by (destruct l; [congruence | cbn; lia]).
  unfold array2_compute. rewrite timestep_index_offset by (lia || assumption). cbn [rbind].
  destruct (get_row_in l (Z.min (Z.max (t + o) 0) (Z.of_nat (length l) - 1)) ltac:(lia)) as [row [Hg Hn]].
  rewrite Hg. rewrite Forall_forall in Hw.
  pose proof (Hw row (nth_error_In _ _ Hn)) as Hr. rewrite get_row_out by lia.
  replace (Z.of_nat (length l) <=? _) with false by lia.
  replace (w <=? s) with true by lia. reflexivity.
Qed.


(** The row of the built table belonging to a row of the original. *)
Definition reads_row {A} (d : scenario_domain) (k m i : nat) (row r : list A) : Prop :=
  group_row d k row = Ok r /\ exists v, nth_error r m = Some v /\ nth_error row i = Some v.

Lemma lookup_parts {A} d k s (row : list A) v :
  array_lookup d k row s = Ok v ->
  exists r m, group_row d k row = Ok r /\ simulation_index_for_group s k = Ok m /\ nth_error r m = Some v.
Proof.
  unfold array_lookup. destruct (group_row d k row) as [r| |]; cbn [rbind]; try discriminate.
  destruct (simulation_index_for_group s k) as [m| |]; cbn [rbind]; try discriminate.
  unfold index_or_panic. destruct (nth_error r m) eqn:E; [|discriminate]. injection 1 as <-. eauto 6.
Qed.

Lemma build_rows {A} d k s i (rows : list (list A)) :
  (forall row, In row rows -> exists v, nth_error row i = Some v /\ array_lookup d k row s = Ok v) ->
  rows <> [] ->
  exists built m, array2_build d k rows = Ok built /\ simulation_index_for_group s k = Ok m /\
    Forall2 (reads_row d k m i) rows built.
Proof.
  intros H Hne. unfold array2_build.
  assert (Hm : exists m, simulation_index_for_group s k = Ok m).
  { destruct rows as [|r0 rest]; [congruence|]. destruct (H r0 (or_introl eq_refl)) as [v [_ Hv]].
    destruct (lookup_parts _ _ _ _ _ Hv) as [r [m [_ [Hm _]]]]. eauto. }
  destruct Hm as [m Hm]. clear Hne.
  induction rows as [|row rest IH].
  - exists [], m. cbn. auto.
  - destruct IH as [built [m' [Hb [Hm' Hf]]]]; [intros r Hr; apply H; now right|].
    assert (m' = m) by congruence. subst m'.
    destruct (H row (or_introl eq_refl)) as [v [Hv Hl]].
    destruct (lookup_parts _ _ _ _ _ Hl) as [r [m' [Hr [Hm'' Hn]]]].
    assert (m' = m) by congruence. subst m'.
    exists (r :: built), m. cbn [rmap]. rewrite Hr. cbn [rbind]. rewrite Hb. cbn [rbind].
    split; [reflexivity|]. split; [assumption|]. constructor; [|assumption]. split; eauto.
Qed.

Lemma Forall2_nth_l {A B} (P : A -> B -> Prop) l l' i y :
  Forall2 P l l' -> nth_error l' i = Some y -> exists x, nth_error l i = Some x /\ P x y.
Proof.
  intros H. revert i. induction H; intros [|i]; cbn; try discriminate.
  - injection 1 as <-. eauto.
  - intros Hy. apply IHForall2 in Hy. exact Hy.
Qed.

Lemma nearest_Forall2 {A B} (P : A -> B -> Prop) l l' i y :
  Forall2 P l l' -> nearest_entry l' i y -> exists x, nearest_entry l i x /\ P x y.
Proof.
  intros H. pose proof (Forall2_length' _ _ _ H) as Hl. unfold nearest_entry. rewrite <- Hl.
  intros [[Hi Hy]|[[Hi Hy]|[Hi Hy]]]; destruct (Forall2_nth_l _ _ _ _ _ H Hy) as [x [Hx HP]]; eauto 8.
Qed.

Lemma array2_scenario {A} d k s i (rows : list (list A)) :
  (forall row, In row rows -> exists v, nth_error row i = Some v /\ array_lookup d k row s = Ok v) ->
  rows <> [] -> Z.of_nat (length rows) < 2 ^ 31 ->
  exists built m, array2_build d k rows = Ok built /\ simulation_index_for_group s k = Ok m /\
    forall c t o w, fits_i32 t -> fits_i32 (t + o) -> Forall (fun r => Z.of_nat (length r) = w) built ->
    exists row v, nearest_entry rows (t + o) row /\ nth_error row i = Some v /\
      array2_compute c built w (Some o) (Z.of_nat m) t = Ok v.
Proof.
  intros H Hne Hlen. destruct (build_rows d k s i rows H Hne) as [built [m [Hb [Hm Hf]]]].
  exists built, m. split; [assumption|]. split; [assumption|].
  intros c t o w Ht Ho Hw. pose proof (Forall2_length' _ _ _ Hf) as Hl.
  assert (Hbne : built <> []) by (destruct built, rows; cbn in Hl; congruence).
  assert (Hmw : 0 <= Z.of_nat m < w).
  { inversion Hf as [|r b rs bs [_ [v [Hv _]]] Hrest]; subst; [congruence|].
    inversion Hw; subst. apply nth_error_Some_lt in Hv. lia. }
  destruct (array2_offset c built w o (Z.of_nat m) t Hbne ltac:(lia) Ht Ho Hmw Hw) as [r [v [Hc [Hn Hv]]]].
  destruct (nearest_Forall2 _ _ _ _ _ Hf Hn) as [row [Hr [_ [v' [Hv1 Hv2]]]]].
  rewrite Nat2Z.id in Hv. assert (v' = v) by congruence. subst v'. eauto.
Qed.

(** * Activation functions *)

Local Open Scope Q_scope.

Lemma Qle_bool_cases a b : (Qle_bool a b = true /\ a <= b) \/ (Qle_bool a b = false /\ b < a).
Proof.
  destruct (Qle_bool a b) eqn:E; [left | right]; (split; [reflexivity|]).
  - now apply Qle_bool_iff.
  - apply Qnot_le_lt. intros H. apply Qle_bool_iff in H. congruence.
Qed.
Ltac qle a b := let H := fresh "Hq" in
  destruct (Qle_bool_cases a b) as [[H ?]|[H ?]]; rewrite ?H in *; cbn [negb] in *.

Lemma clamp_ok {E} v lo hi : lo <= hi ->
  exists c, f64_clamp (E := E) v lo hi = Ok c /\ lo <= c <= hi /\
    (lo <= v <= hi -> c = v) /\ (v < lo -> c = lo) /\ (hi < v -> c = hi).
Proof.
  intros H. unfold f64_clamp. qle lo hi; [|lra]. qle lo v.
  - qle v hi; eexists; (split; [reflexivity|]); repeat split; intros; try reflexivity; lra.
  - eexists; (split; [reflexivity|]); repeat split; intros; try reflexivity; lra.
Qed.

Lemma clamp_panics {E} v lo hi : hi < lo -> f64_clamp (E := E) v lo hi = Panic.
Proof. intros H. unfold f64_clamp. qle lo hi; [lra | reflexivity]. Qed.

Lemma bounds_sensible f : sensible f -> lower_bound f <= upper_bound f.
Proof. destruct f; cbn; intros; try assumption; lra. Qed.

Section WithExp.
Variable exp : Q -> Q.
Hypothesis exp_pos : forall x, 0 < exp x.

Lemma logistic_den g v : 1 < 1 + exp (- g * v).
Proof. pose proof (exp_pos (- g * v)). lra. Qed.

Lemma apply_range {E} f v : sensible f ->
  exists r, activation_apply (E := E) exp f v = Ok r /\ in_range f r.
Proof.
  intros Hs. unfold activation_apply.
  destruct (clamp_ok (E := E) v _ _ (bounds_sensible f Hs)) as [c [Hc [Hr _]]].
  rewrite Hc. cbn [rbind]. eexists. split; [reflexivity|].
  destruct f; cbn [in_range lower_bound upper_bound] in *.
  - exact Hr.
  - qle c 0; [left; reflexivity|]. right. unfold between.
    destruct (Qlt_le_dec max min); [right | left]; nra.
  - qle c 0; [right | left]; reflexivity.
  - unfold between. pose proof (logistic_den growth_rate c) as Hd.
    set (den := 1 + exp (- growth_rate * c)) in *.
    destruct (Qlt_le_dec max 0); [right | left].
    + split; [apply Qle_shift_div_l | apply Qle_shift_div_r]; nra.
    + split; [apply Qle_shift_div_l | apply Qle_shift_div_r]; nra.
Qed.

Lemma apply_insensible {E} f v : ~ sensible f -> activation_apply (E := E) exp f v = Panic.
Proof.
  intros H. destruct f; cbn in H; try (exfalso; apply H; exact I).
  unfold activation_apply. cbn [lower_bound upper_bound]. rewrite clamp_panics; [reflexivity | lra].
Qed.
End WithExp.

Section Shapes.
Variable exp : Q -> Q.

Lemma apply_unit {E} lo hi v : lo <= hi ->
  exists r, activation_apply (E := E) exp (AUnit lo hi) v = Ok r /\
    (lo <= v <= hi -> r = v) /\ (v < lo -> r = lo) /\ (hi < v -> r = hi).
Proof.
  intros H. destruct (clamp_ok (E := E) v _ _ H) as [c [Hc [_ H3]]].
  exists c. split; [|exact H3]. unfold activation_apply. cbn [lower_bound upper_bound]. now rewrite Hc.
Qed.

Lemma apply_rectifier {E} lo hi neg v :
  exists r, activation_apply (E := E) exp (ARectifier lo hi neg) v = Ok r /\
    (v <= 0 -> r = neg) /\ (0 < v <= 1 -> r == (1 - v) * lo + v * hi) /\ (1 <= v -> r == hi).
Proof.
  destruct (clamp_ok (E := E) v (-1) 1 ltac:(lra)) as [c [Hc [Hr [H1 [H2 H3]]]]].
  unfold activation_apply. cbn [lower_bound upper_bound]. rewrite Hc. cbn [rbind].
  eexists; split; [reflexivity|].
  destruct (Qlt_le_dec v (-1)) as [A|A]; [rewrite (H2 A) in *; cbn; repeat split; intros; try reflexivity; lra|].
  destruct (Qlt_le_dec 1 v) as [B|B].
  - rewrite (H3 B) in *. repeat split; intros; cbn; lra.
  - rewrite (H1 (conj A B)) in *. qle v 0; repeat split; intros; try reflexivity; try lra.
    assert (Hv : v == 1) by lra. rewrite Hv. lra.
Qed.

Lemma apply_step {E} pos neg v :
  activation_apply (E := E) exp (ABinaryStep pos neg) v = Ok (if Qlt_le_dec 0 v then pos else neg).
Proof.
  destruct (clamp_ok (E := E) v (-1) 1 ltac:(lra)) as [c [Hc [Hr [H1 [H2 H3]]]]].
  unfold activation_apply. cbn [lower_bound upper_bound]. rewrite Hc. cbn [rbind]. f_equal.
  destruct (Qlt_le_dec v (-1)) as [A|A]; [rewrite (H2 A) in *; destruct (Qlt_le_dec 0 v); cbn; [lra | reflexivity]|].
  destruct (Qlt_le_dec 1 v) as [B|B].
  - rewrite (H3 B) in *. destruct (Qlt_le_dec 0 v); cbn; [reflexivity | lra].
  - rewrite (H1 (conj A B)) in *. qle v 0; destruct (Qlt_le_dec 0 v); try reflexivity; lra.
Qed.

Lemma apply_logistic {E} g m v :
  exists r, activation_apply (E := E) exp (ALogistic g m) v = Ok r /\
    (-6 <= v <= 6 -> r = m / (1 + exp (- g * v))) /\
    (6 <= v -> activation_apply (E := E) exp (ALogistic g m) 6 = Ok r \/ v == 6) /\
    (6 < v -> activation_apply (E := E) exp (ALogistic g m) 6 = Ok r) /\
    (v < -6 -> activation_apply (E := E) exp (ALogistic g m) (-6) = Ok r).
Proof.
  destruct (clamp_ok (E := E) v (-6) 6 ltac:(lra)) as [c [Hc [Hr [H1 [H2 H3]]]]].
  unfold activation_apply. cbn [lower_bound upper_bound].
  rewrite Hc. cbn [rbind]. eexists; split; [reflexivity|].
  split; [intros H; now rewrite (H1 H)|].
  split; [intros H; destruct (Qlt_le_dec 6 v); [left; now rewrite (H3 q) | right; lra]|].
  split; intros H; [rewrite (H3 H) | rewrite (H2 H)]; reflexivity.
Qed.

Hypothesis exp_pos : forall x, 0 < exp x.
Hypothesis exp_mono : forall x y, x <= y -> exp x <= exp y.

Lemma clamp_mono {E} a b lo hi ca cb : a <= b ->
  f64_clamp (E := E) a lo hi = Ok ca -> f64_clamp (E := E) b lo hi = Ok cb -> ca <= cb.
Proof.
  unfold f64_clamp. intros H. qle lo hi; [|discriminate].
  qle lo a; qle lo b; qle a hi; qle b hi; intros Ha Hb; injection Ha as <-; injection Hb as <-; lra.
Qed.

(** A larger proposal never gives a smaller value, for a non-decreasing function. *)
Lemma logistic_mono {E} g m a b ra rb : 0 <= g -> 0 <= m -> a <= b ->
  activation_apply (E := E) exp (ALogistic g m) a = Ok ra ->
  activation_apply (E := E) exp (ALogistic g m) b = Ok rb -> ra <= rb.
Proof.
  intros Hg Hm Hab. unfold activation_apply.
  destruct (f64_clamp a _ _) as [ca| |] eqn:Ca; try discriminate.
  destruct (f64_clamp b _ _) as [cb| |] eqn:Cb; try discriminate.
  cbn [rbind]. intros Ha Hb. injection Ha as <-. injection Hb as <-.
  pose proof (clamp_mono _ _ _ _ _ _ Hab Ca Cb) as Hc.
  pose proof (exp_pos (- g * ca)). pose proof (exp_pos (- g * cb)).
  assert (He : exp (- g * cb) <= exp (- g * ca)) by (apply exp_mono; nra).
  apply Qle_shift_div_l; [lra|].
  setoid_replace (m / (1 + exp (- g * ca)) * (1 + exp (- g * cb)))
    with (m * ((1 + exp (- g * cb)) / (1 + exp (- g * ca)))) by (field; lra).
  assert ((1 + exp (- g * cb)) / (1 + exp (- g * ca)) <= 1) by (apply Qle_shift_div_r; lra).
  nra.
Qed.
End Shapes.

(** * Setting variables *)

Local Open Scope nat_scope.

Lemma splice_nth {A} (l : list A) i (x : A) j : i < length l ->
  nth_error (firstn i l ++ x :: skipn (S i) l) j = if j =? i then Some x else nth_error l j.
Proof.
  intros H. revert i j H. induction l as [|a l IH]; intros [|i] [|j] H; cbn [length] in H; try lia; try reflexivity.
  - cbn [firstn skipn app nth_error]. change (S j =? S i) with (j =? i). apply IH. lia.
Qed.

Lemma splice_length {A} (l : list A) i (x : A) : i < length l ->
  length (firstn i l ++ x :: skipn (S i) l) = length l.
Proof. intros H. rewrite app_length, firstn_length. cbn [length]. rewrite skipn_length. lia. Qed.

Lemma splice_same_but {A} (l : list A) i (x : A) : i < length l ->
  same_but i l (firstn i l ++ x :: skipn (S i) l).
Proof.
  intros H. split; [now rewrite splice_length|]. intros j Hj. rewrite splice_nth by assumption.
  destruct (Nat.eqb_spec j i); congruence.
Qed.

Section Setting.
Variable exp : Q -> Q.

Lemma set_in_scenario_ok p i vs f ss ss' :
  set_in_scenario exp p i vs f ss = Ok ss' ->
  same_but i ss ss' /\ exists v a, vs = [v] /\ activation_apply (E := variable_error) exp f v = Ok a /\
    nth_error ss' i = Some (Some (Some a)) /\ p <> NotVariable /\ get_variables p (Some (Some a)) = Ok (Some [a]).
Proof.
  unfold set_in_scenario. destruct (nth_error ss i) as [s|] eqn:En; [|discriminate].
  pose proof (nth_error_Some_lt _ _ _ En) as Hlt.
  destruct (set_variables exp p vs f s) as [s'| |] eqn:Es; cbn [rbind]; try discriminate.
  intros Heq. assert (Heq' : firstn i ss ++ s' :: skipn (S i) ss = ss') by congruence. clear Heq. subst ss'.
  split; [now apply splice_same_but|].
  assert (H : exists v a, vs = [v] /\ activation_apply (E := variable_error) exp f v = Ok a /\ s' = Some (Some a) /\
                          p <> NotVariable).
  { unfold set_variables in Es. destruct p; [| |discriminate];
      (destruct vs as [|v [|]]; try discriminate; destruct s; [|discriminate];
       destruct (activation_apply exp f v) as [a| |] eqn:Ea; cbn [rbind] in Es; try discriminate;
       injection Es as <-; exists v, a; repeat split; auto; discriminate). }
  destruct H as (v & a & -> & Ha & -> & Hp). exists v, a. split; [reflexivity|]. split; [assumption|].
  split; [rewrite splice_nth by assumption; now rewrite Nat.eqb_refl|]. split; [assumption|].
  destruct p; try congruence; reflexivity.
Qed.

Lemma set_for_ok params i sc vs f st st' :
  set_parameter_variables_for exp params i sc vs f st = (st', Ok tt) ->
  same_but sc st st' /\ exists v a ss ss', vs = [v] /\ activation_apply (E := variable_error) exp f v = Ok a /\
    nth_error st sc = Some ss /\ nth_error st' sc = Some ss' /\ same_but i ss ss' /\
    get_parameter_variables_for params i sc st' = Ok (Some [a]).
Proof.
  unfold set_parameter_variables_for, get_parameter_variables_for.
  destruct (nth_error params i) as [p|]; [|discriminate].
  destruct p as [c|c|]; [| |discriminate];
    (destruct (nth_error st sc) as [ss|] eqn:En; [|discriminate];
     pose proof (nth_error_Some_lt _ _ _ En) as Hlt;
     destruct (set_in_scenario exp _ i vs f ss) as [ss'| |] eqn:Es; [|discriminate|discriminate];
     intros H; apply (f_equal fst) in H; cbv beta iota delta [fst] in H; rewrite <- H; clear H;
     split; [now apply splice_same_but|];
     destruct (set_in_scenario_ok _ _ _ _ _ _ Es) as (Hb & v & a & Hv & Ha & Hn & _ & Hg);
     exists v, a, ss, ss';
     rewrite splice_nth by assumption; rewrite Nat.eqb_refl; rewrite Hn; auto 10).
Qed.

Lemma set_loop_ok p i vs f st st' :
  set_all_loop exp p i vs f st = (st', Ok tt) ->
  Forall2 (fun ss ss' => set_in_scenario exp p i vs f ss = Ok ss') st st'.
Proof.
  revert st'. induction st as [|ss st IH]; intros st'; cbn [set_all_loop].
  - injection 1 as <-. constructor.
  - destruct (set_in_scenario exp p i vs f ss) as [ss'| |] eqn:E; try discriminate.
    destruct (set_all_loop exp p i vs f st) as [done r]. intros H. injection H as <- ->.
    constructor; [assumption | now apply IH].
Qed.

Lemma set_all_ok params i vs f st st' :
  set_parameter_variables exp params i vs f st = (st', Ok tt) ->
  length st = length st' /\
  forall sc ss, nth_error st sc = Some ss ->
    exists v a ss', vs = [v] /\ activation_apply (E := variable_error) exp f v = Ok a /\
      nth_error st' sc = Some ss' /\ same_but i ss ss' /\
      get_parameter_variables_for params i sc st' = Ok (Some [a]).
Proof.
  unfold set_parameter_variables, get_parameter_variables_for.
  destruct (nth_error params i) as [p|]; [|discriminate].
  destruct p as [c|c|]; [| |discriminate];
    (intros H; apply set_loop_ok in H; split; [exact (Forall2_length' _ _ _ H)|];
     intros sc ss Hn;
     assert (Hex : exists ss', nth_error st' sc = Some ss')
       by (apply nth_error_lt_Some; rewrite <- (Forall2_length' _ _ _ H); exact (nth_error_Some_lt _ _ _ Hn));
     destruct Hex as [ss' Hn'];
     pose proof (Forall2_nth_error _ _ _ _ _ _ H Hn Hn') as Hs;
     destruct (set_in_scenario_ok _ _ _ _ _ _ Hs) as (Hb & v & a & Hv & Ha & Hx & _ & Hg);
     exists v, a, ss'; rewrite Hn', Hx; auto 10).
Qed.

(** A constant parameter can be set, in every scenario, whatever was set before. *)
Lemma set_constant_works params i c vs f st sc ss v :
  nth_error params i = Some (ConstantP c) -> nth_error st sc = Some ss ->
  (exists u, nth_error ss i = Some (Some u)) -> vs = [v] -> sensible f -> (forall x, 0 < exp x)%Q ->
  exists st', set_parameter_variables_for exp params i sc vs f st = (st', Ok tt).
Proof.
  intros Hp Hs [u Hu] -> Hf He. unfold set_parameter_variables_for. rewrite Hp; cbv iota beta; rewrite Hs.
  unfold set_in_scenario. rewrite Hu. cbn [set_variables].
  destruct (apply_range (E := variable_error) exp He f v Hf) as [a [Ha _]]. rewrite Ha. cbn [rbind]. eauto.
Qed.

Lemma set_wrong_count params i sc vs f st st' r :
  length vs <> 1 ->
  (set_parameter_variables_for exp params i sc vs f st = (st', r) \/
   (st <> [] /\ set_parameter_variables exp params i vs f st = (st', r))) ->
  st' = st /\ r <> Ok tt.
Proof.
  intros Hl [H|[Hne H]].
  - unfold set_parameter_variables_for in H.
    destruct (nth_error params i) as [[c|c|]|]; try (injection H as <- <-; split; congruence);
      (destruct (nth_error st sc) as [ss|]; [|injection H as <- <-; split; congruence];
       destruct (set_in_scenario exp _ i vs f ss) as [ss'| |] eqn:E;
       [apply set_in_scenario_ok in E; destruct E as (_ & v & a & -> & _); cbn in Hl; lia
       | injection H as <- <-; split; congruence | injection H as <- <-; split; congruence]).
  - unfold set_parameter_variables in H.
    destruct st as [|ss st]; [congruence|]. cbn [set_all_loop] in H.
    destruct (nth_error params i) as [[c|c|]|]; try (injection H as <- <-; split; congruence);
      (destruct (set_in_scenario exp _ i vs f ss) as [ss'| |] eqn:E;
       [apply set_in_scenario_ok in E; destruct E as (_ & v & a & -> & _); cbn in Hl; lia
       | injection H as <- <-; split; congruence | injection H as <- <-; split; congruence]).
Qed.

Lemma constant_used value c0 sets c :
  constant_setup value = Ok c0 ->
  fold_left (fun r (s : list Q * activation_function) =>
               rbind r (constant_set exp value (fst s) (snd s))) sets (Ok c0) = Ok c ->
  used c = value.
Proof.
  intros H. assert (Hu : used c0 = value) by (injection H as <-; reflexivity). clear H. revert c0 Hu.
  induction sets as [|s sets IH]; intros c0 Hu; cbn [fold_left].
  - now injection 1 as <-.
  - cbn [rbind]. unfold constant_set at 2.
    destruct (set_variables exp (ConstantP value) (fst s) (snd s) (stored c0)) as [st| |]; cbn [rbind].
    + apply IH. exact Hu.
    + clear. intros H. exfalso. revert H. generalize e. induction sets; cbn; [discriminate | intros e0 H; eapply IHsets; exact H].
    + clear. intros H. exfalso. revert H. induction sets; cbn; [discriminate | assumption].
Qed.
End Setting.
