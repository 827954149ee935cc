(** Proofs about interpolation and control curves. *)
From Coq Require Import QArith Qabs Lqa.
From Verif Require Import Base Network NetworkBuildLemmas ParamsTemporal ControlCurves ControlCurvesSpec AggFuncsSpec.
Local Open Scope nat_scope.

Lemma Qle_bool_true a b : Qle_bool a b = true <-> (a <= b)%Q.
Proof. apply Qle_bool_iff. Qed.
Lemma Qle_bool_false' a b : Qle_bool a b = false <-> (b < a)%Q.
Proof.
  split; intros H.
  - apply Qnot_le_lt. intros K. apply Qle_bool_iff in K. congruence.
  - destruct (Qle_bool a b) eqn:E; [|reflexivity]. apply Qle_bool_iff in E. lra.
Qed.

Ltac qcase a b H := destruct (Qle_bool a b) eqn:H; [apply Qle_bool_true in H|apply Qle_bool_false' in H].

(* ---------- interpolate ---------- *)

Lemma interpolate_low v lb ub lv uv : (v <= lb)%Q -> interpolate v lb ub lv uv = lv.
Proof. intros H. unfold interpolate. apply Qle_bool_true in H. rewrite H. reflexivity. Qed.

Lemma interpolate_high v lb ub lv uv : (lb < v)%Q -> (ub <= v)%Q -> interpolate v lb ub lv uv = uv.
Proof. intros H K. unfold interpolate. apply Qle_bool_false' in H. apply Qle_bool_true in K. rewrite H, K. reflexivity. Qed.

Lemma interpolate_narrow v lb ub lv uv : (lb < v)%Q -> (v < ub)%Q -> (ub - lb < FLOAT_EQ_TOLERANCE)%Q -> interpolate v lb ub lv uv = lv.
Proof.
  intros H K N. unfold interpolate. apply Qle_bool_false' in H. rewrite H. pose proof K as K'. apply Qle_bool_false' in K. rewrite K.
  apply Qle_bool_false' in H. qcase FLOAT_EQ_TOLERANCE (Qabs (lb - ub)) E; [|reflexivity]. exfalso. rewrite Qabs_neg in E by lra. lra.
Qed.

Lemma interpolate_mid v lb ub lv uv : (lb < v)%Q -> (v < ub)%Q -> (FLOAT_EQ_TOLERANCE <= ub - lb)%Q ->
  interpolate v lb ub lv uv = (lv + (uv - lv) * (v - lb) / (ub - lb))%Q.
Proof.
  intros H K N. unfold interpolate. pose proof H as H'. pose proof K as K'. apply Qle_bool_false' in H. rewrite H. apply Qle_bool_false' in K. rewrite K.
  qcase FLOAT_EQ_TOLERANCE (Qabs (lb - ub)) E; [reflexivity|]. exfalso. rewrite Qabs_neg in E by lra. lra.
Qed.

Lemma fraction_bounds v lb ub : (lb < v)%Q -> (v < ub)%Q -> (0 <= (v - lb) / (ub - lb) <= 1)%Q.
Proof.
  intros A B. assert (0 < ub - lb)%Q by lra. split.
  - apply Qle_shift_div_l; lra.
  - apply Qle_shift_div_r; lra.
Qed.

Lemma interpolate_cases v lb ub lv uv :
  ((v <= lb)%Q /\ interpolate v lb ub lv uv = lv) \/
  ((lb < v)%Q /\ (ub <= v)%Q /\ interpolate v lb ub lv uv = uv) \/
  ((lb < v)%Q /\ (v < ub)%Q /\ (ub - lb < FLOAT_EQ_TOLERANCE)%Q /\ interpolate v lb ub lv uv = lv) \/
  ((lb < v)%Q /\ (v < ub)%Q /\ (FLOAT_EQ_TOLERANCE <= ub - lb)%Q /\ exists t, (t == (v - lb) / (ub - lb))%Q /\ (0 <= t <= 1)%Q /\
     (interpolate v lb ub lv uv == lv + (uv - lv) * t)%Q).
Proof.
  destruct (Qlt_le_dec lb v) as [A|A]; [|left; split; [exact A|apply interpolate_low; exact A]].
  destruct (Qlt_le_dec v ub) as [B|B]; [|right; left; repeat split; auto; apply interpolate_high; assumption].
  destruct (Qlt_le_dec (ub - lb) FLOAT_EQ_TOLERANCE) as [C|C].
  - right; right; left. repeat split; auto. apply interpolate_narrow; assumption.
  - right; right; right. repeat split; auto. exists ((v - lb) / (ub - lb))%Q. split; [reflexivity|]. split; [apply fraction_bounds; assumption|].
    rewrite interpolate_mid by assumption. field. lra.
Qed.

Lemma interpolate_between v lb ub lv uv : between lv uv (interpolate v lb ub lv uv).
Proof.
  destruct (interpolate_cases v lb ub lv uv) as [(_ & E)|[(_ & _ & E)|[(_ & _ & _ & E)|(_ & _ & _ & t & _ & Ht & E)]]].
  - rewrite E. unfold between. destruct (Qlt_le_dec lv uv); [left|right]; lra.
  - rewrite E. unfold between. destruct (Qlt_le_dec lv uv); [left|right]; lra.
  - rewrite E. unfold between. destruct (Qlt_le_dec lv uv); [left|right]; lra.
  - unfold between. destruct (Qlt_le_dec lv uv); [left|right]; rewrite E; nra.
Qed.

Lemma interpolate_line v lb ub lv uv : (lb <= v)%Q -> (v <= ub)%Q -> (FLOAT_EQ_TOLERANCE <= ub - lb)%Q ->
  on_line v lb ub lv uv (interpolate v lb ub lv uv).
Proof.
  intros A B C. unfold on_line. destruct (interpolate_cases v lb ub lv uv) as [(H & E)|[(H & K & E)|[(_ & _ & N & _)|(H & K & N & t & Et & Ht & E)]]].
  - rewrite E. assert (v == lb)%Q by lra. rewrite H0. ring.
  - rewrite E. assert (v == ub)%Q by lra. rewrite H0. ring.
  - lra.
  - rewrite E, Et. field. unfold FLOAT_EQ_TOLERANCE in N. lra.
Qed.

Lemma interpolate_mono v w lb ub lv uv : (v <= w)%Q -> (lv <= uv)%Q ->
  (interpolate v lb ub lv uv <= interpolate w lb ub lv uv)%Q.
Proof.
  intros L V.
  assert (Bv : forall y, between lv uv y -> (lv <= y <= uv)%Q) by (intros y [?|?]; lra).
  destruct (interpolate_cases v lb ub lv uv) as [(H & E)|[(H & K & E)|[(H & K & N & E)|(H & K & N & t & Et & Ht & E)]]].
  - rewrite E. apply Bv, interpolate_between.
  - rewrite E, interpolate_high by lra. lra.
  - rewrite E. apply Bv, interpolate_between.
  - destruct (interpolate_cases w lb ub lv uv) as [(H' & E')|[(H' & K' & E')|[(H' & K' & N' & E')|(H' & K' & N' & t' & Et' & Ht' & E')]]].
    + lra.
    + rewrite E'. apply Bv, interpolate_between.
    + lra.
    + rewrite E, E'. assert (t <= t')%Q.
      { rewrite Et, Et'. apply Qle_shift_div_l; [unfold FLOAT_EQ_TOLERANCE in N; lra|].
        assert ((v - lb) / (ub - lb) * (ub - lb) == v - lb)%Q as -> by (field; unfold FLOAT_EQ_TOLERANCE in N; lra). lra. }
      nra.
Qed.

(* ---------- linear interpolation ---------- *)

Lemma strictly_increasing_tail a l : strictly_increasing (a :: l) -> strictly_increasing l.
Proof. destruct l; cbn; tauto. Qed.

Lemma strictly_increasing_lt l : strictly_increasing l -> forall i j p q, i < j -> nth_error l i = Some p -> nth_error l j = Some q -> (fst p < fst q)%Q.
Proof.
  induction l as [|a l IH]; intros S i j p q Hij Hi Hj; [destruct i; discriminate|].
  destruct j as [|j]; [lia|]. cbn [nth_error] in Hj. destruct i as [|i].
  - injection Hi as <-. clear Hij. revert a S q Hj IH. induction j as [|j IHj]; intros a S q Hj IH; destruct l as [|b l]; try discriminate.
    + cbn in Hj. injection Hj as <-. cbn in S. tauto.
    + assert (fst a < fst b)%Q by (cbn in S; tauto). assert (fst b < fst q)%Q; [|lra].
      apply (IH (strictly_increasing_tail _ _ S) 0 (Datatypes.S j) b q); [lia|reflexivity|exact Hj].
  - apply (IH (strictly_increasing_tail _ _ S) i j p q); [lia|exact Hi|exact Hj].
Qed.

Lemma windows_hit value err : forall points lp, strictly_increasing (lp :: points) -> (fst lp <= value)%Q ->
  (exists k p q, nth_error (lp :: points) k = Some p /\ nth_error (lp :: points) (S k) = Some q /\
     (fst p <= value)%Q /\ (value <= fst q)%Q /\
     interpolation_windows value lp points err = Ok (interpolate value (fst p) (fst q) (snd p) (snd q))) \/
  ((fst (last points lp) < value \/ points = [])%Q /\
     interpolation_windows value lp points err = (if err then Err AboveUpperBounds else Ok (snd (last points lp)))).
Proof.
  induction points as [|up points IH]; intros lp S L; cbn [interpolation_windows].
  - right. split; [right; reflexivity|]. reflexivity.
  - assert (Hlt : (fst lp < fst up)%Q) by (cbn in S; tauto). apply Qle_bool_false' in Hlt. rewrite Hlt.
    qcase value (fst up) E.
    + left. exists 0, lp, up. repeat split; auto.
    + destruct (IH up (strictly_increasing_tail _ _ S) ltac:(lra)) as [(k & p & q & A & B & C)|[A B]].
      * left. exists (Datatypes.S k), p, q. split; [exact A|]. split; [exact B|]. exact C.
      * right. assert (Lst : last (up :: points) lp = last points up).
        { destruct points as [|z zs]; [reflexivity|]. change (last (up :: z :: zs) lp) with (last (z :: zs) lp).
          clear. revert z. induction zs as [|y zs IH]; intros z; [reflexivity|]. change (last (y :: zs) lp = last (y :: zs) up). apply IH. }
        rewrite Lst. split; [|exact B]. destruct A as [A| ->]; [left; exact A|]. left. exact E.
Qed.

Lemma linear_inside points value err : 2 <= length points -> strictly_increasing points ->
  forall first final, nth_error points 0 = Some first -> nth_error points (length points - 1) = Some final ->
  (fst first <= value <= fst final)%Q ->
  exists k p q, nth_error points k = Some p /\ nth_error points (S k) = Some q /\ (fst p <= value)%Q /\ (value <= fst q)%Q /\
    linear_interpolation value points err = Ok (interpolate value (fst p) (fst q) (snd p) (snd q)).
Proof.
  intros L S first final Hf Hl [A B]. destruct points as [|a [|b points]]; cbn [length] in L; try lia.
  cbn in Hf. injection Hf as ->. unfold linear_interpolation.
  pose proof A as A'. apply Qle_bool_true in A'. rewrite A'. cbn [negb].
  destruct (windows_hit value err (b :: points) first S A) as [H|[H _]]; [exact H|].
  exfalso. assert (E : last (b :: points) first = final).
  { cbn [length] in Hl. replace (Datatypes.S (Datatypes.S (length points)) - 1) with (Datatypes.S (length points)) in Hl by lia. cbn [nth_error] in Hl.
    clear - Hl. revert b Hl. induction points as [|z zs IH]; intros b Hl; cbn [length nth_error] in Hl; [injection Hl as ->; reflexivity|].
    change (last (z :: zs) first = final). apply IH. exact Hl. }
  rewrite E in H. destruct H as [H|H]; [lra|discriminate].
Qed.

Lemma linear_at_point points err i p : 2 <= length points -> strictly_increasing points -> nth_error points i = Some p ->
  forall x, (x == fst p)%Q -> linear_interpolation x points err = Ok (snd p).
Proof.
  intros L S Hi x Ex. assert (Bi : i < length points) by (apply nth_error_Some; congruence).
  destruct (nth_error points 0) as [first|] eqn:Hf; [|apply nth_error_None in Hf; lia].
  destruct (nth_error points (length points - 1)) as [final|] eqn:Hl; [|apply nth_error_None in Hl; lia].
  assert (R : (fst first <= x <= fst final)%Q).
  { split.
    - destruct i as [|i]; [rewrite Hf in Hi; injection Hi as ->; lra|]. pose proof (strictly_increasing_lt points S 0 (Datatypes.S i) first p ltac:(lia) Hf Hi). lra.
    - destruct (Nat.eq_dec i (length points - 1)) as [->|Ne]; [rewrite Hl in Hi; injection Hi as ->; lra|].
      pose proof (strictly_increasing_lt points S i (length points - 1) p final ltac:(lia) Hi Hl). lra. }
  destruct (linear_inside points x err L S first final Hf Hl R) as (k & a & b & Ha & Hb & A & B & E). rewrite E. f_equal.
  destruct (lt_eq_lt_dec i k) as [[H|H]|H].
  - pose proof (strictly_increasing_lt points S i k p a H Hi Ha). lra.
  - subst i. rewrite Ha in Hi. injection Hi as ->. apply interpolate_low. lra.
  - destruct (Nat.eq_dec i (Datatypes.S k)) as [->|Ne].
    + rewrite Hb in Hi. injection Hi as ->. pose proof (strictly_increasing_lt points S k (Datatypes.S k) a p ltac:(lia) Ha Hb). apply interpolate_high; lra.
    + pose proof (strictly_increasing_lt points S (Datatypes.S k) i b p ltac:(lia) Hb Hi). lra.
Qed.

Lemma linear_below points value err first : 2 <= length points -> nth_error points 0 = Some first -> (value < fst first)%Q ->
  linear_interpolation value points err = if err then Err BelowLowerBounds else Ok (snd first).
Proof.
  intros L Hf H. destruct points as [|a [|b points]]; cbn [length] in L; try lia. cbn in Hf. injection Hf as ->. unfold linear_interpolation.
  apply Qle_bool_false' in H. rewrite H. reflexivity.
Qed.

Lemma last_nth_error {A} : forall (l : list A) a f, nth_error (a :: l) (length l) = Some f -> last l a = f.
Proof.
  intros l. induction l as [|b l IH]; intros a f H; cbn [length nth_error] in H; [injection H as ->; reflexivity|].
  specialize (IH b f H). destruct l as [|c l]; [cbn in *; exact IH|]. change (last (c :: l) a = f). rewrite <- IH.
  clear. revert c. induction l as [|d l IH]; intros c; [reflexivity|]. change (last (d :: l) a = last (d :: l) b). apply IH.
Qed.

Lemma linear_above points value err final : 2 <= length points -> strictly_increasing points ->
  nth_error points (length points - 1) = Some final -> (fst final < value)%Q ->
  linear_interpolation value points err = if err then Err AboveUpperBounds else Ok (snd final).
Proof.
  intros L S Hl H. assert (H0 : exists a b rest, points = a :: b :: rest).
  { destruct points as [|a [|b rest]]; cbn [length] in L; try lia. eauto. }
  destruct H0 as (a & b & rest & Ep). assert (Ha : nth_error points 0 = Some a) by (rewrite Ep; reflexivity).
  assert (Lt : (fst a < fst final)%Q) by (apply (strictly_increasing_lt points S 0 (length points - 1) a final ltac:(lia) Ha Hl)).
  assert (E : linear_interpolation value points err = interpolation_windows value a (b :: rest) err).
  { rewrite Ep. unfold linear_interpolation. assert (A : (fst a <= value)%Q) by lra. apply Qle_bool_true in A. rewrite A. reflexivity. }
  rewrite E. destruct (windows_hit value err (b :: rest) a) as [(k & p & q & Hp & Hq & _ & Hv & _)|[_ K]]; [rewrite <- Ep; exact S|lra| |].
  - exfalso. rewrite <- Ep in Hq. assert (Bk : Datatypes.S k < length points) by (apply nth_error_Some; congruence).
    destruct (Nat.eq_dec (Datatypes.S k) (length points - 1)) as [Eq|Ne].
    + rewrite Eq in Hq. assert (q = final) by congruence. subst q. lra.
    + pose proof (strictly_increasing_lt points S (Datatypes.S k) (length points - 1) q final ltac:(lia) Hq Hl). lra.
  - rewrite K. rewrite (last_nth_error (b :: rest) a final); [reflexivity|]. rewrite <- Ep. rewrite Ep in Hl |- *. cbn [length] in *.
    replace (Datatypes.S (length rest)) with (Datatypes.S (Datatypes.S (length rest)) - 1) by lia. exact Hl.
Qed.

Lemma windows_unsorted value err : forall points lp,
  interpolation_windows value lp points err = Err NotStrictlyMonotonic <->
  exists k p q, nth_error (lp :: points) k = Some p /\ nth_error (lp :: points) (S k) = Some q /\ (fst q <= fst p)%Q /\
    forall j r, 0 < j <= k -> nth_error (lp :: points) j = Some r -> (fst r < value)%Q /\ exists o, nth_error (lp :: points) (j - 1) = Some o /\ (fst o < fst r)%Q.
Proof.
  induction points as [|up points IH]; intros lp; cbn [interpolation_windows].
  - split; [destruct err; discriminate|]. intros (k & p & q & _ & H & _). destruct k; discriminate.
  - qcase (fst up) (fst lp) E.
    + split; [|reflexivity]. intros _. exists 0, lp, up. repeat split; auto; lia.
    + qcase value (fst up) E2.
      * split; [discriminate|]. intros (k & p & q & A & B & C & D). exfalso. destruct k as [|k].
        { cbn in A, B. injection A as <-. injection B as <-. lra. }
        { destruct (D 1 up ltac:(lia) eq_refl) as [D1 _]. lra. }
      * rewrite IH. split; intros (k & p & q & A & B & C & D).
        { exists (S k), p, q. split; [exact A|]. split; [exact B|]. split; [exact C|]. intros j r Hj Hr.
          destruct j as [|[|j]]; [lia| |].
          - cbn in Hr. injection Hr as <-. split; [exact E2|]. exists lp. split; [reflexivity|exact E].
          - destruct (D (S j) r ltac:(lia) Hr) as (D1 & o & D2 & D3). split; [exact D1|]. exists o. split; [|exact D3].
            cbn [nth_error]. replace (S (S j) - 1) with (S j) by lia. cbn [nth_error]. replace (S j - 1) with j in D2 by lia. exact D2. }
        { destruct k as [|k]; [cbn in A, B; injection A as <-; injection B as <-; lra|].
          exists k, p, q. split; [exact A|]. split; [exact B|]. split; [exact C|]. intros j r Hj Hr.
          destruct (D (S j) r ltac:(lia) Hr) as (D1 & o & D2 & D3). split; [exact D1|]. exists o. split; [|exact D3].
          replace (S j - 1) with j in D2 by lia. destruct j as [|j]; [lia|]. replace (S j - 1) with j by lia. exact D2. }
Qed.

(* ---------- zones ---------- *)

Lemma index_loop_shift x curves : forall idx, index_loop x (map Ok curves) idx = rbind (index_loop x (map Ok curves) 0) (fun k => Ok (idx + k)).
Proof.
  induction curves as [|c curves IH]; intros idx; cbn [map index_loop rbind]; [rewrite Nat.add_0_r; reflexivity|].
  destruct (Qle_bool c x); cbn [rbind]; [rewrite Nat.add_0_r; reflexivity|]. rewrite (IH (S idx)), (IH 1).
  destruct (index_loop x (map Ok curves) 0); cbn [rbind]; try reflexivity. f_equal. lia.
Qed.

Lemma in_zone_cons x c curves k : (x < c)%Q -> in_zone x curves k -> in_zone x (c :: curves) (S k).
Proof.
  intros Hc (L & A & B). split; [cbn; lia|]. split.
  - intros [|i] d Hi Hd; cbn in Hd; [injection Hd as <-; exact Hc|]. apply (A i); [lia|exact Hd].
  - intros d Hd. apply B. exact Hd.
Qed.

Lemma index_zone x curves : exists k, index_loop x (map Ok curves) 0 = Ok k /\ in_zone x curves k.
Proof.
  induction curves as [|c curves IH]; cbn [map index_loop rbind].
  - exists 0. split; [reflexivity|]. split; [cbn; lia|]. split; [lia|intros c H; discriminate].
  - qcase c x E.
    + exists 0. split; [reflexivity|]. split; [lia|]. split; [lia|]. intros d Hd. cbn in Hd. injection Hd as <-. exact E.
    + destruct IH as (k & H & Z). rewrite index_loop_shift, H. exists (S k). split; [reflexivity|]. apply in_zone_cons; assumption.
Qed.

Lemma in_zone_unique x curves k l : in_zone x curves k -> in_zone x curves l -> k = l.
Proof.
  assert (G : forall k l, in_zone x curves k -> in_zone x curves l -> ~ k < l).
  { intros k' l' (_ & _ & B) (L & A & _) Hlt. destruct (nth_error curves k') as [c|] eqn:E; [|apply nth_error_None in E; lia].
    pose proof (A k' c Hlt E). pose proof (B c eq_refl). lra. }
  intros Hk Hl. pose proof (G k l Hk Hl). pose proof (G l k Hl Hk). lia.
Qed.

Lemma in_zone_mono x y curves k l : (x <= y)%Q -> in_zone x curves k -> in_zone y curves l -> l <= k.
Proof.
  intros L (_ & _ & B) (Ll & A & _). destruct (le_lt_dec l k) as [H|H]; [exact H|].
  destruct (nth_error curves k) as [c|] eqn:E; [|apply nth_error_None in E; lia]. pose proof (A k c H E). pose proof (B c eq_refl). lra.
Qed.

Lemma descending_le : forall l, descending l -> forall i j a b, i <= j -> nth_error l i = Some a -> nth_error l j = Some b -> (b <= a)%Q.
Proof.
  induction l as [|x l IH]; intros D i j a b Hij Hi Hj; [destruct i; discriminate|].
  assert (Dl : descending l) by (destruct l; cbn in *; tauto).
  destruct i as [|i], j as [|j]; cbn [nth_error] in *; try lia.
  - injection Hi as <-. injection Hj as <-. lra.
  - injection Hi as <-. destruct l as [|y l]; [destruct j; discriminate|]. assert (y <= x)%Q by (cbn in D; tauto).
    pose proof (IH Dl 0 j y b ltac:(lia) eq_refl Hj). lra.
  - apply (IH Dl i j a b); [lia|exact Hi|exact Hj].
Qed.

Lemma zone_count x curves k : descending curves -> in_zone x curves k -> curves_above x curves = k.
Proof.
  revert k. induction curves as [|c curves IH]; intros k D (L & A & B).
  - cbn in *. lia.
  - assert (Dl : descending curves) by (destruct curves; cbn in *; tauto). unfold curves_above. cbn [filter]. destruct k as [|k].
    + pose proof (B c eq_refl) as Hc. apply Qle_bool_true in Hc. rewrite Hc. cbn [negb].
      assert (E : filter (fun c => negb (Qle_bool c x)) curves = []); [|rewrite E; reflexivity].
      destruct (filter _ curves) as [|d l] eqn:E; [reflexivity|]. exfalso.
      assert (In d (filter (fun c => negb (Qle_bool c x)) curves)) by (rewrite E; left; reflexivity).
      apply filter_In in H. destruct H as [Hin Hd]. apply negb_true_iff, Qle_bool_false' in Hd. apply Qle_bool_true in Hc.
      apply In_nth_error in Hin. destruct Hin as [i Hi]. pose proof (descending_le _ D 0 (S i) c d ltac:(lia) eq_refl Hi). lra.
    + assert (Hc : (x < c)%Q) by (apply (A 0); [lia|reflexivity]). apply Qle_bool_false' in Hc. rewrite Hc. cbn [negb length]. f_equal.
      apply IH; [exact Dl|]. split; [cbn in L; lia|]. split.
      * intros i d Hi Hd. apply (A (S i)); [lia|exact Hd].
      * intros d Hd. apply B. exact Hd.
Qed.

Lemma value_loop_zone x curves values : forall k idx, in_zone x curves k ->
  value_loop x (map Ok curves) values idx =
    if k =? length curves then rbind (last_or_error values) (fun v => v) else rbind (get_or_error values (idx + k)) (fun v => v).
Proof.
  induction curves as [|c curves IH]; intros k idx Z; cbn [map value_loop rbind].
  - destruct Z as [L _]. cbn in L. replace k with 0 by lia. reflexivity.
  - destruct k as [|k].
    + destruct Z as (_ & _ & B). pose proof (B c eq_refl) as Hc. apply Qle_bool_true in Hc. rewrite Hc. cbn [Nat.eqb length].
      rewrite Nat.add_0_r. reflexivity.
    + destruct Z as (L & A & B). assert (Hc : (x < c)%Q) by (apply (A 0); [lia|reflexivity]). apply Qle_bool_false' in Hc. rewrite Hc.
      rewrite (IH k (S idx)).
      * cbn [length]. change (S k =? S (length curves)) with (k =? length curves). replace (S idx + k) with (idx + S k) by lia. reflexivity.
      * split; [cbn in L; lia|]. split; [|intros d Hd; apply B; exact Hd]. intros i d Hi Hd. apply (A (S i)); [lia|exact Hd].
Qed.

Lemma last_or_error_nth {A} (values : list A) n v : length values = S n -> nth_error values n = Some v -> last_or_error values = Ok v.
Proof.
  destruct values as [|a l]; intros L H; cbn in L; [lia|]. cbn [last_or_error]. f_equal. apply last_nth_error. replace (length l) with n by lia. exact H.
Qed.

Lemma value_of_zone x curves values k v : length values = S (length curves) -> in_zone x curves k -> nth_error values k = Some v ->
  control_curve_value (Ok x) (map Ok curves) values = v.
Proof.
  intros L Z H. unfold control_curve_value. cbn [rbind]. rewrite (value_loop_zone x curves values k 0 Z).
  destruct (k =? length curves) eqn:E.
  - rewrite (last_or_error_nth values (length curves) v L); [reflexivity|]. apply Nat.eqb_eq in E. subst k. exact H.
  - unfold get_or_error. rewrite Nat.add_0_l, H. reflexivity.
Qed.

(* ---------- interpolated control curves ---------- *)

Lemma interpolated_zone x curves : forall values top k idx lower upper, length values = idx + length curves + 2 -> in_zone x curves k ->
  nth_error values (idx + k) = Some (Ok upper) -> nth_error values (idx + S k) = Some (Ok lower) ->
  interpolated_loop x top (map Ok curves) values idx = Ok (interpolate x (zone_bottom 0 curves k) (zone_top top curves k) lower upper).
Proof.
  induction curves as [|c curves IH]; intros values top k idx lower upper L Z Hu Hl; cbn [map interpolated_loop rbind].
  - destruct Z as [Lk _]. cbn in Lk, L. assert (k = 0) by lia. subst k.
    assert (E : exists l, values = l ++ [Ok upper; Ok lower]).
    { exists (firstn idx values). rewrite <- (firstn_skipn idx values) at 1. f_equal.
      assert (Ls : length (skipn idx values) = 2) by (rewrite skipn_length; lia).
      assert (N0 : nth_error (skipn idx values) 0 = Some (Ok upper)).
      { rewrite <- Hu. rewrite <- (firstn_skipn idx values) at 2. rewrite nth_error_app2; rewrite firstn_length; [f_equal; lia|lia]. }
      assert (N1 : nth_error (skipn idx values) 1 = Some (Ok lower)).
      { rewrite <- Hl. rewrite <- (firstn_skipn idx values) at 2. rewrite nth_error_app2; rewrite firstn_length; [f_equal; lia|lia]. }
      destruct (skipn idx values) as [|a [|b [|z t]]]; cbn in Ls, N0, N1; try lia. congruence. }
    destruct E as [l ->]. rewrite rev_app_distr. cbn [rev app rbind]. reflexivity.
  - destruct k as [|k].
    + destruct Z as (_ & _ & B). pose proof (B c eq_refl) as Hc. apply Qle_bool_true in Hc. rewrite Hc.
      assert (Hl' : nth_error values (S idx) = Some (Ok lower)) by (rewrite <- Hl; f_equal; lia). rewrite Nat.add_0_r in Hu.
      unfold index_or_panic. rewrite Hl', Hu. cbn [rbind]. reflexivity.
    + destruct Z as (Lk & A & B). assert (Hc : (x < c)%Q) by (apply (A 0); [lia|reflexivity]). apply Qle_bool_false' in Hc. rewrite Hc.
      rewrite (IH values c k (S idx) lower upper).
      * unfold zone_bottom, zone_top. cbn [nth]. do 2 f_equal. destruct k as [|k]; [reflexivity|]. apply nth_indep. cbn in Lk. lia.
      * cbn in L. lia.
      * split; [cbn in Lk; lia|]. split; [|intros d Hd; apply B; exact Hd]. intros i d Hi Hd. apply (A (S i)); [lia|exact Hd].
      * replace (S idx + k) with (idx + S k) by lia. exact Hu.
      * replace (S idx + S k) with (idx + S (S k)) by lia. exact Hl.
Qed.

Lemma piecewise_zone x curves bottom : forall values top k idx v, length values = idx + S (length curves) -> in_zone x curves k ->
  nth_error values (idx + k) = Some v ->
  piecewise_loop x top bottom (map Ok curves) values idx = Ok (interpolate x (zone_bottom bottom curves k) (zone_top top curves k) (snd v) (fst v)).
Proof.
  induction curves as [|c curves IH]; intros values top k idx v L Z Hv; cbn [map piecewise_loop rbind].
  - destruct Z as [Lk _]. cbn in Lk, L. assert (k = 0) by lia. subst k.
    rewrite (last_or_error_nth values idx v); [reflexivity|lia|]. rewrite <- Hv. f_equal. lia.
  - destruct k as [|k].
    + destruct Z as (_ & _ & B). pose proof (B c eq_refl) as Hc. apply Qle_bool_true in Hc. rewrite Hc.
      unfold get_or_error. rewrite Nat.add_0_r in Hv. rewrite Hv. cbn [rbind]. reflexivity.
    + destruct Z as (Lk & A & B). assert (Hc : (x < c)%Q) by (apply (A 0); [lia|reflexivity]). apply Qle_bool_false' in Hc. rewrite Hc.
      rewrite (IH values c k (S idx) v).
      * unfold zone_bottom, zone_top. cbn [nth]. do 2 f_equal. destruct k as [|k]; [reflexivity|]. apply nth_indep. cbn in Lk. lia.
      * cbn in L. lia.
      * split; [cbn in Lk; lia|]. split; [|intros d Hd; apply B; exact Hd]. intros i d Hi Hd. apply (A (S i)); [lia|exact Hd].
      * replace (S idx + k) with (idx + S k) by lia. exact Hv.
Qed.

Lemma zone_brackets x curves k top bottom : in_zone x curves k -> (bottom <= x <= top)%Q ->
  (zone_bottom bottom curves k <= x)%Q /\ (x <= zone_top top curves k)%Q.
Proof.
  intros (L & A & B) [Hb Ht]. split.
  - unfold zone_bottom. destruct (nth_error curves k) as [c|] eqn:E; [rewrite (nth_error_nth _ _ _ E); apply B; reflexivity|].
    rewrite nth_overflow; [exact Hb|]. apply nth_error_None. exact E.
  - unfold zone_top. destruct k as [|k]; [exact Ht|]. cbn [nth]. destruct (nth_error curves k) as [c|] eqn:E.
    + rewrite (nth_error_nth _ _ _ E). pose proof (A k c ltac:(lia) E). lra.
    + apply nth_error_None in E. lia.
Qed.

Lemma interpolated_in_zone x curves values k lower upper : length values = length curves + 2 -> in_zone x curves k ->
  nth_error values k = Some upper -> nth_error values (S k) = Some lower ->
  control_curve_interpolated (Ok x) (map Ok curves) (map Ok values) = Ok (interpolate x (zone_bottom 0 curves k) (zone_top 1 curves k) lower upper).
Proof.
  intros L Z Hu Hl. unfold control_curve_interpolated. cbn [rbind]. apply interpolated_zone; [rewrite map_length; lia|exact Z| |].
  - apply map_nth_error. exact Hu.
  - apply map_nth_error. exact Hl.
Qed.

Lemma interpolated_total x curves values : length values = length curves + 2 ->
  exists k lower upper, in_zone x curves k /\ nth_error values k = Some upper /\ nth_error values (S k) = Some lower /\
    control_curve_interpolated (Ok x) (map Ok curves) (map Ok values) = Ok (interpolate x (zone_bottom 0 curves k) (zone_top 1 curves k) lower upper).
Proof.
  intros L. destruct (index_zone x curves) as (k & _ & Z). pose proof Z as (Lk & _).
  destruct (nth_error values k) as [u|] eqn:Eu; [|apply nth_error_None in Eu; lia].
  destruct (nth_error values (S k)) as [w|] eqn:Ew; [|apply nth_error_None in Ew; lia].
  exists k, w, u. repeat split; try assumption; try apply Z. apply interpolated_in_zone; assumption.
Qed.

Lemma interpolated_between x curves values : length values = length curves + 2 ->
  exists k lower upper y, in_zone x curves k /\ nth_error values k = Some upper /\ nth_error values (S k) = Some lower /\
    control_curve_interpolated (Ok x) (map Ok curves) (map Ok values) = Ok y /\ between lower upper y /\
    ((0 <= x <= 1)%Q -> (FLOAT_EQ_TOLERANCE <= zone_top 1 curves k - zone_bottom 0 curves k)%Q ->
       on_line x (zone_bottom 0 curves k) (zone_top 1 curves k) lower upper y).
Proof.
  intros L. destruct (interpolated_total x curves values L) as (k & w & u & Z & Hu & Hw & E). exists k, w, u, (interpolate x (zone_bottom 0 curves k) (zone_top 1 curves k) w u).
  repeat split; auto; try apply Z; [apply interpolate_between|].
  intros Hx W. destruct (zone_brackets x curves k 1 0 Z Hx). apply interpolate_line; assumption.
Qed.

Lemma interpolated_at_curve x curves values i c v : length values = length curves + 2 -> nth_error curves i = Some c -> (x == c)%Q ->
  (forall j d, j < i -> nth_error curves j = Some d -> (c < d)%Q) -> nth_error values (S i) = Some v ->
  control_curve_interpolated (Ok x) (map Ok curves) (map Ok values) = Ok v.
Proof.
  intros L Hc Hx Hd Hv. assert (Bi : i < length curves) by (apply nth_error_Some; congruence).
  assert (Z : in_zone x curves i).
  { split; [lia|]. split; [intros j d Hj Hjd; pose proof (Hd j d Hj Hjd); lra|]. intros d H. assert (d = c) by congruence. subst d. lra. }
  destruct (nth_error values i) as [u|] eqn:Eu; [|apply nth_error_None in Eu; lia].
  rewrite (interpolated_in_zone x curves values i v u L Z Eu Hv). f_equal. apply interpolate_low. unfold zone_bottom.
  rewrite (nth_error_nth _ _ _ Hc). lra.
Qed.

Lemma interpolated_full x curves values v : length values = length curves + 2 -> (1 <= x)%Q ->
  (match curves with [] => True | c :: _ => (c < 1)%Q end) -> nth_error values 0 = Some v ->
  control_curve_interpolated (Ok x) (map Ok curves) (map Ok values) = Ok v.
Proof.
  intros L Hx Hc Hv. assert (Z : in_zone x curves 0).
  { split; [lia|]. split; [lia|]. intros c H. destruct curves; [discriminate|]. cbn in H. injection H as <-. lra. }
  destruct (nth_error values 1) as [w|] eqn:Ew; [|apply nth_error_None in Ew; lia].
  rewrite (interpolated_in_zone x curves values 0 w v L Z Hv Ew). f_equal. unfold zone_bottom, zone_top. cbn [nth].
  apply interpolate_high; [|exact Hx]. destruct curves; cbn [nth]; lra.
Qed.

Lemma interpolated_empty x curves values v : length values = length curves + 2 -> (x <= 0)%Q ->
  Forall (fun c => (0 < c)%Q) curves -> nth_error values (S (length curves)) = Some v ->
  control_curve_interpolated (Ok x) (map Ok curves) (map Ok values) = Ok v.
Proof.
  intros L Hx F Hv. assert (Z : in_zone x curves (length curves)).
  { split; [lia|]. split.
    - intros i c _ Hc. rewrite Forall_forall in F. pose proof (F c (nth_error_In _ _ Hc)). lra.
    - intros c H. assert (nth_error curves (length curves) = None) by (apply nth_error_None; lia). congruence. }
  destruct (nth_error values (length curves)) as [u|] eqn:Eu; [|apply nth_error_None in Eu; lia].
  rewrite (interpolated_in_zone x curves values (length curves) v u L Z Eu Hv). f_equal. apply interpolate_low. unfold zone_bottom.
  rewrite nth_overflow by lia. exact Hx.
Qed.

Lemma between_le lo hi y : (lo <= hi)%Q -> between lo hi y -> (lo <= y <= hi)%Q.
Proof. intros H [?|?]; lra. Qed.

Lemma interpolated_mono x y curves values a b : length values = length curves + 2 -> descending values -> (x <= y)%Q ->
  control_curve_interpolated (Ok x) (map Ok curves) (map Ok values) = Ok a ->
  control_curve_interpolated (Ok y) (map Ok curves) (map Ok values) = Ok b -> (a <= b)%Q.
Proof.
  intros L D Hxy Ha Hb.
  destruct (interpolated_total x curves values L) as (k & w & u & Z & Hu & Hw & E). rewrite Ha in E. injection E as ->.
  destruct (interpolated_total y curves values L) as (l & w' & u' & Z' & Hu' & Hw' & E'). rewrite Hb in E'. injection E' as ->.
  pose proof (in_zone_mono x y curves k l Hxy Z Z') as Hlk.
  assert (Wu : (w <= u)%Q) by (apply (descending_le values D k (S k)); [lia|assumption|assumption]).
  assert (Wu' : (w' <= u')%Q) by (apply (descending_le values D l (S l)); [lia|assumption|assumption]).
  destruct (Nat.eq_dec l k) as [->|Ne].
  - assert (w' = w) by congruence. assert (u' = u) by congruence. subst. apply interpolate_mono; assumption.
  - pose proof (between_le _ _ _ Wu (interpolate_between x (zone_bottom 0 curves k) (zone_top 1 curves k) w u)).
    pose proof (between_le _ _ _ Wu' (interpolate_between y (zone_bottom 0 curves l) (zone_top 1 curves l) w' u')).
    assert (u <= w')%Q by (apply (descending_le values D (S l) k); [lia|assumption|assumption]). lra.
Qed.

Lemma piecewise_in_zone x top bottom curves values k v : length values = S (length curves) -> in_zone x curves k -> nth_error values k = Some v ->
  exists y, piecewise_interpolated (Ok x) top bottom (map Ok curves) values = Ok y /\ between (snd v) (fst v) y /\
    ((bottom <= x <= top)%Q -> (FLOAT_EQ_TOLERANCE <= zone_top top curves k - zone_bottom bottom curves k)%Q ->
       on_line x (zone_bottom bottom curves k) (zone_top top curves k) (snd v) (fst v) y).
Proof.
  intros L Z Hv. eexists. split; [unfold piecewise_interpolated; cbn [rbind]; apply (piecewise_zone x curves bottom values top k 0 v); [lia|exact Z|exact Hv]|].
  split; [apply interpolate_between|]. intros Hx W. destruct (zone_brackets x curves k top bottom Z Hx). apply interpolate_line; assumption.
Qed.

(* ---------- short circuits ---------- *)

Lemma index_lazy x curves c rest rest' : (c <= x)%Q -> Forall (fun d => (x < d)%Q) curves ->
  index_loop x (map Ok curves ++ Ok c :: rest) 0 = index_loop x (map Ok curves ++ Ok c :: rest') 0.
Proof.
  intros Hc F. generalize 0. induction F as [|d l Hd F IH]; intros n; cbn [map app index_loop rbind].
  - apply Qle_bool_true in Hc. rewrite Hc. reflexivity.
  - apply Qle_bool_false' in Hd. rewrite Hd. apply IH.
Qed.

(* ---------- apportion ---------- *)

Lemma clamp_range x : (0 <= clamp x 0 1 <= 1)%Q.
Proof. unfold clamp. qcase 0%Q x A; cbn [negb]; [|lra]. qcase x 1%Q B; cbn [negb]; lra. Qed.

Lemma clamp_id x : (0 <= x <= 1)%Q -> clamp x 0 1 = x.
Proof. intros [A B]. unfold clamp. apply Qle_bool_true in A, B. rewrite A, B. reflexivity. Qed.

Lemma apportion_shares x cc : exists u l, apportion (Ok x) (Ok cc) = Ok [("upper"%string, u); ("lower"%string, l)] /\
  (u + l == x)%Q /\ ((0 <= x)%Q -> (0 <= u <= x)%Q /\ (0 <= l <= x)%Q) /\
  ((0 <= cc <= 1)%Q -> (l == cc * x)%Q) /\ ((cc <= 0)%Q -> (l == 0)%Q) /\ ((1 <= cc)%Q -> (u == 0)%Q).
Proof.
  unfold apportion. cbn [rbind]. cbv zeta. eexists _, _. split; [reflexivity|]. pose proof (clamp_range cc) as R. split; [ring|].
  split; [intros Hx; split; nra|]. split; [intros H; rewrite clamp_id by exact H; reflexivity|]. split; intros H.
  - assert (clamp cc 0 1 == 0)%Q as ->; [|ring]. unfold clamp. qcase 0%Q cc A; cbn [negb]; [|reflexivity]. qcase cc 1%Q B; cbn [negb]; lra.
  - assert (clamp cc 0 1 == 1)%Q as ->; [|ring]. unfold clamp. qcase 0%Q cc A; cbn [negb]; [|lra]. qcase cc 1%Q B; cbn [negb]; lra.
Qed.

Lemma zone_volumes_total t : forall curves upper, exists vs, zone_volumes t (option_map Ok upper) curves = map Ok vs /\
  (total vs == t * match upper with Some u => u | None => 1 end)%Q.
Proof.
  induction curves as [|c curves IH]; intros upper; cbn [zone_volumes].
  - unfold volume_between. cbn [rbind]. destruct upper as [u|]; cbn [option_map rbind].
    + exists [(t * (u - 0))%Q]. split; [reflexivity|]. cbn. ring.
    + exists [(t * (1 - 0))%Q]. split; [reflexivity|]. cbn. ring.
  - destruct (IH (Some c)) as (vs & E & T). cbn [option_map] in E. rewrite E. unfold volume_between. cbn [rbind]. destruct upper as [u|]; cbn [option_map rbind].
    + exists ((t * (u - c))%Q :: vs). split; [reflexivity|]. change (t * (u - c) + total vs == t * u)%Q. rewrite T. ring.
    + exists ((t * (1 - c))%Q :: vs). split; [reflexivity|]. change (t * (1 - c) + total vs == t * 1)%Q. rewrite T. ring.
Qed.
