(** Forward and backward substitution with the index arrays. *)
From Coq Require Import Reals Lra Sorted.
From Verif Require Import Base IpmCholesky IpmSpec IpmDense IpmSymbolic IpmNumeric.
Local Open Scope list_scope.
Local Open Scope nat_scope.

(** A stable sort by a key lists the elements key by key. *)
Lemma insert_filter key x c : forall l, filter (fun p => key p =? c) (insert_by key x l) = filter (fun p => key p =? c) (x :: l).
Proof.
  induction l as [|y l IH]; [reflexivity|]. cbn [insert_by]. destruct (Nat.leb_spec (key x) (key y)) as [|Hlt]; [reflexivity|].
  cbn [filter] in *. rewrite IH. destruct (Nat.eqb_spec (key x) c), (Nat.eqb_spec (key y) c); try reflexivity. lia.
Qed.
Lemma sort_filter key c l : filter (fun p => key p =? c) (sort_by_key key l) = filter (fun p => key p =? c) l.
Proof. induction l as [|x l IH]; [reflexivity|]. unfold sort_by_key in *. cbn [fold_right]. rewrite insert_filter. cbn [filter]. rewrite IH. reflexivity. Qed.
Lemma insert_in key x l y : In y (insert_by key x l) <-> y = x \/ In y l.
Proof.
  induction l as [|z l IH]; cbn [insert_by]; [cbn; intuition congruence|]. destruct (key x <=? key z); cbn [In]; [intuition congruence|]. rewrite IH. intuition congruence.
Qed.
Lemma sort_in key l y : In y (sort_by_key key l) <-> In y l.
Proof. induction l as [|x l IH]; [reflexivity|]. unfold sort_by_key in *. cbn [fold_right In]. rewrite insert_in, IH. intuition congruence. Qed.
Lemma insert_sorted key x l : StronglySorted (fun p q => key p <= key q) l -> StronglySorted (fun p q => key p <= key q) (insert_by key x l).
Proof.
  induction 1 as [|y l Hl IH Hy]; cbn [insert_by]; [constructor; constructor|]. destruct (Nat.leb_spec (key x) (key y)).
  - constructor; [constructor; assumption|]. constructor; [assumption|]. eapply Forall_impl; [|exact Hy]. cbn. intros; lia.
  - constructor; [exact IH|]. apply Forall_forall. intros q Hq. apply insert_in in Hq. destruct Hq as [->|Hq]; [lia|]. rewrite Forall_forall in Hy. apply Hy, Hq.
Qed.
Lemma sort_sorted_key (key : nat -> nat) l : StronglySorted (fun p q => key p <= key q) (sort_by_key key l).
Proof. induction l as [|x l IH]; [constructor | apply insert_sorted, IH]. Qed.
Lemma key_by_key (key : nat -> nat) l n : StronglySorted (fun p q => key p <= key q) l -> filter (fun p => key p <? n) l = concat (map (fun c => filter (fun p => key p =? c) l) (seq 0 n)).
Proof.
  intros Hs. induction n as [|n IH]; [cbn [seq map concat]; clear; induction l as [|x l IH]; [reflexivity | exact IH]|]. rewrite seq_S, map_app, concat_app. cbn [map concat Nat.add]. rewrite app_nil_r, <- IH. clear IH.
  induction Hs as [|x l Hl IH Hx]; [reflexivity|]. cbn [filter].
  assert (Hno : n <= key x -> filter (fun p => key p <? n) l = []).
  { intros Hn. clear IH Hl. induction Hx as [|y l Hy Hf IHf]; [reflexivity|]. cbn [filter]. destruct (Nat.ltb_spec (key y) n); [lia | exact IHf]. }
  destruct (Nat.ltb_spec (key x) (S n)), (Nat.ltb_spec (key x) n), (Nat.eqb_spec (key x) n); try lia; cbn [app].
  - f_equal. exact IH.
  - f_equal. rewrite IH, Hno by lia. reflexivity.
  - exact IH.
Qed.

Lemma skipn_row (rows : list (list nat)) i : i < length rows -> skipn (row_offset rows i) (concat rows) = row_of rows i ++ skipn (row_offset rows (S i)) (concat rows).
Proof.
  unfold row_offset, row_of. revert rows. induction i as [|i IH]; intros [|r rows] H; cbn [length] in H; try lia; cbn [nth firstn concat length skipn].
  - rewrite app_nil_r, skipn_app, skipn_all, Nat.sub_diag. reflexivity.
  - rewrite !app_length, !skipn_app, !(skipn_all2 r) by lia. cbn [app]. replace (length r + length (concat (firstn i rows)) - length r) with (length (concat (firstn i rows))) by lia.
    rewrite IH by lia. f_equal. cbn [firstn]. replace (length r + length (concat (match rows with [] => [] | a :: l => a :: firstn i l end)) - length r) with (length (concat (match rows with [] => [] | a :: l => a :: firstn i l end))) by lia. reflexivity.
Qed.

Lemma before_snoc_index c row : StronglySorted lt row -> In c row -> nth_error row (length (before c row)) = Some c.
Proof. intros Hs Hin. apply In_nth_error in Hin. destruct Hin as (k & Hk). rewrite (before_nth c row k Hs Hk), firstn_length, Nat.min_l; [exact Hk|]. apply Nat.lt_le_incl, nth_error_Some. congruence. Qed.

Section Substitution.
Variables (a : list (list (nat * R))) (ch : chol_indices) (lrows : list (list nat)).
Let n := length a.
Hypothesis Hst : structure a n ch lrows.
Variable l : vec.
Let Lm := L lrows l.
Hypothesis Hd : forall r, r < n -> Lm r r <> 0%R.

Lemma forward_row_spec i rest : forall pre p x, StronglySorted lt pre -> Forall (fun k => k < i) pre ->
  let x' := forward_row l i p (pre ++ i :: rest) x in
  (forall k, k <> i -> x' k = x k) /\ x' i = ((x i - rsum i (fun k => at_col l p pre k * x k)) / l (p + length pre)%nat)%R.
Proof.
  induction pre as [|j pre IH]; intros p x Hs Hf; cbn [app forward_row].
  - rewrite Nat.ltb_irrefl. split; [intros k Hk; apply upd_other, Hk|]. rewrite upd_same. cbn [length at_col]. rewrite Nat.add_0_r. rewrite rsum_0; [f_equal; lra|]. intros; lra.
  - inversion Hf as [|? ? Hj Hf']; subst. inversion Hs as [|? ? Hs' Hjs]; subst. destruct (Nat.ltb_spec j i); [|lia].
    destruct (IH (S p) (upd x i (x i - x j * l p)%R) Hs' Hf') as (I1 & I2). split.
    + intros k Hk. rewrite I1 by exact Hk. apply upd_other, Hk.
    + rewrite I2, upd_same. replace (p + length (j :: pre)) with (S p + length pre) by (cbn; lia). f_equal.
      rewrite (rsum_ext i (fun k => at_col l (S p) pre k * upd x i (x i - x j * l p) k)%R (fun k => at_col l (S p) pre k * x k)%R) by (intros k Hk; rewrite upd_other by lia; reflexivity).
      rewrite (rsum_ext i (fun k => at_col l p (j :: pre) k * x k)%R (fun k => (if k =? j then l p * x j else 0) + at_col l (S p) pre k * x k)%R).
      * rewrite rsum_plus, rsum_one by exact Hj. lra.
      * intros k Hk. cbn [at_col]. rewrite (Nat.eqb_sym j k). destruct (Nat.eqb_spec k j) as [->|]; [|lra]. rewrite (at_col_out l pre j); [lra|]. intros Hin. rewrite Forall_forall in Hjs. apply Hjs in Hin. lia.
Qed.
Lemma row_split i : i < n -> exists pre, row_of lrows i = pre ++ [i] /\ StronglySorted lt pre /\ Forall (fun k => k < i) pre /\ (forall k, k < i -> Lm i k = at_col l (row_offset lrows i) pre k) /\ Lm i i = l (row_offset lrows i + length pre).
Proof.
  intros Hi. destruct (st_last _ _ _ _ Hst i Hi) as (pre & E). exists pre. pose proof (st_sorted _ _ _ _ Hst i) as Hs. rewrite E in Hs.
  assert (G : forall pre, StronglySorted lt (pre ++ [i]) -> StronglySorted lt pre /\ Forall (fun k => k < i) pre).
  { induction pre0 as [|x pre0 IH]; intros H; [split; constructor|]. cbn [app] in H. inversion H as [|? ? H1 H2]; subst. destruct (IH H1) as (I1 & I2). apply Forall_app in H2. destruct H2 as (H2 & H3).
    split; [constructor; assumption|]. constructor; [inversion H3; assumption | exact I2]. }
  destruct (G pre Hs) as (G1 & G2). split; [exact E|]. split; [exact G1|]. split; [exact G2|]. unfold Lm, L. rewrite E. split.
  - intros k Hk. clear - Hk. generalize (row_offset lrows i). induction pre as [|x pre IH]; intros p; cbn [app at_col].
    + destruct (Nat.eqb_spec i k); [lia | reflexivity].
    + destruct (x =? k); [reflexivity | apply IH].
  - rewrite (at_col_nth l (pre ++ [i]) i (row_offset lrows i) (length pre)); [reflexivity | apply sorted_NoDup, Hs | rewrite nth_error_app2, Nat.sub_diag by lia; reflexivity].
Qed.
Lemma forward_spec b x0 : forall i, i <= n -> let u := fold_left (fun x i => let start := nth i (ch_lindptr ch) 0 in forward_row l i start (skipn start (ch_lindices ch)) (upd x i (b i))) (seq 0 i) x0 in
  forall r, r < i -> rsum (S r) (fun k => Lm r k * u k)%R = b r.
Proof.
  induction i as [|i IH]; intros Hi; cbv zeta; [intros; lia|]. rewrite seq_S, fold_left_app. cbn [fold_left Nat.add]. set (u := fold_left _ (seq 0 i) x0) in *.
  rewrite (st_indptr _ _ _ _ Hst), (st_indices _ _ _ _ Hst) by lia. rewrite skipn_row by (rewrite (st_len _ _ _ _ Hst); lia).
  destruct (row_split i ltac:(lia)) as (pre & E & Hs & Hf & HL & HLi). rewrite E, <- app_assoc. cbn [app].
  destruct (forward_row_spec i (skipn (row_offset lrows (S i)) (concat lrows)) pre (row_offset lrows i) (upd u i (b i)) Hs Hf) as (F1 & F2).
  set (u' := forward_row _ _ _ _ _) in *. intros r Hr. destruct (Nat.eq_dec r i) as [->|Hn].
  - cbn [rsum]. rewrite F2, upd_same, <- HLi. rewrite (rsum_ext i (fun k => Lm i k * u' k)%R (fun k => at_col l (row_offset lrows i) pre k * upd u i (b i) k)%R).
    + pose proof (Hd i ltac:(lia)). field. assumption.
    + intros k Hk. rewrite F1 by lia. rewrite HL by exact Hk. reflexivity.
  - specialize (IH ltac:(lia) r ltac:(lia)). cbv zeta in IH. fold u in IH. rewrite <- IH. apply rsum_ext. intros k Hk. rewrite F1, upd_other by lia. reflexivity.
Qed.
Lemma forward_solves b x0 i : i < n -> rsum n (fun k => Lm i k * forward n ch l b x0 k)%R = b i.
Proof.
  intros Hi. pose proof (forward_spec b x0 n (le_n _) i Hi) as H. cbv zeta in H. unfold forward. rewrite (rsum_below n (S i)); [exact H | lia|].
  intros k Hk. unfold Lm. rewrite (L_upper a ch lrows Hst l i k) by lia. lra.
Qed.

(** The transpose. *)
Definition pos (r c : nat) : nat := row_offset lrows r + length (before c (row_of lrows r)).
Definition has (c r : nat) : bool := existsb (Nat.eqb c) (row_of lrows r).
Lemma has_in c r : has c r = true <-> In c (row_of lrows r).
Proof. unfold has. rewrite existsb_exists. split; [intros (x & Hx & E); apply Nat.eqb_eq in E; congruence | intros H; exists c; split; [exact H | apply Nat.eqb_refl]]. Qed.
Lemma pos_L r c : In c (row_of lrows r) -> l (pos r c) = Lm r c.
Proof. intros H. symmetry. apply (L_at a ch lrows Hst). apply before_snoc_index; [apply (st_sorted _ _ _ _ Hst) | exact H]. Qed.
Lemma lower_rows_eq : lower_rows ch n = lrows.
Proof.
  unfold lower_rows. pose proof (st_len _ _ _ _ Hst) as Hl. apply nth_ext with (d := []) (d' := []); [rewrite map_length, seq_length; congruence|]. intros i Hi. rewrite map_length, seq_length in Hi.
  set (f := fun i => slice (nth i (ch_lindptr ch) 0) (nth (i + 1) (ch_lindptr ch) 0) (ch_lindices ch)). rewrite nth_indep with (d' := f 0) by (rewrite map_length, seq_length; exact Hi).
  rewrite map_nth, seq_nth by exact Hi. unfold f. cbn [Nat.add]. rewrite !(st_indptr _ _ _ _ Hst), (st_indices _ _ _ _ Hst) by lia. rewrite Nat.add_1_r. apply concat_slice. lia.
Qed.
Lemma segment c : forall row s, StronglySorted lt row -> filter (fun q => nth (q - s) row 0 =? c) (seq s (length row)) = if existsb (Nat.eqb c) row then [s + length (before c row)] else [].
Proof.
  induction row as [|x row IH]; intros s Hs; [reflexivity|]. inversion Hs as [|? ? Hs' Hx]; subst. cbn [length seq filter existsb]. rewrite Nat.sub_diag.
  assert (E : filter (fun q => nth (q - s) (x :: row) 0 =? c) (seq (S s) (length row)) = filter (fun q => nth (q - S s) row 0 =? c) (seq (S s) (length row))).
  { apply filter_ext_in. intros q Hq. apply in_seq in Hq. replace (q - s) with (S (q - S s)) by lia. reflexivity. }
  rewrite E, IH by exact Hs'. cbn [nth]. rewrite (Nat.eqb_sym c x). unfold before. cbn [filter]. destruct (Nat.eqb_spec x c) as [->|Hn].
  - cbn [orb]. rewrite Nat.ltb_irrefl. replace (existsb (Nat.eqb c) row) with false.
    + replace (filter (fun k => k <? c) row) with (@nil nat); [cbn; f_equal; lia|]. clear - Hx. induction Hx as [|y row Hy Hf IHf]; [reflexivity|]. cbn [filter]. destruct (Nat.ltb_spec y c); [lia | exact IHf].
    + symmetry. apply not_true_iff_false. intros Hex. apply existsb_exists in Hex. destruct Hex as (y & Hy & Ey). apply Nat.eqb_eq in Ey. subst y. rewrite Forall_forall in Hx. apply Hx in Hy. lia.
  - cbn [orb]. destruct (existsb (Nat.eqb c) row) eqn:Ex; [|reflexivity]. apply existsb_exists in Ex. destruct Ex as (y & Hy & Ey). apply Nat.eqb_eq in Ey. subst y. rewrite Forall_forall in Hx. apply Hx in Hy.
    destruct (Nat.ltb_spec x c); [|lia]. cbn [length]. f_equal. lia.
Qed.
Lemma positions_of c : forall i, i <= n -> filter (fun q => nth q (ch_lindices ch) 0 =? c) (seq 0 (row_offset lrows i)) = map (fun r => pos r c) (filter (has c) (seq 0 i)).
Proof.
  induction i as [|i IH]; intros Hi; [reflexivity|]. rewrite row_offset_S, seq_app, filter_app, IH by lia. rewrite (seq_S i 0), filter_app, map_app. f_equal. cbn [Nat.add filter].
  rewrite (filter_ext_in _ (fun q => nth (q - row_offset lrows i) (row_of lrows i) 0 =? c)).
  - rewrite segment by apply (st_sorted _ _ _ _ Hst). unfold has. destruct (existsb (Nat.eqb c) (row_of lrows i)); reflexivity.
  - intros q Hq. apply in_seq in Hq. f_equal. rewrite (st_indices _ _ _ _ Hst).
    destruct (nth_error (row_of lrows i) (q - row_offset lrows i)) as [v|] eqn:E; [|apply nth_error_None in E; lia].
    rewrite (nth_error_nth _ _ 0 E). apply nth_error_nth. replace q with (row_offset lrows i + (q - row_offset lrows i)) by lia. apply concat_nth, E.
Qed.
Lemma lt_map_eq : lt_map ch = concat (map (fun c => map (fun r => pos r c) (filter (has c) (seq 0 n))) (seq 0 n)).
Proof.
  unfold lt_map. set (key := fun p => nth p (ch_lindices ch) 0). set (s := sort_by_key key (seq 0 (length (ch_lindices ch)))).
  assert (Hall : filter (fun p => key p <? n) s = s).
  { assert (G : forall p, In p s -> key p < n).
    { intros p Hp. unfold s in Hp. apply sort_in in Hp. apply in_seq in Hp. unfold key. rewrite (st_indices _ _ _ _ Hst) in *.
      assert (Hin : In (nth p (concat lrows) 0) (concat lrows)) by (apply nth_In; lia). apply in_concat in Hin. destruct Hin as (row & Hrow & Hin). apply In_nth with (d := []) in Hrow. destruct Hrow as (r & Hr & Er).
      rewrite (st_len _ _ _ _ Hst) in Hr. pose proof (st_le _ _ _ _ Hst r (nth p (concat lrows) 0)) as Hle. unfold row_of in Hle. rewrite Er in Hle. specialize (Hle Hin). lia. }
    clear - G. induction s as [|p s IH]; [reflexivity|]. cbn [filter]. pose proof (G p (or_introl eq_refl)). destruct (Nat.ltb_spec (key p) n); [|lia]. f_equal. apply IH. intros q Hq. apply G. right. exact Hq. }
  rewrite <- Hall. rewrite key_by_key by apply sort_sorted_key. f_equal. apply map_ext_in. intros c _. unfold s. rewrite sort_filter. unfold key.
  replace (length (ch_lindices ch)) with (row_offset lrows n) by (rewrite (st_indices _ _ _ _ Hst); apply row_offset_full; rewrite (st_len _ _ _ _ Hst); lia). apply positions_of. lia.
Qed.
Lemma lt_rows_eq : lt_rows ch n = map (fun c => filter (has c) (seq 0 n)) (seq 0 n).
Proof. unfold lt_rows. rewrite lower_rows_eq. reflexivity. Qed.
Lemma row_of_map {A} (f : nat -> list A) c : c < n -> row_of (map f (seq 0 n)) c = f c.
Proof. intros H. unfold row_of. rewrite nth_indep with (d' := f 0) by (rewrite map_length, seq_length; exact H). rewrite map_nth, seq_nth by exact H. reflexivity. Qed.
Lemma offset_map {A B} (f : nat -> list A) (g : nat -> list B) : (forall c, length (f c) = length (g c)) -> forall c, row_offset (map f (seq 0 n)) c = row_offset (map g (seq 0 n)) c.
Proof.
  intros H c. unfold row_offset. rewrite !firstn_map. generalize (firstn c (seq 0 n)). induction l0 as [|x l0 IH]; [reflexivity|]. cbn [map concat]. rewrite !app_length, H, IH. reflexivity.
Qed.
(** The transposed row of column [c], with the positions. *)
Lemma lt_at c k r : c < n -> nth_error (filter (has c) (seq 0 n)) k = Some r ->
  nth (row_offset (lt_rows ch n) c + k) (concat (lt_rows ch n)) 0 = r /\ nth (row_offset (lt_rows ch n) c + k) (lt_map ch) 0 = pos r c.
Proof.
  intros Hc Hk. rewrite lt_rows_eq. split.
  - apply nth_error_nth, concat_nth. rewrite row_of_map by exact Hc. exact Hk.
  - rewrite lt_map_eq. rewrite (offset_map (fun c => filter (has c) (seq 0 n)) (fun c => map (fun r => pos r c) (filter (has c) (seq 0 n)))) by (intros; rewrite map_length; reflexivity).
    apply nth_error_nth, concat_nth. rewrite row_of_map by exact Hc. rewrite nth_error_map, Hk. reflexivity.
Qed.
Lemma lt_first c : c < n -> exists rest, filter (has c) (seq 0 n) = c :: rest /\ Forall (fun r => c < r < n /\ has c r = true) rest /\ NoDup rest /\ forall r, c < r < n -> has c r = true -> In r rest.
Proof.
  intros Hc. replace n with (c + S (n - S c)) by lia. rewrite seq_app, filter_app. replace (filter (has c) (seq 0 c)) with (@nil nat).
  - cbn [app Nat.add seq filter]. replace (has c c) with true.
    + exists (filter (has c) (seq (S c) (n - S c))). split; [reflexivity|]. split; [|split].
      * apply Forall_forall. intros r Hr. rewrite filter_In in Hr. destruct Hr as (Hr & Hh). apply in_seq in Hr. split; [lia | exact Hh].
      * apply NoDup_filter, seq_NoDup.
      * intros r Hr Hh. apply filter_In. split; [apply in_seq; lia | exact Hh].
    + symmetry. apply has_in. destruct (st_last _ _ _ _ Hst c Hc) as (p & ->). apply in_or_app. right. left. reflexivity.
  - assert (G : forall m, m <= c -> filter (has c) (seq 0 m) = []).
    { induction m as [|m IH]; intros Hm; [reflexivity|]. rewrite seq_S, filter_app, IH by lia. cbn [filter Nat.add app]. destruct (has c m) eqn:E; [|reflexivity].
      apply has_in in E. apply (st_le _ _ _ _ Hst) in E. lia. }
    symmetry. apply G. lia.
Qed.

Lemma list_sum_rsum (f : nat -> R) : forall rest, NoDup rest -> Forall (fun r => r < n) rest -> (forall r, r < n -> ~ In r rest -> f r = 0%R) -> lsum (map f rest) = rsum n f.
Proof.
  assert (G : forall rest, NoDup rest -> Forall (fun r => r < n) rest -> lsum (map f rest) = rsum n (fun r => if existsb (Nat.eqb r) rest then f r else 0%R)).
  { induction rest as [|r rest IH]; intros Hnd Hf; [symmetry; apply rsum_0; reflexivity|]. inversion Hnd; subst. inversion Hf; subst. cbn [map lsum fold_right]. fold (lsum (map f rest)). rewrite IH by assumption.
    rewrite <- (rsum_one n r (f r)) by assumption. rewrite <- rsum_plus. apply rsum_ext. intros k Hk. cbn [existsb]. destruct (Nat.eqb_spec k r) as [->|]; cbn [orb]; [|lra].
    replace (existsb (Nat.eqb r) rest) with false; [lra|]. symmetry. apply not_true_iff_false. intros Hex. apply existsb_exists in Hex. destruct Hex as (q & Hq & E). apply Nat.eqb_eq in E. subst q. contradiction. }
  intros rest Hnd Hf Hz. rewrite G by assumption. apply rsum_ext. intros k Hk. destruct (existsb (Nat.eqb k) rest) eqn:E; [reflexivity|]. symmetry. apply Hz; [exact Hk|].
  intros Hin. apply not_true_iff_false in E. apply E. apply existsb_exists. exists k. split; [exact Hin | apply Nat.eqb_refl].
Qed.

Definition back_step (x : vec) (i : nat) : vec :=
  let x := fold_left (fun x jk => upd x i (x i - x (nth jk (concat (lt_rows ch n)) 0%nat) * l (nth jk (lt_map ch) 0%nat))%R)
      (seq (row_offset (lt_rows ch n) i + 1) (row_offset (lt_rows ch n) (i + 1) - (row_offset (lt_rows ch n) i + 1))) x in
    upd x i (x i / l (nth (i + 1) (ch_lindptr ch) 0 - 1)%nat)%R.
Lemma back_step_spec x i : i < n -> (forall k, k <> i -> back_step x i k = x k) /\ rsum n (fun j => Lm j i * back_step x i j)%R = x i.
Proof.
  intros Hi. destruct (lt_first i Hi) as (rest & E & Hf & Hnd & Hall). unfold back_step. cbv zeta.
  assert (Elen : row_offset (lt_rows ch n) (i + 1) - (row_offset (lt_rows ch n) i + 1) = length rest).
  { rewrite Nat.add_1_r, row_offset_S, lt_rows_eq, row_of_map, E by exact Hi. cbn. lia. }
  rewrite Elen.
  assert (G : forall m, m <= length rest -> let x1 := fold_left (fun x jk => upd x i (x i - x (nth jk (concat (lt_rows ch n)) 0%nat) * l (nth jk (lt_map ch) 0%nat))%R) (seq (row_offset (lt_rows ch n) i + 1) m) x in
    (forall k, k <> i -> x1 k = x k) /\ x1 i = (x i - lsum (map (fun r => Lm r i * x r) (firstn m rest)))%R).
  { induction m as [|m IH]; intros Hm; cbv zeta; [split; [reflexivity | cbn; lra]|]. rewrite seq_S, fold_left_app. cbn [fold_left]. destruct (IH ltac:(lia)) as (I1 & I2). set (x1 := fold_left _ _ x) in *.
    destruct (nth_error rest m) as [r|] eqn:Er; [|apply nth_error_None in Er; lia].
    destruct (lt_at i (S m) r Hi) as (A1 & A2); [rewrite E; exact Er|]. replace (row_offset (lt_rows ch n) i + 1 + m) with (row_offset (lt_rows ch n) i + S m) by lia. rewrite A1, A2.
    rewrite Forall_forall in Hf. destruct (Hf r (nth_error_In _ _ Er)) as (Hr & Hh). split; [intros k Hk; rewrite upd_other by exact Hk; apply I1, Hk|]. rewrite upd_same, I2, (I1 r) by lia.
    rewrite pos_L by (apply has_in, Hh).
    assert (Ef : firstn (S m) rest = firstn m rest ++ [r]).
    { clear - Er. revert rest Er. induction m as [|m IH]; intros [|y rest] Er; try discriminate; [injection Er as ->; reflexivity|]. cbn [firstn app]. f_equal. apply IH, Er. }
    rewrite Ef, map_app. assert (Es : forall u v, lsum (u ++ v) = (lsum u + lsum v)%R) by (clear; induction u as [|x u IH]; intros v; cbn [app lsum fold_right]; [unfold lsum; lra | fold (lsum (u ++ v)); fold (lsum u); rewrite IH; lra]).
    rewrite Es. cbn [map lsum fold_right]. lra. }
  destruct (G (length rest) (le_n _)) as (G1 & G2). cbv zeta in G1, G2. set (x1 := fold_left _ _ x) in *. rewrite firstn_all in G2. rewrite (st_indptr _ _ _ _ Hst), Nat.add_1_r by lia.
  split; [intros k Hk; rewrite upd_other by exact Hk; apply G1, Hk|].
  rewrite (rsum_ext n _ (fun j => (if j =? i then x i - lsum (map (fun r => Lm r i * x r) rest) else 0) + (if (i <? j) then Lm j i * x j else 0))%R).
  - rewrite rsum_plus, rsum_one by exact Hi.
    assert (Es : lsum (map (fun r => (Lm r i * x r)%R) rest) = rsum n (fun j => if i <? j then (Lm j i * x j)%R else 0%R)).
    { rewrite <- (list_sum_rsum (fun j => if i <? j then (Lm j i * x j)%R else 0%R) rest Hnd).
      - f_equal. apply map_ext_in. intros r Hr. rewrite Forall_forall in Hf. destruct (Hf r Hr) as (Hr' & _). destruct (Nat.ltb_spec i r); [reflexivity | lia].
      - eapply Forall_impl; [|exact Hf]. cbn. intros r (H & _). lia.
      - intros r Hr Hni. destruct (Nat.ltb_spec i r) as [Hir|]; [|reflexivity]. unfold Lm, L. rewrite at_col_out; [lra|]. intros Hin. apply Hni, Hall; [lia | apply has_in, Hin]. }
    rewrite Es. lra.
  - intros j Hj. destruct (Nat.eqb_spec j i) as [->|Hn].
    + rewrite upd_same, G2, Nat.ltb_irrefl. rewrite <- (L_diag a ch lrows Hst l i Hi). fold (Lm i i). pose proof (Hd i Hi). field. assumption.
    + rewrite upd_other by exact Hn. rewrite G1 by exact Hn. destruct (Nat.ltb_spec i j); [lra|]. unfold Lm. rewrite (L_upper a ch lrows Hst l j i) by lia. lra.
Qed.
Lemma backward_solves u k : k < n -> rsum n (fun j => Lm j k * backward n ch l u j)%R = u k.
Proof.
  intros Hk. unfold backward.
  change (rsum n (fun j => (Lm j k * fold_left back_step (rev (seq 0 n)) u j)%R) = u k).
  assert (G : forall d, d <= n -> let v := fold_left back_step (rev (seq (n - d) d)) u in (forall k, k < n - d -> v k = u k) /\ forall k, n - d <= k < n -> rsum n (fun j => Lm j k * v j)%R = u k).
  { induction d as [|d IH]; intros Hd'; cbv zeta; [split; [reflexivity | intros; lia]|]. destruct (IH ltac:(lia)) as (I1 & I2).
    replace (seq (n - S d) (S d)) with ((n - S d) :: seq (n - d) d) by (replace (n - d) with (S (n - S d)) by lia; reflexivity). cbn [rev]. rewrite fold_left_app. cbn [fold_left].
    set (v := fold_left back_step (rev (seq (n - d) d)) u) in *. set (i := n - S d) in *. destruct (back_step_spec v i ltac:(unfold i; lia)) as (B1 & B2). split.
    - intros q Hq. rewrite B1 by lia. apply I1. unfold i in *. lia.
    - intros q Hq. destruct (Nat.eq_dec q i) as [->|Hn]; [rewrite B2; apply I1; unfold i; lia|]. rewrite <- (I2 q) by (unfold i in *; lia). apply rsum_ext. intros j Hj.
      destruct (Nat.eq_dec j i) as [->|Hji]; [|rewrite B1 by exact Hji; reflexivity]. unfold Lm. rewrite (L_upper a ch lrows Hst l i q) by lia. lra. }
  destruct (G n (le_n _)) as (_ & G2). rewrite Nat.sub_diag in G2. apply G2. lia.
Qed.
End Substitution.

(** The whole direct solve. *)
Lemma direct_solve a m wsize x z y w b l0 v0 : well_formed m a -> no_empty_row a -> independent (length a) m (dense a) wsize ->
  positive m x -> positive m z -> positive wsize y -> positive wsize w ->
  let ch := chol_from_matrix a in
  solves (length a) (normal_matrix m (dense a) wsize x z y w) (cholesky_solve (length a) ch (chol_decompose a ch wsize x z y w l0) b v0) b.
Proof.
  intros Hwf Hne Hind Hx Hz Hy Hw ch. destruct (matrix_structure a Hne) as (lrows & Hst). fold ch in Hst.
  destruct (decomposed a m ch lrows Hwf Hst wsize x z y w l0) as (D1 & D2). set (l := chol_decompose a ch wsize x z y w l0) in *.
  set (M := normal_matrix m (dense a) wsize x z y w) in *.
  assert (Hsym : forall i j, M i j = M j i).
  { intros i j. unfold M, normal_matrix. f_equal; [apply rsum_ext; intros; lra|]. rewrite (Nat.eqb_sym j i). destruct (Nat.eqb_spec i j) as [->|]; reflexivity. }
  destruct (factor_upto (length a) M (L lrows l) Hsym (normal_pd _ _ _ _ _ _ _ _ Hx Hz Hy Hw Hind)) with (r := length a) as (Hpos & Hfac).
  - intros i k Hik. apply (L_upper a ch lrows Hst). exact Hik.
  - intros r c Hc Hr Hd. apply D2; assumption.
  - intros r Hr. apply D1, Hr.
  - lia.
  - assert (Hd : forall r, r < length a -> L lrows l r r <> 0%R) by (intros r Hr; pose proof (Hpos r Hr); lra). unfold cholesky_solve.
    apply (solve_factored (length a) M (L lrows l) (forward (length a) ch l b v0)).
    + exact Hfac.
    + intros i Hi. apply (forward_solves a ch lrows Hst l Hd). exact Hi.
    + intros k Hk. apply (backward_solves a ch lrows Hst l Hd). exact Hk.
Qed.
