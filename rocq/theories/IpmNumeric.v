(** The decomposition and the substitutions compute with the factor. *)
From Coq Require Import Reals Lra Sorted.
From Verif Require Import Base IpmCholesky IpmSpec IpmDense IpmSymbolic.
Local Open Scope list_scope.
Local Open Scope nat_scope.

Lemma upd_same x i v : upd x i v i = v.
Proof. unfold upd. rewrite Nat.eqb_refl. reflexivity. Qed.
Lemma upd_other x i v k : k <> i -> upd x i v k = x k.
Proof. intros H. unfold upd. destruct (Nat.eqb_spec k i); [contradiction | reflexivity]. Qed.

(** Filling positions in rising order, each from lower ones. *)
Lemma fill_range (F : vec -> nat -> R) s : forall k l, (forall p l1 l2, s <= p < s + k -> (forall q, q < p -> l1 q = l2 q) -> F l1 p = F l2 p) ->
  let l' := fold_left (fun l p => upd l p (F l p)) (seq s k) l in
  (forall q, q < s \/ s + k <= q -> l' q = l q) /\ forall p, s <= p < s + k -> l' p = F l' p.
Proof.
  induction k as [|k IH]; intros l Hloc; cbv zeta; [split; [reflexivity | intros; lia]|]. rewrite seq_S, fold_left_app. cbn [fold_left].
  destruct (IH l) as (H1 & H2); [intros; apply Hloc; [lia | assumption]|]. set (l' := fold_left _ (seq s k) l) in *.
  split.
  - intros q Hq. rewrite upd_other by lia. apply H1. lia.
  - intros p Hp. destruct (Nat.eq_dec p (s + k)) as [->|Hn].
    + rewrite upd_same. apply Hloc; [lia|]. intros q Hq. rewrite upd_other by lia. reflexivity.
    + rewrite upd_other by exact Hn. rewrite H2 by lia. apply Hloc; [lia|]. intros q Hq. rewrite upd_other by lia. reflexivity.
Qed.
Lemma fill_rows (F : nat -> vec -> nat -> R) (off : nat -> nat) n l :
  (forall i, i < n -> off i <= off (S i)) ->
  (forall i p l1 l2, i < n -> off i <= p < off (S i) -> (forall q, q < p -> l1 q = l2 q) -> F i l1 p = F i l2 p) ->
  let l' := fold_left (fun l i => fold_left (fun l p => upd l p (F i l p)) (seq (off i) (off (S i) - off i)) l) (seq 0 n) l in
  (forall q, off n <= q -> l' q = l q) /\ forall i p, i < n -> off i <= p < off (S i) -> l' p = F i l' p.
Proof.
  cbv zeta. induction n as [|n IH]; intros Hm Hloc; [split; [reflexivity | intros; lia]|].
  destruct IH as (H1 & H2); [intros; apply Hm; lia | intros i p l1 l2 Hi Hp Hq; apply Hloc; [lia | exact Hp | exact Hq]|]. rewrite seq_S, fold_left_app. cbn [fold_left Nat.add].
  set (l1 := fold_left _ (seq 0 n) l) in *. pose proof (Hm n ltac:(lia)) as Hn.
  destruct (fill_range (F n) (off n) (off (S n) - off n) l1) as (G1 & G2); [intros; apply Hloc; [lia | lia | assumption]|].
  set (l2 := fold_left _ (seq (off n) (off (S n) - off n)) l1) in *.
  assert (Hoff : forall i, i <= n -> off i <= off n).
  { intros i Hi. assert (Hg : forall d, i + d <= n -> off i <= off (i + d)).
    { induction d as [|d IHd]; intros Hd; [rewrite Nat.add_0_r; lia|]. specialize (IHd ltac:(lia)). pose proof (Hm (i + d) ltac:(lia)). replace (i + S d) with (S (i + d)) by lia. lia. }
    specialize (Hg (n - i) ltac:(lia)). replace (i + (n - i)) with n in Hg by lia. exact Hg. }
  split.
  - intros q Hq. rewrite G1 by lia. apply H1. lia.
  - intros i p Hi Hp. destruct (Nat.eq_dec i n) as [->|Hin]; [apply G2; lia|].
    assert (off (S i) <= off n) by (apply Hoff; lia). rewrite G1 by lia. rewrite (H2 i p) by lia. apply Hloc; [lia | exact Hp |]. intros q Hq. rewrite G1 by lia. reflexivity.
Qed.

Lemma before_nth c row k : StronglySorted lt row -> nth_error row k = Some c -> before c row = firstn k row.
Proof.
  intros Hs. revert k. induction Hs as [|x l Hl IH Hx]; intros [|k] H; try discriminate; cbn [nth_error before filter firstn] in *.
  - injection H as <-. rewrite Nat.ltb_irrefl. clear IH. induction Hx as [|y l Hy Hf IHf]; [reflexivity|]. cbn [filter]. destruct (Nat.ltb_spec y x); [lia|]. apply IHf. inversion Hl; assumption.
  - rewrite Forall_forall in Hx. pose proof (Hx c (nth_error_In _ _ H)). destruct (Nat.ltb_spec x c); [|lia]. f_equal. apply IH, H.
Qed.

Section Numeric.
Variables (a : list (list (nat * R))) (m : nat) (ch : chol_indices) (lrows : list (list nat)).
Let n := length a.
Hypothesis Hwf : well_formed m a.
Hypothesis Hst : structure a n ch lrows.

Lemma dense_at r k : at_col (fun p => nth p (csr_values a) 0%R) (row_offset a r) (row_cols a r) k = dense a r k.
Proof.
  unfold dense, row_cols. fold (row_of a r).
  assert (G : forall row p, (forall i e, nth_error row i = Some e -> nth (p + i) (csr_values a) 0%R = snd e) ->
    at_col (fun p => nth p (csr_values a) 0%R) p (map fst row) k = match find (fun e => fst e =? k) row with Some e => snd e | None => 0%R end).
  { induction row as [|e row IH]; intros p H; cbn [map at_col find]; [reflexivity|]. destruct (fst e =? k).
    - rewrite <- (Nat.add_0_r p). apply H. reflexivity.
    - apply IH. intros i e' He. rewrite <- (H (S i) e' He). f_equal. lia. }
  apply G. intros i e He. pose proof (concat_nth a r i e He) as H. unfold csr_values.
  assert (Hn : nth_error (map snd (concat a)) (row_offset a r + i) = Some (snd e)) by (rewrite nth_error_map, H; reflexivity). apply (nth_error_nth _ _ 0%R) in Hn. exact Hn.
Qed.
Lemma row_wf r : StronglySorted lt (row_cols a r) /\ Forall (fun k => k < m) (row_cols a r).
Proof.
  unfold row_cols, row_of. destruct (Nat.lt_ge_cases r (length a)) as [H|H]; [apply Hwf, nth_In, H|]. rewrite nth_overflow by exact H. split; constructor.
Qed.

Definition L (l : vec) (r c : nat) : R := at_col l (row_offset lrows r) (row_of lrows r) c.
Lemma L_upper l r c : r < c -> L l r c = 0%R.
Proof. intros H. apply at_col_out. intros Hin. apply (st_le _ _ _ _ Hst) in Hin. lia. Qed.
Lemma L_at l r k c : nth_error (row_of lrows r) k = Some c -> L l r c = l (row_offset lrows r + k).
Proof. intros H. apply at_col_nth; [apply sorted_NoDup, (st_sorted _ _ _ _ Hst) | exact H]. Qed.
Lemma last_at r : r < n -> exists k, nth_error (row_of lrows r) k = Some r /\ row_offset lrows (S r) - 1 = row_offset lrows r + k /\ S k = length (row_of lrows r).
Proof.
  intros Hr. destruct (st_last _ _ _ _ Hst r Hr) as (p & E). exists (length p). rewrite row_offset_S, E, app_length, nth_error_app2, Nat.sub_diag by lia. cbn. repeat split; lia.
Qed.
Lemma L_diag l r : r < n -> L l r r = l (row_offset lrows (S r) - 1).
Proof. intros Hr. destruct (last_at r Hr) as (k & H & -> & _). apply L_at, H. Qed.
Lemma before_at l p c row k : at_col l p (before c row) k = (if k <? c then at_col l p (before c row) k else 0)%R.
Proof. destruct (Nat.ltb_spec k c); [reflexivity|]. apply at_col_out. unfold before. rewrite filter_In. intros (_ & H'). apply Nat.ltb_lt in H'. lia. Qed.
Lemma before_L l r c k : k < c -> at_col l (row_offset lrows r) (before c (row_of lrows r)) k = L l r k.
Proof.
  intros Hk. unfold L. pose proof (st_sorted _ _ _ _ Hst r) as Hs. generalize (row_offset lrows r). induction Hs as [|x row Hrow IH Hx]; intros p; [reflexivity|].
  cbn [before filter at_col]. destruct (Nat.ltb_spec x c).
  - cbn [at_col]. destruct (x =? k); [reflexivity|]. apply IH.
  - replace (filter (fun k0 => k0 <? c) row) with (@nil nat).
    + cbn [at_col]. destruct (Nat.eqb_spec x k); [lia|]. symmetry. apply at_col_out. intros Hin. rewrite Forall_forall in Hx. apply Hx in Hin. lia.
    + symmetry. clear IH Hrow. induction Hx as [|y row Hy Hf IHf]; [reflexivity|]. cbn [filter]. destruct (Nat.ltb_spec y c); [lia | exact IHf].
Qed.

Variables (wsize : nat) (x z y w : vec).
(** The value computed for an entry from the earlier ones. *)
Definition entry_value (r : nat) (l : vec) (p : nat) : R := chol_value a ch wsize x z y w r l p p.
Lemma chol_value_upd r l p : forall q, chol_value a ch wsize x z y w r l p q = upd l p (entry_value r l p) q.
Proof. intros q. unfold entry_value, chol_value. cbv zeta. rewrite upd_same. reflexivity. Qed.

Let M := normal_matrix m (dense a) wsize x z y w.
Lemma value_at r k c l : r < n -> nth_error (row_of lrows r) k = Some c ->
  entry_value r l (row_offset lrows r + k) =
    let v := (M r c - rsum c (fun j => L l r j * L l c j))%R in
    if r =? c then sqrt (Rabs v) else (v / L l c c)%R.
Proof.
  intros Hr Hk. assert (Hc : c <= r) by (apply (st_le _ _ _ _ Hst); eapply nth_error_In, Hk). unfold entry_value, chol_value. cbv zeta. rewrite upd_same.
  replace (nth (row_offset lrows r + k) (ch_lindices ch) 0) with c.
  2:{ rewrite (st_indices _ _ _ _ Hst). symmetry. apply nth_error_nth, concat_nth, Hk. }
  rewrite (st_entry _ _ _ _ Hst r k c Hk). cbn [le_anorm le_ldecomp]. rewrite fold_plus, fold_minus.
  assert (E1 : lsum (map (fun t : nat * nat * nat => (nth (fst (fst t)) (csr_values a) 0 * nth (snd (fst t)) (csr_values a) 0 * x (snd t) / z (snd t))%R) (a_common a r c)) =
    rsum m (fun j => (dense a r j * (x j / z j) * dense a c j)%R)).
  { rewrite (map_ext _ (fun t => ((fun p => nth p (csr_values a) 0%R) (fst (fst t)) * (fun p => nth p (csr_values a) 0%R) (snd (fst t)) * (fun j => (x j / z j)%R) (snd t))%R)) by (intros t; unfold Rdiv; lra).
    unfold a_common. destruct (row_wf r) as (W1 & W2), (row_wf c) as (W3 & _).
    rewrite (common_sum (fun p => nth p (csr_values a) 0%R) (fun p => nth p (csr_values a) 0%R) (fun j => (x j / z j)%R) m _ _ _ _ W1 W3 W2).
    apply rsum_ext. intros j _. rewrite !dense_at. lra. }
  assert (E2 : lsum (map (fun t : nat * nat * nat => (l (fst (fst t)) * l (snd (fst t)))%R) (l_common lrows r c)) = rsum c (fun j => (L l r j * L l c j)%R)).
  { rewrite (map_ext _ (fun t => (l (fst (fst t)) * l (snd (fst t)) * (fun _ => 1%R) (snd t))%R)) by (intros t; lra). unfold l_common.
    assert (Sb : StronglySorted lt (before c (row_of lrows r))).
    { pose proof (st_sorted _ _ _ _ Hst r) as Hs. rewrite (before_nth c _ k Hs Hk). clear - Hs. revert k. induction Hs as [|x l Hl IH Hx]; intros [|k]; cbn [firstn]; try constructor; [apply IH|].
      rewrite Forall_forall in *. intros q Hq. apply Hx. rewrite <- (firstn_skipn k l). apply in_or_app. left. exact Hq. }
    rewrite (common_sum l l (fun _ => 1%R) c).
    - apply rsum_ext. intros j Hj. rewrite before_L by exact Hj. destruct (Nat.eqb_spec r c) as [<-|]; [rewrite before_L by exact Hj; lra | unfold L; lra].
    - exact Sb.
    - destruct (r =? c); [exact Sb | apply (st_sorted _ _ _ _ Hst)].
    - apply Forall_forall. intros q Hq. unfold before in Hq. rewrite filter_In in Hq. destruct Hq as (_ & Hq). apply Nat.ltb_lt in Hq. exact Hq. }
  rewrite E1, E2. unfold M, normal_matrix. destruct (Nat.eqb_spec r c) as [->|Hn].
  - cbn [andb]. destruct (c <? wsize); f_equal; f_equal; lra.
  - cbn [andb]. rewrite (st_diag _ _ _ _ Hst) by lia. rewrite L_diag by lia. f_equal. lra.
Qed.

Lemma value_local r p l1 l2 : r < n -> row_offset lrows r <= p < row_offset lrows (S r) -> (forall q, q < p -> l1 q = l2 q) -> entry_value r l1 p = entry_value r l2 p.
Proof.
  intros Hr Hp H. rewrite row_offset_S in Hp. set (k := p - row_offset lrows r). assert (Ek : exists c, nth_error (row_of lrows r) k = Some c).
  { destruct (nth_error (row_of lrows r) k) as [c|] eqn:E; [exists c; reflexivity|]. apply nth_error_None in E. unfold k in E. lia. }
  destruct Ek as (c & Hk). replace p with (row_offset lrows r + k) in * by (unfold k; lia). rewrite !(value_at r k c) by assumption. cbv zeta.
  assert (Hc : c <= r) by (apply (st_le _ _ _ _ Hst); eapply nth_error_In, Hk). pose proof (st_sorted _ _ _ _ Hst r) as Hs.
  assert (HL : forall j, j < c -> L l1 r j = L l2 r j).
  { intros j Hj. rewrite <- !(before_L _ r c j Hj). apply at_col_ext. intros q Hq. apply H. rewrite (before_nth c _ k Hs Hk), firstn_length in Hq. lia. }
  assert (HLc : forall j, c < r -> L l1 c j = L l2 c j).
  { intros j Hj. apply at_col_ext. intros q Hq. apply H. pose proof (row_offset_mono lrows (S c) r ltac:(lia)) as Hm. rewrite row_offset_S in Hm. lia. }
  assert (Hsum : rsum c (fun j => L l1 r j * L l1 c j)%R = rsum c (fun j => L l2 r j * L l2 c j)%R).
  { apply rsum_ext. intros j Hj. destruct (Nat.eq_dec c r) as [->|]; [rewrite HL by exact Hj; reflexivity|]. rewrite HL, HLc by lia. reflexivity. }
  rewrite Hsum. destruct (Nat.eqb_spec r c) as [|Hn]; [reflexivity|]. rewrite HLc by lia. reflexivity.
Qed.

(** The recurrences of the Cholesky decomposition. *)
Lemma decomposed l0 : let l := chol_decompose a ch wsize x z y w l0 in
  (forall r, r < n -> L l r r = sqrt (Rabs (M r r - rsum r (fun j => L l r j * L l r j)%R))%R) /\
  (forall r c, c < r -> r < n -> L l c c <> 0%R -> (L l r c * L l c c = M r c - rsum c (fun j => L l r j * L l c j))%R).
Proof.
  intros l.
  destruct (fill_rows entry_value (row_offset lrows) n l0) as (_ & H2).
  { intros i _. rewrite row_offset_S. lia. }
  { intros i p l1 l2 Hi Hp Heq. apply value_local; assumption. }
  assert (E : l = fold_left (fun l i => fold_left (fun l p => upd l p (entry_value i l p)) (seq (row_offset lrows i) (row_offset lrows (S i) - row_offset lrows i)) l) (seq 0 n) l0).
  { unfold l, chol_decompose. fold n.
    assert (G : forall rs l0, Forall (fun i => i < n) rs -> fold_left (fun l row => fold_left (chol_value a ch wsize x z y w row) (seq (nth row (ch_lindptr ch) 0) (nth (row + 1) (ch_lindptr ch) 0 - nth row (ch_lindptr ch) 0)) l) rs l0 =
      fold_left (fun l i => fold_left (fun l p => upd l p (entry_value i l p)) (seq (row_offset lrows i) (row_offset lrows (S i) - row_offset lrows i)) l) rs l0).
    { induction rs as [|i rs IH]; intros l1 Hrs; [reflexivity|]. inversion Hrs; subst. cbn [fold_left]. rewrite !(st_indptr _ _ _ _ Hst) by lia. rewrite Nat.add_1_r.
      assert (G2 : forall ps l1, fold_left (chol_value a ch wsize x z y w i) ps l1 = fold_left (fun l p => upd l p (entry_value i l p)) ps l1).
      { induction ps as [|p ps IHp]; intros l2; [reflexivity|]. cbn [fold_left]. rewrite IHp. f_equal. unfold entry_value, chol_value. cbv zeta. rewrite upd_same. reflexivity. }
      rewrite G2. apply IH. assumption. }
    apply G. apply Forall_forall. intros i Hi. apply in_seq in Hi. lia. }
  cbv zeta in H2. rewrite <- E in H2. clearbody l.
  assert (H3 : forall r k c, r < n -> nth_error (row_of lrows r) k = Some c -> L l r c = let v := (M r c - rsum c (fun j => L l r j * L l c j))%R in if r =? c then sqrt (Rabs v) else (v / L l c c)%R).
  { intros r k c Hr Hk. rewrite (L_at l r k c Hk). rewrite (H2 r) by (try exact Hr; assert (k < length (row_of lrows r)) by (apply nth_error_Some; congruence); rewrite row_offset_S; lia). apply value_at; assumption. }
  split.
  - intros r Hr. destruct (last_at r Hr) as (k & Hk & _). pose proof (H3 r k r Hr Hk) as G. cbv zeta in G. rewrite Nat.eqb_refl in G. exact G.
  - intros r c Hc Hr Hd. destruct (in_dec Nat.eq_dec c (row_of lrows r)) as [Hin|Hin].
    + apply In_nth_error in Hin. destruct Hin as (k & Hk). pose proof (H3 r k c Hr Hk) as G. cbv zeta in G. destruct (Nat.eqb_spec r c); [lia|]. rewrite G. field. exact Hd.
    + destruct (st_missing _ _ _ _ Hst r c Hr ltac:(lia) Hin) as (Z1 & Z2). unfold L at 1. rewrite at_col_out by exact Hin. rewrite Rmult_0_l.
      destruct (row_wf r) as (W1 & W2), (row_wf c) as (W3 & _).
      assert (E1 : rsum m (fun j => (dense a r j * (x j / z j) * dense a c j)%R) = 0%R).
      { rewrite (rsum_ext m _ (fun j => (at_col (fun p => nth p (csr_values a) 0%R) (row_offset a r) (row_cols a r) j * at_col (fun p => nth p (csr_values a) 0%R) (row_offset a c) (row_cols a c) j * (fun j => (x j / z j)%R) j)%R)) by (intros j _; rewrite !dense_at; lra).
        rewrite <- (common_sum _ _ _ m _ _ _ _ W1 W3 W2). fold (a_common a r c). rewrite Z1. reflexivity. }
      assert (E2 : rsum c (fun j => (L l r j * L l c j)%R) = 0%R).
      { assert (Sb : StronglySorted lt (before c (row_of lrows r))).
        { pose proof (st_sorted _ _ _ _ Hst r) as Hs. clear - Hs. induction Hs as [|x l Hl IH Hx]; cbn [before filter]; [constructor|]. destruct (x <? c); [|exact IH]. constructor; [exact IH|].
          rewrite Forall_forall in *. intros q Hq. rewrite filter_In in Hq. apply Hx, Hq. }
        assert (Fb : Forall (fun k => k < c) (before c (row_of lrows r))) by (apply Forall_forall; intros q Hq; unfold before in Hq; rewrite filter_In in Hq; destruct Hq as (_ & Hq); apply Nat.ltb_lt in Hq; exact Hq).
        pose proof (common_sum l l (fun _ => 1%R) c _ _ (row_offset lrows r) (row_offset lrows c) Sb (st_sorted _ _ _ _ Hst c) Fb) as G.
        unfold l_common in Z2. destruct (Nat.eqb_spec r c); [lia|]. rewrite Z2 in G. cbn [map lsum fold_right] in G. rewrite G. apply rsum_ext. intros j Hj. rewrite before_L by exact Hj. unfold L. lra. }
      rewrite E2. unfold M, normal_matrix. rewrite E1. destruct (Nat.eqb_spec r c); [lia|]. cbn [andb]. lra.
Qed.
End Numeric.
