(** Lemmas for C71. *)
From Coq Require Import Qabs.
From Verif Require Import NetworkBuildLemmas.
From Verif Require Import Base Calendar Network NetworkBuild NetworkSpec Lp LpSpec LpColLemmas LpRowLemmas LpUpdateLemmas LpLemmas.
From Verif Require Import Backends BackendsSpec.
Open Scope nat_scope.

(** ** Lists *)
Lemma upd_map {A B} (g : A -> B) (f : A -> A) (h : B -> B) n l : (forall x, g (f x) = h (g x)) ->
  map g (upd n f l) = upd n h (map g l).
Proof.
  intros H. revert n. induction l as [|x l IH]; intros [|n]; cbn [upd map]; try reflexivity; [rewrite H | rewrite IH]; reflexivity.
Qed.
Lemma upd_same {A} n (l : list A) : upd n (fun x => x) l = l.
Proof. revert n. induction l as [|x l IH]; intros [|n]; cbn; [reflexivity..|]. rewrite IH. reflexivity. Qed.
Lemma upd_map_inv {A B} (g : A -> B) (f : A -> A) n l : (forall x, g (f x) = g x) -> map g (upd n f l) = map g l.
Proof. intros H. rewrite (upd_map g f (fun x => x) n l H). apply upd_same. Qed.
Lemma combine_maps {A B C} (f : A -> B) (g : A -> C) l : combine (map f l) (map g l) = map (fun a => (f a, g a)) l.
Proof. induction l as [|a l IH]; cbn; [reflexivity|]. rewrite IH. reflexivity. Qed.
Lemma nth_map_in {A} (f : A -> Q) l i a : nth_error l i = Some a -> at_ (map f l) i = f a.
Proof. intros H. unfold at_. apply nth_error_nth. rewrite nth_error_map, H. reflexivity. Qed.
Lemma nth_error_seq n i : nth_error (seq 0 n) i = if i <? n then Some i else None.
Proof.
  destruct (i <? n) eqn:E; [apply Nat.ltb_lt in E; apply nth_seq; exact E|]. apply Nat.ltb_ge in E.
  apply nth_error_None. rewrite seq_length. exact E.
Qed.
Lemma map_seq_nth {A B} (l : list A) (f : nat -> B) (g : A -> B) : (forall i a, nth_error l i = Some a -> f i = g a) ->
  map f (seq 0 (length l)) = map g l.
Proof.
  intros H. apply nth_error_ext'. intros i. rewrite !nth_error_map, nth_error_seq.
  destruct (i <? length l) eqn:E.
  - apply Nat.ltb_lt in E. destruct (nth_error l i) as [a|] eqn:Ea; [|apply nth_error_None in Ea; lia]. cbn. f_equal. apply H. exact Ea.
  - apply Nat.ltb_ge in E. apply nth_error_None in E. rewrite E. reflexivity.
Qed.
Lemma map_iseq_nth {A B C} (l : list A) (l' : list C) (f : nat -> C -> B) (g : A -> B) : length l = length l' ->
  (forall i a c, nth_error l i = Some a -> nth_error l' i = Some c -> f i c = g a) ->
  map (fun ic => f (fst ic) (snd ic)) (combine (seq 0 (length l')) l') = map g l.
Proof.
  intros Hl H. apply nth_error_ext'. intros i. rewrite !nth_error_map.
  destruct (nth_error l' i) as [c|] eqn:Ec.
  - pose proof (nth_error_Some_lt _ _ _ Ec) as Hi. destruct (nth_error l i) as [a|] eqn:Ea; [|apply nth_error_None in Ea; lia].
    rewrite (nth_combine (seq 0 (length l')) l' i i c); [|apply nth_seq; exact Hi | exact Ec]. cbn. f_equal. apply H; assumption.
  - assert (nth_error l i = None) as -> by (apply nth_error_None; apply nth_error_None in Ec; lia).
    assert (nth_error (combine (seq 0 (length l')) l') i = None) as ->; [|reflexivity].
    apply nth_error_None. rewrite combine_length, seq_length. apply nth_error_None in Ec. lia.
Qed.

(** ** The arrays in closed form *)
Fixpoint starts (k : nat) (css : list (list (nat * Q))) : list nat :=
  match css with [] => [k] | c :: r => k :: starts (k + length c) r end.
Definition arr_of (fm : Q) (cols : list column) (obj : list Q) (rows : list lrow) (ups : list (nat * nat * Q)) : arrays :=
  mkArr fm (map col_lower cols) (map col_upper cols) obj (map col_type_of cols)
        (map l_lower rows) (map l_upper rows) (map (fun r => if l_mask r then 1 else 0) rows)
        (starts 0 (map l_cols rows)) (flat_map (map fst) (map l_cols rows)) (flat_map (map snd) (map l_cols rows)) ups.

Lemma starts_last k css : last (starts k css) 0 = k + length (concat css).
Proof.
  revert k. induction css as [|c css IH]; intros k; cbn [starts concat]; [cbn; lia|].
  assert (E : forall l : list nat, l <> [] -> last (k :: l) 0 = last l 0) by (intros [|a l]; [congruence|reflexivity]).
  rewrite E by (destruct css; discriminate). rewrite IH, app_length. lia.
Qed.
Lemma starts_snoc k css c : starts k (css ++ [c]) = starts k css ++ [k + length (concat css) + length c].
Proof.
  revert k. induction css as [|c' css IH]; intros k; cbn [starts app concat]; [cbn; repeat f_equal; lia|].
  rewrite IH, app_length. f_equal. f_equal. f_equal. lia.
Qed.
Lemma push_arr_of fm cols obj rows ups r : push_row (arr_of fm cols obj rows ups) r = arr_of fm cols obj (rows ++ [r]) ups.
Proof.
  unfold push_row, arr_of. cbn [ar_fmax ar_col_lower ar_col_upper ar_obj ar_col_type ar_lower ar_upper ar_mask ar_starts ar_columns ar_elements ar_updates].
  rewrite !map_app, !flat_map_app, starts_last. cbn [map flat_map]. rewrite !app_nil_r, starts_snoc. reflexivity.
Qed.
Lemma build_closed l : build_arrays l = arr_of (lp_fmax l) (lp_cols l) (lp_obj l) (lp_rows l) [].
Proof.
  unfold build_arrays.
  assert (H : forall rows pre, fold_left push_row rows (arr_of (lp_fmax l) (lp_cols l) (lp_obj l) pre []) =
                               arr_of (lp_fmax l) (lp_cols l) (lp_obj l) (pre ++ rows) []).
  { induction rows as [|r rows IH]; intros pre; cbn [fold_left]; [rewrite app_nil_r; reflexivity|].
    rewrite push_arr_of, IH, <- app_assoc. reflexivity. }
  apply (H (lp_rows l) []).
Qed.

Lemma starts_nth css : forall k i c, nth_error css i = Some c ->
  exists st, nth_error (starts k css) i = Some st /\ nth_error (starts k css) (S i) = Some (st + length c) /\
  k <= st /\
  (forall (A : Type) (g : nat * Q -> A), slice (st - k) (st - k + length c) (flat_map (map g) css) = map g c) /\
  st + length c <= k + length (concat css) /\ (S i = length css -> st + length c = k + length (concat css)).
Proof.
  induction css as [|c0 css IH]; intros k i c H; [destruct i; discriminate|]. destruct i as [|i]; cbn [nth_error] in H.
  - injection H as ->. exists k. cbn [starts nth_error concat]. split; [reflexivity|]. split; [destruct css; reflexivity|]. split; [lia|].
    split; [|split].
    + intros A g. unfold slice. rewrite Nat.sub_diag. cbn [skipn flat_map]. replace (0 + length c - 0) with (length (map g c)) by (rewrite map_length; lia).
      rewrite firstn_app, firstn_all, Nat.sub_diag. cbn. apply app_nil_r.
    + rewrite app_length. lia.
    + intros Hl. cbn in Hl. destruct css; [cbn; rewrite app_length; cbn; lia | discriminate].
  - destruct (IH (k + length c0) i c H) as (st & H1 & H2 & H3 & H4 & H5 & H6). exists st. cbn [starts nth_error concat].
    split; [exact H1|]. split; [exact H2|]. split; [lia|]. split; [|split].
    + intros A g. cbn [flat_map]. specialize (H4 A g). unfold slice in *. rewrite skipn_app, map_length.
      replace (st - k - length c0) with (st - (k + length c0)) by lia. rewrite (skipn_all2 (map g c0)) by (rewrite map_length; lia). cbn [app].
      rewrite <- H4. f_equal; try reflexivity. lia.
    + rewrite app_length. lia.
    + intros Hl. cbn [length] in Hl. rewrite app_length. specialize (H6 ltac:(lia)). lia.
Qed.
Lemma combine_fst_snd {A B} (l : list (A * B)) : combine (map fst l) (map snd l) = l.
Proof. induction l as [|[a b] l IH]; cbn; [reflexivity|]. rewrite IH. reflexivity. Qed.
Lemma length_elements css : length (flat_map (map (@snd nat Q)) css) = length (concat css).
Proof. induction css as [|c css IH]; cbn; [reflexivity|]. rewrite !app_length, map_length, IH. reflexivity. Qed.

Lemma entries_of fm cols obj rows ups i r : nth_error rows i = Some r ->
  let a := arr_of fm cols obj rows ups in
  row_entries (nth i (ar_starts a) 0) (nth (S i) (ar_starts a) 0) (ar_columns a) (ar_elements a) = l_cols r /\
  (S i = length rows -> nth (S i) (ar_starts a) 0 = length (ar_elements a)).
Proof.
  intros H a. assert (Hc : nth_error (map l_cols rows) i = Some (l_cols r)) by (rewrite nth_error_map, H; reflexivity).
  destruct (starts_nth _ 0 i _ Hc) as (st & H1 & H2 & _ & H4 & _ & H6). rewrite Nat.sub_0_r in H4.
  unfold a, arr_of. cbn [ar_starts ar_columns ar_elements].
  rewrite (nth_error_nth _ _ _ H1), (nth_error_nth _ _ _ H2). split.
  - unfold row_entries. rewrite (H4 nat fst), (H4 Q snd). apply combine_fst_snd.
  - intros Hl. rewrite length_elements. specialize (H6 ltac:(rewrite map_length; exact Hl)). lia.
Qed.

(** ** Updating the arrays *)
Definition coef_list (ops : list op) : list (nat * nat * Q) :=
  flat_map (fun o => match o with OCoef r c v => [(r, c, v)] | OBound _ _ _ => [] end) ops.

Lemma reset_arr_of fm cols obj rows ups : reset_bounds (arr_of fm cols obj rows ups) = arr_of fm cols obj (map (reset_row fm) rows) ups.
Proof.
  unfold reset_bounds, set_bounds, arr_of. cbn [ar_fmax ar_col_lower ar_col_upper ar_obj ar_col_type ar_lower ar_upper ar_mask ar_starts ar_columns ar_elements ar_updates].
  rewrite !combine_maps, !map_map.
  assert (E : forall r, l_cols (reset_row fm r) = l_cols r) by (intros r; unfold reset_row; destruct (l_mask r); reflexivity).
  f_equal.
  - apply map_ext. intros r. cbn [fst snd]. unfold reset_row. destruct (l_mask r); reflexivity.
  - apply map_ext. intros r. cbn [fst snd]. unfold reset_row. destruct (l_mask r); reflexivity.
  - apply map_ext. intros r. unfold reset_row. destruct (l_mask r) eqn:Em; cbn; [|rewrite Em]; reflexivity.
  - f_equal. apply map_ext. intros r. symmetry. apply E.
  - f_equal. apply map_ext. intros r. symmetry. apply E.
  - f_equal. apply map_ext. intros r. symmetry. apply E.
Qed.
Lemma do_op_arr_of fm cols obj rows ups o : do_op (arr_of fm cols obj rows ups) o =
  arr_of fm cols obj (apply_bound rows o) (ups ++ coef_list [o]).
Proof.
  destruct o as [r lb ub|r c v]; cbn [do_op apply_bound coef_list flat_map].
  - rewrite app_nil_r. unfold set_bounds, arr_of, apply_row_bounds.
    cbn [ar_fmax ar_col_lower ar_col_upper ar_obj ar_col_type ar_lower ar_upper ar_mask ar_starts ar_columns ar_elements ar_updates].
    rewrite (upd_map l_lower _ (fun l => fmax l lb)), (upd_map l_upper _ (fun u => fmin u ub)) by reflexivity.
    rewrite (upd_map_inv (fun r0 => if l_mask r0 then 1 else 0)), !(upd_map_inv l_cols) by reflexivity. reflexivity.
  - reflexivity.
Qed.
Lemma ops_arr_of fm cols obj ops : forall rows ups, fold_left do_op ops (arr_of fm cols obj rows ups) =
  arr_of fm cols obj (fold_left apply_bound ops rows) (ups ++ coef_list ops).
Proof.
  induction ops as [|o ops IH]; intros rows ups; cbn [fold_left]; [rewrite app_nil_r; reflexivity|].
  rewrite do_op_arr_of, IH, <- app_assoc. unfold coef_list. cbn [flat_map]. rewrite app_nil_r. reflexivity.
Qed.
Lemma update_arr_of net ids s fm cols obj rows ups : update_arrays net ids s (arr_of fm cols obj rows ups) =
  rbind (update_ops net ids s) (fun ops =>
    Ok (arr_of fm cols (update_edge_objectives net (st_env s) obj) (fold_left apply_bound ops (map (reset_row fm) rows)) (coef_list ops))).
Proof.
  unfold update_arrays. destruct (update_ops net ids s) as [ops| |]; [|reflexivity | reflexivity]. cbn [rbind]. f_equal.
  change (set_obj (arr_of fm cols obj rows ups) (update_edge_objectives net (st_env s) (ar_obj (arr_of fm cols obj rows ups))))
    with (arr_of fm cols (update_edge_objectives net (st_env s) obj) rows ups).
  rewrite reset_arr_of. change (set_updates (arr_of ?a ?b ?c ?d ups) []) with (arr_of a b c d []). rewrite ops_arr_of. reflexivity.
Qed.

(** ** Coefficients in the arrays (microlp) *)
Lemma set_coef_position c v cols : forall cols', set_coef c v cols = Some cols' ->
  exists p, position (Nat.eqb c) (map fst cols) = Some p /\ map fst cols' = map fst cols /\
            map snd cols' = upd p (fun _ => v) (map snd cols) /\ length cols' = length cols /\ p < length cols.
Proof.
  induction cols as [|[c0 v0] cols IH]; intros cols' H; cbn [set_coef] in H; [discriminate H|]. cbn [map fst snd position].
  rewrite (Nat.eqb_sym c c0). destruct (c0 =? c).
  - injection H as <-. exists 0. repeat split. cbn. lia.
  - destruct (set_coef c v cols) as [w|]; [|discriminate H]. injection H as <-. destruct (IH w eq_refl) as (p & H1 & H2 & H3 & H4 & H5).
    rewrite H1. exists (S p). split; [reflexivity|]. cbn. rewrite H2, H3, H4. repeat split. lia.
Qed.
Lemma flat_upd_fst css : forall i c c', nth_error css i = Some c -> map (@fst nat Q) c' = map fst c ->
  flat_map (map fst) (upd i (fun _ => c') css) = flat_map (map fst) css.
Proof.
  induction css as [|c0 css IH]; intros [|i] c c' H E; cbn [nth_error] in H; try discriminate H; cbn [upd flat_map].
  - injection H as ->. rewrite E. reflexivity.
  - rewrite (IH i c c' H E). reflexivity.
Qed.
Lemma starts_upd css : forall k i (c c' : list (nat * Q)), nth_error css i = Some c -> length c' = length c ->
  starts k (upd i (fun _ => c') css) = starts k css.
Proof.
  induction css as [|c0 css IH]; intros k [|i] c c' H E; cbn [nth_error] in H; try discriminate H; cbn [upd starts].
  - injection H as ->. rewrite E. reflexivity.
  - rewrite (IH _ i c c' H E). reflexivity.
Qed.
Lemma upd_app_r {A} (f : A -> A) l l' n : upd (length l + n) f (l ++ l') = l ++ upd n f l'.
Proof. induction l as [|x l IH]; cbn; [reflexivity|]. rewrite IH. reflexivity. Qed.
Lemma upd_app_l {A} (f : A -> A) l : forall l' n, n < length l -> upd n f (l ++ l') = upd n f l ++ l'.
Proof. induction l as [|x l IH]; intros l' [|n] H; cbn in *; try lia; [reflexivity|]. rewrite IH by lia. reflexivity. Qed.
Lemma flat_upd_snd css : forall k i c c' st p v, nth_error css i = Some c -> nth_error (starts k css) i = Some (k + st) ->
  p < length c -> map (@snd nat Q) c' = upd p (fun _ => v) (map snd c) ->
  flat_map (map snd) (upd i (fun _ => c') css) = upd (st + p) (fun _ => v) (flat_map (map snd) css).
Proof.
  induction css as [|c0 css IH]; intros k [|i] c c' st p v H Hs Hp E; cbn [nth_error] in H; try discriminate H; cbn [starts nth_error] in Hs.
  - injection H as ->. injection Hs as Hs. assert (st = 0) as -> by lia. cbn [upd flat_map plus].
    rewrite E, upd_app_l by (rewrite map_length; exact Hp). reflexivity.
  - cbn [upd flat_map]. destruct (starts_nth css (k + length c0) i c H) as (st' & H1 & _ & H3 & _).
    assert (st' = k + st) as -> by congruence.
    replace (k + st) with (k + length c0 + (st - length c0)) in Hs by lia.
    rewrite (IH (k + length c0) i c c' (st - length c0) p v H Hs Hp E).
    replace (st + p) with (length (map (@snd nat Q) c0) + (st - length c0 + p)) by (rewrite map_length; lia).
    rewrite upd_app_r. reflexivity.
Qed.
Lemma upd_const_map {A B} (g : A -> B) (f : A -> A) i l (b : B) : (forall x, g (f x) = b) -> map g (upd i f l) = upd i (fun _ => b) (map g l).
Proof. intros H. revert i. induction l as [|x l IH]; intros [|i]; cbn; try reflexivity; [rewrite H | rewrite IH]; reflexivity. Qed.
Lemma set_element_arr_of fm cols obj rows ups r c v rows' : apply_coef rows (OCoef r c v) = Ok rows' ->
  set_element (arr_of fm cols obj rows ups) (r, c, v) = Ok (arr_of fm cols obj rows' ups).
Proof.
  cbn [apply_coef]. intros H. destruct (nth_error rows r) as [rw|] eqn:Er; [|discriminate H].
  destruct (set_coef c v (l_cols rw)) as [cs|] eqn:Ec; [|discriminate H]. injection H as <-.
  destruct (set_coef_position _ _ _ _ Ec) as (p & H1 & H2 & H3 & H4 & H5).
  assert (Hc : nth_error (map l_cols rows) r = Some (l_cols rw)) by (rewrite nth_error_map, Er; reflexivity).
  destruct (starts_nth _ 0 r _ Hc) as (st & S1 & S2 & _ & S4 & _). rewrite Nat.sub_0_r in S4.
  unfold set_element, arr_of. cbn [ar_starts ar_columns ar_elements]. rewrite S1, S2, (S4 nat fst), H1.
  unfold set_elements. cbn [ar_fmax ar_col_lower ar_col_upper ar_obj ar_col_type ar_lower ar_upper ar_mask ar_starts ar_columns ar_elements ar_updates].
  rewrite (upd_map_inv l_lower), (upd_map_inv l_upper), (upd_map_inv (fun r0 => if l_mask r0 then 1 else 0)) by reflexivity.
  rewrite !(upd_const_map l_cols _ r rows cs) by reflexivity.
  rewrite (starts_upd _ 0 r _ cs Hc H4), (flat_upd_fst _ r _ cs Hc H2).
  rewrite (flat_upd_snd _ 0 r _ cs st p v Hc S1 H5 H3). reflexivity.
Qed.
Lemma set_elements_arr_of fm cols obj ups ops : forall rows rows', apply_coefs ops rows = Ok rows' ->
  set_element_all (coef_list ops) (arr_of fm cols obj rows ups) = Ok (arr_of fm cols obj rows' ups).
Proof.
  induction ops as [|o ops IH]; intros rows rows' H; cbn [apply_coefs] in H; [injection H as <-; reflexivity|].
  unfold ures in H. apply rbind_Ok in H. destruct H as (r1 & H1 & H2). destruct o as [r lb ub|r c v].
  - cbn [apply_coef] in H1. injection H1 as <-. apply (IH _ _ H2).
  - change (coef_list (OCoef r c v :: ops)) with ((r, c, v) :: coef_list ops). cbn [set_element_all].
    rewrite (set_element_arr_of _ _ _ _ ups _ _ _ _ H1). cbn [rbind]. apply (IH _ _ H2).
Qed.
Lemma apply_arr_of fm cols obj ops rows rows' : apply_coefs ops rows = Ok rows' ->
  apply_updates (arr_of fm cols obj rows (coef_list ops)) = Ok (arr_of fm cols obj rows' []).
Proof.
  intros H. unfold apply_updates. change (ar_updates (arr_of fm cols obj rows (coef_list ops))) with (coef_list ops).
  rewrite (set_elements_arr_of _ _ _ _ _ _ _ H). reflexivity.
Qed.

(** ** The problems handed over at set-up *)
Definition col_of (c : column) (o : Q) : pcol := mkPc (col_lower c) (col_upper c) o (is_int (col_type_of c)).
Definition cols_of (cols : list column) (obj : list Q) : list pcol := map (fun co => col_of (fst co) (snd co)) (combine cols obj).
Definition row_of (r : lrow) : prow := mkPr (l_lower r) (l_upper r) (l_cols r).

Lemma cols_of_length cols obj : length obj = length cols -> length (cols_of cols obj) = length cols.
Proof. intros H. unfold cols_of. rewrite map_length, combine_length. lia. Qed.
Lemma cols_of_nth cols obj i : length obj = length cols ->
  nth_error (cols_of cols obj) i = option_map (fun c => col_of c (at_ obj i)) (nth_error cols i).
Proof.
  intros Hl. unfold cols_of. rewrite nth_error_map. destruct (nth_error cols i) as [c|] eqn:Ec.
  - pose proof (nth_error_Some_lt _ _ _ Ec) as Hi. destruct (nth_error obj i) as [o|] eqn:Eo; [|apply nth_error_None in Eo; lia].
    rewrite (nth_combine cols obj i c o Ec Eo). unfold at_. rewrite (nth_error_nth _ _ _ Eo). reflexivity.
  - assert (nth_error (combine cols obj) i = None) as ->; [|reflexivity]. apply nth_error_None. rewrite combine_length. apply nth_error_None in Ec. lia.
Qed.
Lemma map_cols {B} (cols : list column) (f : nat -> B) (g : nat -> column -> B) : (forall i c, nth_error cols i = Some c -> f i = g i c) ->
  forall i, nth_error (map f (seq 0 (length cols))) i = option_map (g i) (nth_error cols i).
Proof.
  intros H i. rewrite nth_error_map, nth_error_seq. destruct (i <? length cols) eqn:E.
  - apply Nat.ltb_lt in E. destruct (nth_error cols i) as [a|] eqn:Ea; [|apply nth_error_None in Ea; lia]. cbn. f_equal. apply H. exact Ea.
  - apply Nat.ltb_ge in E. apply nth_error_None in E. rewrite E. reflexivity.
Qed.
Lemma at_map (f : column -> Q) cols i c : nth_error cols i = Some c -> at_ (map f cols) i = f c.
Proof. apply nth_map_in. Qed.

Lemma integrality_loop ts : forall k (p : problem),
  fold_left (fun q it => mkPb (upd (fst it) (fun c => mkPc (pc_lower c) (pc_upper c) (pc_obj c) (is_int (snd it))) (pb_cols q)) (pb_rows q))
            (combine (seq k (length ts)) ts) p =
  mkPb (fold_left (fun cs it => upd (fst it) (fun c => mkPc (pc_lower c) (pc_upper c) (pc_obj c) (is_int (snd it))) cs) (combine (seq k (length ts)) ts) (pb_cols p)) (pb_rows p).
Proof.
  induction ts as [|t ts IH]; intros k p; cbn [length seq combine fold_left]; [destruct p; reflexivity|]. rewrite IH. reflexivity.
Qed.
Lemma integrality_nth ts : forall k cs i,
  nth_error (fold_left (fun cs it => upd (fst it) (fun c => mkPc (pc_lower c) (pc_upper c) (pc_obj c) (is_int (snd it))) cs) (combine (seq k (length ts)) ts) cs) i =
  match nth_error ts (i - k) with
  | Some t => if k <=? i then option_map (fun c => mkPc (pc_lower c) (pc_upper c) (pc_obj c) (is_int t)) (nth_error cs i) else nth_error cs i
  | None => nth_error cs i
  end.
Proof.
  induction ts as [|t ts IH]; intros k cs i; cbn [length seq combine fold_left fst snd]; [destruct (i - k); reflexivity|].
  rewrite IH, nth_error_upd. destruct (Nat.eq_dec i k) as [->|Hne].
  - rewrite Nat.eqb_refl, Nat.sub_diag, Nat.leb_refl. cbn [nth_error].
    replace (S k <=? k) with false by (symmetry; apply Nat.leb_gt; lia). destruct (nth_error ts (k - S k)); reflexivity.
  - rewrite (proj2 (Nat.eqb_neq i k) Hne). destruct (k <=? i) eqn:E.
    + apply Nat.leb_le in E. replace (i - k) with (S (i - S k)) by lia. cbn [nth_error].
      replace (S k <=? i) with true by (symmetry; apply Nat.leb_le; lia). reflexivity.
    + apply Nat.leb_gt in E. replace (S k <=? i) with false by (symmetry; apply Nat.leb_gt; lia).
      destruct (nth_error ts (i - S k)), (nth_error (t :: ts) (i - k)); reflexivity.
Qed.

Lemma highs_setup_of fm cols obj rows ups : length obj = length cols ->
  highs_setup (arr_of fm cols obj rows ups) = mkPb (cols_of cols obj) (map row_of rows).
Proof.
  intros Hl. unfold highs_setup, highs_add_rows, highs_add_cols.
  set (a := arr_of fm cols obj rows ups). cbn [pb_cols pb_rows app].
  rewrite integrality_loop. cbn [pb_cols pb_rows app]. f_equal.
  - apply nth_error_ext'. intros i. rewrite integrality_nth, Nat.sub_0_r, cols_of_nth by exact Hl.
    unfold a, arr_of. cbn [ar_col_lower ar_col_upper ar_obj ar_col_type]. rewrite map_length.
    rewrite (map_cols cols _ (fun i c => mkPc (col_lower c) (col_upper c) (at_ obj i) false)).
    2:{ intros j c Hc. rewrite !(at_map _ cols j c Hc). reflexivity. }
    rewrite nth_error_map. destruct (nth_error cols i) as [c|]; reflexivity.
  - change (ar_upper a) with (map l_upper rows). change (ar_lower a) with (map l_lower rows).
    rewrite map_length. apply map_seq_nth. intros i r Hr. rewrite !(nth_map_in _ rows i r Hr).
    destruct (entries_of fm cols obj rows ups i r Hr) as [E1 E2]. unfold row_of. f_equal. rewrite <- E1. f_equal.
    destruct (S i =? length rows) eqn:El; [|reflexivity]. apply Nat.eqb_eq in El. symmetry. apply E2. exact El.
Qed.

Lemma change_costs_of cs0 rows cols obj : length obj = length cols -> length cs0 = length cols ->
  (forall i c p, nth_error cols i = Some c -> nth_error cs0 i = Some p ->
     pc_lower p = col_lower c /\ pc_upper p = col_upper c /\ pc_int p = is_int (col_type_of c)) ->
  change_costs (mkPb cs0 rows) obj = mkPb (cols_of cols obj) rows.
Proof.
  intros Hl Hc H. unfold change_costs. cbn [pb_cols pb_rows]. f_equal. apply nth_error_ext'. intros i.
  rewrite cols_of_nth by exact Hl. rewrite nth_error_map. destruct (nth_error cols i) as [c|] eqn:Ec.
  - pose proof (nth_error_Some_lt _ _ _ Ec) as Hi. destruct (nth_error cs0 i) as [p|] eqn:Ep; [|apply nth_error_None in Ep; lia].
    rewrite (nth_combine (seq 0 (length cs0)) cs0 i i p); [|apply nth_seq; lia | exact Ep]. cbn [option_map fst snd].
    destruct (H i c p Ec Ep) as (E1 & E2 & E3). unfold col_of. rewrite E1, E2, E3. reflexivity.
  - assert (nth_error (combine (seq 0 (length cs0)) cs0) i = None) as ->; [|reflexivity].
    apply nth_error_None. rewrite combine_length, seq_length. apply nth_error_None in Ec. lia.
Qed.
Lemma change_costs_again cols obj obj' rows : length obj = length cols -> length obj' = length cols ->
  change_costs (mkPb (cols_of cols obj) rows) obj' = mkPb (cols_of cols obj') rows.
Proof.
  intros Hl Hl'. apply change_costs_of; [exact Hl' | apply cols_of_length; exact Hl|].
  intros i c p Hc Hp. rewrite cols_of_nth, Hc in Hp by exact Hl. injection Hp as <-. repeat split.
Qed.

Lemma clp_rows_of fm cols obj rows ups cs : clp_add_rows (arr_of fm cols obj rows ups) (mkPb cs []) = mkPb cs (map row_of rows).
Proof.
  unfold clp_add_rows. cbn [pb_cols pb_rows app]. f_equal. set (a := arr_of fm cols obj rows ups).
  change (ar_upper a) with (map l_upper rows). change (ar_lower a) with (map l_lower rows).
  rewrite map_length. apply map_seq_nth. intros i r Hr. rewrite !(nth_map_in _ rows i r Hr).
  destruct (entries_of fm cols obj rows ups i r Hr) as [E1 _]. unfold row_of. f_equal. exact E1.
Qed.
Definition continuous (cols : list column) : Prop := forall c, In c cols -> col_type_of c = ColContinuous.
Lemma clp_setup_of fm cols obj rows ups : length obj = length cols -> continuous cols ->
  clp_setup (arr_of fm cols obj rows ups) = mkPb (cols_of cols obj) (map row_of rows).
Proof.
  intros Hl Hc. unfold clp_setup. set (a := arr_of fm cols obj rows ups).
  change (ar_col_upper a) with (map col_upper cols). change (ar_col_lower a) with (map col_lower cols). change (ar_obj a) with obj.
  rewrite (change_costs_of _ [] cols obj Hl).
  - apply clp_rows_of.
  - rewrite map_length, seq_length, map_length. reflexivity.
  - intros i c p Ec Ep. rewrite map_length in Ep.
    rewrite (map_cols cols _ (fun i c => mkPc (col_lower c) (col_upper c) 0 false)) in Ep.
    2:{ intros j d Hd. rewrite !(at_map _ cols j d Hd). reflexivity. }
    rewrite Ec in Ep. injection Ep as <-. cbn. rewrite (Hc c (nth_error_In _ _ Ec)). repeat split.
Qed.
Lemma cbc_rows_loop a n : forall k p, fold_left (cbc_add_row a) (seq k n) p =
  mkPb (pb_cols p) (pb_rows p ++ map (fun i => mkPr (at_ (ar_lower a) i) (at_ (ar_upper a) i)
     (row_entries (nth i (ar_starts a) 0) (nth (S i) (ar_starts a) 0) (ar_columns a) (ar_elements a))) (seq k n)).
Proof.
  induction n as [|n IH]; intros k p; cbn [seq fold_left map]; [destruct p; cbn; rewrite app_nil_r; reflexivity|].
  rewrite IH. unfold cbc_add_row. cbn [pb_cols pb_rows pr_lower pr_upper pr_cols]. rewrite <- app_assoc. reflexivity.
Qed.
Lemma cbc_setup_of fm cols obj rows ups : length obj = length cols ->
  cbc_setup (arr_of fm cols obj rows ups) = mkPb (cols_of cols obj) (map row_of rows).
Proof.
  intros Hl. unfold cbc_setup. rewrite cbc_rows_loop. cbn [pb_cols pb_rows app]. set (a := arr_of fm cols obj rows ups). f_equal.
  - apply nth_error_ext'. intros i. rewrite cols_of_nth by exact Hl.
    change (ar_col_upper a) with (map col_upper cols). change (ar_col_lower a) with (map col_lower cols). change (ar_obj a) with obj.
    change (ar_col_type a) with (map col_type_of cols). rewrite map_length.
    rewrite (map_cols cols _ (fun i c => col_of c (at_ obj i))); [reflexivity|].
    intros j c Hc. rewrite !(at_map _ cols j c Hc). unfold col_of. f_equal. f_equal.
    apply nth_error_nth. rewrite nth_error_map, Hc. reflexivity.
  - change (ar_upper a) with (map l_upper rows). change (ar_lower a) with (map l_lower rows).
    rewrite map_length. apply map_seq_nth. intros i r Hr. rewrite !(nth_map_in _ rows i r Hr).
    destruct (entries_of fm cols obj rows ups i r Hr) as [E1 _]. unfold row_of. f_equal. exact E1.
Qed.

(** ** The changes of a time-step *)

(** The library's row against the network's: the same bounds, and coefficients
    set by the same changes, each passed through [f]. *)
Definition through (f : Q -> Q) (cvs : list (nat * Q)) : list (nat * Q) := map (fun cv => (fst cv, f (snd cv))) cvs.
Definition row_rel (f : Q -> Q) (p : prow) (r : lrow) : Prop :=
  pr_lower p = l_lower r /\ pr_upper p = l_upper r /\ NoDup (map fst (l_cols r)) /\
  exists cols0 cvs, pr_cols p = setcs (through f cvs) cols0 /\ l_cols r = setcs cvs cols0.

Lemma setcs_app cvs cvs' cols : setcs (cvs ++ cvs') cols = setcs cvs' (setcs cvs cols).
Proof.
  unfold setcs. rewrite map_map. apply map_ext. intros [k w]. cbn [fst snd]. unfold last_val. rewrite fold_left_app. reflexivity.
Qed.
Lemma put_coef_set c v cols : In c (map fst cols) -> NoDup (map fst cols) -> put_coef c v cols = setcs [(c, v)] cols.
Proof.
  intros Hin Hnd. pose proof (set_coef_spec c v cols Hnd) as H.
  assert (E : existsb (Nat.eqb c) (map fst cols) = true) by (apply existsb_exists; exists c; split; [exact Hin | apply Nat.eqb_refl]).
  rewrite E in H. assert (G : forall l l', set_coef c v l = Some l' -> put_coef c v l = l').
  { induction l as [|[c' v'] l IH]; intros l' Hs; cbn [set_coef put_coef] in *; [discriminate Hs|].
    destruct (c' =? c); [injection Hs as <-; reflexivity|]. destruct (set_coef c v l) as [w|]; [|discriminate Hs].
    injection Hs as <-. rewrite (IH w eq_refl). reflexivity. }
  apply G. exact H.
Qed.

Lemma coef_step f prows rows r c v rows' : Forall2 (row_rel f) prows rows -> apply_coef rows (OCoef r c v) = Ok rows' ->
  Forall2 (row_rel f) (upd r (fun w => mkPr (pr_lower w) (pr_upper w) (put_coef c (f v) (pr_cols w))) prows) rows'.
Proof.
  cbn [apply_coef]. intros H Hc. destruct (nth_error rows r) as [rw|] eqn:Er; [|discriminate Hc].
  destruct (set_coef c v (l_cols rw)) as [cs|] eqn:Es; [|discriminate Hc]. injection Hc as <-.
  revert r Er. induction H as [|p r0 ps rs Hp H IH]; intros [|r] Er; cbn [nth_error] in Er; try discriminate Er; cbn [upd].
  - injection Er as ->. constructor; [|exact H]. destruct Hp as (E1 & E2 & Hnd & cols0 & cvs & E3 & E4).
    rewrite (set_coef_spec c v _ Hnd) in Es. destruct (existsb (Nat.eqb c) (map fst (l_cols rw))) eqn:Ex; [|discriminate Es]. injection Es as <-.
    apply existsb_exists in Ex. destruct Ex as (c' & Hin & Hcc). apply Nat.eqb_eq in Hcc. subst c'.
    assert (Hk : map fst (pr_cols p) = map fst (l_cols rw)) by (rewrite E3, E4, !setcs_keys; reflexivity).
    unfold row_rel. cbn [pr_lower pr_upper pr_cols l_lower l_upper l_cols]. split; [exact E1|]. split; [exact E2|].
    split; [rewrite setcs_keys; exact Hnd|]. exists cols0, (cvs ++ [(c, v)]). split.
    + rewrite put_coef_set by (rewrite Hk; assumption). unfold through. rewrite map_app, setcs_app, E3. reflexivity.
    + rewrite setcs_app, E4. reflexivity.
  - constructor; [exact Hp | apply IH; exact Er].
Qed.
Lemma coefs_step f cols ops : forall prows rows rows', Forall2 (row_rel f) prows rows -> apply_coefs ops rows = Ok rows' ->
  exists prows', fold_left (fun q u => change_coefficient q (fst (fst u)) (snd (fst u)) (f (snd u))) (coef_list ops) (mkPb cols prows) =
                 mkPb cols prows' /\ Forall2 (row_rel f) prows' rows'.
Proof.
  induction ops as [|o ops IH]; intros prows rows rows' H Hc; cbn [apply_coefs] in Hc; [injection Hc as <-; exists prows; split; [reflexivity | exact H]|].
  unfold ures in Hc. apply rbind_Ok in Hc. destruct Hc as (r1 & H1 & H2). destruct o as [r lb ub|r c v].
  - cbn [apply_coef] in H1. injection H1 as <-. apply (IH _ _ _ H H2).
  - change (coef_list (OCoef r c v :: ops)) with ((r, c, v) :: coef_list ops). cbn [fold_left fst snd].
    apply (IH _ _ _ (coef_step f _ _ _ _ _ _ H H1) H2).
Qed.

(** Bounds. *)
Definition bnd (r : lrow) : Q * Q * bool := (l_lower r, l_upper r, l_mask r).
Lemma bnd_reset fm rows rows' : map bnd rows = map bnd rows' -> map bnd (map (reset_row fm) rows) = map bnd (map (reset_row fm) rows').
Proof.
  intros H. assert (E : forall l : list lrow, map bnd (map (reset_row fm) l) = map (fun b : Q * Q * bool => if snd b then ((- fm)%Q, fm, true) else b) (map bnd l)).
  { intros l. rewrite !map_map. apply map_ext. intros r. unfold bnd, reset_row. cbn [snd]. destruct (l_mask r) eqn:Em; [reflexivity|]. rewrite Em. reflexivity. }
  rewrite !E, H. reflexivity.
Qed.
Lemma bnd_ops ops : forall rows rows', map bnd rows = map bnd rows' ->
  map bnd (fold_left apply_bound ops rows) = map bnd (fold_left apply_bound ops rows').
Proof.
  induction ops as [|o ops IH]; intros rows rows' H; cbn [fold_left]; [exact H|]. apply IH. destruct o as [r lb ub|r c v]; [|exact H].
  cbn [apply_bound]. unfold apply_row_bounds.
  rewrite !(upd_map bnd _ (fun b => (fmax (fst (fst b)) lb, fmin (snd (fst b)) ub, snd b))) by reflexivity. rewrite H. reflexivity.
Qed.
Lemma bnd_coefs ops : forall rows rows', apply_coefs ops rows = Ok rows' -> map bnd rows' = map bnd rows.
Proof.
  induction ops as [|o ops IH]; intros rows rows' H; cbn [apply_coefs] in H; [injection H as <-; reflexivity|].
  unfold ures in H. apply rbind_Ok in H. destruct H as (r1 & H1 & H2). rewrite (IH _ _ H2). destruct o as [r lb ub|r c v].
  - injection H1 as <-. reflexivity.
  - cbn [apply_coef] in H1. destruct (nth_error rows r); [|discriminate H1]. destruct (set_coef c v (l_cols l)); [|discriminate H1].
    injection H1 as <-. apply upd_map_inv. reflexivity.
Qed.
Lemma cols_bounds ops fm rows : map l_cols (fold_left apply_bound ops (map (reset_row fm) rows)) = map l_cols rows.
Proof.
  assert (E : forall l : list lrow, map l_cols (fold_left apply_bound ops l) = map l_cols l).
  { induction ops as [|o ops' IH]; intros l; cbn [fold_left]; [reflexivity|]. rewrite IH. destruct o; [|reflexivity].
    apply upd_map_inv. reflexivity. }
  rewrite E, map_map. apply map_ext. intros r. unfold reset_row. destruct (l_mask r); reflexivity.
Qed.
Lemma bnd_nth (rows rows' : list lrow) i r : map bnd rows = map bnd rows' -> nth_error rows i = Some r ->
  exists r', nth_error rows' i = Some r' /\ l_lower r' = l_lower r /\ l_upper r' = l_upper r /\ l_mask r' = l_mask r.
Proof.
  intros H Hr. pose proof (f_equal (fun l => nth_error l i) H) as E. cbn in E. rewrite !nth_error_map, Hr in E. cbn in E.
  destruct (nth_error rows' i) as [r'|]; [|discriminate E]. exists r'. unfold bnd in E. injection E as E1 E2 E3.
  split; [reflexivity|]. auto.
Qed.

(** The rows of the library after the bounds have been changed.  [arows] are the
    rows behind the arrays, [rows1] the network's rows after the same change;
    [keep] says which rows the solver leaves alone. *)
Lemma bounds_step f (prows : list prow) rows rows1 arows cols (h : nat -> prow -> prow) :
  Forall2 (row_rel f) prows rows -> map l_cols rows1 = map l_cols rows -> map bnd arows = map bnd rows1 ->
  (forall i p a r r1, nth_error prows i = Some p -> nth_error arows i = Some a -> nth_error rows i = Some r -> nth_error rows1 i = Some r1 ->
     pr_lower p = l_lower r -> pr_upper p = l_upper r ->
     h i p = mkPr (l_lower a) (l_upper a) (pr_cols p)) ->
  exists prows', change_rows (mkPb cols prows) h = mkPb cols prows' /\ Forall2 (row_rel f) prows' rows1.
Proof.
  intros H Hcols Hb Hh. unfold change_rows. cbn [pb_cols pb_rows]. eexists. split; [reflexivity|].
  pose proof (Forall2_length' _ _ _ H) as L1. pose proof (f_equal (@length _) Hcols) as L2. pose proof (f_equal (@length _) Hb) as L3.
  rewrite !map_length in L2, L3.
  assert (G : forall i, match nth_error (map (fun ir => h (fst ir) (snd ir)) (combine (seq 0 (length prows)) prows)) i, nth_error rows1 i with
                        | Some p, Some r => row_rel f p r | None, None => True | _, _ => False end).
  { intros i. rewrite nth_error_map. destruct (nth_error prows i) as [p|] eqn:Ep.
    - pose proof (nth_error_Some_lt _ _ _ Ep) as Hi. rewrite (nth_combine (seq 0 (length prows)) prows i i p); [|apply nth_seq; exact Hi | exact Ep].
      destruct (nth_error rows i) as [r|] eqn:Er; [|apply nth_error_None in Er; lia].
      destruct (nth_error rows1 i) as [r1|] eqn:E1; [|apply nth_error_None in E1; lia].
      destruct (nth_error arows i) as [a|] eqn:Ea; [|apply nth_error_None in Ea; lia].
      cbn [option_map fst snd]. pose proof (Forall2_nth_error _ _ _ _ _ _ H Ep Er) as (P1 & P2 & Pn & cols0 & cvs & P3 & P4).
      rewrite (Hh i p a r r1 Ep Ea Er E1 P1 P2).
      destruct (bnd_nth _ _ i a Hb Ea) as (r1' & E1' & B1 & B2 & _). rewrite E1 in E1'. injection E1' as <-.
      assert (Hc : l_cols r1 = l_cols r).
      { pose proof (f_equal (fun l => nth_error l i) Hcols) as E. cbn in E. rewrite !nth_error_map, Er, E1 in E. injection E as E. exact E. }
      unfold row_rel. cbn [pr_lower pr_upper pr_cols]. rewrite Hc. split; [auto|]. split; [auto|]. split; [exact Pn|].
      exists cols0, cvs. split; assumption.
    - assert (nth_error (combine (seq 0 (length prows)) prows) i = None) as ->.
      { apply nth_error_None. rewrite combine_length, seq_length. apply nth_error_None in Ep. lia. }
      assert (nth_error rows1 i = None) as ->; [|exact I]. apply nth_error_None. apply nth_error_None in Ep. lia. }
  clear - G. set (l := map _ _) in *. clearbody l. revert rows1 G. induction l as [|p l IH]; intros [|r rows1] G.
  - constructor.
  - exact (False_rect _ (G 0)).
  - exact (False_rect _ (G 0)).
  - constructor; [exact (G 0)|]. apply IH. intros i. exact (G (S i)).
Qed.
