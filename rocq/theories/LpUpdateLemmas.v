(** Updating the linear programme: what the rows are after an update. *)
From Verif Require Import Base Calendar Network NetworkBuild NetworkSpec NetworkBuildLemmas Lp LpSpec LpColLemmas LpRowLemmas.
From Coq Require Import Sorted.
Open Scope nat_scope.

(** ** Lists *)
Lemma nth_error_ext' {A} (l l' : list A) : (forall i, nth_error l i = nth_error l' i) -> l = l'.
Proof.
  revert l'. induction l as [|a l IH]; intros [|b l'] H; [reflexivity | discriminate (H 0) | discriminate (H 0)|].
  pose proof (H 0) as H0. cbn in H0. injection H0 as ->. f_equal. apply IH. intros i. exact (H (S i)).
Qed.
Lemma nth_error_upd {A} (f : A -> A) (l : list A) n i :
  nth_error (upd n f l) i = if i =? n then option_map f (nth_error l i) else nth_error l i.
Proof.
  revert n i. induction l as [|a l IH]; intros [|n] [|i]; cbn; try reflexivity.
  - destruct (i =? n); reflexivity.
  - apply IH.
Qed.
Lemma upd_length {A} (f : A -> A) (l : list A) n : length (upd n f l) = length l.
Proof. revert n. induction l as [|a l IH]; intros [|n]; cbn; try reflexivity. f_equal. apply IH. Qed.

(** ** Calls per row *)
Definition coefs_at (i : nat) (ops : list op) : list (nat * Q) :=
  flat_map (fun o => match o with OCoef r c v => if r =? i then [(c, v)] else [] | OBound _ _ _ => [] end) ops.
Definition bounds_at (i : nat) (ops : list op) : list (Q * Q) :=
  flat_map (fun o => match o with OBound r lb ub => if r =? i then [(lb, ub)] else [] | OCoef _ _ _ => [] end) ops.
Definition okey (o : op) : nat * option nat :=
  match o with OBound r _ _ => (r, None) | OCoef r c _ => (r, Some c) end.

Lemma bounds_at_In i ops lb ub : In (lb, ub) (bounds_at i ops) <-> In (OBound i lb ub) ops.
Proof.
  unfold bounds_at. rewrite in_flat_map. split.
  - intros ([r lb' ub'|r c v] & Ho & H); [|destruct H]. destruct (r =? i) eqn:E; [|destruct H].
    apply Nat.eqb_eq in E. subst r. destruct H as [H|[]]. injection H as <- <-. exact Ho.
  - intros H. exists (OBound i lb ub). rewrite Nat.eqb_refl. split; [exact H | left; reflexivity].
Qed.
Lemma coefs_at_In i ops c v : In (c, v) (coefs_at i ops) <-> In (OCoef i c v) ops.
Proof.
  unfold coefs_at. rewrite in_flat_map. split.
  - intros ([r lb' ub'|r c' v'] & Ho & H); [destruct H|]. destruct (r =? i) eqn:E; [|destruct H].
    apply Nat.eqb_eq in E. subst r. destruct H as [H|[]]. injection H as <- <-. exact Ho.
  - intros H. exists (OCoef i c v). rewrite Nat.eqb_refl. split; [exact H | left; reflexivity].
Qed.
Lemma coefs_at_keys i ops ops' : map okey ops = map okey ops' -> map fst (coefs_at i ops) = map fst (coefs_at i ops').
Proof.
  revert ops'. induction ops as [|o ops IH]; intros [|o' ops'] H; try discriminate; [reflexivity|].
  cbn [map] in H. injection H as H1 H2. unfold coefs_at. cbn [flat_map].
  change (flat_map _ ops) with (coefs_at i ops). change (flat_map _ ops') with (coefs_at i ops').
  rewrite !map_app, (IH _ H2). f_equal.
  destruct o, o'; cbn in H1; try discriminate; [reflexivity|]. injection H1 as -> ->. destruct (_ =? i); reflexivity.
Qed.

(** ** Bounds *)
Definition fold_bounds (bs : list (Q * Q)) (lo up : Q) : Q * Q :=
  fold_left (fun b x => (fmax (fst b) (fst x), fmin (snd b) (snd x))) bs (lo, up).
Lemma fmax_le a b x : (fmax a b <= x <-> a <= x /\ b <= x)%Q.
Proof.
  unfold fmax. destruct (Qle_bool a b) eqn:E; [apply Qle_bool_iff in E; split; [intros H; split; lra | tauto]|].
  assert (b < a)%Q by (apply Qnot_le_lt; intros H; apply Qle_bool_iff in H; congruence). split; [intros H0; split; lra | tauto].
Qed.
Lemma fmin_ge a b x : (x <= fmin a b <-> x <= a /\ x <= b)%Q.
Proof.
  unfold fmin. destruct (Qle_bool a b) eqn:E; [apply Qle_bool_iff in E; split; [intros H; split; lra | tauto]|].
  assert (b < a)%Q by (apply Qnot_le_lt; intros H; apply Qle_bool_iff in H; congruence). split; [intros H0; split; lra | tauto].
Qed.
Lemma fold_bounds_spec bs : forall lo up v,
  (fst (fold_bounds bs lo up) <= v <= snd (fold_bounds bs lo up)
   <-> (lo <= v <= up) /\ forall lb ub, In (lb, ub) bs -> lb <= v <= ub)%Q.
Proof.
  unfold fold_bounds. induction bs as [|[lb0 ub0] bs IH]; intros lo up v; cbn [fold_left fst snd].
  - split; [intros H; split; [exact H | intros ? ? []] | tauto].
  - rewrite IH, fmax_le, fmin_ge. split.
    + intros (((H1 & H2) & H3 & H4) & H). split; [tauto|]. intros lb ub [He|Hin]; [injection He as <- <-; tauto | apply H; exact Hin].
    + intros (H1 & H). pose proof (H lb0 ub0 (or_introl eq_refl)) as H2. split; [tauto|].
      intros lb ub Hin. apply H. right. exact Hin.
Qed.

Lemma apply_bounds_nth ops : forall rows i,
  nth_error (fold_left apply_bound ops rows) i =
  option_map (fun r => let b := fold_bounds (bounds_at i ops) (l_lower r) (l_upper r) in
                       mkLr (fst b) (snd b) (l_mask r) (l_cols r)) (nth_error rows i).
Proof.
  induction ops as [|o ops IH]; intros rows i; cbn [fold_left].
  - destruct (nth_error rows i) as [[lo up m c]|]; reflexivity.
  - rewrite IH. destruct o as [r lb ub|r c v]; cbn [apply_bound].
    + unfold apply_row_bounds. rewrite nth_error_upd. unfold bounds_at. cbn [flat_map]. change (flat_map _ ops) with (bounds_at i ops).
      rewrite (Nat.eqb_sym r i). destruct (i =? r); [|reflexivity]. destruct (nth_error rows i) as [[lo up m c]|]; reflexivity.
    + reflexivity.
Qed.
Lemma apply_bounds_length ops : forall rows, length (fold_left apply_bound ops rows) = length rows.
Proof.
  induction ops as [|[r lb ub|r c v] ops IH]; intros rows; cbn [fold_left apply_bound]; [reflexivity | | apply IH].
  rewrite IH. apply upd_length.
Qed.

(** ** Coefficients *)
Definition last_val (cvs : list (nat * Q)) (k : nat) (w : Q) : Q :=
  fold_left (fun acc cv => if fst cv =? k then snd cv else acc) cvs w.
Definition setcs (cvs : list (nat * Q)) (cols : list (nat * Q)) : list (nat * Q) :=
  map (fun kw => (fst kw, last_val cvs (fst kw) (snd kw))) cols.
Lemma setcs_nil cols : setcs [] cols = cols.
Proof. unfold setcs. cbn. rewrite <- (map_id cols) at 2. apply map_ext. intros [k w]. reflexivity. Qed.
Lemma setcs_keys cvs cols : map fst (setcs cvs cols) = map fst cols.
Proof. unfold setcs. rewrite map_map. reflexivity. Qed.
Lemma setcs_cons c v cvs cols : setcs ((c, v) :: cvs) cols = setcs cvs (setcs [(c, v)] cols).
Proof. unfold setcs. rewrite map_map. apply map_ext. intros [k w]. reflexivity. Qed.
Lemma last_val_In cvs k w w' : In k (map fst cvs) -> last_val cvs k w = last_val cvs k w'.
Proof.
  revert w w'. induction cvs as [|[c v] cvs IH]; intros w w' H; [destruct H|]. unfold last_val. cbn [fold_left fst snd].
  destruct (c =? k) eqn:E; [reflexivity|]. apply IH. destruct H as [H|H]; [cbn in H; apply Nat.eqb_neq in E; contradiction | exact H].
Qed.
Lemma last_val_notin cvs k w : ~ In k (map fst cvs) -> last_val cvs k w = w.
Proof.
  revert w. induction cvs as [|[c v] cvs IH]; intros w H; [reflexivity|]. unfold last_val. cbn [fold_left fst snd].
  destruct (c =? k) eqn:E; [apply Nat.eqb_eq in E; exfalso; apply H; left; exact E|]. apply IH. intros Hin. apply H. right. exact Hin.
Qed.
Lemma setcs_twice cvs cvs' cols : map fst cvs = map fst cvs' -> setcs cvs' (setcs cvs cols) = setcs cvs' cols.
Proof.
  intros H. unfold setcs. rewrite map_map. apply map_ext. intros [k w]. cbn [fst snd]. f_equal.
  destruct (in_dec Nat.eq_dec k (map fst cvs)) as [Hin|Hni].
  - apply last_val_In. rewrite <- H. exact Hin.
  - rewrite (last_val_notin cvs) by exact Hni. reflexivity.
Qed.
Lemma set_coef_spec c v cols : NoDup (map fst cols) ->
  set_coef c v cols = if existsb (Nat.eqb c) (map fst cols) then Some (setcs [(c, v)] cols) else None.
Proof.
  induction cols as [|[c' v'] cols IH]; intros H; cbn [set_coef map fst existsb]; [reflexivity|].
  inversion H as [|? ? Hni Hnd]; subst. rewrite (Nat.eqb_sym c' c). destruct (c =? c') eqn:E; cbn [orb].
  - apply Nat.eqb_eq in E. subst c'. unfold setcs. cbn [map fst snd]. unfold last_val at 1. cbn [fold_left fst snd]. rewrite Nat.eqb_refl.
    f_equal. f_equal. rewrite <- (map_id cols) at 1. apply map_ext_in. intros [k w] Hk. cbn.
    destruct (c =? k) eqn:E; [|reflexivity]. apply Nat.eqb_eq in E. subst k. exfalso. apply Hni. apply (in_map fst) in Hk. exact Hk.
  - rewrite (IH Hnd). destruct (existsb (Nat.eqb c) (map fst cols)); [|reflexivity].
    f_equal. unfold setcs at 2. cbn [map fst snd]. unfold last_val at 1. cbn [fold_left fst snd]. rewrite E. reflexivity.
Qed.

Definition with_cols (r : lrow) (cols : list (nat * Q)) : lrow := mkLr (l_lower r) (l_upper r) (l_mask r) cols.
Definition coef_ok (shape : list (list nat)) (o : op) : bool :=
  match o with
  | OBound _ _ _ => true
  | OCoef i c _ => match nth_error shape i with Some ks => existsb (Nat.eqb c) ks | None => false end
  end.
Definition shape_of (rows : list lrow) : list (list nat) := map (fun r => map fst (l_cols r)) rows.
Definition nodup_keys (rows : list lrow) : Prop := Forall (fun r => NoDup (map fst (l_cols r))) rows.

Lemma shape_upd i rows r cols : nth_error rows i = Some r -> map fst cols = map fst (l_cols r) ->
  shape_of (upd i (fun r => mkLr (l_lower r) (l_upper r) (l_mask r) cols) rows) = shape_of rows.
Proof.
  intros H Hc. apply nth_error_ext'. intros k. unfold shape_of. rewrite !nth_error_map, nth_error_upd.
  destruct (k =? i) eqn:E; [|reflexivity]. apply Nat.eqb_eq in E. subst k. rewrite H. cbn. f_equal. exact Hc.
Qed.
Lemma nodup_keys_shape rows rows' : shape_of rows = shape_of rows' -> nodup_keys rows -> nodup_keys rows'.
Proof.
  unfold nodup_keys. rewrite <- !(Forall_map (fun r => map fst (l_cols r)) (fun l => NoDup l)).
  unfold shape_of. intros ->. auto.
Qed.

Lemma apply_coefs_spec ops : forall rows, nodup_keys rows ->
  (forallb (coef_ok (shape_of rows)) ops = true -> exists rows', apply_coefs ops rows = Ok rows' /\
     forall i, nth_error rows' i = option_map (fun r => with_cols r (setcs (coefs_at i ops) (l_cols r))) (nth_error rows i)) /\
  (forallb (coef_ok (shape_of rows)) ops = false -> apply_coefs ops rows = Panic).
Proof.
  induction ops as [|o ops IH]; intros rows Hnd; cbn [forallb apply_coefs].
  - split; [intros _|discriminate]. exists rows. split; [reflexivity|]. intros i.
    destruct (nth_error rows i) as [[lo up m c]|]; [|reflexivity]. cbn [option_map coefs_at flat_map l_cols]. rewrite setcs_nil. reflexivity.
  - destruct o as [r lb ub|r c v]; cbn [apply_coef coef_ok].
    + cbn [andb rbind]. apply IH. exact Hnd.
    + unfold shape_of at 1 3. rewrite nth_error_map. destruct (nth_error rows r) as [rw|] eqn:Er; cbn [option_map].
      2:{ cbn [andb rbind]. split; [discriminate | reflexivity]. }
      pose proof Hnd as Hnd0. unfold nodup_keys in Hnd0. rewrite Forall_forall in Hnd0.
      specialize (Hnd0 rw (nth_error_In _ _ Er)). rewrite (set_coef_spec c v _ Hnd0).
      destruct (existsb (Nat.eqb c) (map fst (l_cols rw))) eqn:Ex; cbn [andb rbind].
      2:{ split; [discriminate | reflexivity]. }
      set (rows1 := upd r _ rows).
      assert (Hsh : shape_of rows1 = shape_of rows) by (apply (shape_upd r rows rw); [exact Er | apply setcs_keys]).
      destruct (IH rows1 (nodup_keys_shape _ _ (eq_sym Hsh) Hnd)) as [H1 H2]. rewrite Hsh in H1, H2.
      split; [|exact H2]. intros Hok. destruct (H1 Hok) as (rows' & Ha & Hn). exists rows'. split; [exact Ha|].
      intros i. rewrite Hn. unfold rows1. rewrite nth_error_upd. unfold coefs_at. cbn [flat_map].
      change (flat_map _ ops) with (coefs_at i ops). rewrite (Nat.eqb_sym r i).
      destruct (i =? r) eqn:E; [|reflexivity]. apply Nat.eqb_eq in E. subst i. rewrite Er. cbn [option_map with_cols l_lower l_upper l_mask l_cols app].
      rewrite (setcs_cons c v (coefs_at r ops)). reflexivity.
Qed.

(** ** The calls do not depend on the state *)
Lemma map_fst_combine {A B} (l : list A) (l' : list B) : length l = length l' -> map fst (combine l l') = l.
Proof. revert l'. induction l as [|a l IH]; intros [|b l'] H; cbn in *; try lia; [reflexivity|]. f_equal. apply IH. lia. Qed.

Definition pair_groups (p : factor_pair) : list nat * list nat := (fp_n0 p, fp_n1 p).
Lemma pairs_shape e e' a ps ps' :
  norm_factor_pairs e a = Some (Ok ps) -> norm_factor_pairs e' a = Some (Ok ps') -> map pair_groups ps = map pair_groups ps'.
Proof.
  unfold norm_factor_pairs. destruct (a_rel a) as [[[fs|fs|fs rhs]|]|]; try discriminate; intros H H'; injection H as H; injection H' as H'.
  - unfold proportion_pairs in H, H'. destruct (a_nodes a) as [|n0 rest]; [discriminate|].
    destruct (length fs =? length rest) eqn:El; [|discriminate]. cbn [negb] in H, H'. apply Nat.eqb_eq in El.
    destruct (existsb _ (map (metric_value e) fs)); [discriminate|]. destruct (existsb _ (map (metric_value e') fs)); [discriminate|].
    destruct (Qle_bool 1 _); [discriminate|]. destruct (Qle_bool 1 _) in H'; [discriminate|].
    injection H as <-. injection H' as <-. rewrite !map_map. unfold pair_groups. cbn [fp_n0 fp_n1].
    rewrite <- !(map_map fst (fun n => (n0, n))), !map_fst_combine by (rewrite map_length; lia). reflexivity.
  - unfold ratio_pairs in H, H'. destruct (length fs =? length (a_nodes a)) eqn:El; [|discriminate]. cbn [negb] in H, H'.
    apply Nat.eqb_eq in El. destruct (a_nodes a) as [|n0 rest], fs as [|m0 mrest]; try discriminate.
    destruct (negb _); [discriminate|]. destruct (negb _) in H'; [discriminate|].
    injection H as <-. injection H' as <-. rewrite !map_map. reflexivity.
  - unfold coefficient_pairs in H, H'. destruct (length fs =? length (a_nodes a)) eqn:El; [|discriminate]. cbn [negb] in H, H'.
    destruct (a_nodes a) as [|n0 [|n1 [|? ?]]], fs as [|m0 [|m1 [|? ?]]]; try discriminate.
    injection H as <-. injection H' as <-. reflexivity.
Qed.

Section Keys.
Variable net : network.

Lemma node_row_ops_keys s s' nr : map okey (node_row_ops net s nr) = map okey (node_row_ops net s' nr).
Proof.
  unfold node_row_ops. destruct (nth_error (net_nodes net) (nr_node nr)) as [n|]; [|reflexivity].
  unfold get_bounds. destruct (n_type n), (nr_type nr); reflexivity.
Qed.
Lemma coef_ops_keys r n f f' : map okey (coef_ops (col_for_edge net) r n f) = map okey (coef_ops (col_for_edge net) r n f').
Proof. unfold coef_ops. destruct (n_type n); rewrite ?map_app, !map_map; reflexivity. Qed.
Lemma flat_map_keys {A} (f g : A -> list op) l : (forall a, map okey (f a) = map okey (g a)) ->
  map okey (flat_map f l) = map okey (flat_map g l).
Proof. intros H. induction l as [|a l IH]; cbn [flat_map]; [reflexivity|]. rewrite !map_app, H, IH. reflexivity. Qed.
Lemma factor_pair_ops_keys p p' ri ops ops' : pair_groups p = pair_groups p' ->
  factor_pair_ops net p ri = Ok ops -> factor_pair_ops net p' ri = Ok ops' -> map okey ops = map okey ops'.
Proof.
  intros Hp. unfold factor_pair_ops. destruct ri as [r|]; [|intros H H'; injection H as <-; injection H' as <-; reflexivity].
  unfold pair_groups in Hp. injection Hp as -> ->. destruct (get_nodes net (fp_n0 p')) as [ns0| |]; try discriminate.
  destruct (get_nodes net (fp_n1 p')) as [ns1| |]; try discriminate.
  destruct (fp_f0 p), (fp_f1 p), (fp_f0 p'), (fp_f1 p'); try discriminate. intros H H'. injection H as <-. injection H' as <-.
  rewrite !map_app. f_equal; [|f_equal].
  - apply flat_map_keys. intros n. apply coef_ops_keys.
  - apply flat_map_keys. intros n. apply coef_ops_keys.
Qed.
Lemma factor_agg_ops_keys s s' fi ops ops' : factor_agg_ops net s fi = Ok ops -> factor_agg_ops net s' fi = Ok ops' ->
  map okey ops = map okey ops'.
Proof.
  unfold factor_agg_ops. destruct (nth_error (net_aggs net) (fst fi)) as [a|]; [|intros H H'; injection H as <-; injection H' as <-; reflexivity].
  destruct (norm_factor_pairs (st_env s) a) as [[ps| |]|] eqn:E1; try discriminate.
  destruct (norm_factor_pairs (st_env s') a) as [[ps'| |]|] eqn:E2; try discriminate.
  destruct (length (snd fi) =? length ps); [|discriminate]. destruct (length (snd fi) =? length ps'); [|discriminate].
  intros H H'. pose proof (pairs_shape _ _ _ _ _ E1 E2) as Hs. clear E1 E2.
  unfold ures in H, H'. apply rbind_Ok in H. destruct H as (l & Hl & H). apply rbind_Ok in H'. destruct H' as (l' & Hl' & H').
  injection H as <-. injection H' as <-. revert ps' l l' Hs Hl Hl'. generalize (snd fi).
  intros is. revert is. induction ps as [|p ps IH]; intros is ps' l l' Hs Hl Hl'; destruct ps' as [|p' ps']; try discriminate.
  - cbn in Hl, Hl'. injection Hl as <-. injection Hl' as <-. reflexivity.
  - cbn [map] in Hs. assert (Hs1 : pair_groups p = pair_groups p') by congruence. assert (Hs2 : map pair_groups ps = map pair_groups ps') by congruence.
    destruct is as [|i is]; cbn [combine] in Hl, Hl'; [injection Hl as <-; injection Hl' as <-; reflexivity|].
    cbn [rmap fst snd] in Hl, Hl'. apply rbind_Ok in Hl. destruct Hl as (o & Ho & Hl). apply rbind_Ok in Hl. destruct Hl as (r & Hr & Hl). injection Hl as <-.
    apply rbind_Ok in Hl'. destruct Hl' as (o' & Ho' & Hl'). apply rbind_Ok in Hl'. destruct Hl' as (r' & Hr' & Hl'). injection Hl' as <-.
    cbn [concat]. rewrite !map_app. rewrite (factor_pair_ops_keys _ _ _ _ _ Hs1 Ho Ho'). f_equal.
    apply (IH is ps' r r' Hs2 Hr Hr').
Qed.
Lemma update_ops_keys b s s' ops ops' : update_ops net b s = Ok ops -> update_ops net b s' = Ok ops' -> map okey ops = map okey ops'.
Proof.
  unfold update_ops, ures. intros H H'. apply rbind_Ok in H. destruct H as (f & Hf & H). apply rbind_Ok in H'. destruct H' as (f' & Hf' & H').
  injection H as <-. injection H' as <-. rewrite !map_app. f_equal; [apply flat_map_keys; intros; apply node_row_ops_keys|]. f_equal; [|f_equal].
  - apply rmap_Ok_Forall2 in Hf. apply rmap_Ok_Forall2 in Hf'. revert f' Hf'.
    induction Hf as [|fi o fis os Ho Hf IH]; intros f' Hf'; inversion Hf' as [|? o' ? os' Ho' Hf'']; subst; [reflexivity|].
    cbn [concat]. rewrite !map_app, (factor_agg_ops_keys _ _ _ _ _ Ho Ho'), (IH _ Hf''). reflexivity.
  - rewrite !map_map. reflexivity.
  - rewrite !map_map. apply map_ext. intros [r [i v]]. unfold vs_ops.
    destruct (vs_is_active _ _), (vs_is_active _ _); try destruct (vs_available_missing _ _ _); try destruct (vs_available_missing _ _ _); reflexivity.
Qed.

(** ** History *)
Definition stable (b0 b : built) : Prop :=
  bt_nodes b = bt_nodes b0 /\ bt_aggs b = bt_aggs b0 /\ bt_factors b = bt_factors b0 /\ bt_vss b = bt_vss b0 /\
  lp_fmax (bt_lp b) = lp_fmax (bt_lp b0) /\ lp_cols (bt_lp b) = lp_cols (bt_lp b0) /\
  length (lp_obj (bt_lp b)) = length (lp_obj (bt_lp b0)) /\
  shape_of (lp_rows (bt_lp b)) = shape_of (lp_rows (bt_lp b0)) /\
  forall i r0, nth_error (lp_rows (bt_lp b0)) i = Some r0 -> exists r, nth_error (lp_rows (bt_lp b)) i = Some r /\
    l_mask r = l_mask r0 /\ (l_mask r0 = false -> l_lower r = l_lower r0 /\ l_upper r = l_upper r0) /\
    forall s ops, update_ops net b0 s = Ok ops -> setcs (coefs_at i ops) (l_cols r) = setcs (coefs_at i ops) (l_cols r0).

(** The rows of an update are all variable rows, and rows list a column once. *)
Definition ready (b0 : built) : Prop :=
  nodup_keys (lp_rows (bt_lp b0)) /\
  forall s ops i r0, update_ops net b0 s = Ok ops -> nth_error (lp_rows (bt_lp b0)) i = Some r0 -> l_mask r0 = false ->
    bounds_at i ops = [] /\ coefs_at i ops = [].

Lemma stable_refl b0 : stable b0 b0.
Proof. unfold stable. repeat (split; [reflexivity|]). intros i r0 H. exists r0. split; [exact H|]. auto. Qed.

Lemma update_ops_stable b0 b s : stable b0 b -> update_ops net b s = update_ops net b0 s.
Proof.
  intros (H1 & H2 & H3 & H4 & H5 & _). unfold update_ops. rewrite H1, H2, H3, H4, H5. reflexivity.
Qed.

Lemma shape_reset_bounds fm ops rows : shape_of (fold_left apply_bound ops (map (reset_row fm) rows)) = shape_of rows.
Proof.
  apply nth_error_ext'. intros i. unfold shape_of. rewrite !nth_error_map, apply_bounds_nth, nth_error_map.
  destruct (nth_error rows i) as [r|]; [|reflexivity]. cbn. unfold reset_row. destruct (l_mask r); reflexivity.
Qed.

Lemma update_stable b0 b s : ready b0 -> stable b0 b -> update net b s = update net b0 s.
Proof.
  intros [Hnd _] Hst. pose proof (update_ops_stable b0 b s Hst) as Hops.
  destruct Hst as (H1 & H2 & H3 & H4 & H5 & H6 & H7 & H8 & H9). unfold update. rewrite Hops.
  destruct (update_ops net b0 s) as [ops| |] eqn:Eo; [|reflexivity | reflexivity]. cbn [rbind].
  rewrite H5, H6, H1, H2, H3, H4.
  set (R := fold_left apply_bound ops (map (reset_row (lp_fmax (bt_lp b0))) (lp_rows (bt_lp b)))).
  set (R0 := fold_left apply_bound ops (map (reset_row (lp_fmax (bt_lp b0))) (lp_rows (bt_lp b0)))).
  assert (HsR : shape_of R = shape_of R0) by (unfold R, R0; rewrite !shape_reset_bounds; exact H8).
  assert (HnR0 : nodup_keys R0).
  { apply (nodup_keys_shape (lp_rows (bt_lp b0))); [unfold R0; rewrite shape_reset_bounds; reflexivity | exact Hnd]. }
  assert (HnR : nodup_keys R) by (apply (nodup_keys_shape R0); [symmetry; exact HsR | exact HnR0]).
  assert (Hobj : update_edge_objectives net (st_env s) (lp_obj (bt_lp b)) = update_edge_objectives net (st_env s) (lp_obj (bt_lp b0))).
  { unfold update_edge_objectives. f_equal. apply nth_error_ext'. intros i. rewrite !nth_error_map.
    destruct (nth_error (lp_obj (bt_lp b)) i) eqn:E1, (nth_error (lp_obj (bt_lp b0)) i) eqn:E2; cbn; try reflexivity; exfalso.
    - apply nth_error_Some_lt in E1. apply nth_error_None in E2. lia.
    - apply nth_error_Some_lt in E2. apply nth_error_None in E1. lia. }
  rewrite Hobj. destruct (apply_coefs_spec ops R HnR) as [A1 A2]. destruct (apply_coefs_spec ops R0 HnR0) as [B1 B2].
  rewrite HsR in A1, A2. destruct (forallb (coef_ok (shape_of R0)) ops) eqn:Ef.
  2:{ rewrite A2, B2 by reflexivity. reflexivity. }
  destruct (A1 eq_refl) as (ra & Ea & Na). destruct (B1 eq_refl) as (rb & Eb & Nb). rewrite Ea, Eb. cbn [rbind].
  assert (ra = rb) as ->; [|reflexivity]. apply nth_error_ext'. intros i. rewrite Na, Nb. unfold R, R0.
  rewrite !apply_bounds_nth, !nth_error_map. destruct (nth_error (lp_rows (bt_lp b0)) i) as [r0|] eqn:E0.
  - destruct (H9 i r0 E0) as (r & Er & Hm & Hb & Hc). rewrite Er. cbn [option_map]. unfold with_cols. cbn [l_lower l_upper l_mask l_cols].
    specialize (Hc s ops Eo). f_equal. unfold reset_row. rewrite Hm. destruct (l_mask r0) eqn:Em.
    + cbn [l_lower l_upper l_mask l_cols]. rewrite Hc. reflexivity.
    + destruct (Hb eq_refl) as [-> ->]. rewrite Hm, Em, Hc. reflexivity.
  - destruct (nth_error (lp_rows (bt_lp b)) i) as [r|] eqn:Er; [|reflexivity]. exfalso.
    apply nth_error_Some_lt in Er. apply nth_error_None in E0.
    pose proof (f_equal (@length _) H8) as Hl. unfold shape_of in Hl. rewrite !map_length in Hl. lia.
Qed.

Lemma objectives_length s obj : length (update_edge_objectives net s obj) = length obj.
Proof.
  unfold update_edge_objectives. generalize (combine (seq 0 (length (net_edges net))) (net_edges net)). intros l.
  rewrite <- (map_length (fun _ => 0%Q) obj). generalize (map (fun _ => 0%Q) obj).
  induction l as [|ie l IH]; intros o; cbn [fold_left]; [reflexivity|]. rewrite IH. apply upd_length.
Qed.

(** The rows after one update, in full. *)
Lemma update_rows b0 s b : ready b0 -> update net b0 s = Ok b ->
  exists ops, update_ops net b0 s = Ok ops /\
  bt_nodes b = bt_nodes b0 /\ bt_aggs b = bt_aggs b0 /\ bt_factors b = bt_factors b0 /\ bt_vss b = bt_vss b0 /\
  lp_fmax (bt_lp b) = lp_fmax (bt_lp b0) /\ lp_cols (bt_lp b) = lp_cols (bt_lp b0) /\
  lp_obj (bt_lp b) = update_edge_objectives net (st_env s) (lp_obj (bt_lp b0)) /\
  forall i, nth_error (lp_rows (bt_lp b)) i =
    option_map (fun r0 => let r := reset_row (lp_fmax (bt_lp b0)) r0 in
                let bd := fold_bounds (bounds_at i ops) (l_lower r) (l_upper r) in
                mkLr (fst bd) (snd bd) (l_mask r) (setcs (coefs_at i ops) (l_cols r))) (nth_error (lp_rows (bt_lp b0)) i).
Proof.
  intros [Hnd _] H. unfold update, ures in H. apply rbind_Ok in H. destruct H as (ops & Ho & H). exists ops. split; [exact Ho|].
  apply rbind_Ok in H. destruct H as (rows & Hr & H). injection H as <-. cbn [bt_nodes bt_aggs bt_factors bt_vss bt_lp lp_fmax lp_cols lp_obj lp_rows].
  repeat (split; [reflexivity|]). intros i.
  set (R0 := fold_left apply_bound ops (map (reset_row (lp_fmax (bt_lp b0))) (lp_rows (bt_lp b0)))) in *.
  assert (HnR0 : nodup_keys R0).
  { apply (nodup_keys_shape (lp_rows (bt_lp b0))); [unfold R0; rewrite shape_reset_bounds; reflexivity | exact Hnd]. }
  destruct (apply_coefs_spec ops R0 HnR0) as [B1 B2]. destruct (forallb _ ops); [|rewrite B2 in Hr by reflexivity; discriminate].
  destruct (B1 eq_refl) as (rb & Eb & Nb). rewrite Eb in Hr. injection Hr as <-. rewrite Nb. unfold R0.
  rewrite apply_bounds_nth, nth_error_map. destruct (nth_error (lp_rows (bt_lp b0)) i) as [r0|]; reflexivity.
Qed.

Lemma stable_update b0 s b : ready b0 -> update net b0 s = Ok b -> stable b0 b.
Proof.
  intros Hrd H. destruct (update_rows b0 s b Hrd H) as (ops & Ho & H1 & H2 & H3 & H4 & H5 & H6 & H7 & H8).
  unfold stable. repeat (split; [assumption|]). split; [rewrite H7; apply objectives_length|]. split.
  - apply nth_error_ext'. intros i. unfold shape_of. rewrite !nth_error_map, H8.
    destruct (nth_error (lp_rows (bt_lp b0)) i) as [r0|]; [|reflexivity]. cbn. f_equal. rewrite setcs_keys.
    unfold reset_row. destruct (l_mask r0); reflexivity.
  - intros i r0 Hi. rewrite H8, Hi. cbn [option_map]. eexists. split; [reflexivity|]. cbn [l_mask l_lower l_upper l_cols].
    assert (Hm : l_mask (reset_row (lp_fmax (bt_lp b0)) r0) = l_mask r0) by (unfold reset_row; destruct (l_mask r0) eqn:E; [reflexivity | exact E]).
    split; [exact Hm|]. split.
    + intros Hf. destruct Hrd as [_ Hrd]. destruct (Hrd s ops i r0 Ho Hi Hf) as [-> _]. unfold reset_row. rewrite Hf. split; reflexivity.
    + intros s' ops' Ho'. assert (Hc : l_cols (reset_row (lp_fmax (bt_lp b0)) r0) = l_cols r0) by (unfold reset_row; destruct (l_mask r0); reflexivity).
      rewrite Hc. apply setcs_twice, coefs_at_keys, (update_ops_keys b0 s s' ops ops' Ho Ho').
Qed.
Lemma stable_trans_update b0 b s b' : ready b0 -> stable b0 b -> update net b s = Ok b' -> stable b0 b'.
Proof. intros Hrd Hst H. rewrite (update_stable b0 b s Hrd Hst) in H. apply (stable_update b0 s b' Hrd H). Qed.
Lemma updates_stable ss : forall b0 b b', ready b0 -> stable b0 b -> updates net b ss = Ok b' -> stable b0 b'.
Proof.
  induction ss as [|s ss IH]; intros b0 b b' Hrd Hst H; cbn [updates] in H; [injection H as <-; exact Hst|].
  unfold ures in H. apply rbind_Ok in H. destruct H as (b1 & H1 & H2). apply (IH b0 b1 b' Hrd); [|exact H2].
  apply (stable_trans_update b0 b s b1 Hrd Hst H1).
Qed.
Lemma update_after_history b0 ss b s : ready b0 -> updates net b0 ss = Ok b -> update net b s = update net b0 s.
Proof. intros Hrd H. apply update_stable; [exact Hrd | apply (updates_stable ss b0 b0 b Hrd (stable_refl b0) H)]. Qed.
Lemma updates_last ss s b0 b : ready b0 -> updates net b0 (ss ++ [s]) = Ok b -> update net b0 s = Ok b.
Proof.
  intros Hrd H. assert (Hsplit : forall b1, updates net b1 (ss ++ [s]) = Ok b -> exists b2, updates net b1 ss = Ok b2 /\ update net b2 s = Ok b).
  { clear H Hrd. induction ss as [|s' ss IH]; intros b1 H; cbn [app updates] in H; unfold ures in H.
    - apply rbind_Ok in H. destruct H as (b2 & H1 & H2). cbn in H2. injection H2 as <-. exists b1. split; [reflexivity | exact H1].
    - apply rbind_Ok in H. destruct H as (b2 & H1 & H2). destruct (IH b2 H2) as (b3 & H3 & H4). exists b3.
      cbn [updates]. rewrite H1. split; [exact H3 | exact H4]. }
  destruct (Hsplit b0 H) as (b1 & H1 & H2). rewrite <- (update_after_history b0 ss b1 s Hrd H1). exact H2.
Qed.
End Keys.

(** ** Programmes made by [create] are ready *)
Section Ready.
Variable net : network.
Variable fm : Q.
Variable order : list (list nat).
Variable b0 : built.
Variables V F : list row.
Hypothesis Hcr : created net fm order b0 V F.

Lemma row_at_lt i r : row_at V i r -> i < length V.
Proof. intros (r' & H & _). apply (nth_error_Some_lt _ _ _ H). Qed.

Lemma expected_sorted n t : sorted_cols (r_cols (expected_node_row net n t)).
Proof.
  destruct t; cbn [expected_node_row r_cols]; unfold bin_upper_cols, bin_lower_cols;
    [apply add_node_sorted, nil_sorted | apply add_element_sorted, add_node_sorted, nil_sorted | apply add_element_sorted, add_node_sorted, nil_sorted].
Qed.
Lemma V_sorted r : In r V -> sorted_cols (r_cols r).
Proof.
  intros H. destruct (cr_V _ _ _ _ _ _ Hcr r H) as [(nr & n & _ & _ & ->)|[(a & _ & ns & _ & ->)|[(a & ps & p & _ & _ & _ & _ & f0 & f1 & ns0 & ns1 & _ & _ & _ & _ & ->)|(v & _ & cols & Hc & ->)]]];
    cbn [r_cols].
  - apply expected_sorted.
  - apply add_nodes_sorted, nil_sorted.
  - apply add_nodes_sorted, add_nodes_sorted, nil_sorted.
  - apply (vs_row_cols_sorted _ _ _ _ _ Hc), nil_sorted.
Qed.
Lemma F_sorted r : In r F -> sorted_cols (r_cols r).
Proof.
  intros H. apply (cr_fixed _ _ _ _ _ _ Hcr) in H.
  destruct H as [(n & _ & _ & _ & ->)|[(k & n & _ & mn & mx & _ & H)|[(a & ps & p & _ & _ & _ & _ & f0 & f1 & ns0 & ns1 & _ & _ & _ & _ & ->)|(a & _ & mn & mx & cols & _ & Hc & ->)]]]; cbn [r_cols].
  - cbn. apply add_edges_sorted, add_edges_sorted, nil_sorted.
  - destruct (node_bin_cols _ order k).
    + subst r. apply add_node_sorted, nil_sorted.
    + destruct H as (c & _ & [->|[_ ->]]); apply add_element_sorted, add_node_sorted, nil_sorted.
  - apply add_nodes_sorted, add_nodes_sorted, nil_sorted.
  - apply (exclusivity_cols_sorted _ _ _ _ _ Hc), nil_sorted.
Qed.

Lemma factor_ops_rows s fi ops o : factor_agg_ops net s fi = Ok ops -> In o ops -> exists i, In (Some i) (snd fi) /\ fst (okey o) = i.
Proof.
  unfold factor_agg_ops. destruct (nth_error (net_aggs net) (fst fi)) as [a|]; [|intros H; injection H as <-; intros []].
  destruct (norm_factor_pairs (st_env s) a) as [[ps| |]|]; try discriminate. destruct (_ =? _); [|discriminate].
  unfold ures. intros H Hin. apply rbind_Ok in H. destruct H as (l & Hl & H). injection H as <-.
  apply in_concat in Hin. destruct Hin as (os & Hos & Hin). apply rmap_Ok_Forall2 in Hl.
  destruct (Forall2_In_r _ _ _ _ Hl Hos) as ([p ri] & Hpi & Hop). apply in_combine_r in Hpi. cbn [fst snd] in Hop.
  unfold factor_pair_ops in Hop. destruct ri as [r|]; [|injection Hop as <-; destruct Hin].
  exists r. split; [exact Hpi|]. destruct (get_nodes net (fp_n0 p)); try discriminate. destruct (get_nodes net (fp_n1 p)); try discriminate.
  destruct (fp_f0 p), (fp_f1 p); try discriminate. injection Hop as <-.
  assert (Hco : forall n f o, In o (coef_ops (col_for_edge net) r n f) -> fst (okey o) = r).
  { intros n f o' Ho. unfold coef_ops in Ho. destruct (n_type n); rewrite ?in_app_iff in Ho;
      repeat match goal with H : _ \/ _ |- _ => destruct H as [H|H] end; apply in_map_iff in Ho; destruct Ho as (e & <- & _); reflexivity. }
  rewrite !in_app_iff in Hin. destruct Hin as [Hin|[Hin|[<-|[]]]]; [| |reflexivity].
  - apply in_flat_map in Hin. destruct Hin as (n & _ & Hin). apply (Hco _ _ _ Hin).
  - apply in_flat_map in Hin. destruct Hin as (n & _ & Hin). apply (Hco _ _ _ Hin).
Qed.

Lemma op_rows s ops o : update_ops net b0 s = Ok ops -> In o ops -> fst (okey o) < length V.
Proof.
  unfold update_ops, ures. intros H Hin. apply rbind_Ok in H. destruct H as (f & Hf & H). injection H as <-.
  rewrite !in_app_iff in Hin. destruct Hin as [Hin|[Hin|[Hin|Hin]]].
  - apply in_flat_map in Hin. destruct Hin as (nr & Hnr & Hin). destruct (cr_nodes _ _ _ _ _ _ Hcr nr Hnr) as (n & Hn & _ & Hat).
    apply row_at_lt in Hat. unfold node_row_ops in Hin. rewrite Hn in Hin.
    destruct (match get_bounds s (nr_node nr) n with BFlow mn mx => (mn, mx) | BVolume av mi => ((- av / st_days s)%Q, (mi / st_days s)%Q) end) as [lb ub].
    destruct (nr_type nr); destruct Hin as [<-|[]]; exact Hat.
  - apply in_concat in Hin. destruct Hin as (os & Hos & Hin). apply rmap_Ok_Forall2 in Hf.
    destruct (Forall2_In_r _ _ _ _ Hf Hos) as (fi & Hfi & Hop). destruct (factor_ops_rows s fi os o Hop Hin) as (i & Hi & ->).
    destruct (cr_factors _ _ _ _ _ _ Hcr fi Hfi) as (a & ps & _ & _ & Hps).
    destruct (Forall2_In_r _ _ _ _ Hps Hi) as (p & _ & Hok). destruct Hok as (_ & r & _ & Hat). apply (row_at_lt _ _ Hat).
  - apply in_map_iff in Hin. destruct Hin as ([r a] & <- & Hin). apply in_combine_l in Hin. cbn.
    destruct (Forall2_In_l _ _ _ _ (cr_aggs _ _ _ _ _ _ Hcr) Hin) as (a' & _ & r' & _ & Hat). apply (row_at_lt _ _ Hat).
  - apply in_map_iff in Hin. destruct Hin as ([r [i v]] & <- & Hin). apply in_combine_l in Hin.
    destruct (Forall2_In_l _ _ _ _ (cr_vss _ _ _ _ _ _ Hcr) Hin) as (a' & _ & r' & _ & Hat). apply row_at_lt in Hat.
    unfold vs_ops. destruct (vs_is_active _ _); [destruct (vs_available_missing _ _ _)|]; exact Hat.
Qed.

Lemma nth_rows i r0 : nth_error (lp_rows (bt_lp b0)) i = Some r0 ->
  (i < length V /\ exists r, nth_error V i = Some r /\ r0 = finish_row fm true r) \/
  (length V <= i /\ exists r, nth_error F (i - length V) = Some r /\ r0 = finish_row fm false r).
Proof.
  rewrite (cr_rows _ _ _ _ _ _ Hcr). intros H. destruct (Nat.lt_ge_cases i (length V)) as [Hlt|Hge].
  - left. split; [exact Hlt|]. rewrite nth_error_app1, nth_error_map in H by (rewrite map_length; exact Hlt).
    destruct (nth_error V i) as [r|]; [|discriminate]. injection H as <-. eauto.
  - right. split; [exact Hge|]. rewrite nth_error_app2, nth_error_map, map_length in H by (rewrite map_length; exact Hge).
    destruct (nth_error F (i - length V)) as [r|]; [|discriminate]. injection H as <-. eauto.
Qed.

Lemma no_ops_beyond s ops i : update_ops net b0 s = Ok ops -> length V <= i -> bounds_at i ops = [] /\ coefs_at i ops = [].
Proof.
  intros Ho Hge. split.
  - destruct (bounds_at i ops) as [|[lb ub] l] eqn:E; [reflexivity|]. exfalso.
    assert (Hin : In (lb, ub) (bounds_at i ops)) by (rewrite E; left; reflexivity). apply bounds_at_In in Hin.
    pose proof (op_rows s ops _ Ho Hin) as Hl. cbn in Hl. lia.
  - destruct (coefs_at i ops) as [|[c v] l] eqn:E; [reflexivity|]. exfalso.
    assert (Hin : In (c, v) (coefs_at i ops)) by (rewrite E; left; reflexivity). apply coefs_at_In in Hin.
    pose proof (op_rows s ops _ Ho Hin) as Hl. cbn in Hl. lia.
Qed.

Lemma created_ready : ready net b0.
Proof.
  split.
  - unfold nodup_keys. apply Forall_forall. intros r0 H. apply In_nth_error in H. destruct H as (i & Hi).
    destruct (nth_rows i r0 Hi) as [(_ & r & Hr & ->)|(_ & r & Hr & ->)]; apply nth_error_In in Hr; cbn [finish_row l_cols]; apply sorted_NoDup.
    + apply V_sorted. exact Hr.
    + apply F_sorted. exact Hr.
  - intros s ops i r0 Ho Hi Hm. destruct (nth_rows i r0 Hi) as [(_ & r & _ & ->)|(Hge & r & Hr & ->)]; [discriminate|].
    apply (no_ops_beyond s ops i Ho Hge).
Qed.

(** Feasibility after an update. *)
Lemma feasible_iff s b x : update net b0 s = Ok b -> exists ops, update_ops net b0 s = Ok ops /\
  (feasible (bt_lp b) x <->
   (forall i c, nth_error (lp_cols (bt_lp b0)) i = Some c ->
      (col_lower c <= x i <= col_upper c)%Q /\ (col_type_of c = ColInteger -> is_integer (x i))) /\
   (forall r, In r F -> (r_lower r <= row_value (r_cols r) x <= match r_upper r with Some u => u | None => fm end)%Q) /\
   (forall i r, nth_error V i = Some r ->
      (- fm <= row_value (setcs (coefs_at i ops) (r_cols r)) x <= fm)%Q /\
      forall lb ub, In (OBound i lb ub) ops -> (lb <= row_value (setcs (coefs_at i ops) (r_cols r)) x <= ub)%Q)).
Proof.
  intros H. destruct (update_rows net b0 s b created_ready H) as (ops & Ho & _ & _ & _ & _ & _ & Hc & _ & Hrow).
  exists ops. split; [exact Ho|]. unfold feasible. rewrite Hc.
  pose proof (cr_rows _ _ _ _ _ _ Hcr) as Hrows. rewrite (cr_fmax _ _ _ _ _ _ Hcr) in Hrow. split.
  - intros [H1 H2]. split; [exact H1|]. split.
    + intros r Hr. apply In_nth_error in Hr. destruct Hr as (k & Hk).
      assert (Hi : nth_error (lp_rows (bt_lp b0)) (length V + k) = Some (finish_row fm false r)).
      { rewrite Hrows, nth_error_app2, map_length, nth_error_map by (rewrite map_length; lia).
        replace (length V + k - length V) with k by lia. rewrite Hk. reflexivity. }
      specialize (Hrow (length V + k)). rewrite Hi in Hrow. cbn [option_map] in Hrow.
      destruct (no_ops_beyond s ops (length V + k) Ho ltac:(lia)) as [Hb Hcf]. rewrite Hb, Hcf in Hrow.
      specialize (H2 _ (nth_error_In _ _ Hrow)). cbn [finish_row reset_row l_mask l_lower l_upper l_cols fold_bounds fold_left fst snd] in H2.
      rewrite setcs_nil in H2. exact H2.
    + intros i r Hr.
      assert (Hi : nth_error (lp_rows (bt_lp b0)) i = Some (finish_row fm true r)).
      { rewrite Hrows, nth_error_app1, nth_error_map by (rewrite map_length; apply (nth_error_Some_lt _ _ _ Hr)). rewrite Hr. reflexivity. }
      specialize (Hrow i). rewrite Hi in Hrow. cbn [option_map] in Hrow.
      specialize (H2 _ (nth_error_In _ _ Hrow)). cbn [l_lower l_upper l_cols finish_row reset_row l_mask] in H2.
      apply fold_bounds_spec in H2. destruct H2 as [H2 H3]. split; [exact H2|].
      intros lb ub Hin. apply H3, bounds_at_In, Hin.
  - intros (H1 & H2 & H3). split; [exact H1|]. intros rw Hrw. apply In_nth_error in Hrw. destruct Hrw as (i & Hi).
    rewrite Hrow in Hi. destruct (nth_error (lp_rows (bt_lp b0)) i) as [r0|] eqn:E0; [|discriminate]. cbn [option_map] in Hi. injection Hi as <-.
    cbn [l_lower l_upper l_cols]. destruct (nth_rows i r0 E0) as [(_ & r & Hr & ->)|(Hge & r & Hr & ->)].
    + cbn [finish_row reset_row l_mask l_lower l_upper l_cols]. apply fold_bounds_spec.
      destruct (H3 i r Hr) as [H4 H5]. split; [exact H4|]. intros lb ub Hin. apply H5, bounds_at_In, Hin.
    + destruct (no_ops_beyond s ops i Ho Hge) as [-> ->]. cbn [finish_row reset_row l_mask l_lower l_upper l_cols fold_bounds fold_left fst snd]. rewrite setcs_nil. apply H2, (nth_error_In _ _ Hr).
Qed.
End Ready.
