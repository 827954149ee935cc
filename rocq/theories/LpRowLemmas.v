(** Rows of the linear programme: values of rows, and which rows [create] makes. *)
From Verif Require Import Base Calendar Network NetworkBuild NetworkSpec NetworkBuildLemmas Lp LpSpec LpColLemmas.
From Coq Require Import Sorted.
Open Scope nat_scope.

(** ** Values *)
Lemma qsum_app l1 l2 : (qsum (l1 ++ l2) == qsum l1 + qsum l2)%Q.
Proof. unfold qsum. induction l1 as [|a l IH]; cbn; [lra|]. rewrite IH. lra. Qed.
Lemma qsum_cons a l : (qsum (a :: l) == a + qsum l)%Q.
Proof. reflexivity. Qed.
Lemma qsum_ext {A} (f g : A -> Q) l : (forall a, In a l -> f a == g a)%Q -> (qsum (map f l) == qsum (map g l))%Q.
Proof.
  induction l as [|a l IH]; intros H; cbn [map]; [reflexivity|]. rewrite !qsum_cons, H by (left; reflexivity).
  rewrite IH; [reflexivity|]. intros b Hb. apply H. right. exact Hb.
Qed.
Lemma qsum_scale {A} k (f : A -> Q) l : (qsum (map (fun a => k * f a) l) == k * qsum (map f l))%Q.
Proof. induction l as [|a l IH]; cbn [map]; [cbn; lra|]. rewrite !qsum_cons, IH. lra. Qed.

Lemma row_value_cons c v cols x : (row_value ((c, v) :: cols) x == v * x c + row_value cols x)%Q.
Proof. reflexivity. Qed.
Lemma row_value_add_element c v cols x : (row_value (add_element c v cols) x == row_value cols x + v * x c)%Q.
Proof.
  induction cols as [|[c' v'] cols IH]; cbn [add_element].
  - unfold row_value. cbn. lra.
  - destruct (c =? c') eqn:E; [apply Nat.eqb_eq in E; subst c'; rewrite !row_value_cons; lra|].
    destruct (c <? c'); rewrite !row_value_cons; [lra|]. rewrite IH. lra.
Qed.
Lemma row_value_add_edges col es v cols x :
  (row_value (add_edges col es v cols) x == row_value cols x + v * qsum (map (fun e => x (col e)) es))%Q.
Proof.
  unfold add_edges. revert cols. induction es as [|e es IH]; intros cols; cbn [fold_left map].
  - cbn. lra.
  - rewrite IH, row_value_add_element, qsum_cons. lra.
Qed.
Lemma row_value_add_node net (wf : wf_network net) n i factor cols x :
  nth_error (net_nodes net) i = Some n ->
  (row_value (add_node (col_for_edge net) n factor cols) x
   == row_value cols x + factor * node_flow net (edge_flow net x) i)%Q.
Proof.
  intros Hn. unfold node_flow, add_node, inflow, outflow. rewrite Hn.
  destruct (wf_nodes net wf i n Hn) as (<- & <- & _).
  destruct (n_type n); rewrite ?row_value_add_edges; unfold edge_flow; lra.
Qed.

Lemma row_value_add_nodes net (wf : wf_network net) is ns factor x :
  get_nodes net is = Ok ns -> forall cols,
  (row_value (add_nodes (col_for_edge net) ns factor cols) x
   == row_value cols x + factor * group_flow net (edge_flow net x) is)%Q.
Proof.
  intros H. apply rmap_Ok_Forall2 in H. unfold add_nodes, group_flow.
  induction H as [|i n is ns Hi H IH]; intros cols; cbn [fold_left map].
  - cbn. lra.
  - destruct (nth_error (net_nodes net) i) as [n'|] eqn:E; [|discriminate]. injection Hi as ->.
    rewrite IH, (row_value_add_node net wf n i) by exact E. rewrite qsum_cons. lra.
Qed.
Lemma row_value_vs net (wf : wf_network net) x terms : forall cols cols',
  vs_row_cols net (col_for_edge net) terms cols = Ok cols' ->
  (row_value cols' x == row_value cols x - qsum (map (fun t => snd t * node_flow net (edge_flow net x) (fst t)) terms))%Q.
Proof.
  induction terms as [|[i f] terms IH]; intros cols cols' H; cbn [vs_row_cols] in H.
  - injection H as <-. cbn. lra.
  - destruct (nth_error (net_nodes net) i) as [n|] eqn:E; [|discriminate].
    rewrite (IH _ _ H), (row_value_add_node net wf n i) by exact E. cbn [map]. rewrite qsum_cons. cbn [fst snd]. lra.
Qed.

Lemma cols_eqb_value a b x : cols_eqb a b = true -> (row_value a x == row_value b x)%Q.
Proof.
  revert b. induction a as [|[c v] a IH]; intros [|[d w] b] H; cbn in H; try discriminate; [reflexivity|].
  apply andb_prop in H. destruct H as [H1 H2]. apply andb_prop in H1. destruct H1 as [H1 H3].
  apply Nat.eqb_eq in H1. apply Qeq_bool_iff in H3. subst d. rewrite !row_value_cons, H3, (IH b H2). reflexivity.
Qed.
Lemma cols_eqb_keys a b : cols_eqb a b = true -> map fst a = map fst b.
Proof.
  revert b. induction a as [|[c v] a IH]; intros [|[d w] b] H; cbn in H; try discriminate; [reflexivity|].
  apply andb_prop in H. destruct H as [H1 H2]. apply andb_prop in H1. destruct H1 as [H1 _].
  apply Nat.eqb_eq in H1. subst d. cbn. f_equal. apply IH. exact H2.
Qed.
Lemma cols_eqb_refl a : cols_eqb a a = true.
Proof.
  induction a as [|[c v] a IH]; cbn; [reflexivity|]. rewrite Nat.eqb_refl, IH, andb_true_r.
  apply Qeq_bool_iff. reflexivity.
Qed.
Lemma row_eqb_refl r : row_eqb r r = true.
Proof.
  unfold row_eqb. rewrite cols_eqb_refl, (proj2 (Qeq_bool_iff _ _)) by reflexivity.
  destruct (r_upper r) as [u|]; cbn; [rewrite (proj2 (Qeq_bool_iff u u)) by reflexivity|]; reflexivity.
Qed.
Lemma row_eqb_value a b x : row_eqb a b = true -> (row_value (r_cols a) x == row_value (r_cols b) x)%Q.
Proof. intros H. unfold row_eqb in H. apply andb_prop in H. destruct H as [_ H]. apply cols_eqb_value. exact H. Qed.
Lemma row_eqb_keys a b : row_eqb a b = true -> map fst (r_cols a) = map fst (r_cols b).
Proof. intros H. unfold row_eqb in H. apply andb_prop in H. destruct H as [_ H]. apply cols_eqb_keys. exact H. Qed.
Lemma row_eqb_upper a b : row_eqb a b = true -> is_some (r_upper a) = is_some (r_upper b).
Proof.
  intros H. unfold row_eqb in H. apply andb_prop in H. destruct H as [H _]. apply andb_prop in H. destruct H as [_ H].
  destruct (r_upper a), (r_upper b); cbn in *; congruence.
Qed.

(** ** Columns of a row *)
Lemma add_element_keys c v cols k : In k (map fst (add_element c v cols)) <-> k = c \/ In k (map fst cols).
Proof.
  induction cols as [|[c' v'] cols IH]; cbn [add_element map fst In].
  - split; intros [H|[]]; left; congruence.
  - destruct (c =? c') eqn:E; [apply Nat.eqb_eq in E; subst c'; cbn [map fst In]; split; intuition congruence|].
    destruct (c <? c'); cbn [map fst In]; [split; intuition congruence|]. rewrite IH. split; intuition congruence.
Qed.
Lemma add_edges_keys col es v cols k :
  In k (map fst (add_edges col es v cols)) <-> In k (map fst cols) \/ In k (map col es).
Proof.
  unfold add_edges. revert cols. induction es as [|e es IH]; intros cols; cbn [fold_left map In].
  - split; [auto | intros [H|[]]; exact H].
  - rewrite IH, add_element_keys. split; intuition congruence.
Qed.
Definition node_edges (n : node) : list nat :=
  match n_type n with TLink => n_out n | TInput => n_out n | TOutput => n_in n | TStorage => n_in n ++ n_out n end.
Lemma add_node_keys col n v cols k :
  In k (map fst (add_node col n v cols)) <-> In k (map fst cols) \/ In k (map col (node_edges n)).
Proof.
  unfold add_node, node_edges. destruct (n_type n); rewrite ?add_edges_keys; try reflexivity.
  rewrite map_app, in_app_iff. tauto.
Qed.
Lemma add_nodes_keys col ns v cols k :
  In k (map fst (add_nodes col ns v cols)) <-> In k (map fst cols) \/ exists n, In n ns /\ In k (map col (node_edges n)).
Proof.
  unfold add_nodes. revert cols. induction ns as [|n ns IH]; intros cols; cbn [fold_left].
  - split; [auto | intros [H|(n & [] & _)]; exact H].
  - rewrite IH, add_node_keys. cbn [In]. split.
    + intros [[H|H]|(m & Hm & H)]; [auto | right; exists n; auto | right; exists m; auto].
    + intros [H|(m & [<-|Hm] & H)]; [auto | auto | right; exists m; auto].
Qed.

(** Rows list their columns in increasing order, hence once. *)
Definition sorted_cols (cols : list (nat * Q)) : Prop := StronglySorted lt (map fst cols).
Lemma add_element_sorted c v cols : sorted_cols cols -> sorted_cols (add_element c v cols).
Proof.
  unfold sorted_cols. induction cols as [|[c' v'] cols IH]; intros H; cbn [add_element map fst].
  - constructor; [constructor | constructor].
  - cbn [map fst] in H. inversion H as [|? ? Hs Hf]; subst.
    destruct (c =? c') eqn:E; [exact H|]. apply Nat.eqb_neq in E.
    destruct (c <? c') eqn:E'.
    + apply Nat.ltb_lt in E'. cbn [map fst]. constructor; [exact H|]. constructor; [exact E'|].
      apply Forall_forall. intros k Hk. rewrite Forall_forall in Hf. specialize (Hf k Hk). lia.
    + apply Nat.ltb_ge in E'. cbn [map fst]. constructor; [apply IH; exact Hs|].
      apply Forall_forall. intros k Hk. apply add_element_keys in Hk. rewrite Forall_forall in Hf.
      destruct Hk as [->|Hk]; [lia | apply Hf; exact Hk].
Qed.
Lemma add_edges_sorted col es v cols : sorted_cols cols -> sorted_cols (add_edges col es v cols).
Proof.
  unfold add_edges. revert cols. induction es as [|e es IH]; intros cols H; cbn [fold_left]; [exact H|].
  apply IH, add_element_sorted, H.
Qed.
Lemma add_node_sorted col n v cols : sorted_cols cols -> sorted_cols (add_node col n v cols).
Proof. intros H. unfold add_node. destruct (n_type n); repeat apply add_edges_sorted; exact H. Qed.
Lemma add_nodes_sorted col ns v cols : sorted_cols cols -> sorted_cols (add_nodes col ns v cols).
Proof.
  unfold add_nodes. revert cols. induction ns as [|e es IH]; intros cols H; cbn [fold_left]; [exact H|].
  apply IH, add_node_sorted, H.
Qed.
Lemma vs_row_cols_sorted net col terms cols cols' : vs_row_cols net col terms cols = Ok cols' ->
  sorted_cols cols -> sorted_cols cols'.
Proof.
  revert cols. induction terms as [|[i f] terms IH]; intros cols H Hs; cbn [vs_row_cols] in H.
  - injection H as <-. exact Hs.
  - destruct (nth_error (net_nodes net) i); [|discriminate]. apply (IH _ H), add_node_sorted, Hs.
Qed.
Lemma exclusivity_cols_sorted base order sets cols cols' : exclusivity_cols base order sets cols = Ok cols' ->
  sorted_cols cols -> sorted_cols cols'.
Proof.
  revert cols. induction sets as [|s sets IH]; intros cols H Hs; cbn [exclusivity_cols] in H.
  - injection H as <-. exact Hs.
  - destruct (set_bin_col base order s); [|discriminate]. apply (IH _ H), add_element_sorted, Hs.
Qed.
Lemma nil_sorted : sorted_cols [].
Proof. constructor. Qed.
Lemma sorted_NoDup l : StronglySorted lt l -> NoDup l.
Proof.
  induction 1 as [|a l Hs IH Hf]; constructor; [|exact IH]. intros Hin. rewrite Forall_forall in Hf.
  specialize (Hf a Hin). lia.
Qed.

(** ** The skipped balance rows *)
Lemma single_key_all_equal {A} (f : A -> nat) (cols : list (nat * Q)) l :
  length cols = 1 -> (forall a, In a l -> In (f a) (map fst cols)) -> forall a b, In a l -> In b l -> f a = f b.
Proof.
  intros Hl H a b Ha Hb. destruct cols as [|[c v] [|? ?]]; cbn in Hl; try lia.
  pose proof (H a Ha) as H1. pose proof (H b Hb) as H2. cbn in H1, H2.
  destruct H1 as [H1|[]], H2 as [H2|[]]. congruence.
Qed.

Lemma skipped_row_shape net (wf : wf_network net) i n :
  nth_error (net_nodes net) i = Some n -> n_type n = TLink ->
  length (add_edges (col_for_edge net) (n_out n) (- (1)) (add_edges (col_for_edge net) (n_in n) 1 [])) = 1 ->
  exists e f, n_in n = [e] /\ n_out n = [f] /\ col_for_edge net e = col_for_edge net f.
Proof.
  intros Hn Ht Hl. destruct (wf_nodes net wf i n Hn) as (Hin & Hout & Hdeg). rewrite Ht in Hdeg. destruct Hdeg as [Hne Hno].
  set (cols := add_edges _ _ _ _) in Hl.
  assert (Hk : forall e, In e (n_in n ++ n_out n) -> In (col_for_edge net e) (map fst cols)).
  { intros e He. apply add_edges_keys. rewrite add_edges_keys. apply in_app_iff in He.
    destruct He as [He|He]; [left; right | right]; apply in_map; exact He. }
  pose proof (single_key_all_equal (col_for_edge net) cols _ Hl Hk) as Heq.
  pose proof (in_edges_NoDup net i) as Hd1. pose proof (out_edges_NoDup net i) as Hd2.
  destruct (n_in n) as [|e l1] eqn:E1; [congruence|]. destruct (n_out n) as [|f l2] eqn:E2; [congruence|].
  exists e, f. rewrite <- Hin in Hd1. rewrite <- Hout in Hd2.
  assert (l1 = []) as ->.
  { destruct l1 as [|e' l1]; [reflexivity|]. exfalso. inversion Hd1 as [|? ? Hni _]; subst. apply Hni. left. symmetry.
    apply (in_cols_distinct net wf i); [rewrite <- Hin; left; reflexivity | rewrite <- Hin; right; left; reflexivity|].
    apply Heq; [left; reflexivity | right; left; reflexivity]. }
  assert (l2 = []) as ->.
  { destruct l2 as [|e' l2]; [reflexivity|]. exfalso. inversion Hd2 as [|? ? Hni _]; subst. apply Hni. left. symmetry.
    apply (out_cols_distinct net wf i); [rewrite <- Hout; left; reflexivity | rewrite <- Hout; right; left; reflexivity|].
    apply Heq; [right; left; reflexivity | right; right; left; reflexivity]. }
  split; [reflexivity|]. split; [reflexivity|]. apply Heq; [left; reflexivity | right; left; reflexivity].
Qed.

(** ** Growth of the builder *)
Definition extends (b b' : rows_builder) : Prop :=
  (exists l, rb_rows b' = rb_rows b ++ l) /\ (exists l, rb_fixed b' = rb_fixed b ++ l).
Lemma extends_refl b : extends b b.
Proof. split; exists []; rewrite app_nil_r; reflexivity. Qed.
Lemma extends_trans a b c : extends a b -> extends b c -> extends a c.
Proof.
  intros [[l1 H1] [l2 H2]] [[l3 H3] [l4 H4]]. split.
  - exists (l1 ++ l3). rewrite H3, H1, app_assoc. reflexivity.
  - exists (l2 ++ l4). rewrite H4, H2, app_assoc. reflexivity.
Qed.
Definition row_at (rows : list row) (i : nat) (r : row) : Prop :=
  exists r', nth_error rows i = Some r' /\ row_eqb r' r = true.
Lemma row_at_app rows l i r : row_at rows i r -> row_at (rows ++ l) i r.
Proof.
  intros (r' & H & He). exists r'. split; [|exact He]. rewrite nth_error_app1; [exact H|].
  apply (nth_error_Some_lt _ _ _ H).
Qed.
Lemma row_at_extends b b' i r : extends b b' -> row_at (rb_rows b) i r -> row_at (rb_rows b') i r.
Proof. intros [[l H] _] Hr. rewrite H. apply row_at_app. exact Hr. Qed.

Lemma add_fixed_extends b r : extends b (add_fixed_row b r).
Proof. split; [exists []; cbn; rewrite app_nil_r; reflexivity | exists [r]; reflexivity]. Qed.
Lemma add_variable_props b r b' i : add_variable_row b r = (b', i) ->
  extends b b' /\ rb_fixed b' = rb_fixed b /\ row_at (rb_rows b') i r /\
  (forall r', In r' (rb_rows b') -> In r' (rb_rows b) \/ r' = r).
Proof.
  unfold add_variable_row. destruct (position (fun r' => row_eqb r' r) (rb_rows b)) as [k|] eqn:E; intros H; injection H as <- <-.
  - apply position_Some in E. destruct E as (r' & Hr' & He & _).
    split; [apply extends_refl|]. split; [reflexivity|]. split; [exists r'; auto | auto].
  - split; [split; [exists [r]; reflexivity | exists []; cbn; rewrite app_nil_r; reflexivity]|].
    split; [reflexivity|]. split.
    + exists r. cbn. rewrite nth_error_app2, Nat.sub_diag by lia. split; [reflexivity | apply row_eqb_refl].
    + intros r' Hr'. cbn in Hr'. apply in_app_iff in Hr'. destruct Hr' as [H|[<-|[]]]; auto.
Qed.

(** ** What each step adds *)
Section Steps.
Variable net : network.
Variable fm : Q.
Let col := col_for_edge net.

Definition balance_row (n : node) : row :=
  mkRow 0 (Some 0%Q) (add_edges col (n_out n) (- (1)) (add_edges col (n_in n) 1 [])).
Definition is_balance_row (ns : list node) (r : row) : Prop :=
  exists n, In n ns /\ n_type n = TLink /\ length (r_cols (balance_row n)) <> 1 /\ r = balance_row n.

Lemma mass_balance_props ns : forall b b', mass_balance_rows col b ns = Ok b' ->
  rb_rows b' = rb_rows b /\ extends b b' /\
  (forall r, In r (rb_fixed b') <-> In r (rb_fixed b) \/ is_balance_row ns r).
Proof.
  induction ns as [|n ns IH]; intros b b' H; cbn [mass_balance_rows] in H.
  - injection H as <-. split; [reflexivity|]. split; [apply extends_refl|].
    intros r. split; [auto | intros [Hr|(n & [] & _)]; exact Hr].
  - apply rbind_Ok in H. destruct H as (b1 & H1 & H2). destruct (IH _ _ H2) as (Hr & He & Hf). clear IH H2.
    assert (Hstep : rb_rows b1 = rb_rows b /\ extends b b1 /\
              forall r, In r (rb_fixed b1) <-> In r (rb_fixed b) \/ is_balance_row [n] r).
    { unfold mass_balance_row in H1.
      assert (Hnolink : n_type n <> TLink -> b = b1 -> rb_rows b1 = rb_rows b /\ extends b b1 /\
                        forall r, In r (rb_fixed b1) <-> In r (rb_fixed b) \/ is_balance_row [n] r).
      { intros Hnl <-. split; [reflexivity|]. split; [apply extends_refl|].
        intros r. split; [auto|]. intros [Hr0|(n' & [<-|[]] & Ht & _)]; [exact Hr0 | congruence]. }
      destruct (n_type n) eqn:Ht; try (apply Hnolink; [congruence | congruence]).
      destruct (n_in n) as [|e l] eqn:E1; [discriminate|]. destruct (n_out n) as [|f l'] eqn:E2; [discriminate|].
      rewrite <- E1, <- E2 in H1. fold (r_cols (balance_row n)) in H1.
      change (add_edges col (n_out n) (- (1)) (add_edges col (n_in n) 1 [])) with (r_cols (balance_row n)) in H1.
      destruct (length (r_cols (balance_row n)) =? 1) eqn:El.
      - injection H1 as <-. split; [reflexivity|]. split; [apply extends_refl|]. apply Nat.eqb_eq in El.
        intros r. split; [auto|]. intros [Hr0|(n' & [<-|[]] & _ & Hl & _)]; [exact Hr0 | contradiction].
      - injection H1 as <-. split; [reflexivity|]. split; [apply add_fixed_extends|]. apply Nat.eqb_neq in El.
        intros r. cbn [add_fixed_row rb_fixed]. rewrite in_app_iff. cbn [In].
        split.
        + intros [H|[<-|[]]]; [left; exact H|]. right. exists n. split; [left; reflexivity|]. repeat split; assumption.
        + intros [H|(n' & [<-|[]] & _ & _ & ->)]; [left; exact H | right; left; reflexivity]. }
    destruct Hstep as (Sr & Se & Sf). split; [congruence|]. split; [eapply extends_trans; eassumption|].
    intros r. rewrite Hf, Sf. unfold is_balance_row. cbn [In]. split.
    + intros [[H|(n' & [<-|[]] & H)]|(n' & Hn' & H)]; [left; exact H | right; exists n; auto | right; exists n'; auto].
    + intros [H|(n' & [<-|Hn'] & H)]; [left; left; exact H | left; right; exists n; auto | right; exists n'; auto].
Qed.

(** Node rows. *)
Definition bin_upper_cols (n : node) (c : nat) (v : Q) := add_element c v (add_node col n (- (1)) []).
Definition bin_lower_cols (n : node) (c : nat) (v : Q) := add_element c v (add_node col n 1 []).
Definition expected_node_row (n : node) (t : node_row_type) : row :=
  match t with
  | RContinuous => mkRow 0 None (add_node col n 1 [])
  | RBinaryUpper c => mkRow 0 None (bin_upper_cols n c 1)
  | RBinaryLower c => mkRow 0 None (bin_lower_cols n c (- (1)))
  end.
Definition const_node_row (bins : list nat) (n : node) (r : row) : Prop :=
  exists mn mx, get_const_bounds n = Some (mn, mx) /\
    match bins with
    | [] => r = mkRow mn (Some mx) (add_node col n 1 [])
    | _ => exists c, In c bins /\
             (r = mkRow 0 (Some fm) (bin_upper_cols n c (fmin mx (inject_Z 1000000))) \/
              (Qeq_bool mn 0 = false /\ r = mkRow 0 (Some fm) (bin_lower_cols n c (- fmax mn (1 # 1000000)))))
    end.
Definition node_ids_ok (bins : list nat) (n : node) (i : nat) (nr : node_row) : Prop :=
  nr_node nr = i /\ get_const_bounds n = None /\
  match nr_type nr with
  | RContinuous => bins = []
  | RBinaryUpper c => In c bins
  | RBinaryLower c => In c bins
  end.

Lemma node_binary_props i n cs : forall b b' ids, node_binary_rows_all col fm i n b cs = (b', ids) ->
  extends b b' /\
  (forall r, In r (rb_fixed b') <-> In r (rb_fixed b) \/
      (exists mn mx c, get_const_bounds n = Some (mn, mx) /\ In c cs /\
             (r = mkRow 0 (Some fm) (bin_upper_cols n c (fmin mx (inject_Z 1000000))) \/
              (Qeq_bool mn 0 = false /\ r = mkRow 0 (Some fm) (bin_lower_cols n c (- fmax mn (1 # 1000000))))))) /\
  (forall nr, In nr ids -> nr_node nr = i /\ get_const_bounds n = None /\
      match nr_type nr with RContinuous => False | RBinaryUpper c => In c cs | RBinaryLower c => In c cs end /\
      row_at (rb_rows b') (nr_row nr) (expected_node_row n (nr_type nr))) /\
  (forall r, In r (rb_rows b') -> In r (rb_rows b) \/ exists nr, In nr ids /\ r = expected_node_row n (nr_type nr)) /\
  (get_const_bounds n = None -> forall c, In c cs ->
     (exists r, In (mkNr r i (RBinaryUpper c)) ids) /\ (exists r, In (mkNr r i (RBinaryLower c)) ids)).
Proof.
  induction cs as [|c cs IH]; intros b b' ids H; cbn [node_binary_rows_all] in H.
  - injection H as <- <-. split; [apply extends_refl|]. split.
    { intros r. split; [auto | intros [Hr|(mn & mx & c & _ & [] & _)]; exact Hr]. }
    split; [intros nr []|]. split; [auto | intros _ c []].
  - destruct (node_binary_rows col fm i n b c) as [b1 ids1] eqn:E1.
    destruct (node_binary_rows_all col fm i n b1 cs) as [b2 ids2] eqn:E2. injection H as <- <-.
    destruct (IH _ _ _ E2) as (He & Hf & Hid & Hr & Hall). clear IH E2.
    assert (Hstep : extends b b1 /\
      (forall r, In r (rb_fixed b1) <-> In r (rb_fixed b) \/
        (exists mn mx, get_const_bounds n = Some (mn, mx) /\
             (r = mkRow 0 (Some fm) (bin_upper_cols n c (fmin mx (inject_Z 1000000))) \/
              (Qeq_bool mn 0 = false /\ r = mkRow 0 (Some fm) (bin_lower_cols n c (- fmax mn (1 # 1000000))))))) /\
      (forall nr, In nr ids1 -> nr_node nr = i /\ get_const_bounds n = None /\
         match nr_type nr with RContinuous => False | RBinaryUpper c' => c' = c | RBinaryLower c' => c' = c end /\
         row_at (rb_rows b1) (nr_row nr) (expected_node_row n (nr_type nr))) /\
      (forall r, In r (rb_rows b1) -> In r (rb_rows b) \/ exists nr, In nr ids1 /\ r = expected_node_row n (nr_type nr)) /\
      (get_const_bounds n = None ->
        (exists r, In (mkNr r i (RBinaryUpper c)) ids1) /\ (exists r, In (mkNr r i (RBinaryLower c)) ids1))).
    { unfold node_binary_rows in E1. destruct (get_const_bounds n) as [[mn mx]|] eqn:Eb.
      - destruct (Qeq_bool mn 0) eqn:Eq; injection E1 as <- <-.
        + split; [apply add_fixed_extends|]. split.
          { intros r. cbn [add_fixed_row rb_fixed]. rewrite in_app_iff. cbn [In]. split.
            - intros [H|[<-|[]]]; [left; exact H | right; exists mn, mx; auto].
            - intros [H|(mn' & mx' & Heq & [->|[Hc _]])]; [left; exact H | injection Heq as <- <-; right; left; reflexivity|].
              injection Heq as <- <-. congruence. }
          split; [intros nr []|]. split; [auto | congruence].
        + split; [eapply extends_trans; apply add_fixed_extends|]. split.
          { intros r. cbn [add_fixed_row rb_fixed]. rewrite !in_app_iff. cbn [In]. split.
            - intros [[H|[<-|[]]]|[<-|[]]]; [left; exact H | right; exists mn, mx; auto | right; exists mn, mx; auto].
            - intros [H|(mn' & mx' & Heq & [->|[_ ->]])]; [left; left; exact H | injection Heq as <- <-; left; right; left; reflexivity|].
              injection Heq as <- <-. right; left; reflexivity. }
          split; [intros nr []|]. split; [auto | congruence].
      - destruct (add_variable_row b _) as [b3 i1] eqn:V1.
        destruct (add_variable_row b3 _) as [b4 i2] eqn:V2. injection E1 as <- <-.
        apply add_variable_props in V1. apply add_variable_props in V2.
        destruct V1 as (X1 & F1 & A1 & R1). destruct V2 as (X2 & F2 & A2 & R2).
        split; [eapply extends_trans; eassumption|]. split.
        { intros r. rewrite F2, F1. split; [auto | intros [H|(mn & mx & Hc & _)]; [exact H | congruence]]. }
        split.
        { intros nr [<-|[<-|[]]]; cbn [nr_node nr_type nr_row]; (split; [reflexivity|]); (split; [reflexivity|]); (split; [reflexivity|]).
          - apply (row_at_extends b3 b4 i1 _ X2 A1).
          - exact A2. }
        split.
        { intros r Hr'. destruct (R2 r Hr') as [Hr1| ->].
          - destruct (R1 r Hr1) as [H0| ->]; [left; exact H0|]. right. exists (mkNr i1 i (RBinaryUpper c)). split; [left; reflexivity | reflexivity].
          - right. exists (mkNr i2 i (RBinaryLower c)). split; [right; left; reflexivity | reflexivity]. }
        intros _. split; eexists; [left; reflexivity | right; left; reflexivity]. }
    destruct Hstep as (Se & Sf & Sid & Sr & Sall).
    split; [eapply extends_trans; eassumption|]. split.
    { intros r. rewrite Hf, Sf. cbn [In]. split.
      - intros [[H|(mn & mx & H1 & H2)]|(mn & mx & c' & H1 & H2 & H3)]; [left; exact H | right; exists mn, mx, c; auto | right; exists mn, mx, c'; auto].
      - intros [H|(mn & mx & c' & H1 & [<-|H2] & H3)]; [left; left; exact H | left; right; exists mn, mx; auto | right; exists mn, mx, c'; auto]. }
    split.
    { intros nr Hin. apply in_app_iff in Hin. destruct Hin as [Hin|Hin].
      - destruct (Sid nr Hin) as (H1 & H2 & H3 & H4). split; [exact H1|]. split; [exact H2|]. split.
        + destruct (nr_type nr); [destruct H3 | left; congruence | left; congruence].
        + apply (row_at_extends b1 b2 _ _ He H4).
      - destruct (Hid nr Hin) as (H1 & H2 & H3 & H4). split; [exact H1|]. split; [exact H2|]. split; [|exact H4].
        destruct (nr_type nr); [destruct H3 | right; exact H3 | right; exact H3]. }
    split.
    { intros r Hin. destruct (Hr r Hin) as [H|(nr & H1 & H2)].
      - destruct (Sr r H) as [H0|(nr & H1 & H2)]; [left; exact H0|].
        right. exists nr. split; [apply in_app_iff; left; exact H1 | exact H2].
      - right. exists nr. split; [apply in_app_iff; right; exact H1 | exact H2]. }
    intros Hn c' [<-|Hc].
    + destruct (Sall Hn) as [(r1 & H1) (r2 & H2)]. split; eexists; apply in_app_iff; left; eassumption.
    + destruct (Hall Hn c' Hc) as [(r1 & H1) (r2 & H2)]. split; eexists; apply in_app_iff; right; eassumption.
Qed.

Lemma node_rows_props bins i n b b' ids : node_rows col fm bins i n b = (b', ids) ->
  extends b b' /\
  (forall r, In r (rb_fixed b') <-> In r (rb_fixed b) \/ const_node_row bins n r) /\
  (forall nr, In nr ids -> node_ids_ok bins n i nr /\ row_at (rb_rows b') (nr_row nr) (expected_node_row n (nr_type nr))) /\
  (forall r, In r (rb_rows b') -> In r (rb_rows b) \/ exists nr, In nr ids /\ r = expected_node_row n (nr_type nr)) /\
  (get_const_bounds n = None -> bins = [] -> exists r, In (mkNr r i RContinuous) ids) /\
  (get_const_bounds n = None -> forall c, In c bins ->
     (exists r, In (mkNr r i (RBinaryUpper c)) ids) /\ (exists r, In (mkNr r i (RBinaryLower c)) ids)).
Proof.
  destruct bins as [|c0 cs].
  - cbn [node_rows]. destruct (get_const_bounds n) as [[mn mx]|] eqn:Eb.
    + intros H. injection H as <- <-. split; [apply add_fixed_extends|]. split.
      { intros r. cbn [add_fixed_row rb_fixed]. rewrite in_app_iff. cbn [In]. unfold const_node_row. split.
        - intros [H|[<-|[]]]; [left; exact H | right; exists mn, mx; auto].
        - intros [H|(mn' & mx' & Heq & ->)]; [left; exact H|]. rewrite Eb in Heq. injection Heq as <- <-. right; left; reflexivity. }
      split; [intros nr []|]. split; [auto|]. split; [congruence | intros _ c []].
    + destruct (add_variable_row b _) as [b1 r0] eqn:V. intros H. injection H as <- <-.
      apply add_variable_props in V. destruct V as (X & F & A & R).
      split; [exact X|]. split.
      { intros r. rewrite F. split; [auto | intros [H|(mn & mx & Hc & _)]; [exact H | congruence]]. }
      split.
      { intros nr [<-|[]]. split; [split; [reflexivity|]; split; [exact Eb | reflexivity] | exact A]. }
      split.
      { intros r Hr. destruct (R r Hr) as [H| ->]; [left; exact H|]. right. eexists. split; [left; reflexivity | reflexivity]. }
      split; [intros _ _; eexists; left; reflexivity | intros _ c []].
  - cbn [node_rows]. intros H. apply node_binary_props in H. destruct H as (He & Hf & Hid & Hr & Hall).
    split; [exact He|]. split.
    { intros r. rewrite Hf. unfold const_node_row. split.
      - intros [H|(mn & mx & c & H1 & H2 & H3)]; [left; exact H | right; exists mn, mx; split; [exact H1 | exists c; auto]].
      - intros [H|(mn & mx & H1 & c & H2 & H3)]; [left; exact H | right; exists mn, mx, c; auto]. }
    split.
    { intros nr Hin. destruct (Hid nr Hin) as (H1 & H2 & H3 & H4). split; [|exact H4].
      split; [exact H1|]. split; [exact H2|]. destruct (nr_type nr); [destruct H3 | exact H3 | exact H3]. }
    split; [exact Hr|]. split; [intros _ Hc; discriminate Hc | exact Hall].
Qed.

Lemma node_constraints_props bins ns : forall i b b' ids, node_constraints col fm bins i ns b = (b', ids) ->
  extends b b' /\
  (forall r, In r (rb_fixed b') <-> In r (rb_fixed b) \/
      exists k n, nth_error ns k = Some n /\ const_node_row (bins (i + k)) n r) /\
  (forall nr, In nr ids -> exists k n, nth_error ns k = Some n /\ node_ids_ok (bins (i + k)) n (i + k) nr /\
      row_at (rb_rows b') (nr_row nr) (expected_node_row n (nr_type nr))) /\
  (forall r, In r (rb_rows b') -> In r (rb_rows b) \/
      exists k n nr, nth_error ns k = Some n /\ In nr ids /\ nr_node nr = i + k /\ r = expected_node_row n (nr_type nr)) /\
  (forall k n, nth_error ns k = Some n -> get_const_bounds n = None ->
     (bins (i + k) = [] -> exists r, In (mkNr r (i + k) RContinuous) ids) /\
     forall c, In c (bins (i + k)) ->
     (exists r, In (mkNr r (i + k) (RBinaryUpper c)) ids) /\ (exists r, In (mkNr r (i + k) (RBinaryLower c)) ids)).
Proof.
  induction ns as [|n ns IH]; intros i b b' ids H; cbn [node_constraints] in H.
  - injection H as <- <-. split; [apply extends_refl|]. split.
    { intros r. split; [auto | intros [Hr|([|k] & n & Hc & _)]; [exact Hr | discriminate | discriminate]]. }
    split; [intros nr []|]. split; [auto | intros [|k] n Hc; discriminate].
  - destruct (node_rows col fm (bins i) i n b) as [b1 ids1] eqn:E1.
    destruct (node_constraints col fm bins (S i) ns b1) as [b2 ids2] eqn:E2. injection H as <- <-.
    destruct (node_rows_props _ _ _ _ _ _ E1) as (Se & Sf & Sid & Sr & Sc & Sb).
    destruct (IH _ _ _ _ E2) as (He & Hf & Hid & Hr & Hall). clear IH E1 E2.
    assert (Hk : forall k, S i + k = i + S k) by (intros; lia).
    split; [eapply extends_trans; eassumption|]. split.
    { intros r. rewrite Hf, Sf. split.
      - intros [[H|H]|(k & n' & H1 & H2)]; [left; exact H | right; exists 0, n; rewrite Nat.add_0_r; auto |
          right; exists (S k), n'; rewrite <- Hk; auto].
      - intros [H|([|k] & n' & H1 & H2)]; [left; left; exact H | |].
        + left. right. cbn in H1. injection H1 as <-. rewrite Nat.add_0_r in H2. exact H2.
        + right. exists k, n'. rewrite Hk. auto. }
    split.
    { intros nr Hin. apply in_app_iff in Hin. destruct Hin as [Hin|Hin].
      - destruct (Sid nr Hin) as (H1 & H2). exists 0, n. rewrite Nat.add_0_r. split; [reflexivity|]. split; [exact H1|].
        apply (row_at_extends b1 b2 _ _ He H2).
      - destruct (Hid nr Hin) as (k & n' & H1 & H2 & H3). exists (S k), n'. rewrite <- Hk. auto. }
    split.
    { intros r Hin. destruct (Hr r Hin) as [H|(k & n' & nr & H1 & H2 & H3 & H4)].
      - destruct (Sr r H) as [H0|(nr & H1 & H2)]; [left; exact H0|]. right. exists 0, n, nr.
        split; [reflexivity|]. split; [apply in_app_iff; left; exact H1|]. split; [|exact H2].
        destruct (Sid nr H1) as ((Hn & _) & _). lia.
      - right. exists (S k), n', nr. split; [exact H1|]. split; [apply in_app_iff; right; exact H2|]. split; [lia | exact H4]. }
    intros [|k] n' Hn' Hc.
    + cbn in Hn'. injection Hn' as <-. rewrite Nat.add_0_r. split.
      * intros Hb. destruct (Sc Hc Hb) as (r & Hr'). exists r. apply in_app_iff. left. exact Hr'.
      * intros c Hin. destruct (Sb Hc c Hin) as [(r1 & H1) (r2 & H2)]. split; eexists; apply in_app_iff; left; eassumption.
    + cbn in Hn'. destruct (Hall k n' Hn' Hc) as [H1 H2]. rewrite <- Hk. split.
      * intros Hb. destruct (H1 Hb) as (r & Hr'). exists r. apply in_app_iff. right. exact Hr'.
      * intros c Hin. destruct (H2 c Hin) as [(r1 & Hr1) (r2 & Hr2)]. split; eexists; apply in_app_iff; right; eassumption.
Qed.

(** Aggregated node rows. *)
Definition agg_row (a : agg_node) (r : row) : Prop :=
  exists ns, get_nodes net (concat (a_nodes a)) = Ok ns /\ r = mkRow 0 None (add_nodes col ns 1 []).
Lemma agg_constraints_props aggs : forall b b' ids, agg_constraints net col aggs b = Ok (b', ids) ->
  extends b b' /\ rb_fixed b' = rb_fixed b /\
  Forall2 (fun i a => exists r, agg_row a r /\ row_at (rb_rows b') i r) ids aggs /\
  (forall r, In r (rb_rows b') -> In r (rb_rows b) \/ exists a, In a aggs /\ agg_row a r).
Proof.
  induction aggs as [|a aggs IH]; intros b b' ids H; cbn [agg_constraints] in H.
  - injection H as <- <-. split; [apply extends_refl|]. split; [reflexivity|]. split; [constructor | auto].
  - apply rbind_Ok in H. destruct H as (ns & Hns & H).
    destruct (add_variable_row b _) as [b1 i] eqn:V. apply rbind_Ok in H. destruct H as ([b2 is] & H2 & H).
    injection H as <- <-. destruct (IH _ _ _ H2) as (He & Hf & Ha & Hr).
    apply add_variable_props in V. destruct V as (X & F & A & R).
    assert (Hrow : agg_row a (mkRow 0 None (add_nodes col ns 1 []))) by (exists ns; auto).
    split; [eapply extends_trans; eassumption|]. split; [congruence|]. split.
    + constructor; [|exact Ha]. eexists. split; [exact Hrow | apply (row_at_extends b1 b2 _ _ He A)].
    + intros r Hin. destruct (Hr r Hin) as [H|(a' & H3 & H4)]; [|right; exists a'; split; [right; exact H3 | exact H4]].
      destruct (R r H) as [H0| ->]; [left; exact H0 | right; exists a; split; [left; reflexivity | exact Hrow]].
Qed.

(** Virtual storage rows. *)
Definition vs_row (v : vs_node) (r : row) : Prop :=
  exists cols, vs_row_cols net col (vs_terms v) [] = Ok cols /\ r = mkRow 0 None cols.
Lemma vs_constraints_props vss : forall b b' ids, vs_constraints net col vss b = Ok (b', ids) ->
  extends b b' /\ rb_fixed b' = rb_fixed b /\
  Forall2 (fun i v => exists r, vs_row v r /\ row_at (rb_rows b') i r) ids vss /\
  (forall r, In r (rb_rows b') -> In r (rb_rows b) \/ exists v, In v vss /\ vs_row v r).
Proof.
  induction vss as [|v vss IH]; intros b b' ids H; cbn [vs_constraints] in H.
  - injection H as <- <-. split; [apply extends_refl|]. split; [reflexivity|]. split; [constructor | auto].
  - apply rbind_Ok in H. destruct H as (cols & Hc & H).
    destruct (add_variable_row b _) as [b1 i] eqn:V. apply rbind_Ok in H. destruct H as ([b2 is] & H2 & H).
    injection H as <- <-. destruct (IH _ _ _ H2) as (He & Hf & Ha & Hr).
    apply add_variable_props in V. destruct V as (X & F & A & R).
    assert (Hrow : vs_row v (mkRow 0 None cols)) by (exists cols; auto).
    split; [eapply extends_trans; eassumption|]. split; [congruence|]. split.
    + constructor; [|exact Ha]. eexists. split; [exact Hrow | apply (row_at_extends b1 b2 _ _ He A)].
    + intros r Hin. destruct (Hr r Hin) as [H|(a' & H3 & H4)]; [|right; exists a'; split; [right; exact H3 | exact H4]].
      destruct (R r H) as [H0| ->]; [left; exact H0 | right; exists v; split; [left; reflexivity | exact Hrow]].
Qed.

(** Factor rows. *)
Definition pair_row (p : const_pair) (r : row) : Prop :=
  exists f0 f1 ns0 ns1,
    unwrap_or_one (cp_f0 p) = Fin f0 /\ unwrap_or_one (cp_f1 p) = Fin f1 /\
    get_nodes net (cp_n0 p) = Ok ns0 /\ get_nodes net (cp_n1 p) = Ok ns1 /\
    r = mkRow (cp_rhs p) (Some (cp_rhs p)) (add_nodes col ns1 f1 (add_nodes col ns0 f0 [])).
Definition pair_const (p : const_pair) : bool := is_some (cp_f0 p) && is_some (cp_f1 p).

Lemma pair_row_fun p r r' : pair_row p r -> pair_row p r' -> r = r'.
Proof.
  intros (f0 & f1 & ns0 & ns1 & H1 & H2 & H3 & H4 & ->) (f0' & f1' & ns0' & ns1' & H1' & H2' & H3' & H4' & ->).
  rewrite H1 in H1'. rewrite H2 in H2'. rewrite H3 in H3'. rewrite H4 in H4'. congruence.
Qed.

Lemma factor_row_props b p b' i : factor_row net col b p = Ok (b', i) ->
  extends b b' /\ (exists r, pair_row p r) /\
  (forall r, In r (rb_fixed b') <-> In r (rb_fixed b) \/ (pair_const p = true /\ pair_row p r)) /\
  (forall r, In r (rb_rows b') -> In r (rb_rows b) \/ (pair_const p = false /\ pair_row p r)) /\
  match i with
  | None => pair_const p = true
  | Some k => pair_const p = false /\ exists r, pair_row p r /\ row_at (rb_rows b') k r
  end.
Proof.
  unfold factor_row. intros H. apply rbind_Ok in H. destruct H as (f0 & H0 & H).
  apply rbind_Ok in H. destruct H as (ns0 & Hn0 & H). apply rbind_Ok in H. destruct H as (f1 & H1 & H).
  apply rbind_Ok in H. destruct H as (ns1 & Hn1 & H).
  assert (Hrow : pair_row p (mkRow (cp_rhs p) (Some (cp_rhs p)) (add_nodes col ns1 f1 (add_nodes col ns0 f0 [])))).
  { exists f0, f1, ns0, ns1. destruct (unwrap_or_one (cp_f0 p)); [|discriminate]. destruct (unwrap_or_one (cp_f1 p)); [|discriminate].
    cbn in H0, H1. injection H0 as ->. injection H1 as ->. auto. }
  fold (pair_const p) in H. destruct (pair_const p) eqn:E.
  - injection H as <- <-. split; [apply add_fixed_extends|]. split; [eauto|]. split.
    { intros r. cbn [add_fixed_row rb_fixed]. rewrite in_app_iff. cbn [In]. split.
      - intros [H|[<-|[]]]; [left; exact H | right; auto].
      - intros [H|[_ H]]; [left; exact H|]. right; left. apply (pair_row_fun _ _ _ Hrow H). }
    split; [auto | reflexivity].
  - destruct (add_variable_row b _) as [b1 k] eqn:V. injection H as <- <-.
    apply add_variable_props in V. destruct V as (X & F & A & R).
    split; [exact X|]. split; [eauto|]. split.
    { intros r. rewrite F. split; [auto | intros [H|[Hc _]]; [exact H | discriminate]]. }
    split; [|split; [reflexivity | eauto]].
    intros r Hr. destruct (R r Hr) as [H| ->]; [left; exact H | right; auto].
Qed.

Definition factor_id_ok (rows : list row) (p : const_pair) (i : option nat) : Prop :=
  match i with
  | None => pair_const p = true
  | Some k => pair_const p = false /\ exists r, pair_row p r /\ row_at rows k r
  end.
Lemma factor_id_ok_extends b b' p i : extends b b' -> factor_id_ok (rb_rows b) p i -> factor_id_ok (rb_rows b') p i.
Proof.
  intros He. destruct i as [k|]; cbn; [|auto]. intros (H1 & r & H2 & H3). split; [exact H1|]. exists r.
  split; [exact H2 | apply (row_at_extends b b' _ _ He H3)].
Qed.
Lemma factor_rows_props ps : forall b b' is, factor_rows net col b ps = Ok (b', is) ->
  extends b b' /\
  (forall r, In r (rb_fixed b') <-> In r (rb_fixed b) \/ exists p, In p ps /\ pair_const p = true /\ pair_row p r) /\
  (forall r, In r (rb_rows b') -> In r (rb_rows b) \/ exists p, In p ps /\ pair_const p = false /\ pair_row p r) /\
  Forall2 (factor_id_ok (rb_rows b')) ps is /\ (forall p, In p ps -> exists r, pair_row p r).
Proof.
  induction ps as [|p ps IH]; intros b b' is H; cbn [factor_rows] in H.
  - injection H as <- <-. split; [apply extends_refl|]. split.
    { intros r. split; [auto | intros [Hr|(p & [] & _)]; exact Hr]. }
    split; [auto|]. split; [constructor | intros p []].
  - apply rbind_Ok in H. destruct H as ([b1 i] & H1 & H). apply rbind_Ok in H. destruct H as ([b2 is2] & H2 & H).
    injection H as <- <-. destruct (factor_row_props _ _ _ _ H1) as (Se & Sx & Sf & Sr & Si).
    destruct (IH _ _ _ H2) as (He & Hf & Hr & Hi & Hx).
    split; [eapply extends_trans; eassumption|]. split.
    { intros r. rewrite Hf, Sf. cbn [In]. split.
      - intros [[H|[H3 H4]]|(q & H3 & H4)]; [left; exact H | right; exists p; auto | right; exists q; auto].
      - intros [H|(q & [<-|H3] & H4 & H5)]; [left; left; exact H | left; right; auto | right; exists q; auto]. }
    split.
    { intros r Hin. destruct (Hr r Hin) as [H|(q & H3 & H4)]; [|right; exists q; split; [right; exact H3 | exact H4]].
      destruct (Sr r H) as [H0|H3]; [left; exact H0 | right; exists p; split; [left; reflexivity | exact H3]]. }
    split; [constructor; [apply (factor_id_ok_extends b1 b2 _ _ He Si) | exact Hi]|].
    intros q [<-|Hq]; [exact Sx | apply Hx; exact Hq].
Qed.

Lemma factor_constraints_props aggs : forall i b b' ids, factor_constraints net col i aggs b = Ok (b', ids) ->
  extends b b' /\
  (forall r, In r (rb_fixed b') <-> In r (rb_fixed b) \/
     exists a ps p, In a aggs /\ const_factor_pairs a = Some (Ok ps) /\ In p ps /\ pair_const p = true /\ pair_row p r) /\
  (forall r, In r (rb_rows b') -> In r (rb_rows b) \/
     exists a ps p, In a aggs /\ const_factor_pairs a = Some (Ok ps) /\ In p ps /\ pair_const p = false /\ pair_row p r) /\
  (forall fi, In fi ids -> exists k a ps, fst fi = i + k /\ nth_error aggs k = Some a /\
     const_factor_pairs a = Some (Ok ps) /\ Forall2 (factor_id_ok (rb_rows b')) ps (snd fi)) /\
  (forall k a ps, nth_error aggs k = Some a -> const_factor_pairs a = Some (Ok ps) ->
     (exists is, In (i + k, is) ids) /\ (forall p, In p ps -> exists r, pair_row p r)) /\
  NoDup (map fst ids).
Proof.
  induction aggs as [|a aggs IH]; intros i b b' ids H; cbn [factor_constraints] in H.
  - injection H as <- <-. split; [apply extends_refl|]. split.
    { intros r. split; [auto | intros [Hr|(a & ps & p & [] & _)]; exact Hr]. }
    split; [auto|]. split; [intros fi []|]. split; [intros [|k] a ps Hc; discriminate | constructor].
  - destruct (const_factor_pairs a) as [[ps| |]|] eqn:Ea; [| |discriminate|].
    2:{ destruct (IH _ _ _ _ H) as (He & Hf & Hr & Hi & Hx & Hnd). split; [exact He|]. split.
        { intros r. rewrite Hf. split.
          - intros [H0|(a' & ps & p & H1 & H2)]; [left; exact H0 | right; exists a', ps, p; split; [right; exact H1 | exact H2]].
          - intros [H0|(a' & ps & p & [<-|H1] & H2)]; [left; exact H0 | destruct H2; congruence | right; exists a', ps, p; auto]. }
        split.
        { intros r Hin. destruct (Hr r Hin) as [H0|(a' & ps & p & H1 & H2)]; [left; exact H0 | right; exists a', ps, p; split; [right; exact H1 | exact H2]]. }
        split.
        { intros fi Hin. destruct (Hi fi Hin) as (k & a' & ps & H1 & H2). exists (S k), a', ps. split; [lia | exact H2]. }
        split; [|exact Hnd].
        intros [|k] a' ps Hn Hc; cbn in Hn; [congruence|]. destruct (Hx k a' ps Hn Hc) as ((is & His) & H2).
        split; [exists is; replace (i + S k) with (S i + k) by lia; exact His | exact H2]. }
    2:{ destruct (IH _ _ _ _ H) as (He & Hf & Hr & Hi & Hx & Hnd). split; [exact He|]. split.
        { intros r. rewrite Hf. split.
          - intros [H0|(a' & ps & p & H1 & H2)]; [left; exact H0 | right; exists a', ps, p; split; [right; exact H1 | exact H2]].
          - intros [H0|(a' & ps & p & [<-|H1] & H2)]; [left; exact H0 | destruct H2; congruence | right; exists a', ps, p; auto]. }
        split.
        { intros r Hin. destruct (Hr r Hin) as [H0|(a' & ps & p & H1 & H2)]; [left; exact H0 | right; exists a', ps, p; split; [right; exact H1 | exact H2]]. }
        split.
        { intros fi Hin. destruct (Hi fi Hin) as (k & a' & ps & H1 & H2). exists (S k), a', ps. split; [lia | exact H2]. }
        split; [|exact Hnd].
        intros [|k] a' ps Hn Hc; cbn in Hn; [congruence|]. destruct (Hx k a' ps Hn Hc) as ((is & His) & H2).
        split; [exists is; replace (i + S k) with (S i + k) by lia; exact His | exact H2]. }
    apply rbind_Ok in H. destruct H as ([b1 is1] & H1 & H). apply rbind_Ok in H. destruct H as ([b2 ids2] & H2 & H).
    injection H as <- <-. destruct (factor_rows_props _ _ _ _ H1) as (Se & Sf & Sr & Si & Sx).
    destruct (IH _ _ _ _ H2) as (He & Hf & Hr & Hi & Hx & Hnd).
    split; [eapply extends_trans; eassumption|]. split.
    { intros r. rewrite Hf, Sf. split.
      - intros [[H|(p & H3)]|(a' & ps' & p & H3 & H4)]; [left; exact H | right; exists a, ps, p; split; [left; reflexivity|]; split; [exact Ea | exact H3] |
          right; exists a', ps', p; split; [right; exact H3 | exact H4]].
      - intros [H|(a' & ps' & p & [<-|H3] & H4 & H5)]; [left; left; exact H | | right; exists a', ps', p; auto].
        left. right. exists p. rewrite Ea in H4. injection H4 as <-. exact H5. }
    split.
    { intros r Hin. destruct (Hr r Hin) as [H|(a' & ps' & p & H3 & H4)]; [|right; exists a', ps', p; split; [right; exact H3 | exact H4]].
      destruct (Sr r H) as [H0|(p & H3)]; [left; exact H0|]. right. exists a, ps, p. split; [left; reflexivity|]. split; [exact Ea | exact H3]. }
    split.
    { intros fi [<-|Hin]; cbn [fst snd].
      - exists 0, a, ps. split; [lia|]. split; [reflexivity|]. split; [exact Ea|].
        revert Si. apply Forall2_impl'. intros p q _ _. apply (factor_id_ok_extends b1 b2 _ _ He).
      - destruct (Hi fi Hin) as (k & a' & ps' & H3 & H4). exists (S k), a', ps'. split; [lia | exact H4]. }
    split.
    { intros [|k] a' ps' Hn Hc; cbn in Hn.
      - injection Hn as <-. rewrite Ea in Hc. injection Hc as <-. split; [|exact Sx].
        exists is1. left. rewrite Nat.add_0_r. reflexivity.
      - destruct (Hx k a' ps' Hn Hc) as ((is & His) & H3). split; [|exact H3].
        exists is. right. replace (i + S k) with (S i + k) by lia. exact His. }
    cbn [map fst]. constructor; [|exact Hnd]. intros Hin. apply in_map_iff in Hin. destruct Hin as (fi & Hfi & Hin).
    destruct (Hi fi Hin) as (k & _ & _ & H3 & _). lia.
Qed.

(** Exclusivity rows. *)
Definition exclusive_row (base : nat) (order : list (list nat)) (a : agg_node) (r : row) : Prop :=
  exists mn mx cols, a_rel a = Some (RExclusive mn mx) /\ exclusivity_cols base order (a_nodes a) [] = Ok cols /\
    r = mkRow (inject_Z (Z.of_nat mn)) (Some (inject_Z (Z.of_nat mx))) cols.
Lemma exclusivity_props base order aggs : forall b b', exclusivity_constraints base order aggs b = Ok b' ->
  rb_rows b' = rb_rows b /\ extends b b' /\
  (forall r, In r (rb_fixed b') <-> In r (rb_fixed b) \/ exists a, In a aggs /\ exclusive_row base order a r) /\
  (forall a, In a aggs -> has_exclusivity a = true -> exists r, exclusive_row base order a r).
Proof.
  induction aggs as [|a aggs IH]; intros b b' H; cbn [exclusivity_constraints] in H.
  - injection H as <-. split; [reflexivity|]. split; [apply extends_refl|]. split; [|intros a []].
    intros r. split; [auto | intros [Hr|(a & [] & _)]; exact Hr].
  - assert (Hskip : has_exclusivity a = false -> exclusivity_constraints base order aggs b = Ok b' ->
              rb_rows b' = rb_rows b /\ extends b b' /\
              (forall r, In r (rb_fixed b') <-> In r (rb_fixed b) \/ exists a0, In a0 (a :: aggs) /\ exclusive_row base order a0 r) /\
              (forall a0, In a0 (a :: aggs) -> has_exclusivity a0 = true -> exists r, exclusive_row base order a0 r)).
    { intros Hno H0. destruct (IH _ _ H0) as (Hr & He & Hf & Hx). split; [exact Hr|]. split; [exact He|]. split.
      - intros r. rewrite Hf. split.
        + intros [H1|(a' & H1 & H2)]; [left; exact H1 | right; exists a'; split; [right; exact H1 | exact H2]].
        + intros [H1|(a' & [<-|H1] & H2)]; [left; exact H1 | | right; exists a'; auto].
          destruct H2 as (mn & mx & cols & H2 & _). unfold has_exclusivity in Hno. rewrite H2 in Hno. discriminate.
      - intros a' [<-|Ha] He'; [congruence | apply Hx; assumption]. }
    unfold has_exclusivity in Hskip at 1.
    destruct (a_rel a) as [[f|mn mx]|] eqn:Ea; try (apply Hskip; [reflexivity | exact H]).
    apply rbind_Ok in H. destruct H as (cols & Hc & H). destruct (IH _ _ H) as (Hr & He & Hf & Hx).
    split; [exact Hr|]. split; [eapply extends_trans; [apply add_fixed_extends | exact He]|].
    assert (Hrow : exclusive_row base order a (mkRow (inject_Z (Z.of_nat mn)) (Some (inject_Z (Z.of_nat mx))) cols))
      by (exists mn, mx, cols; auto).
    split.
    + intros r. rewrite Hf. cbn [add_fixed_row rb_fixed]. rewrite in_app_iff. cbn [In]. split.
      * intros [[H1|[<-|[]]]|(a' & H1 & H2)]; [left; exact H1 | right; exists a; auto | right; exists a'; auto].
      * intros [H1|(a' & [<-|H1] & H2)]; [left; left; exact H1 | | right; exists a'; auto].
        left; right; left. destruct H2 as (mn' & mx' & cols' & H2 & H3 & ->). rewrite Ea in H2. injection H2 as <- <-.
        rewrite Hc in H3. injection H3 as <-. reflexivity.
    + intros a' [<-|Ha] He'; [eauto | apply Hx; assumption].
Qed.

(** ** Everything [create] makes *)
Record created (order : list (list nat)) (b : built) (V F : list row) : Prop := {
  cr_fmax : lp_fmax (bt_lp b) = fm;
  cr_cols : lp_cols (bt_lp b) = repeat (mkCol 0 fm ColContinuous) (cm_ncols (edge_columns net)) ++
                                repeat (mkCol 0 1 ColInteger) (length order);
  cr_obj : length (lp_obj (bt_lp b)) = length (lp_cols (bt_lp b));
  cr_rows : lp_rows (bt_lp b) = map (finish_row fm true) V ++ map (finish_row fm false) F;
  cr_fixed : forall r, In r F <->
      is_balance_row (net_nodes net) r \/
      (exists k n, nth_error (net_nodes net) k = Some n /\
                   const_node_row (node_bin_cols (cm_ncols (edge_columns net)) order k) n r) \/
      (exists a ps p, In a (net_aggs net) /\ const_factor_pairs a = Some (Ok ps) /\ In p ps /\
                      pair_const p = true /\ pair_row p r) \/
      (exists a, In a (net_aggs net) /\ exclusive_row (cm_ncols (edge_columns net)) order a r);
  cr_nodes : forall nr, In nr (bt_nodes b) -> exists n, nth_error (net_nodes net) (nr_node nr) = Some n /\
      node_ids_ok (node_bin_cols (cm_ncols (edge_columns net)) order (nr_node nr)) n (nr_node nr) nr /\
      row_at V (nr_row nr) (expected_node_row n (nr_type nr));
  cr_nodes_all : forall k n, nth_error (net_nodes net) k = Some n -> get_const_bounds n = None ->
     (node_bin_cols (cm_ncols (edge_columns net)) order k = [] -> exists r, In (mkNr r k RContinuous) (bt_nodes b)) /\
     forall c, In c (node_bin_cols (cm_ncols (edge_columns net)) order k) ->
     (exists r, In (mkNr r k (RBinaryUpper c)) (bt_nodes b)) /\ (exists r, In (mkNr r k (RBinaryLower c)) (bt_nodes b));
  cr_aggs : Forall2 (fun i a => exists r, agg_row a r /\ row_at V i r) (bt_aggs b) (net_aggs net);
  cr_factors : forall fi, In fi (bt_factors b) -> exists a ps, nth_error (net_aggs net) (fst fi) = Some a /\
     const_factor_pairs a = Some (Ok ps) /\ Forall2 (factor_id_ok V) ps (snd fi);
  cr_factors_all : forall k a ps, nth_error (net_aggs net) k = Some a -> const_factor_pairs a = Some (Ok ps) ->
     (exists is, In (k, is) (bt_factors b)) /\ (forall p, In p ps -> exists r, pair_row p r);
  cr_factors_nodup : NoDup (map fst (bt_factors b));
  cr_vss : Forall2 (fun i v => exists r, vs_row v r /\ row_at V i r) (bt_vss b) (net_vss net);
  cr_excl : forall a, In a (net_aggs net) -> has_exclusivity a = true ->
     exists r, exclusive_row (cm_ncols (edge_columns net)) order a r;
  cr_V : forall r, In r V ->
      (exists nr n, In nr (bt_nodes b) /\ nth_error (net_nodes net) (nr_node nr) = Some n /\
                    r = expected_node_row n (nr_type nr)) \/
      (exists a, In a (net_aggs net) /\ agg_row a r) \/
      (exists a ps p, In a (net_aggs net) /\ const_factor_pairs a = Some (Ok ps) /\ In p ps /\
                      pair_const p = false /\ pair_row p r) \/
      (exists v, In v (net_vss net) /\ vs_row v r) }.

Lemma create_props order b : create fm order net = Ok b -> exists V F, created order b V F.
Proof.
  unfold create. destruct (length (net_edges net) <? 1); [discriminate|].
  fold col. set (base := cm_ncols (edge_columns net)). unfold lift_panic.
  destruct (rbind _ _) as [b0| |] eqn:E; intros H; try discriminate. injection H as <-.
  apply rbind_Ok in E. destruct E as (b1 & H1 & E).
  destruct (node_constraints col fm (node_bin_cols base order) 0 (net_nodes net) b1) as [b2 nids] eqn:H2.
  apply rbind_Ok in E. destruct E as ([b3 aids] & H3 & E).
  apply rbind_Ok in E. destruct E as ([b4 fids] & H4 & E).
  apply rbind_Ok in E. destruct E as ([b5 vids] & H5 & E).
  apply rbind_Ok in E. destruct E as (b6 & H6 & E). injection E as <-.
  destruct (mass_balance_props _ _ _ H1) as (R1 & X1 & F1).
  destruct (node_constraints_props _ _ _ _ _ _ H2) as (X2 & F2 & I2 & R2 & A2).
  destruct (agg_constraints_props _ _ _ _ H3) as (X3 & F3 & I3 & R3).
  destruct (factor_constraints_props _ _ _ _ _ H4) as (X4 & F4 & R4 & I4 & A4 & N4).
  destruct (vs_constraints_props _ _ _ _ H5) as (X5 & F5 & I5 & R5).
  destruct (exclusivity_props _ _ _ _ _ H6) as (R6 & X6 & F6 & A6).
  exists (rb_rows b6), (rb_fixed b6).
  assert (X56 := X6). assert (X46 := extends_trans _ _ _ X5 X56). assert (X36 := extends_trans _ _ _ X4 X46).
  assert (X26 := extends_trans _ _ _ X3 X36).
  constructor; cbn [bt_lp bt_nodes bt_aggs bt_factors bt_vss lp_fmax lp_cols lp_obj lp_rows].
  - reflexivity.
  - reflexivity.
  - apply repeat_length.
  - reflexivity.
  - intros r. rewrite F6, F5, F4, F3, F2, F1. cbn [rb_fixed In]. unfold base. tauto.
  - intros nr Hin. destruct (I2 nr Hin) as (k & n & Hk & Hok & Hat). cbn [Nat.add] in Hok.
    assert (Hnr : nr_node nr = k) by (destruct Hok as [H _]; exact H). rewrite Hnr.
    exists n. split; [exact Hk|]. split; [exact Hok | apply (row_at_extends b2 b6 _ _ X26 Hat)].
  - intros k n Hk Hc. exact (A2 k n Hk Hc).
  - revert I3. apply Forall2_impl'. intros i a _ _ (r & Hr & Hat). exists r. split; [exact Hr | apply (row_at_extends b3 b6 _ _ X36 Hat)].
  - intros fi Hin. destruct (I4 fi Hin) as (k & a & ps & Hk & Ha & Hc & Hf). cbn [Nat.add] in Hk. rewrite Hk.
    exists a, ps. split; [exact Ha|]. split; [exact Hc|]. revert Hf. apply Forall2_impl'. intros p q _ _.
    apply (factor_id_ok_extends b4 b6 _ _ X46).
  - intros k a ps Hk Hc. exact (A4 k a ps Hk Hc).
  - exact N4.
  - revert I5. apply Forall2_impl'. intros i a _ _ (r & Hr & Hat). exists r. split; [exact Hr | apply (row_at_extends b5 b6 _ _ X56 Hat)].
  - exact A6.
  - intros r Hin. rewrite R6 in Hin. destruct (R5 r Hin) as [H|H]; [|right; right; right; exact H].
    destruct (R4 r H) as [H'|H']; [|right; right; left; exact H'].
    destruct (R3 r H') as [H''|H'']; [|right; left; exact H''].
    destruct (R2 r H'') as [H7|(k & n & nr & Hk & Hin' & Hnr & ->)].
    + rewrite R1 in H7. destruct H7.
    + left. exists nr, n. cbn [Nat.add] in Hnr. rewrite Hnr. auto.
Qed.
End Steps.
