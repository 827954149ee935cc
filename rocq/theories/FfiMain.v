(** Lemmas for C79: whole runs, and the problem the calls leave in the library. *)
From Verif Require Import NetworkBuildLemmas.
From Verif Require Import Base Calendar Network NetworkBuild NetworkSpec Lp LpSpec LpColLemmas LpRowLemmas LpUpdateLemmas LpLemmas LpDynLemmas.
From Verif Require Import Backends BackendsSpec BackendsLemmas Ffi FfiSpec FfiLemmas.
Open Scope nat_scope.

(** ** Whole runs *)
Section Run.
Variable net : network.
Hypothesis wf : wf_network net.
Variable fm : Q.
Variable order : list (list nat).
Variable b0 : built.
Variables V F : list row.
Hypothesis Hcr : created net fm order b0 V F.
Let cols := lp_cols (bt_lp b0).
Let nc := length cols.
Let nr := length (lp_rows (bt_lp b0)).

Lemma update_shape s a fm0 obj rows ups : a = arr_of fm0 cols obj rows ups -> length obj = nc -> Forall (row_ok nc) rows -> length rows = nr ->
  forall a', update_arrays net b0 s a = Ok a' -> exists obj' rows' ups', a' = arr_of fm0 cols obj' rows' ups' /\
    length obj' = nc /\ Forall (row_ok nc) rows' /\ length rows' = nr /\ Forall (up_ok nc nr) ups'.
Proof.
  intros -> Hobj Hrows Hlen a' H. rewrite update_arr_of in H. unfold ures in H. apply rbind_Ok in H. destruct H as (ops & Ho & H). injection H as <-.
  exists (update_edge_objectives net (st_env s) obj), (fold_left apply_bound ops (map (reset_row fm0) rows)), (coef_list ops).
  split; [reflexivity|]. split; [rewrite objectives_length; exact Hobj|].
  assert (Hc : map l_cols (fold_left apply_bound ops (map (reset_row fm0) rows)) = map l_cols rows) by apply cols_bounds.
  split; [|split].
  - rewrite Forall_forall in *. intros r Hr. assert (Hin : In (l_cols r) (map l_cols rows)) by (rewrite <- Hc; apply in_map; exact Hr).
    apply in_map_iff in Hin. destruct Hin as (r0 & E & Hr0). unfold row_ok. rewrite <- E. apply (Hrows r0 Hr0).
  - rewrite <- (map_length l_cols), Hc, map_length. exact Hlen.
  - apply (ups_ok net wf fm order b0 V F Hcr s ops Ho).
Qed.

Lemma cols_nonempty : 0 < length (net_edges net) -> 0 < nc.
Proof. intros H. destruct (edge_column_exists net wf 0 H) as [_ Hlt]. unfold nc, cols. rewrite (nc_eq _ _ _ _ _ _ Hcr). lia. Qed.

Lemma step_safe k obj rows ups r1 r2 p : k <> Microlp -> 0 < nc -> length obj = nc -> Forall (row_ok nc) rows -> length rows = nr ->
  Forall (up_ok nc nr) ups -> size p nc nr -> let a := arr_of fm cols obj rows ups in
  safe (send_calls k a) (Some p) /\ exists q, calls_on (send_calls k a) (Some p) = Some q /\ size q nc nr /\
  safe (fst (run_calls k a r1 r2)) (Some q) /\ calls_on (fst (run_calls k a r1 r2)) (Some q) = Some q.
Proof.
  intros Hk Hn Hobj Hrows Hlen Hups Hp a. rewrite <- Hlen in *. destruct k; [| | |congruence]; cbn [send_calls run_calls].
  - destruct (highs_send_safe fm cols obj rows ups Hobj Hups p Hn Hp) as [H1 (q & H2 & H3)]. split; [exact H1|]. exists q. split; [exact H2|]. split; [exact H3|].
    apply (highs_run_safe fm cols obj rows ups r1 r2 q H3).
  - destruct (clp_send_safe fm cols obj rows ups Hobj Hups p Hp) as [H1 (q & H2 & H3)]. split; [exact H1|]. exists q. split; [exact H2|]. split; [exact H3|].
    apply (clp_run_safe fm cols obj rows ups r1 q H3).
  - destruct (cbc_send_safe fm cols obj rows ups Hobj p Hp) as [H1 (q & H2 & H3)]. split; [exact H1|]. exists q. split; [exact H2|]. split; [exact H3|].
    apply (cbc_run_safe fm cols obj rows ups r1 q H3).
Qed.

Lemma steps_safe k : k <> Microlp -> 0 < nc -> forall ss obj rows ups p, length obj = nc -> Forall (row_ok nc) rows -> length rows = nr -> size p nc nr ->
  safe (steps_calls k net b0 ss (arr_of fm cols obj rows ups)) (Some p) /\
  exists q, calls_on (steps_calls k net b0 ss (arr_of fm cols obj rows ups)) (Some p) = Some q.
Proof.
  intros Hk Hn. induction ss as [|s ss IH]; intros obj rows ups p Hobj Hrows Hlen Hp; cbn [steps_calls]; [split; [exact I|]; exists p; reflexivity|].
  destruct (update_arrays net b0 (sp_state s) (arr_of fm cols obj rows ups)) as [a'| |] eqn:E; [|split; [exact I|]; exists p; reflexivity..].
  destruct (update_shape _ _ _ _ _ _ eq_refl Hobj Hrows Hlen a' E) as (obj' & rows' & ups' & -> & Ho' & Hr' & Hl' & Hu').
  destruct (step_safe k obj' rows' ups' (sp_first s) (sp_second s) p Hk Hn Ho' Hr' Hl' Hu' Hp) as [S1 (q & Eq & Sq & S2 & Eq2)].
  destruct (run_calls k (arr_of fm cols obj' rows' ups') (sp_first s) (sp_second s)) as [cs go]. cbn [fst] in S2, Eq2.
  rewrite !safe_app, !calls_app, Eq, Eq2.
  destruct go; [destruct (IH obj' rows' ups' q Ho' Hr' Hl' Sq) as [S3 S4]; tauto|].
  split; [split; [exact S1|]; split; [exact S2 | exact I]|]. exists q. reflexivity.
Qed.

Lemma setup_safe k obj : k <> Microlp -> length obj = nc -> exists cs, setup_calls k (arr_of fm cols obj (lp_rows (bt_lp b0)) []) = Ok cs /\
  safe cs None /\ exists p, calls_on cs None = Some p /\ size p nc nr.
Proof.
  intros Hk Hobj. pose proof (created_rows_ok net wf fm order b0 V F Hcr) as Hrows. destruct k; [| | |congruence]; cbn [setup_calls].
  - eexists. split; [reflexivity|]. apply (highs_setup_safe fm cols obj (lp_rows (bt_lp b0)) [] Hobj Hrows).
  - eexists. split; [reflexivity|]. apply (clp_setup_safe fm cols obj (lp_rows (bt_lp b0)) [] Hobj Hrows).
  - apply (cbc_setup_safe fm cols obj (lp_rows (bt_lp b0)) [] Hobj Hrows).
Qed.
End Run.

(** ** The problem the calls leave *)
Definition ordinary (c : call) : Prop := match c with Create | Delete => False | _ => True end.
Lemma calls_map {A} (f : A -> call) (g : A -> problem -> problem) l : (forall x, In x l -> ordinary (f x) /\ forall p, effect (f x) p = g x p) ->
  forall p, calls_on (map f l) (Some p) = Some (fold_left (fun q x => g x q) l p).
Proof.
  induction l as [|x l IH]; intros H p; [reflexivity|]. cbn [map]. destruct (H x (or_introl eq_refl)) as [H1 H2].
  change (calls_on (f x :: map f l) (Some p)) with (calls_on (map f l) (call_on (Some p) (f x))).
  assert (call_on (Some p) (f x) = Some (g x p)) as -> by (rewrite <- H2; destruct (f x); try destruct H1; reflexivity).
  cbn [fold_left]. apply IH. intros y Hy. apply H. right. exact Hy.
Qed.

Lemma each_col_nth p f i : nth_error (pb_cols (each_col p f)) i = option_map (f i) (nth_error (pb_cols p) i).
Proof.
  unfold each_col. cbn [pb_cols]. rewrite nth_error_map. destruct (nth_error (pb_cols p) i) as [c|] eqn:E.
  - pose proof (nth_error_Some_lt _ _ _ E) as Hi. rewrite (nth_combine (seq 0 (length (pb_cols p))) (pb_cols p) i i c); [reflexivity | apply nth_seq; exact Hi | exact E].
  - assert (nth_error (combine (seq 0 (length (pb_cols p))) (pb_cols p)) i = None) as ->; [|reflexivity].
    apply nth_error_None. rewrite combine_length, seq_length. apply nth_error_None in E. lia.
Qed.
Lemma change_costs_nth p o i : nth_error (pb_cols (change_costs p o)) i = option_map (set_cost (at_ o i)) (nth_error (pb_cols p) i).
Proof. change (change_costs p o) with (each_col p (fun i c => set_cost (at_ o i) c)). apply each_col_nth. Qed.
Lemma change_rows_nth p f i : nth_error (pb_rows (change_rows p f)) i = option_map (f i) (nth_error (pb_rows p) i).
Proof.
  unfold change_rows. cbn [pb_rows]. rewrite nth_error_map. destruct (nth_error (pb_rows p) i) as [c|] eqn:E.
  - pose proof (nth_error_Some_lt _ _ _ E) as Hi. rewrite (nth_combine (seq 0 (length (pb_rows p))) (pb_rows p) i i c); [reflexivity | apply nth_seq; exact Hi | exact E].
  - assert (nth_error (combine (seq 0 (length (pb_rows p))) (pb_rows p)) i = None) as ->; [|reflexivity].
    apply nth_error_None. rewrite combine_length, seq_length. apply nth_error_None in E. lia.
Qed.
Lemma problem_ext p q : (forall i, nth_error (pb_cols p) i = nth_error (pb_cols q) i) -> (forall i, nth_error (pb_rows p) i = nth_error (pb_rows q) i) -> p = q.
Proof. intros H1 H2. destruct p, q. cbn in *. f_equal; apply nth_error_ext'; assumption. Qed.

(** Setting every place of a list, one after the other. *)
Lemma upd_numbered {A} (f : Q -> A -> A) vs : forall k l i,
  nth_error (fold_left (fun l iv => upd (fst iv) (f (snd iv)) l) (combine (seq k (length vs)) vs) l) i =
  match nth_error l i with
  | Some x => Some (if k <=? i then match nth_error vs (i - k) with Some v => f v x | None => x end else x)
  | None => None
  end.
Proof.
  induction vs as [|v vs IH]; intros k l i; cbn [length seq combine fold_left].
  - destruct (nth_error l i) as [x|]; [|reflexivity]. destruct (k <=? i); [destruct (i - k)|]; reflexivity.
  - rewrite IH, nth_error_upd. cbn [fst snd].
    destruct (Nat.lt_trichotomy i k) as [Hlt|[-> |Hgt]].
    + assert ((i =? k) = false) as -> by (apply Nat.eqb_neq; lia).
      destruct (nth_error l i) as [x|]; [|reflexivity].
      assert ((S k <=? i) = false) as -> by (apply Nat.leb_gt; lia). assert ((k <=? i) = false) as -> by (apply Nat.leb_gt; lia). reflexivity.
    + rewrite Nat.eqb_refl, Nat.leb_refl, Nat.sub_diag. assert ((S k <=? k) = false) as -> by (apply Nat.leb_gt; lia).
      destruct (nth_error l k); reflexivity.
    + assert ((i =? k) = false) as -> by (apply Nat.eqb_neq; lia).
      assert ((S k <=? i) = true) as -> by (apply Nat.leb_le; lia). assert ((k <=? i) = true) as -> by (apply Nat.leb_le; lia).
      replace (i - k) with (S (i - S k)) by lia. reflexivity.
Qed.

Section Problem.
Variables (fm : Q) (cols : list column) (obj : list Q) (rows : list lrow) (ups : list (nat * nat * Q)).
Let nc := length cols.
Let nr := length rows.
Hypothesis Hobj : length obj = nc.
Let a := arr_of fm cols obj rows ups.
Lemma La_cl : length (ar_col_lower a) = nc. Proof. apply map_length. Qed.
Lemma La_cu : length (ar_col_upper a) = nc. Proof. apply map_length. Qed.
Lemma La_lo : length (ar_lower a) = nr. Proof. apply map_length. Qed.
Lemma La_up : length (ar_upper a) = nr. Proof. apply map_length. Qed.
Lemma La_ob : length (ar_obj a) = nc. Proof. exact Hobj. Qed.

Lemma highs_setup_problem : calls_on (highs_setup_calls a) None = Some (highs_setup a).
Proof.
  unfold highs_setup_calls, highs_setup. set (c1 := H_addCols _ _ _ _). set (ints := map _ _). set (c2 := H_addRows _ _ _ _ _ _ _).
  change (calls_on (Create :: c1 :: ints ++ [c2]) None) with (calls_on (ints ++ [c2]) (Some (effect c1 (mkPb [] [])))).
  rewrite calls_app. unfold ints.
  rewrite (calls_map _ (fun it q => mkPb (upd (fst it) (fun c => mkPc (pc_lower c) (pc_upper c) (pc_obj c) (is_int (snd it))) (pb_cols q)) (pb_rows q)));
    [reflexivity|]. intros [i t] _. split; [exact I | reflexivity].
Qed.
Lemma clp_setup_problem : calls_on (clp_setup_calls a) None = Some (clp_setup a).
Proof.
  unfold clp_setup_calls, clp_setup. set (n := length (ar_col_upper a)).
  set (p1 := effect (C_resize 0 n) (mkPb [] [])). set (p4 := effect (C_chgObjCoefficients (ar_obj a)) (effect (C_chgColumnUpper (ar_col_upper a)) (effect (C_chgColumnLower (ar_col_lower a)) p1))).
  change (calls_on _ None) with (Some (clp_add_rows a p4)). f_equal. f_equal. apply problem_ext; [|reflexivity].
  intros i. unfold p4. cbn [effect]. rewrite !each_col_nth, change_costs_nth. unfold p1. cbn [effect pb_cols app length]. rewrite Nat.sub_0_r, nth_error_map, nth_error_seq.
  destruct (i <? n) eqn:E.
  - apply Nat.ltb_lt in E. assert (nth_error (repeat (mkPc 0 0 0 false) n) i = Some (mkPc 0 0 0 false)) as ->; [|reflexivity].
    destruct (nth_error (repeat (mkPc 0 0 0 false) n) i) as [c|] eqn:En; [|apply nth_error_None in En; rewrite repeat_length in En; lia].
    apply nth_error_In, repeat_spec in En. congruence.
  - apply Nat.ltb_ge in E. assert (nth_error (repeat (mkPc 0 0 0 false) n) i = None) as ->; [|reflexivity].
    apply nth_error_None. rewrite repeat_length. exact E.
Qed.
Lemma cbc_col_calls cs : rmap (cbc_col_call a) (seq 0 nc) = Ok cs ->
  cs = map (fun i => B_addCol (at_ (ar_col_lower a) i) (at_ (ar_col_upper a) i) (at_ (ar_obj a) i) (is_int (nth i (ar_col_type a) ColContinuous))) (seq 0 nc).
Proof.
  intros H. apply rmap_Ok_Forall2 in H. remember (seq 0 nc) as l eqn:El. clear El. induction H as [|i c l cs Hc H IH]; [reflexivity|]. cbn [map]. rewrite <- IH. f_equal.
  unfold cbc_col_call in Hc. destruct (nth_error (ar_col_lower a) i) eqn:E1; [|discriminate]. destruct (nth_error (ar_col_upper a) i) eqn:E2; [|discriminate].
  destruct (nth_error (ar_col_type a) i) eqn:E3; [|discriminate]. destruct (nth_error (ar_obj a) i) eqn:E4; [|discriminate]. injection Hc as <-.
  unfold at_. rewrite (nth_error_nth _ _ 0%Q E1), (nth_error_nth _ _ 0%Q E2), (nth_error_nth _ _ ColContinuous E3), (nth_error_nth _ _ 0%Q E4). reflexivity.
Qed.
Lemma upd_last {A} (f : A -> A) l x : upd (length l) f (l ++ [x]) = l ++ [f x].
Proof. induction l as [|y l IH]; cbn; [reflexivity|]. rewrite IH. reflexivity. Qed.
Lemma cbc_row_problem i cs p : cbc_row_calls a i = Ok cs -> length (pb_rows p) = i -> calls_on cs (Some p) = Some (cbc_add_row a p i).
Proof.
  unfold cbc_row_calls. intros H Hp. destruct (nth_error (ar_starts a) i) as [st|] eqn:E1; [|discriminate]. destruct (nth_error (ar_starts a) (S i)) as [en|] eqn:E2; [|discriminate].
  unfold checked_slice in H. destruct ((st <=? en) && (en <=? length (ar_columns a))) eqn:Ec; [|discriminate]. cbn [rbind] in H.
  destruct ((st <=? en) && (en <=? length (ar_elements a))) eqn:Ee; [|discriminate]. cbn [rbind] in H.
  destruct (nth_error (ar_upper a) i) as [u|] eqn:E3; [|discriminate]. destruct (nth_error (ar_lower a) i) as [l|] eqn:E4; [|discriminate]. injection H as <-.
  unfold calls_on. cbn [fold_left call_on option_map effect pb_cols pb_rows]. unfold cbc_add_row. f_equal. f_equal.
  rewrite <- Hp, !upd_last. cbn [set_upper set_lower pr_lower pr_upper pr_cols]. rewrite Hp. f_equal. f_equal. unfold set_lower, set_upper. cbn [pr_lower pr_upper pr_cols].
  unfold at_, row_entries. rewrite (nth_error_nth _ _ 0 E1), (nth_error_nth _ _ 0 E2), (nth_error_nth _ _ 0%Q E3), (nth_error_nth _ _ 0%Q E4).
  rewrite !firstn_all2; [reflexivity| |]; unfold slice; rewrite firstn_length; lia.
Qed.
Lemma cbc_rows_problem n : forall k css p, rmap (cbc_row_calls a) (seq k n) = Ok css -> length (pb_rows p) = k ->
  calls_on (concat css) (Some p) = Some (fold_left (cbc_add_row a) (seq k n) p).
Proof.
  induction n as [|n IH]; intros k css p H Hp; cbn [seq rmap] in H; [injection H as <-; reflexivity|].
  apply rbind_Ok in H. destruct H as (cs & H1 & H). apply rbind_Ok in H. destruct H as (css' & H2 & H). injection H as <-.
  cbn [concat seq fold_left]. rewrite calls_app, (cbc_row_problem k cs p H1 Hp). apply IH; [exact H2|].
  unfold cbc_add_row. cbn [pb_rows]. rewrite app_length, Hp. cbn. lia.
Qed.
Lemma cbc_setup_problem cs : cbc_setup_calls a = Ok cs -> calls_on cs None = Some (cbc_setup a).
Proof.
  unfold cbc_setup_calls, cbc_setup. intros H. apply rbind_Ok in H. destruct H as (ccs & H1 & H). apply rbind_Ok in H. destruct H as (css & H2 & H). injection H as <-.
  change (calls_on (Create :: ccs ++ concat css) None) with (calls_on (ccs ++ concat css) (Some (mkPb [] []))). rewrite calls_app.
  rewrite La_cl in H1. apply cbc_col_calls in H1. subst ccs.
  rewrite La_cl.
  assert (G : forall l p, calls_on (map (fun i => B_addCol (at_ (ar_col_lower a) i) (at_ (ar_col_upper a) i) (at_ (ar_obj a) i) (is_int (nth i (ar_col_type a) ColContinuous))) l) (Some p) =
     Some (mkPb (pb_cols p ++ map (fun i => mkPc (at_ (ar_col_lower a) i) (at_ (ar_col_upper a) i) (at_ (ar_obj a) i) (is_int (nth i (ar_col_type a) ColContinuous))) l) (pb_rows p))).
  { induction l as [|i l IH]; intros p; [destruct p; cbn; rewrite app_nil_r; reflexivity|]. cbn [map].
    change (calls_on (?c :: ?r) (Some p)) with (calls_on r (Some (effect c p))). rewrite IH. cbn [effect pb_cols pb_rows]. rewrite <- app_assoc. reflexivity. }
  rewrite G. apply cbc_rows_problem; [exact H2 | reflexivity].
Qed.

Lemma each_col_costs p : length (pb_cols p) = nc ->
  effect (H_changeColsCostByRange 0 (Z.of_nat (length (ar_col_upper a)) - 1) (ar_obj a)) p = change_costs p (ar_obj a).
Proof.
  intros Hp. apply problem_ext; [|reflexivity]. intros i. cbn [effect]. rewrite each_col_nth, change_costs_nth.
  destruct (nth_error (pb_cols p) i) as [c|] eqn:E; [|reflexivity]. cbn [option_map]. apply nth_error_Some_lt in E.
  rewrite La_cu. fold nc.
  assert (((0 <=? Z.of_nat i) && (Z.of_nat i <=? Z.of_nat nc - 1))%Z = true) as -> by (apply andb_true_iff; split; apply Z.leb_le; lia).
  rewrite Nat.sub_0_r. reflexivity.
Qed.
Lemma highs_send_problem p : length (pb_cols p) = nc -> calls_on (highs_send_calls a) (Some p) = Some (highs_send a p).
Proof.
  intros Hp. unfold highs_send_calls, highs_send. set (c1 := H_changeColsCostByRange _ _ _). set (c2 := H_changeRowsBoundsByMask _ _ _).
  match goal with |- calls_on (_ :: _ :: ?l) _ = _ => change (calls_on l (Some (effect c2 (effect c1 p))) = Some (fold_left (fun q u => change_coefficient q (fst (fst u)) (snd (fst u)) (clamp (snd u))) (ar_updates a)
            (highs_change_bounds a (change_costs p (ar_obj a))))) end.
  unfold c1. rewrite (each_col_costs p Hp). unfold c2. cbn [effect].
  rewrite (calls_map _ (fun u q => change_coefficient q (fst (fst u)) (snd (fst u)) (clamp (snd u)))); [reflexivity|].
  intros u _. split; [exact I | reflexivity].
Qed.
Lemma rows_both p : effect (C_chgRowUpper (ar_upper a)) (effect (C_chgRowLower (ar_lower a)) p) =
  change_rows p (fun i r => mkPr (at_ (ar_lower a) i) (at_ (ar_upper a) i) (pr_cols r)).
Proof.
  apply problem_ext; [reflexivity|]. intros i. cbn [effect]. rewrite !change_rows_nth. destruct (nth_error (pb_rows p) i); reflexivity.
Qed.
Lemma clp_send_problem p : calls_on (clp_send_calls a) (Some p) = Some (clp_send a p).
Proof.
  unfold clp_send_calls, clp_send.
  match goal with |- calls_on (?c1 :: ?c2 :: ?c3 :: ?l) _ = _ => change (calls_on (c1 :: c2 :: c3 :: l) (Some p)) with (calls_on l (Some (effect c3 (effect c2 (change_costs p (ar_obj a)))))) end.
  rewrite rows_both. rewrite (calls_map _ (fun u q => change_coefficient q (fst (fst u)) (snd (fst u)) (snd u))); [reflexivity|].
  intros u _. split; [exact I | reflexivity].
Qed.
Lemma fold_cols (f : Q -> pcol -> pcol) l : forall p,
  fold_left (fun q iv => mkPb (upd (fst iv) (f (snd iv)) (pb_cols q)) (pb_rows q)) l p =
  mkPb (fold_left (fun cs iv => upd (fst iv) (f (snd iv)) cs) l (pb_cols p)) (pb_rows p).
Proof. induction l as [|iv l IH]; intros p; cbn [fold_left]; [destruct p; reflexivity|]. rewrite IH. reflexivity. Qed.
Lemma fold_rows (f : Q -> prow -> prow) l : forall p,
  fold_left (fun q iv => mkPb (pb_cols q) (upd (fst iv) (f (snd iv)) (pb_rows q))) l p =
  mkPb (pb_cols p) (fold_left (fun cs iv => upd (fst iv) (f (snd iv)) cs) l (pb_rows p)).
Proof. induction l as [|iv l IH]; intros p; cbn [fold_left]; [destruct p; reflexivity|]. rewrite IH. reflexivity. Qed.
Lemma cbc_send_problem p : size p nc nr -> ar_updates a = [] -> exists q, cbc_send a p = Ok q /\ calls_on (cbc_send_calls a) (Some p) = Some q.
Proof.
  intros [Hp1 Hp2] Hup. unfold cbc_send. rewrite Hup. eexists. split; [reflexivity|]. unfold cbc_send_calls. rewrite !calls_app.
  rewrite (calls_map _ (fun iv q => mkPb (upd (fst iv) (set_cost (snd iv)) (pb_cols q)) (pb_rows q))) by (intros iv _; split; [exact I | reflexivity]).
  rewrite (calls_map _ (fun iv q => mkPb (pb_cols q) (upd (fst iv) (set_lower (snd iv)) (pb_rows q)))) by (intros iv _; split; [exact I | reflexivity]).
  rewrite (calls_map _ (fun iv q => mkPb (pb_cols q) (upd (fst iv) (set_upper (snd iv)) (pb_rows q)))) by (intros iv _; split; [exact I | reflexivity]).
  rewrite fold_cols, !fold_rows. cbn [pb_cols pb_rows]. f_equal. unfold numbered. apply problem_ext; intros i; cbn [pb_cols pb_rows].
  - rewrite upd_numbered. change (pb_cols (change_rows ?q ?f)) with (pb_cols q). rewrite change_costs_nth.
    destruct (nth_error (pb_cols p) i) as [c|] eqn:E; [|reflexivity]. cbn [option_map Nat.leb]. rewrite Nat.sub_0_r. apply nth_error_Some_lt in E.
    destruct (nth_error_lt_Some (ar_obj a) i) as (v & Ev); [rewrite La_ob; lia|]. rewrite Ev.
    unfold at_. rewrite (nth_error_nth _ _ 0%Q Ev). reflexivity.
  - rewrite !upd_numbered, change_rows_nth. change (pb_rows (change_costs p (ar_obj a))) with (pb_rows p).
    destruct (nth_error (pb_rows p) i) as [c|] eqn:E; [|reflexivity]. cbn [option_map Nat.leb]. rewrite Nat.sub_0_r. apply nth_error_Some_lt in E.
    destruct (nth_error_lt_Some (ar_lower a) i) as (v & Ev); [rewrite La_lo; lia|]. rewrite Ev.
    destruct (nth_error_lt_Some (ar_upper a) i) as (w & Ew); [rewrite La_up; lia|]. rewrite Ew.
    unfold at_. rewrite (nth_error_nth _ _ 0%Q Ev), (nth_error_nth _ _ 0%Q Ew). reflexivity.
Qed.
End Problem.
