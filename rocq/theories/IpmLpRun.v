(** Chunks of states, and calls of the solver one after the other. *)
From Coq Require Import Reals Qreals Sorted Relations FunctionalExtensionality.
From Verif Require Import Base IpmCholesky IpmStep IpmSpec IpmRunSpec IpmDense IpmSymbolic IpmNumeric IpmStepLemmas Props_Ipm.
From Verif Require Import Calendar Network NetworkBuild NetworkSpec NetworkBuildLemmas Lp LpSpec LpColLemmas LpRowLemmas IpmLp IpmLpSpec IpmLpCols IpmLpRows IpmLpIndep IpmLpPosed IpmLpUpdate IpmLpSolve.
From Coq Require Import Lra.
Open Scope nat_scope.

(** *** Chunks *)
Lemma chunks_concat {A} : forall fuel (l : list A), length l <= fuel -> concat (chunks4_fuel fuel l) = l.
Proof.
  induction fuel as [|n IH]; intros l H; [destruct l; [reflexivity | cbn in H; lia]|]. destruct l as [|a l]; [reflexivity|].
  cbn [chunks4_fuel concat]. rewrite IH; [apply firstn_skipn|]. rewrite skipn_length. cbn [length] in *. lia.
Qed.
Lemma chunks_small {A} : forall fuel (l c : list A), In c (chunks4_fuel fuel l) -> length c <= 4.
Proof.
  induction fuel as [|n IH]; intros l c H; [destruct l; destruct H|]. destruct l as [|a l]; [destruct H|]. cbn [chunks4_fuel] in H. destruct H as [<-|H]; [rewrite firstn_length; lia | apply (IH _ _ H)].
Qed.
Lemma chunks_count {A B} : forall fuel (l : list A) (l' : list B), length l = length l' -> length (chunks4_fuel fuel l) = length (chunks4_fuel fuel l').
Proof.
  induction fuel as [|n IH]; intros l l' H; [destruct l, l'; reflexivity|]. destruct l as [|a l], l' as [|b l']; cbn [length] in H; try lia; [reflexivity|]. cbn [chunks4_fuel length]. f_equal. apply IH. rewrite !skipn_length. cbn [length]. lia.
Qed.
Lemma Forall2_app_concat {A B} (P : A -> B -> Prop) : forall la lb, Forall2 (Forall2 P) la lb -> Forall2 P (concat la) (concat lb).
Proof. intros la lb H. induction H as [|a b la lb Hab H IH]; [constructor|]. cbn [concat]. apply Forall2_app; assumption. Qed.
Lemma nth_error_seq_map {A} (f : nat -> A) n l : l < n -> nth_error (map f (seq 0 n)) l = Some (f l).
Proof. intros H. rewrite nth_error_map, (nth_error_nth' (seq 0 n) 0) by (rewrite seq_length; exact H). rewrite seq_nth by exact H. reflexivity. Qed.
Lemma combine_ok {A B} (l : list A) (l' : list B) i x y : nth_error l i = Some x -> nth_error l' i = Some y -> nth_error (combine l l') i = Some (x, y).
Proof. revert l' i. induction l as [|a l IH]; intros [|b l'] [|i] H1 H2; cbn in *; try discriminate; [congruence | auto]. Qed.
Lemma Forall2_by_nth {A B} (P : A -> B -> Prop) : forall la lb, length la = length lb -> (forall i a b, nth_error la i = Some a -> nth_error lb i = Some b -> P a b) -> Forall2 P la lb.
Proof.
  induction la as [|a la IH]; intros [|b lb] Hl H; cbn in Hl; try lia; constructor; [apply (H 0); reflexivity|]. apply IH; [lia|]. intros i x y H1 H2. apply (H (S i)); assumption.
Qed.

(** *** A lane sees only its own state *)
Section Lanes.
Variable net : network.
Lemma nodes_limits_same sts1 sts2 l1 l2 s : (forall g : lp_state -> Q, nth l1 (pad (map g sts1)) 0%Q = g s) -> (forall g : lp_state -> Q, nth l2 (pad (map g sts2)) 0%Q = g s) ->
  forall ns i, Forall2 (fun u1 u2 => nth l1 (pad u1) 0%Q = nth l2 (pad u2) 0%Q) (nodes_limits sts1 i ns) (nodes_limits sts2 i ns).
Proof.
  intros H1 H2. induction ns as [|n ns IH]; intros i; cbn [nodes_limits]; [constructor|]. apply Forall2_app; [|apply IH].
  unfold node_limits. destruct (n_type n); try destruct (n_max n); repeat constructor; rewrite H1, H2; reflexivity.
Qed.
Lemma apply_limits_same l1 l2 : l1 < 4 -> l2 < 4 -> forall limits1 limits2, Forall2 (fun u1 u2 => nth l1 (pad u1) 0%Q = nth l2 (pad u2) 0%Q) limits1 limits2 ->
  forall ids up1 up2 up1' up2', four up1 -> four up2 -> length up1 = length up2 -> (forall ub, In ub limits1 -> length ub <= 4) -> (forall ub, In ub limits2 -> length ub <= 4) ->
  (forall i, num up1 i l1 = num up2 i l2) -> apply_limits ids limits1 up1 = Ok up1' -> apply_limits ids limits2 up2 = Ok up2' -> forall i, num up1' i l1 = num up2' i l2.
Proof.
  intros Hl1 Hl2 limits1 limits2 HF. induction HF as [|u1 u2 limits1 limits2 Hu HF IH]; intros ids up1 up2 up1' up2' F1 F2 Hlen B1 B2 Hn A1 A2.
  - destruct ids; cbn [apply_limits] in A1, A2; injection A1 as <-; injection A2 as <-; exact Hn.
  - destruct ids as [|id ids]; cbn [apply_limits] in A1, A2; [discriminate|]. assert (L1 : length u1 <= 4) by (apply B1; left; reflexivity). assert (L2 : length u2 <= 4) by (apply B2; left; reflexivity).
    apply (IH ids (ipm_apply up1 id u1) (ipm_apply up2 id u2)); try assumption.
    + apply apply_four; assumption.
    + apply apply_four; assumption.
    + rewrite !apply_length. exact Hlen.
    + intros ub Hub. apply B1. right. exact Hub.
    + intros ub Hub. apply B2. right. exact Hub.
    + intros i. destruct (Nat.lt_ge_cases i (length up1)) as [Hi|Hi].
      * rewrite !apply_num by (assumption || lia). rewrite Hu, Hn. reflexivity.
      * unfold num. rewrite !nth_overflow with (n := i) by (rewrite apply_length; lia). destruct l1, l2; reflexivity.
Qed.
Lemma objectives_same sts1 sts2 l1 l2 s obj1 obj2 : l1 < 4 -> l2 < 4 -> length sts1 <= 4 -> length sts2 <= 4 -> length obj1 = length obj2 ->
  (forall g : lp_state -> Q, nth l1 (pad (map g sts1)) 0%Q = g s) -> (forall g : lp_state -> Q, nth l2 (pad (map g sts2)) 0%Q = g s) ->
  forall i, num (ipm_objectives net sts1 obj1) i l1 = num (ipm_objectives net sts2 obj2) i l2.
Proof.
  intros Hl1 Hl2 H4 H4' Hlen H1 H2. unfold ipm_objectives.
  assert (Hs : forall o1 o2, four o1 -> four o2 -> length o1 = length o2 -> (forall i, num o1 i l1 = num o2 i l2) -> forall es i,
    num (fold_left (fun o ie => Lp.upd (col_for_edge net (fst ie)) (fun v => lanes2 Qplus v (pad (map (fun s => (- edge_cost net (st_env s) (snd ie))%Q) sts1))) o) es o1) i l1
    = num (fold_left (fun o ie => Lp.upd (col_for_edge net (fst ie)) (fun v => lanes2 Qplus v (pad (map (fun s => (- edge_cost net (st_env s) (snd ie))%Q) sts2))) o) es o2) i l2).
  { intros o1 o2 F1 F2 Hl Hn es. revert o1 o2 F1 F2 Hl Hn. induction es as [|ie es IH]; intros o1 o2 F1 F2 Hl Hn; cbn [fold_left]; [exact Hn|].
    assert (P1 : forall v, length (pad (map (fun s => (- edge_cost net (st_env s) v)%Q) sts1)) = 4) by (intros v; apply pad_length; rewrite map_length; exact H4).
    assert (P2 : forall v, length (pad (map (fun s => (- edge_cost net (st_env s) v)%Q) sts2)) = 4) by (intros v; apply pad_length; rewrite map_length; exact H4').
    apply IH.
    - intros u Hu. apply upd_In in Hu. destruct Hu as [Hu|(y & Hy & ->)]; [apply F1, Hu | apply lanes2_length; [apply F1, Hy | apply P1]].
    - intros u Hu. apply upd_In in Hu. destruct Hu as [Hu|(y & Hy & ->)]; [apply F2, Hu | apply lanes2_length; [apply F2, Hy | apply P2]].
    - rewrite !upd_length. exact Hl.
    - intros i. specialize (Hn i). unfold num in *. destruct (Nat.eq_dec i (col_for_edge net (fst ie))) as [->|Hne]; [|rewrite !upd_nth_other by exact Hne; exact Hn].
      destruct (Nat.lt_ge_cases (col_for_edge net (fst ie)) (length o1)) as [Hi|Hi].
      + rewrite !upd_nth_same by lia. rewrite !lanes2_nth by (rewrite ?P1, ?P2, ?four_nth by (assumption || lia); lia). rewrite Hn, H1, H2. reflexivity.
      + rewrite !nth_overflow with (n := col_for_edge net (fst ie)) by (rewrite upd_length; lia). destruct l1, l2; reflexivity. }
  apply Hs.
  - intros v Hv. apply in_map_iff in Hv. destruct Hv as (? & <- & _). reflexivity.
  - intros v Hv. apply in_map_iff in Hv. destruct Hv as (? & <- & _). reflexivity.
  - rewrite !map_length. exact Hlen.
  - assert (Z : forall obj l i, num (map (fun _ : list Q => splat 0) obj) i l = 0%Q).
    { intros obj l i. unfold num. destruct (nth_in_or_default i (map (fun _ : list Q => splat 0) obj) []) as [Hin| ->]; [|destruct l; reflexivity]. apply in_map_iff in Hin. destruct Hin as (? & <- & _). destruct l as [|[|[|[|[|?]]]]]; reflexivity. }
    intros i. rewrite !Z. reflexivity.
Qed.
Lemma pad_state sts l s : nth_error sts l = Some s -> forall g : lp_state -> Q, nth l (pad (map g sts)) 0%Q = g s.
Proof.
  intros H g. rewrite pad_nth by (rewrite map_length; apply (nth_error_Some_lt _ _ _ H)). apply nth_error_nth. rewrite nth_error_map, H. reflexivity.
Qed.
Lemma pad_single l s : l < 4 -> forall g : lp_state -> Q, nth l (pad (map g [s])) 0%Q = g s.
Proof. intros H g. cbn. destruct l as [|[|[|[|l]]]]; try reflexivity. lia. Qed.

Hypothesis wf : wf_network net.
Lemma update_same b1 b2 sts1 sts2 l1 l2 s b1' b2' t : built_as net b1 -> built_as net b2 -> il_ineq (ib_lp b1) = il_ineq (ib_lp b2) -> ib_node_rows b1 = ib_node_rows b2 ->
  length sts1 <= 4 -> length sts2 <= 4 -> l1 < 4 -> l2 < 4 ->
  (forall g : lp_state -> Q, nth l1 (pad (map g sts1)) 0%Q = g s) -> (forall g : lp_state -> Q, nth l2 (pad (map g sts2)) 0%Q = g s) ->
  ipm_update net b1 sts1 = Ok b1' -> ipm_update net b2 sts2 = Ok b2' -> chunk_data t (ib_lp b1') l1 = chunk_data t (ib_lp b2') l2.
Proof.
  intros B1 B2 Hq Hids L1 L2 Hl1 Hl2 P1 P2 U1 U2. unfold ipm_update in U1, U2. rewrite Hids, Hq in U1.
  destruct (apply_limits (ib_node_rows b2) (nodes_limits sts1 0 (net_nodes net)) _) as [up1| |] eqn:A1; try discriminate.
  destruct (apply_limits (ib_node_rows b2) (nodes_limits sts2 0 (net_nodes net)) _) as [up2| |] eqn:A2; try discriminate.
  cbn [rbind] in U1, U2. injection U1 as <-. injection U2 as <-. unfold chunk_data. cbn [ib_lp il_upper il_obj].
  assert (Hlen : length (il_upper (ib_lp b1)) = length (il_upper (ib_lp b2))) by (rewrite (ba_upper net b1 B1), (ba_upper net b2 B2), (ba_eq net b1 B1), (ba_eq net b2 B2), Hq; reflexivity).
  f_equal.
  - apply functional_extensionality. intros i. unfold lane_number. f_equal. change (num up1 i l1 = num up2 i l2). revert i.
    set (nq := length (il_ineq (ib_lp b2))) in *.
    assert (Hnq1 : nq <= length (il_upper (ib_lp b1))) by (rewrite (ba_upper net b1 B1), Hq; unfold nq; lia).
    assert (Hnq2 : nq <= length (il_upper (ib_lp b2))) by lia.
    apply (apply_limits_same l1 l2 Hl1 Hl2 _ _ (nodes_limits_same sts1 sts2 l1 l2 s P1 P2 (net_nodes net) 0) (ib_node_rows b2) (ipm_reset nq (il_upper (ib_lp b1))) (ipm_reset nq (il_upper (ib_lp b2)))); try assumption.
    + apply reset_four. exact (ba_lanes net b1 B1).
    + apply reset_four. exact (ba_lanes net b2 B2).
    + rewrite !reset_length. exact Hlen.
    + intros ub Hub. rewrite (limits_length _ _ _ _ Hub). exact L1.
    + intros ub Hub. rewrite (limits_length _ _ _ _ Hub). exact L2.
    + intros i. destruct (Nat.lt_ge_cases i nq) as [Hi|Hi].
      * rewrite !reset_num by lia. destruct (Nat.ltb_spec i nq); [reflexivity | lia].
      * unfold num. rewrite !reset_beyond by lia. rewrite (ba_zero net b1 B1), (ba_zero net b2 B2); [reflexivity | exact Hi | rewrite Hq; exact Hi].
  - apply functional_extensionality. intros i. unfold lane_number. f_equal. apply (objectives_same sts1 sts2 l1 l2 s); try assumption. rewrite (ba_obj net b1 B1), (ba_obj net b2 B2). reflexivity.
Qed.
End Lanes.

Section Run.
Variable net : network.
Hypothesis wf : wf_network net.
Hypothesis anch : anchored net.
Hypothesis used : storages_used net.
Variable b0 : ibuilt.
Hypothesis Hb0 : ipm_create net = Ok b0.
Variables (t : tolerances) (k : nat).
Hypothesis Ht : (0 <= t_primal t /\ 0 <= t_dual t /\ 0 <= t_optimality t)%R.

Definition same_built (b : ibuilt) : Prop := built_as net b /\ il_ineq (ib_lp b) = il_ineq (ib_lp b0) /\ il_eq (ib_lp b) = il_eq (ib_lp b0) /\ ib_node_rows b = ib_node_rows b0.
Definition chunk_ok (c : chunk) : Prop := same_built (fst c) /\ length (snd c) = 4.

Lemma create_same : same_built b0.
Proof. split; [apply (create_built net wf b0 Hb0) | auto]. Qed.
Lemma setup_ok n cs : ipm_setup net n = Ok cs -> length cs = length (chunks4 (seq 0 n)) /\ Forall chunk_ok cs.
Proof.
  intros H. apply rmap_Ok_Forall2 in H. split; [symmetry; apply (Forall2_length' _ _ _ H)|]. clear - H Hb0 wf. induction H as [|a c l cs Hc H IH]; constructor; [|exact IH].
  rewrite Hb0 in Hc. cbn [rbind] in Hc. injection Hc as <-. split; [apply create_same | reflexivity].
Qed.
Lemma ipm_of_same b : same_built b -> ipm_of (ib_lp b) = ipm_of (ib_lp b0).
Proof.
  intros (Hb & H1 & H2 & _). unfold ipm_of, real_matrix, full_matrix. rewrite H1, H2, (ba_ncols net b Hb), (ba_ncols net b0 (create_built net wf b0 Hb0)). reflexivity.
Qed.
Lemma near_best_same b s f : same_built b -> near_best net (ib_lp b) s t f -> near_best net (ib_lp b0) s t f.
Proof.
  intros (Hb & H1 & H2 & _). unfold near_best, real_matrix, full_matrix. rewrite H1, H2, (ba_ncols net b Hb), (ba_ncols net b0 (create_built net wf b0 Hb0)). auto.
Qed.
Lemma update_same_built b sts b' : same_built b -> length sts <= 4 -> ipm_update net b sts = Ok b' -> same_built b'.
Proof.
  intros (Hb & H1 & H2 & H3) H4 H. destruct (update_spec net b sts Hb H4) as (b2 & E & Hb' & Q1 & Q2 & _). assert (b2 = b') by congruence. subst b2. split; [exact Hb'|]. split; [congruence|]. split; [congruence|].
  unfold ipm_update in H. destruct (apply_limits _ _ _); try discriminate. cbn [rbind] in H. injection H as <-. exact H3.
Qed.

Lemma solve_out_length s data out : ipm_solve s k data = Ok out -> length out = length data.
Proof.
  intros H. destruct (C64_lanes_independent s k data) as (H1 & _). specialize (H1 out H). symmetry. apply (Forall2_length' _ _ _ H1).
Qed.
Lemma chunk_solved c sts c' fs : chunk_ok c -> length sts <= 4 -> solve_chunk net t k c sts = Ok (c', fs) ->
  chunk_ok c' /\ length fs = length sts /\ Forall2 (fun s f => near_best net (ib_lp b0) s t f) sts fs.
Proof.
  intros (Hc & Hbuf) H4 H. unfold solve_chunk in H. destruct (ipm_update net (fst c) sts) as [b| |] eqn:Eu; try discriminate. cbn [rbind] in H.
  destruct (ipm_solve _ _ _) as [out| |] eqn:Es; try discriminate. cbn [rbind] in H. injection H as <- <-.
  pose proof (update_same_built _ _ _ Hc H4 Eu) as Hb. assert (Hol : length out = 4) by (rewrite (solve_out_length _ _ _ Es), combine_length, map_length, seq_length, Hbuf; reflexivity).
  split; [split; [exact Hb | exact Hol]|]. split; [rewrite map_length, combine_length; lia|].
  destruct Hc as (Hba & Hrest). destruct (update_spec net (fst c) sts Hba H4) as (b2 & E & Hb' & Q1 & Q2 & Hbo & Hobj). assert (b2 = b) by congruence. subst b2.
  pose proof (posed net wf b anch used Hb') as Hposed. unfold ipm_of in Es. pose proof (C63_near_optimal _ _ _ _ _ _ Hposed Es) as Hnear.
  apply Forall2_by_nth; [rewrite map_length, combine_length; lia|]. intros l s f Hs Hf.
  rewrite nth_error_map in Hf. destruct (nth_error (combine sts out) l) as [[s' o]|] eqn:Eco; [|discriminate]. cbn [option_map snd] in Hf. injection Hf as <-.
  pose proof (nth_error_Some_lt _ _ _ Hs) as Hl. destruct (nth_error_lt_Some out l ltac:(lia)) as (o' & Ho'). rewrite (combine_ok _ _ _ _ _ Hs Ho') in Eco. injection Eco as <- <-.
  destruct (nth_error_lt_Some (snd c) l ltac:(lia)) as (bf & Hbf).
  assert (Hd : nth_error (combine (map (chunk_data t (ib_lp b)) (seq 0 4)) (snd c)) l = Some (chunk_data t (ib_lp b) l, bf)) by (apply combine_ok; [apply nth_error_seq_map; lia | exact Hbf]).
  pose proof (Forall2_nth_error _ _ _ l _ _ Hnear Hd Ho') as Hno. cbn [fst] in Hno. rewrite (ba_ncols net b Hb') in Hno.
  apply (near_best_same b s _ Hb). destruct Ht as (T1 & T2 & T3).
  exact (lane_near_best net wf b sts l s t (p_x (ln_path o')) (il_obj (ib_lp (fst c))) Hb' used Hbo H4 Hs Hobj T1 T2 T3 Hno).
Qed.
Lemma solved n cs sts cs' fs : length cs = length (chunks4 (seq 0 n)) -> Forall chunk_ok cs -> length sts = n -> ipm_solver_solve net t k cs sts = Ok (cs', fs) ->
  length cs' = length cs /\ Forall chunk_ok cs' /\ Forall2 (fun s f => near_best net (ib_lp b0) s t f) sts fs.
Proof.
  intros Hlen Hcs Hn H. unfold ipm_solver_solve in H. destruct (rmap _ _) as [rs| |] eqn:E; try discriminate. cbn [rbind] in H. injection H as <- <-. apply rmap_Ok_Forall2 in E.
  assert (Hcl : length cs = length (chunks4 sts)) by (rewrite Hlen; unfold chunks4; rewrite seq_length, Hn; apply chunks_count; rewrite seq_length; lia).
  assert (Hsm : Forall (fun c => length c <= 4) (chunks4 sts)) by (apply Forall_forall; intros c Hc; apply (chunks_small _ _ _ Hc)).
  assert (G : length (map fst rs) = length cs /\ Forall chunk_ok (map fst rs) /\ Forall2 (Forall2 (fun s f => near_best net (ib_lp b0) s t f)) (chunks4 sts) (map snd rs)).
  { clear Hlen Hn. revert cs rs Hcl Hcs E Hsm. induction (chunks4 sts) as [|c0 chs IH]; intros [|c cs] rs Hcl Hcs E Hsm; cbn [length] in Hcl; try lia; cbn [combine] in E; inversion E as [|? r ? rs' Hr E']; subst; cbn [map length].
    - split; [reflexivity | split; constructor].
    - inversion Hcs; subst. inversion Hsm; subst. cbn [fst snd] in Hr. destruct r as [c' fs]. destruct (chunk_solved _ _ _ _ H1 H3 Hr) as (A & _ & B).
      destruct (IH cs rs' ltac:(lia) H2 E' H4) as (I1 & I2 & I3). split; [lia|]. split; constructor; assumption. }
  destruct G as (G1 & G2 & G3). split; [exact G1|]. split; [exact G2|]. apply Forall2_app_concat in G3. unfold chunks4 in G3. rewrite chunks_concat in G3 by lia. exact G3.
Qed.
Lemma run_solved n : forall hist cs last fs, length cs = length (chunks4 (seq 0 n)) -> Forall chunk_ok cs -> Forall (fun sts => length sts = n) hist -> length last = n ->
  ipm_solver_run net t k cs hist last = Ok fs -> exists cs' cs2, length cs' = length (chunks4 (seq 0 n)) /\ Forall chunk_ok cs' /\ ipm_solver_solve net t k cs' last = Ok (cs2, fs).
Proof.
  induction hist as [|sts hist IH]; intros cs last fs Hl Hcs Hh Hn H; cbn [ipm_solver_run] in H.
  - destruct (ipm_solver_solve net t k cs last) as [[cs2 fs2]| |] eqn:E; try discriminate. cbn [rbind snd] in H. injection H as <-. exists cs, cs2. auto.
  - destruct (ipm_solver_solve net t k cs sts) as [[cs2 fs2]| |] eqn:E; try discriminate. cbn [rbind fst] in H. inversion Hh; subst.
    destruct (solved (length last) cs sts cs2 fs2 Hl Hcs H2 E) as (A & B & _). apply (IH cs2); try assumption; congruence.
Qed.

(** *** A state solved on its own *)
Lemma solution_eq b o o' : built_as net b -> solution (ipm_of (ib_lp b)) o = solution (ipm_of (ib_lp b)) o' -> forall e, e < length (net_edges net) -> p_x (ln_path o) (col_for_edge net e) = p_x (ln_path o') (col_for_edge net e).
Proof.
  intros Hb H e He. destruct (edge_column_exists net wf e He) as (_ & Hc). unfold solution in H. cbn [i_ncols ipm_of ipm_new] in H. rewrite (ba_ncols net b Hb) in H.
  assert (Hin : In (col_for_edge net e) (seq 0 (cm_ncols (edge_columns net)))) by (apply in_seq; lia). exact (ext_in_map H _ Hin).
Qed.
Lemma chunk_alone c sts c' fs l s f : chunk_ok c -> length sts <= 4 -> solve_chunk net t k c sts = Ok (c', fs) -> nth_error sts l = Some s -> nth_error fs l = Some f ->
  forall c1, chunk_ok c1 -> exists c1' f1, solve_chunk net t k c1 [s] = Ok (c1', [f1]) /\ forall e, e < length (net_edges net) -> f1 e = f e.
Proof.
  intros (Hc & Hbuf) H4 H Hs Hf c1 (Hc1 & Hbuf1). unfold solve_chunk in H. destruct (ipm_update net (fst c) sts) as [b| |] eqn:Eu; try discriminate. cbn [rbind] in H.
  destruct (ipm_solve _ _ _) as [out| |] eqn:Es; try discriminate. cbn [rbind] in H. injection H as _ Hfs.
  pose proof (update_same_built _ _ _ Hc H4 Eu) as Hb. assert (Hol : length out = 4) by (rewrite (solve_out_length _ _ _ Es), combine_length, map_length, seq_length, Hbuf; reflexivity).
  pose proof (nth_error_Some_lt _ _ _ Hs) as Hl. destruct (nth_error_lt_Some out l ltac:(lia)) as (o & Ho). destruct (nth_error_lt_Some (snd c) l ltac:(lia)) as (bf & Hbf).
  assert (Ef : f = fun e => p_x (ln_path o) (col_for_edge net e)) by (rewrite <- Hfs, nth_error_map, (combine_ok _ _ _ _ _ Hs Ho) in Hf; cbn in Hf; congruence). subst f. clear Hfs Hf.
  set (d := chunk_data t (ib_lp b) l).
  assert (Hd : nth_error (combine (map (chunk_data t (ib_lp b)) (seq 0 4)) (snd c)) l = Some (d, bf)) by (apply combine_ok; [apply nth_error_seq_map; lia | exact Hbf]).
  destruct (C64_lanes_independent (ipm_of (ib_lp b)) k (combine (map (chunk_data t (ib_lp b)) (seq 0 4)) (snd c))) as (Hal & _).
  destruct (Forall2_nth_error _ _ _ l _ _ (Hal out Es) Hd Ho) as (o1 & Ho1 & Hsol). rewrite (ipm_of_same b Hb) in Ho1, Hsol. clear Hal Es Hd Hbf Ho.
  assert (Hk : k <> 0) by (intros ->; cbn in Ho1; discriminate).
  destruct (proj1 Hc1) as [].
  destruct (update_spec net (fst c1) [s] (proj1 Hc1) ltac:(cbn; lia)) as (b1 & Eu1 & Hb1' & _).
  pose proof (update_same_built _ _ _ Hc1 (ltac:(cbn; lia) : length [s] <= 4) Eu1) as Hb1.
  assert (Hdata : forall l', l' < 4 -> chunk_data t (ib_lp b1) l' = d).
  { intros l' Hl'. symmetry. unfold d. apply (update_same net (fst c) (fst c1) sts [s] l l' s b b1 t); try assumption; try (cbn; lia).
    - apply Hc.
    - apply Hc1.
    - transitivity (il_ineq (ib_lp b0)); [apply Hc | symmetry; apply Hc1].
    - transitivity (ib_node_rows b0); [apply Hc | symmetry; apply Hc1].
    - apply pad_state, Hs.
    - apply pad_single, Hl'. }
  pose proof (create_built net wf b0 Hb0) as Hba0. pose proof (posed net wf b0 anch used Hba0) as Hposed.
  assert (Halone : forall bf', exists o2, ipm_solve (ipm_of (ib_lp b0)) k [(d, bf')] = Ok [o2] /\ solution (ipm_of (ib_lp b0)) o2 = solution (ipm_of (ib_lp b0)) o).
  { intros bf'. pose proof (C64_buffers_do_not_matter _ _ _ k [(d, bf)] [(d, bf')] Hposed eq_refl) as Hbu. cbv zeta in Hbu. fold (ipm_of (ib_lp b0)) in Hbu. rewrite Ho1 in Hbu.
    destruct (ipm_solve (ipm_of (ib_lp b0)) k [(d, bf')]) as [out2| |] eqn:E2; try contradiction. destruct out2 as [|o2 [|? ?]]; try discriminate. injection Hbu as Hbu. exists o2. split; [reflexivity | congruence]. }
  destruct (C64_lanes_independent (ipm_of (ib_lp b1)) k (combine (map (chunk_data t (ib_lp b1)) (seq 0 4)) (snd c1))) as (Hal1 & Hex1).
  rewrite (ipm_of_same b1 Hb1) in Hal1, Hex1.
  destruct Hex1 as (out1 & Eout1); [exact Hk| |].
  { intros [d' bf'] Hin. apply in_combine_l in Hin. apply in_map_iff in Hin. destruct Hin as (l' & <- & Hl'). apply in_seq in Hl'. rewrite Hdata by lia. destruct (Halone bf') as (o2 & E2 & _). rewrite E2. discriminate. }
  specialize (Hal1 out1 Eout1). assert (Hol1 : length out1 = 4) by (rewrite (solve_out_length _ _ _ Eout1), combine_length, map_length, seq_length, Hbuf1; reflexivity).
  destruct out1 as [|q out1]; [discriminate|]. destruct (snd c1) as [|bf1 bfs] eqn:Ebf; [discriminate|].
  cbn [seq map combine] in Hal1. inversion Hal1 as [|? ? ? ? (o3 & Eo3 & Hs3) _]. subst. rewrite Hdata in Eo3 by lia. destruct (Halone bf1) as (o2 & E2 & Hs2). assert (o3 = o2) by congruence. subst o3.
  eexists. eexists. split.
  - unfold solve_chunk. rewrite Eu1. cbn [rbind]. rewrite Ebf, (ipm_of_same b1 Hb1), Eout1. cbn [rbind combine map snd]. reflexivity.
  - intros e He. cbv beta. apply (solution_eq b0 q o Hba0); [congruence | exact He].
Qed.
End Run.
