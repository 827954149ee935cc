(** The invariant behind C71: after every time-step the library's problem is
    the network's programme. *)
From Coq Require Import Qabs.
From Verif Require Import NetworkBuildLemmas.
From Verif Require Import Base Calendar Network NetworkBuild NetworkSpec Lp LpSpec LpColLemmas LpRowLemmas LpUpdateLemmas LpLemmas LpDynLemmas.
From Verif Require Import Backends BackendsSpec BackendsLemmas.
Open Scope nat_scope.

Definition passes (k : backend) : Q -> Q := match k with Highs => clamp | _ => fun v => v end.

Section Run.
Variable net : network.
Variable k : backend.
Variable b0 : built.
Hypothesis Hready : ready net b0.
Hypothesis Hobj : length (lp_obj (bt_lp b0)) = length (lp_cols (bt_lp b0)).
Hypothesis Hclp : k = Clp -> continuous (lp_cols (bt_lp b0)).
Let fm := lp_fmax (bt_lp b0).
Let cols := lp_cols (bt_lp b0).

Definition inv (sv : solver) (b : built) : Prop :=
  stable net b0 b /\ sv_ids sv = b0 /\
  exists arows ups, sv_arr sv = arr_of fm cols (lp_obj (bt_lp b)) arows ups /\ map bnd arows = map bnd (lp_rows (bt_lp b)) /\
  match k with
  | Microlp => arows = lp_rows (bt_lp b) /\ exists q, sv_held sv = HMicro q
  | _ => exists prows, sv_held sv = HStd (mkPb (cols_of cols (lp_obj (bt_lp b))) prows) /\
                       Forall2 (row_rel (passes k)) prows (lp_rows (bt_lp b))
  end.

Lemma start_rel f rows : nodup_keys rows -> Forall2 (row_rel f) (map row_of rows) rows.
Proof.
  intros H. induction H as [|r rows Hr H IH]; cbn [map]; constructor; [|exact IH].
  split; [reflexivity|]. split; [reflexivity|]. split; [exact Hr|]. exists (l_cols r), []. cbn [through map]. rewrite setcs_nil. split; reflexivity.
Qed.
Lemma inv_setup order sv : create fm order net = Ok b0 -> setup k fm order net = Ok sv -> inv sv b0.
Proof.
  intros Hc Hs. unfold setup in Hs. rewrite Hc in Hs. injection Hs as <-. split; [apply stable_refl|]. split; [reflexivity|].
  exists (lp_rows (bt_lp b0)), []. cbn [sv_arr sv_held]. rewrite build_closed. split; [reflexivity|]. split; [reflexivity|].
  destruct k; cbv beta match.
  - exists (map row_of (lp_rows (bt_lp b0))). rewrite highs_setup_of by exact Hobj. split; [reflexivity | apply start_rel; apply Hready].
  - exists (map row_of (lp_rows (bt_lp b0))). rewrite clp_setup_of; [|exact Hobj | apply Hclp; reflexivity]. split; [reflexivity | apply start_rel; apply Hready].
  - exists (map row_of (lp_rows (bt_lp b0))). rewrite cbc_setup_of by exact Hobj. split; [reflexivity | apply start_rel; apply Hready].
  - split; [reflexivity|]. eexists. reflexivity.
Qed.

(** What one update of the network's rows does. *)
Lemma update_unfold b s b' : stable net b0 b -> update net b s = Ok b' ->
  exists ops rows', update_ops net b0 s = Ok ops /\
    apply_coefs ops (fold_left apply_bound ops (map (reset_row fm) (lp_rows (bt_lp b)))) = Ok rows' /\
    lp_obj (bt_lp b') = update_edge_objectives net (st_env s) (lp_obj (bt_lp b)) /\ lp_rows (bt_lp b') = rows' /\
    stable net b0 b'.
Proof.
  intros Hst H. pose proof (stable_trans_update net b0 b s b' Hready Hst H) as Hst'.
  pose proof (update_ops_stable net b0 b s Hst) as Ho. unfold update, ures in H. rewrite Ho in H.
  apply rbind_Ok in H. destruct H as (ops & H1 & H). apply rbind_Ok in H. destruct H as (rows' & H2 & H). injection H as <-.
  exists ops, rows'. cbn [bt_lp lp_obj lp_rows]. split; [exact H1|].
  assert (Hf : lp_fmax (bt_lp b) = fm) by (apply Hst). rewrite Hf in H2. split; [exact H2|]. split; [reflexivity|]. split; [reflexivity | exact Hst'].
Qed.

Lemma unmasked_bounds b s ops i r r1 : stable net b0 b -> update_ops net b0 s = Ok ops ->
  nth_error (lp_rows (bt_lp b)) i = Some r ->
  nth_error (fold_left apply_bound ops (map (reset_row fm) (lp_rows (bt_lp b)))) i = Some r1 ->
  l_mask r1 = false -> l_lower r1 = l_lower r /\ l_upper r1 = l_upper r.
Proof.
  intros Hst Ho Hr H1 Hm. rewrite apply_bounds_nth, nth_error_map, Hr in H1. cbn [option_map] in H1.
  destruct Hst as (_ & _ & _ & _ & _ & _ & _ & Hsh & Hrows).
  assert (Hlen : i < length (lp_rows (bt_lp b0))).
  { pose proof (f_equal (@length _) Hsh) as L. unfold shape_of in L. rewrite !map_length in L. rewrite <- L. apply (nth_error_Some_lt _ _ _ Hr). }
  destruct (nth_error (lp_rows (bt_lp b0)) i) as [r0|] eqn:E0; [|apply nth_error_None in E0; lia].
  destruct (Hrows i r0 E0) as (r' & Hr' & Hmask & _). rewrite Hr in Hr'. injection Hr' as <-.
  injection H1 as <-. cbn [l_mask l_lower l_upper] in *. unfold reset_row in *. destruct (l_mask r) eqn:Em; [discriminate Hm|].
  destruct Hready as [_ Hno]. destruct (Hno s ops i r0 Ho E0 (eq_sym Hmask)) as [-> _]. split; reflexivity.
Qed.

Lemma mask_nth i (rows : list lrow) r : nth_error rows i = Some r ->
  nth i (map (fun r => if l_mask r then 1 else 0) rows) 0 = if l_mask r then 1 else 0.
Proof. intros H. apply nth_error_nth. rewrite nth_error_map, H. reflexivity. Qed.

Definition quiet (ops : list op) : Prop := coef_list ops = [].

Lemma obj_length b : stable net b0 b -> length (lp_obj (bt_lp b)) = length cols.
Proof. intros H. unfold cols. rewrite <- Hobj. destruct H as (_ & _ & _ & _ & _ & _ & Hl & _). exact Hl. Qed.

Lemma send_step sv b s b' : inv sv b -> update net b s = Ok b' ->
  (forall sv', send k net s sv = Ok sv' -> inv sv' b' /\
     (k = Microlp -> exists q, make_problem (arr_of fm cols (lp_obj (bt_lp b')) (lp_rows (bt_lp b')) []) = Ok q /\ sv_held sv' = HMicro q)) /\
  ((k = Cbc -> forall ops, update_ops net b0 s = Ok ops -> quiet ops) ->
   (k = Microlp -> exists q, make_problem (arr_of fm cols (lp_obj (bt_lp b')) (lp_rows (bt_lp b')) []) = Ok q) ->
   exists sv', send k net s sv = Ok sv') /\
  (k = Cbc -> (exists ops, update_ops net b0 s = Ok ops /\ coef_list ops <> []) -> send k net s sv = Err EMissingFeatures) /\
  (k = Microlp -> make_problem (arr_of fm cols (lp_obj (bt_lp b')) (lp_rows (bt_lp b')) []) = Panic -> send k net s sv = Panic).
Proof.
  intros (Hst & Hids & arows & ups & Ha & Hb & Hk) Hu.
  destruct (update_unfold b s b' Hst Hu) as (ops & rows' & Ho & Hco & Hob & Hrw & Hst').
  set (rows1 := fold_left apply_bound ops (map (reset_row fm) (lp_rows (bt_lp b)))) in *.
  set (arows1 := fold_left apply_bound ops (map (reset_row fm) arows)).
  assert (Hb1 : map bnd arows1 = map bnd rows1) by (apply bnd_ops, bnd_reset; exact Hb).
  assert (Hb' : map bnd arows1 = map bnd (lp_rows (bt_lp b'))) by (rewrite Hrw, (bnd_coefs _ _ _ Hco); exact Hb1).
  assert (Hcols1 : map l_cols rows1 = map l_cols (lp_rows (bt_lp b))) by apply cols_bounds.
  assert (Hobj1 : length (update_edge_objectives net (st_env s) (lp_obj (bt_lp b))) = length cols) by (rewrite objectives_length; apply obj_length; exact Hst).
  assert (Hup : update_arrays net (sv_ids sv) s (sv_arr sv) = Ok (arr_of fm cols (lp_obj (bt_lp b')) arows1 (coef_list ops))).
  { rewrite Ha, Hids, update_arr_of, Ho, Hob. reflexivity. }
  unfold send. rewrite Hup. cbn [lift_update rbind].
  set (a1 := arr_of fm cols (lp_obj (bt_lp b')) arows1 (coef_list ops)).
  assert (Hany : forall i p a r r1, nth_error arows1 i = Some a -> nth_error rows1 i = Some r1 -> nth_error (lp_rows (bt_lp b)) i = Some r ->
            mkPr (at_ (ar_lower a1) i) (at_ (ar_upper a1) i) (pr_cols p) = mkPr (l_lower a) (l_upper a) (pr_cols p)).
  { intros i p a r r1 Ea _ _. change (ar_lower a1) with (map l_lower arows1). change (ar_upper a1) with (map l_upper arows1).
    rewrite !(nth_map_in _ arows1 i a Ea). reflexivity. }
  destruct k eqn:Ek.
  - destruct Hk as (prows & Hh & Hrel). rewrite Hh.
    assert (E : exists prows', highs_send a1 (mkPb (cols_of cols (lp_obj (bt_lp b))) prows) =
                mkPb (cols_of cols (lp_obj (bt_lp b'))) prows' /\ Forall2 (row_rel (passes Highs)) prows' (lp_rows (bt_lp b'))).
    { unfold highs_send. change (ar_obj a1) with (lp_obj (bt_lp b')). rewrite Hob.
      rewrite change_costs_again; [|apply obj_length; exact Hst | exact Hobj1].
      destruct (bounds_step (passes Highs) prows (lp_rows (bt_lp b)) rows1 arows1
                 (cols_of cols (update_edge_objectives net (st_env s) (lp_obj (bt_lp b))))
                 (fun i r => if nth i (ar_mask a1) 0 =? 0 then r else mkPr (at_ (ar_lower a1) i) (at_ (ar_upper a1) i) (pr_cols r))
                 Hrel Hcols1 Hb1) as (p1 & E1 & R1).
      { intros i p a r r1 Ep Ea Er E1 P1 P2. change (ar_mask a1) with (map (fun r => if l_mask r then 1 else 0) arows1). rewrite (mask_nth i arows1 a Ea).
        destruct (bnd_nth _ _ i a Hb1 Ea) as (r1' & E1' & B1 & B2 & B3). rewrite E1 in E1'. injection E1' as <-.
        destruct (l_mask a) eqn:Em; cbn [Nat.eqb].
        - apply (Hany i p a r r1 Ea E1 Er).
        - destruct (unmasked_bounds b s ops i r r1 Hst Ho Er E1 B3) as [U1 U2]. destruct p as [pl pu pc]. cbn in *. congruence. }
      unfold highs_change_bounds. rewrite E1. change (ar_updates a1) with (coef_list ops).
      destruct (coefs_step clamp (cols_of cols (update_edge_objectives net (st_env s) (lp_obj (bt_lp b)))) ops p1 rows1 rows' R1 Hco) as (p2 & E2 & R2).
      exists p2. split; [exact E2|]. rewrite Hrw. exact R2. }
    destruct E as (prows' & E1 & R1). rewrite E1.
    split; [|split; [|split]]; [|intros _ _; eexists; reflexivity | discriminate | discriminate].
    intros sv' H. injection H as <-. split; [|discriminate]. split; [exact Hst'|]. split; [exact Hids|]. exists arows1, (coef_list ops).
    split; [reflexivity|]. split; [exact Hb'|]. rewrite Ek. exists prows'. split; [reflexivity | exact R1].
  - destruct Hk as (prows & Hh & Hrel). rewrite Hh.
    assert (E : exists prows', clp_send a1 (mkPb (cols_of cols (lp_obj (bt_lp b))) prows) =
                mkPb (cols_of cols (lp_obj (bt_lp b'))) prows' /\ Forall2 (row_rel (passes Clp)) prows' (lp_rows (bt_lp b'))).
    { unfold clp_send. change (ar_obj a1) with (lp_obj (bt_lp b')). rewrite Hob.
      rewrite change_costs_again; [|apply obj_length; exact Hst | exact Hobj1].
      destruct (bounds_step (passes Clp) prows (lp_rows (bt_lp b)) rows1 arows1
                 (cols_of cols (update_edge_objectives net (st_env s) (lp_obj (bt_lp b))))
                 (fun i r => mkPr (at_ (ar_lower a1) i) (at_ (ar_upper a1) i) (pr_cols r))
                 Hrel Hcols1 Hb1) as (p1 & E1 & R1).
      { intros i p a r r1 Ep Ea Er E1 P1 P2. apply (Hany i p a r r1 Ea E1 Er). }
      rewrite E1. change (ar_updates a1) with (coef_list ops).
      destruct (coefs_step (passes Clp) (cols_of cols (update_edge_objectives net (st_env s) (lp_obj (bt_lp b)))) ops p1 rows1 rows' R1 Hco) as (p2 & E2 & R2).
      exists p2. split; [exact E2|]. rewrite Hrw. exact R2. }
    destruct E as (prows' & E1 & R1). rewrite E1.
    split; [|split; [|split]]; [|intros _ _; eexists; reflexivity | discriminate | discriminate].
    intros sv' H. injection H as <-. split; [|discriminate]. split; [exact Hst'|]. split; [exact Hids|]. exists arows1, (coef_list ops).
    split; [reflexivity|]. split; [exact Hb'|]. rewrite Ek. exists prows'. split; [reflexivity | exact R1].
  - destruct Hk as (prows & Hh & Hrel). rewrite Hh. unfold cbc_send. change (ar_updates a1) with (coef_list ops).
    destruct (coef_list ops) as [|u us] eqn:Eu.
    + change (ar_obj a1) with (lp_obj (bt_lp b')). cbn [rbind]. rewrite Hob.
      rewrite change_costs_again; [|apply obj_length; exact Hst | exact Hobj1].
      destruct (bounds_step (passes Cbc) prows (lp_rows (bt_lp b)) rows1 arows1
                 (cols_of cols (update_edge_objectives net (st_env s) (lp_obj (bt_lp b))))
                 (fun i r => mkPr (at_ (ar_lower a1) i) (at_ (ar_upper a1) i) (pr_cols r))
                 Hrel Hcols1 Hb1) as (p1 & E1 & R1).
      { intros i p a r r1 Ep Ea Er E1 P1 P2. apply (Hany i p a r r1 Ea E1 Er). }
      rewrite E1.
      destruct (coefs_step (passes Cbc) (cols_of cols (update_edge_objectives net (st_env s) (lp_obj (bt_lp b)))) ops p1 rows1 rows' R1 Hco) as (p2 & E2 & R2).
      rewrite Eu in E2. cbn [fold_left] in E2. injection E2 as <-.
      split; [|split; [|split]]; [|intros _ _; eexists; reflexivity | | discriminate].
      * intros sv' H. injection H as <-. split; [|discriminate]. split; [exact Hst'|]. split; [exact Hids|]. exists arows1, (coef_list ops).
        split; [unfold a1; rewrite Eu; reflexivity|]. split; [exact Hb'|]. rewrite Ek. exists p1. rewrite Hob. split; [reflexivity|]. rewrite Hrw. exact R2.
      * intros _ (ops' & Ho' & Hne). rewrite Ho in Ho'. injection Ho' as <-. contradiction.
    + cbn [rbind]. split; [intros sv' H; discriminate H|]. split; [|split; [reflexivity | discriminate]].
      intros Hq _. exfalso. specialize (Hq eq_refl ops Ho). unfold quiet in Hq. rewrite Eu in Hq. discriminate Hq.
  - destruct Hk as (Hrows & q0 & Hh). rewrite Hh.
    assert (Hco' : apply_coefs ops arows1 = Ok rows') by (unfold arows1; rewrite Hrows; exact Hco).
    unfold a1. rewrite (apply_arr_of fm cols (lp_obj (bt_lp b')) ops arows1 rows' Hco'). cbn [lift_update rbind]. rewrite <- Hrw.
    split; [|split; [|split]]; [ | | discriminate | ].
    + intros sv' H. apply rbind_Ok in H. destruct H as (q & Hq & H). injection H as <-. split.
      * split; [exact Hst'|]. split; [exact Hids|]. exists (lp_rows (bt_lp b')), []. split; [reflexivity|]. split; [reflexivity|].
        rewrite Ek. split; [reflexivity|]. exists q. reflexivity.
      * intros _. exists q. split; [exact Hq | reflexivity].
    + intros _ Hq. destruct (Hq eq_refl) as (q & E). rewrite E. cbn [rbind]. eexists. reflexivity.
    + intros _ E. rewrite E. reflexivity.
Qed.

Lemma sends_inv ss : forall sv b sv' b', inv sv b -> updates net b ss = Ok b' -> sends k net ss sv = Ok sv' -> inv sv' b'.
Proof.
  induction ss as [|s ss IH]; intros sv b sv' b' Hi Hu Hs; cbn [updates sends] in *; [injection Hu as <-; injection Hs as <-; exact Hi|].
  unfold ures in Hu. apply rbind_Ok in Hu. destruct Hu as (b1 & Hu1 & Hu2). apply rbind_Ok in Hs. destruct Hs as (sv1 & Hs1 & Hs2).
  destruct (send_step sv b s b1 Hi Hu1) as [H _]. destruct (H sv1 Hs1) as [Hi1 _]. apply (IH sv1 b1 sv' b' Hi1 Hu2 Hs2).
Qed.
End Run.

(** ** From the arrays and rows to the set of solutions *)
Lemma last_indep (cvs : list (nat * Q)) i : existsb (fun cv => fst cv =? i) cvs = true -> forall w w', last_val cvs i w = last_val cvs i w'.
Proof.
  unfold last_val. induction cvs as [|[c v] cvs IH]; intros H w w'; cbn [existsb fold_left fst snd] in *; [discriminate H|].
  destruct (c =? i); [reflexivity|]. apply IH. exact H.
Qed.
Lemma last_none (cvs : list (nat * Q)) i w : existsb (fun cv => fst cv =? i) cvs = false -> last_val cvs i w = w.
Proof.
  unfold last_val. revert w. induction cvs as [|[c v] cvs IH]; intros w H; cbn [existsb fold_left fst snd] in *; [reflexivity|].
  apply orb_false_iff in H. destruct H as [H1 H2]. rewrite H1. apply IH. exact H2.
Qed.
Lemma through_last f cvs i w : last_val (through f cvs) i w = if existsb (fun cv => fst cv =? i) cvs then f (last_val cvs i w) else w.
Proof.
  unfold through. revert w. induction cvs as [|[c v] cvs IH]; intros w; [reflexivity|].
  cbn [map existsb fst snd]. change (last_val ((c, f v) :: map (fun cv => (fst cv, f (snd cv))) cvs) i w)
    with (last_val (map (fun cv => (fst cv, f (snd cv))) cvs) i (if c =? i then f v else w)).
  change (last_val ((c, v) :: cvs) i w) with (last_val cvs i (if c =? i then v else w)).
  rewrite IH. destruct (existsb (fun cv => fst cv =? i) cvs) eqn:E.
  - rewrite orb_true_r. f_equal. apply last_indep. exact E.
  - rewrite orb_false_r. rewrite last_none by exact E. destruct (c =? i); reflexivity.
Qed.
Lemma rel_same f p r : row_rel f p r -> (forall c v, In (c, v) (l_cols r) -> f v = v) -> p = row_of r.
Proof.
  intros (H1 & H2 & _ & cols0 & cvs & H3 & H4) Hf. destruct p as [pl pu pc]. cbn [pr_lower pr_upper pr_cols] in *.
  unfold row_of. f_equal; try assumption. rewrite H4 in Hf. rewrite H3, H4. unfold setcs in *. apply map_ext_in. intros [c w] Hin. cbn [fst snd].
  f_equal. rewrite through_last. destruct (existsb (fun cv => fst cv =? c) cvs) eqn:E.
  - apply (Hf c). apply in_map_iff. exists (c, w). split; [reflexivity | exact Hin].
  - symmetry. apply last_val_notin. intros Hk. apply in_map_iff in Hk. destruct Hk as ([c' v] & Hc & Hv). cbn in Hc. subst c'.
    assert (existsb (fun cv => fst cv =? c) cvs = true) by (apply existsb_exists; exists (c, v); split; [exact Hv | apply Nat.eqb_refl]). congruence.
Qed.
Lemma clamp_id v : (- inject_Z 10000000000 <= v <= inject_Z 10000000000)%Q -> clamp v = v.
Proof.
  intros [H1 H2]. unfold clamp, HIGHS_COEF. apply Qle_bool_iff in H1. apply Qle_bool_iff in H2. rewrite H1, H2. reflexivity.
Qed.

Lemma cols_of_cost cols obj x : length obj = length cols ->
  cols_cost (cols_of cols obj) x = qsum (map (fun io => snd io * x (fst io))%Q (combine (seq 0 (length obj)) obj)).
Proof.
  intros Hl. unfold cols_cost. f_equal. apply nth_error_ext'. intros i. rewrite !nth_error_map, cols_of_length by exact Hl.
  destruct (nth_error obj i) as [o|] eqn:Eo.
  - pose proof (nth_error_Some_lt _ _ _ Eo) as Hi. destruct (nth_error cols i) as [c|] eqn:Ec; [|apply nth_error_None in Ec; lia].
    rewrite (nth_combine (seq 0 (length cols)) (cols_of cols obj) i i (col_of c o)).
    + rewrite (nth_combine (seq 0 (length obj)) obj i i o); [reflexivity | apply nth_seq; exact Hi | exact Eo].
    + apply nth_seq. lia.
    + rewrite cols_of_nth, Ec by exact Hl. unfold at_. rewrite (nth_error_nth _ _ _ Eo). reflexivity.
  - apply nth_error_None in Eo.
    assert (nth_error (combine (seq 0 (length cols)) (cols_of cols obj)) i = None) as -> by (apply nth_error_None; rewrite combine_length, seq_length; lia).
    assert (nth_error (combine (seq 0 (length obj)) obj) i = None) as -> by (apply nth_error_None; rewrite combine_length, seq_length; lia). reflexivity.
Qed.
Lemma cols_of_admit inf cols obj x : length obj = length cols ->
  (cols_admit inf (cols_of cols obj) x <->
   forall i c, nth_error cols i = Some c -> above inf (col_lower c) (x i) /\ below inf (col_upper c) (x i) /\ (col_type_of c = ColInteger -> is_integer (x i))).
Proof.
  intros Hl. unfold cols_admit. split; intros H i c Hc.
  - specialize (H i (col_of c (at_ obj i))). rewrite cols_of_nth, Hc in H by exact Hl. specialize (H eq_refl).
    unfold col_admits, col_of in H. cbn [pc_lower pc_upper pc_int] in H. destruct H as (H1 & H2 & H3). split; [exact H1|]. split; [exact H2|].
    intros E. apply H3. rewrite E. reflexivity.
  - rewrite cols_of_nth in Hc by exact Hl. destruct (nth_error cols i) as [c'|] eqn:E; [|discriminate Hc]. injection Hc as <-.
    destruct (H i c' E) as (H1 & H2 & H3). unfold col_admits, col_of. cbn [pc_lower pc_upper pc_int]. split; [exact H1|]. split; [exact H2|].
    intros Ei. apply H3. destruct (col_type_of c'); [discriminate Ei | reflexivity].
Qed.
Lemma same_std l : length (lp_obj l) = length (lp_cols l) ->
  same_problem l (HStd (mkPb (cols_of (lp_cols l) (lp_obj l)) (map row_of (lp_rows l)))).
Proof.
  intros Hl x. split.
  - cbn [admits pb_cols pb_rows]. unfold allows. rewrite (cols_of_admit _ _ _ x Hl). apply and_iff_compat_l. split; intros H r Hr.
    + apply (H (row_of r)). apply in_map. exact Hr.
    + apply in_map_iff in Hr. destruct Hr as (r' & <- & Hr'). apply (H r' Hr').
  - cbn [cost pb_cols]. rewrite (cols_of_cost _ _ x Hl). reflexivity.
Qed.

(** *** microlp *)
Definition mrow (fm : Q) (r : lrow) : sres (list constr) :=
  if Qeq_bool (l_lower r) (l_upper r) then Ok [mkCs (l_cols r) CEq (l_lower r)]
  else if Qle_bool (l_upper r) (l_lower r) then Panic
  else Ok (mkCs (l_cols r) CGe (l_lower r) :: (if negb (Qle_bool fm (l_upper r)) then [mkCs (l_cols r) CLe (l_upper r)] else [])).
Lemma micro_row_of fm cols obj rows i r : nth_error rows i = Some r -> micro_row (arr_of fm cols obj rows []) i = mrow fm r.
Proof.
  intros H. unfold micro_row, mrow. set (a := arr_of fm cols obj rows []).
  destruct (entries_of fm cols obj rows [] i r H) as [E _]. fold a in E. cbv zeta. rewrite E.
  change (ar_upper a) with (map l_upper rows). change (ar_lower a) with (map l_lower rows). change (ar_fmax a) with fm.
  rewrite !(nth_map_in _ rows i r H). reflexivity.
Qed.
Lemma rmap_ext_in' {A B E} (f g : A -> res E B) l : (forall a, In a l -> f a = g a) -> rmap f l = rmap g l.
Proof.
  induction l as [|a l IH]; intros H; cbn [rmap]; [reflexivity|]. rewrite (H a (or_introl eq_refl)), IH; [reflexivity|].
  intros b Hb. apply H. right. exact Hb.
Qed.
Lemma rmap_seq {B E} (rows : list lrow) (f : nat -> res E B) (g : lrow -> res E B) : forall k,
  (forall i r, nth_error rows i = Some r -> f (k + i) = g r) -> rmap f (seq k (length rows)) = rmap g rows.
Proof.
  induction rows as [|r rows IH]; intros k H; cbn [length seq rmap]; [reflexivity|].
  rewrite <- (H 0 r eq_refl), Nat.add_0_r. rewrite (IH (S k)); [reflexivity|]. intros i r' Hr. rewrite <- (H (S i) r' Hr). f_equal. lia.
Qed.
Definition binary_or_continuous (cols : list column) : Prop :=
  forall c, In c cols -> col_type_of c = ColInteger -> col_lower c = 0%Q /\ col_upper c = 1%Q.
Lemma make_problem_of fm cols obj rows : length obj = length cols -> binary_or_continuous cols ->
  make_problem (arr_of fm cols obj rows []) =
  rbind (rmap (mrow fm) rows) (fun css => Ok (mkMp (cols_of cols obj) (concat css))).
Proof.
  intros Hl Hbin. unfold make_problem. set (a := arr_of fm cols obj rows []).
  change (ar_upper a) with (map l_upper rows). rewrite map_length.
  rewrite (rmap_seq rows (micro_row a) (mrow fm) 0) by (intros i r Hr; apply micro_row_of; exact Hr).
  destruct (rmap (mrow fm) rows) as [css| |]; [|reflexivity|reflexivity]. cbn [rbind]. f_equal. f_equal.
  apply nth_error_ext'. intros i. rewrite cols_of_nth by exact Hl. change (ar_col_lower a) with (map col_lower cols). rewrite map_length.
  rewrite (map_cols cols _ (fun i c => col_of c (at_ obj i))); [reflexivity|].
  intros j c Hc. unfold micro_var. change (ar_col_upper a) with (map col_upper cols). change (ar_col_lower a) with (map col_lower cols).
  change (ar_obj a) with obj. change (ar_col_type a) with (map col_type_of cols). rewrite !(at_map _ cols j c Hc).
  assert (Ht : nth j (map col_type_of cols) ColContinuous = col_type_of c) by (apply nth_error_nth; rewrite nth_error_map, Hc; reflexivity).
  rewrite Ht. unfold col_of. destruct (col_type_of c) eqn:Et; [reflexivity|].
  destruct (Hbin c (nth_error_In _ _ Hc) Et) as [-> ->]. reflexivity.
Qed.
Lemma mrow_admits fm r cs x : mrow fm r = Ok cs -> (l_lower r < fm)%Q -> (- fm < l_upper r)%Q ->
  ((forall c, In c cs -> constr_admits fm c x) <->
   above fm (l_lower r) (row_value (l_cols r) x) /\ below fm (l_upper r) (row_value (l_cols r) x)).
Proof.
  intros H Hlo Hup. unfold mrow in H. set (v := row_value (l_cols r) x). unfold above, below.
  destruct (Qeq_bool (l_lower r) (l_upper r)) eqn:E.
  - injection H as <-. apply Qeq_bool_iff in E. split.
    + intros H. specialize (H _ (or_introl eq_refl)). unfold constr_admits in H. cbn [cs_cols cs_cmp cs_rhs] in H. fold v in H. split; right; lra.
    + intros [H1 H2] c [<-|[]]. unfold constr_admits. cbn [cs_cols cs_cmp cs_rhs]. fold v. destruct H1 as [H1|H1], H2 as [H2|H2]; lra.
  - destruct (Qle_bool (l_upper r) (l_lower r)); [discriminate H|]. injection H as <-. split.
    + intros H. pose proof (H _ (or_introl eq_refl)) as H1. unfold constr_admits in H1. cbn [cs_cols cs_cmp cs_rhs] in H1. fold v in H1. split; [exact H1|].
      destruct (Qle_bool fm (l_upper r)) eqn:Ef; cbn [negb] in H; [left; apply Qle_bool_iff; exact Ef|].
      specialize (H _ (or_intror (or_introl eq_refl))). exact H.
    + intros [H1 H2] c [<-|Hc]; [exact H1|]. destruct (negb (Qle_bool fm (l_upper r))); [|destruct Hc]. destruct Hc as [<-|[]]. exact H2.
Qed.
Lemma micro_total fm rows : (forall r, In r rows -> (l_lower r <= l_upper r)%Q) -> exists css, rmap (mrow fm) rows = Ok css.
Proof.
  induction rows as [|r rows IH]; intros H; cbn [rmap]; [eexists; reflexivity|].
  destruct IH as (css & Hc); [intros r' Hr; apply H; right; exact Hr|]. specialize (H r (or_introl eq_refl)). unfold mrow at 1.
  destruct (Qeq_bool (l_lower r) (l_upper r)) eqn:E; cbn [rbind]; [rewrite Hc; eexists; reflexivity|].
  destruct (Qle_bool (l_upper r) (l_lower r)) eqn:E2.
  - exfalso. apply Qle_bool_iff in E2. apply Qeq_bool_neq in E. apply E. lra.
  - cbn [rbind]. rewrite Hc. eexists. reflexivity.
Qed.
Lemma micro_panics fm rows r : In r rows -> (l_upper r < l_lower r)%Q -> rmap (mrow fm) rows = Panic.
Proof.
  assert (Hno : forall r' e, mrow fm r' <> Err e).
  { intros r' e. unfold mrow. destruct (Qeq_bool _ _); [discriminate|]. destruct (Qle_bool _ _); discriminate. }
  induction rows as [|r0 rows IH]; intros Hin Hlt; [destruct Hin|]. cbn [rmap]. destruct Hin as [->|Hin].
  - unfold mrow at 1. destruct (Qeq_bool (l_lower r) (l_upper r)) eqn:E; [apply Qeq_bool_iff in E; lra|].
    destruct (Qle_bool (l_upper r) (l_lower r)) eqn:E2; [reflexivity|]. exfalso.
    assert (Qle_bool (l_upper r) (l_lower r) = true) by (apply Qle_bool_iff; lra). congruence.
  - destruct (mrow fm r0) as [c|e|] eqn:E; [|destruct (Hno r0 e E) | reflexivity]. cbn [rbind]. rewrite (IH Hin Hlt). reflexivity.
Qed.
Lemma same_micro l q : length (lp_obj l) = length (lp_cols l) -> binary_or_continuous (lp_cols l) -> proper l ->
  make_problem (arr_of (lp_fmax l) (lp_cols l) (lp_obj l) (lp_rows l) []) = Ok q -> same_problem l (HMicro q).
Proof.
  intros Hl Hb Hp H x. rewrite make_problem_of in H by assumption. apply rbind_Ok in H. destruct H as (css & Hc & H). injection H as <-.
  apply rmap_Ok_Forall2 in Hc. split; [|cbn [cost mp_vars]; rewrite (cols_of_cost _ _ x Hl); reflexivity].
  cbn [admits mp_vars mp_cons]. unfold allows. rewrite (cols_of_admit _ _ _ x Hl). apply and_iff_compat_l. split.
  - intros H r Hr. destruct (Forall2_In_l _ _ _ _ Hc Hr) as (cs & Hcs & Hm). destruct (Hp r Hr) as [P1 P2].
    apply (mrow_admits _ _ _ x Hm P1 P2). intros c Hin. apply H. apply in_concat. exists cs. split; assumption.
  - intros H c Hin. apply in_concat in Hin. destruct Hin as (cs & Hcs & Hin). destruct (Forall2_In_r _ _ _ _ Hc Hcs) as (r & Hr & Hm).
    destruct (Hp r Hr) as [P1 P2]. apply (mrow_admits _ _ _ x Hm P1 P2); [apply H; exact Hr | exact Hin].
Qed.
