(** C62-C64: the interior point method (ipm-common, ipm-simd). *)
From Coq Require Import Reals Lra Sorted.
From Verif Require Import Base IpmCholesky IpmStep IpmSpec IpmRunSpec IpmDense IpmSymbolic IpmNumeric IpmSolve IpmStepLemmas IpmLoopLemmas IpmBufferLemmas.
Local Open Scope list_scope.
Local Open Scope nat_scope.

(** The sparse factorisation and the two substitutions give the one solution of
    the normal equations, whatever the buffers held before. *)
Theorem C62_direct_solve : forall a ncols wsize x z y w b l0 v0, well_posed a ncols wsize ->
  positive ncols x -> positive ncols z -> positive wsize y -> positive wsize w ->
  let ch := chol_from_matrix a in
  let v := cholesky_solve (length a) ch (chol_decompose a ch wsize x z y w l0) b v0 in
  let M := normal_matrix ncols (dense a) wsize x z y w in
  solves (length a) M v b /\ forall v', solves (length a) M v' b -> forall i, i < length a -> v' i = v i.
Proof.
  intros a m wsize x z y w b l0 v0 (Hwf & Hne & _ & Hind) Hx Hz Hy Hw ch v M. assert (Hs : solves (length a) M v b) by (apply (direct_solve a m); assumption). split; [exact Hs|].
  intros v' Hv'. apply (unique_solution (length a) M v' v b); [apply normal_pd; assumption | exact Hv' | exact Hs].
Qed.

(** A step of a lane that is not finished moves it along the solution of the
    linearised equations, by a factor between 0 and 1. *)
Theorem C62_newton_step : forall a ncols wsize d ln, well_posed a ncols wsize -> all_positive ncols wsize (ln_path ln) ->
  let p := ln_path ln in
  let mu := (/ 10 * (rsum ncols (fun k => p_z p k * p_x p k) + rsum wsize (fun i => p_w p i * p_y p i)) / INR (ncols + wsize))%R in
  exists theta dx dz dy dw, (0 < theta <= 1)%R /\
    newton (length a) ncols wsize (dense a) (d_b d) (d_c d) (p_x p) (p_z p) (p_y p) (p_w p) mu dx dz dy dw /\
    moved (length a) ncols wsize p (ln_path (lane_step (ipm_new a ncols wsize) d false ln)) theta dx dz dy dw.
Proof.
  intros a m wsize d ln (Hwf & Hne & Hw & Hind) Hp p mu. exists (lane_theta a m wsize d ln), (lane_dx a m wsize d ln), (lane_dz a m wsize d ln), (lane_dy (ipm_new a m wsize) d ln), (lane_dw a m wsize d ln).
  split; [apply step_size_range|]. split.
  - replace mu with (lane_mu (ipm_new a m wsize) p); [apply lane_newton; assumption|]. unfold lane_mu, mu. rewrite (gap_eq a m wsize Hw). cbn [i_at i_wsize ipm_new]. rewrite transpose_len. reflexivity.
  - unfold lane_step. cbv zeta. fold (lane_dx a m wsize d ln). fold (lane_dz a m wsize d ln). fold (lane_dw a m wsize d ln).
    replace (length (i_at (ipm_new a m wsize))) with m by (symmetry; apply transpose_len). change (i_wsize (ipm_new a m wsize)) with wsize. fold (lane_theta a m wsize d ln).
    unfold moved. cbn [ln_path p_x p_z p_y p_w]. unfold vector_update. fold p. repeat split; intros; lra.
Qed.

(** The numbers that must stay positive are positive after any number of steps
    from the start. *)
Theorem C62_stays_positive : forall a ncols wsize d ln j, well_posed a ncols wsize -> ln_path ln = path_init ->
  all_positive ncols wsize (ln_path (lane_after (ipm_new a ncols wsize) d j ln)).
Proof.
  intros a m wsize d ln j (Hwf & Hne & Hw & Hind) Hi. induction j as [|j IH]; cbn [lane_after].
  - rewrite Hi. unfold all_positive, positive. cbn [path_init p_x p_z p_y p_w]. repeat split; intros; lra.
  - apply lane_step_positive; assumption.
Qed.

(** Every step multiplies what is missing in each constraint of the problem and of
    its dual by one factor between 0 and 1, so nothing that was gained is lost. *)
Theorem C62_gaps_shrink : forall a ncols wsize d ln j, well_posed a ncols wsize -> ln_path ln = path_init ->
  let s := ipm_new a ncols wsize in
  exists t, (0 <= t <= 1)%R /\
    (forall i, i < length a -> primal_gap_of a ncols wsize d (ln_path (lane_after s d (S j) ln)) i = (t * primal_gap_of a ncols wsize d (ln_path (lane_after s d j ln)) i)%R) /\
    (forall k, k < ncols -> dual_gap_of a d (ln_path (lane_after s d (S j) ln)) k = (t * dual_gap_of a d (ln_path (lane_after s d j ln)) k)%R) /\
    (lane_status s d (ln_path (lane_after s d j ln)) = false -> (t < 1)%R).
Proof.
  intros a m wsize d ln j H Hi s. pose proof (C62_stays_positive a m wsize d ln j H Hi) as Hp. destruct H as (Hwf & Hne & Hw & Hind). cbn [lane_after]. fold s in Hp. set (l := lane_after s d j ln) in *.
  destruct (lane_status s d (ln_path l)) eqn:E.
  - exists 1%R. rewrite frozen. split; [lra|]. split; [intros; lra|]. split; [intros; lra|]. discriminate.
  - destruct (lane_step_gaps a m wsize Hwf Hne Hind d l Hp) as (t & Ht & G1 & G2). exists t. split; [lra|]. split; [exact G1|]. split; [exact G2|]. intros _. lra.
Qed.
Print Assumptions C62_direct_solve.
Print Assumptions C62_newton_step.
Print Assumptions C62_stays_positive.
Print Assumptions C62_gaps_shrink.

(** If [solve] returns, every lane is within the tolerances of the constraints and
    of the optimum. *)
Theorem C63_near_optimal : forall a ncols wsize k data out, well_posed a ncols wsize ->
  ipm_solve (ipm_new a ncols wsize) k data = Ok out ->
  Forall2 (fun e o => near_optimal a ncols wsize (fst e) (p_x (ln_path o))) data out.
Proof.
  intros a m wsize k data out H Hs. unfold ipm_solve in Hs. destruct (solve_loop _ _ _) as [lanes|] eqn:E; [|discriminate]. injection Hs as <-.
  apply (lanes_alone _ _ _ _ _ (same_all _ _)) in E. revert lanes E. induction data as [|e data IH]; intros lanes E; cbn [map] in E; inversion E as [|e0 e' l0 lanes' He Hf]; subst; cbn [map]; constructor; [|apply IH; assumption].
  destruct He as (l1 & Ha & Ep). rewrite Ep. cbn [fst snd] in Ha. apply alone_after in Ha. destruct Ha as (Hst & j & _ & ->).
  pose proof (C62_stays_positive a m wsize (fst e) (mkLane path_init (ln_l (snd e)) (ln_dy (snd e))) j H eq_refl) as Hp. set (p := ln_path (lane_after _ _ _ _)) in *. destruct H as (Hwf & Hne & Hw & Hind).
  destruct (status_true a m wsize Hwf (fst e) p Hst) as (T1 & T2 & T3). rewrite (gap_eq a m wsize Hw) in T3. destruct Hp as (P1 & P2 & P3 & P4). unfold near_optimal. cbv zeta.
  assert (G : forall i, i < length a -> (Rabs (primal_gap m wsize (dense a) (d_b (fst e)) (p_x p) (p_w p) i) < d_primal (fst e) * (1 + norm m (p_x p)))%R).
  { intros i Hi. pose proof (norm_ge (length a) (primal_gap m wsize (dense a) (d_b (fst e)) (p_x p) (p_w p)) i Hi). lra. }
  split; [exact P1|]. split; [|split].
  - intros i Hi Hiw. specialize (G i Hi). unfold primal_gap in G. destruct (Nat.ltb_spec i wsize); [|lia]. pose proof (P4 i Hiw). apply Rabs_def2 in G. lra.
  - intros i Hi Hiw. specialize (G i Hi). unfold primal_gap in G. destruct (Nat.ltb_spec i wsize); [lia|]. rewrite Rabs_minus_sym. rewrite Rminus_0_r in G. exact G.
  - exists (p_y p). split; [exact P3|]. split.
    + intros q Hq. pose proof (norm_ge m (dual_gap (length a) (dense a) (d_c (fst e)) (p_y p) (p_z p)) q Hq) as G2. unfold dual_gap at 1 in G2. pose proof (P2 q Hq). pose proof (Rle_abs (d_c (fst e) q - times_t (length a) (dense a) (p_y p) q + p_z p q)). lra.
    + intros x' Hx'. pose proof (certificate a m wsize Hw (d_b (fst e)) (d_c (fst e)) (p_x p) (p_z p) (p_y p) (p_w p) x' P2 P3 Hx') as C.
      pose proof (norm_pos (length a) (p_y p)) as N1. pose proof (norm_pos m (fun q => (x' q - p_x p q)%R)) as N2.
      apply Rlt_le in T1, T2. apply (Rmult_le_compat_r _ _ _ N1) in T1. apply (Rmult_le_compat_r _ _ _ N2) in T2. lra.
Qed.
Print Assumptions C63_near_optimal.

(** Every lane gets the result it would get on its own, and all lanes are solved
    together if (within the same number of iterations) each is solved on its
    own. *)
Theorem C64_lanes_independent : forall s k data,
  (forall out, ipm_solve s k data = Ok out ->
     Forall2 (fun e o => exists o1, ipm_solve s k [e] = Ok [o1] /\ solution s o = solution s o1) data out) /\
  (k <> 0 -> (forall e, In e data -> ipm_solve s k [e] <> Panic) -> exists out, ipm_solve s k data = Ok out).
Proof.
  intros s k data. split.
  - intros out Hs. unfold ipm_solve in Hs. destruct (solve_loop _ _ _) as [lanes|] eqn:E; [|discriminate]. injection Hs as <-.
    apply (lanes_alone _ _ _ _ _ (same_all _ _)) in E. revert lanes E. induction data as [|e data IH]; intros lanes E; cbn [map] in E; inversion E as [|e0 e' l0 lanes' He Hf]; subst; cbn [map]; constructor; [|apply IH; assumption].
    destruct He as (l1 & Ha & Ep). exists l1. unfold ipm_solve. cbn [map fst snd] in *. rewrite solve_loop_one, Ha. split; [reflexivity|]. unfold solution. rewrite Ep. reflexivity.
  - intros Hk H. unfold ipm_solve. destruct (solve_loop _ _ _) as [lanes|] eqn:E; [eexists; reflexivity|]. exfalso. revert E. apply (alone_lanes s k _ _ Hk (same_all s _)).
    apply Forall_map, Forall_forall. intros e He. cbn [fst snd]. specialize (H e He). unfold ipm_solve in H. cbn [map fst snd] in H. rewrite solve_loop_one in H. destruct (alone _ _ _ _); congruence.
Qed.

(** What earlier calls left in the buffers does not matter. *)
Theorem C64_buffers_do_not_matter : forall a ncols wsize k data data', well_posed a ncols wsize -> map fst data = map fst data' ->
  let s := ipm_new a ncols wsize in
  match ipm_solve s k data, ipm_solve s k data' with
  | Ok out, Ok out' => map (solution s) out = map (solution s) out'
  | Panic, Panic => True
  | _, _ => False
  end.
Proof.
  intros a m wsize k data data' (Hwf & Hne & Hw & Hind) Hd s.
  destruct k as [|k']; [exact I|]. set (k := S k') in *. assert (Hk : k <> 0) by discriminate.
  assert (Hone : forall d ln ln', match alone s d k (mkLane path_init (ln_l ln) (ln_dy ln)), alone s d k (mkLane path_init (ln_l ln') (ln_dy ln')) with Some o, Some o' => agree a m wsize (ln_path o) (ln_path o') | None, None => True | _, _ => False end).
  { intros d ln ln'. assert (Hp : all_positive m wsize path_init) by (unfold all_positive, positive; cbn; repeat split; intros; lra). apply (agree_alone a m wsize Hwf Hw Hne Hind); [|exact Hp|exact Hp]. repeat split; intros; reflexivity. }
  set (st := fun e : lane_data * lane => (fst e, mkLane path_init (ln_l (snd e)) (ln_dy (snd e)))).
  assert (Hiff : forall dt, solve_loop s k (map st dt) = None <-> ~ Forall (fun e => alone s (fst e) k (snd e) <> None) (map st dt)).
  { intros dt. split.
    - intros E Hf. exact (alone_lanes s k _ _ Hk (same_all s _) Hf E).
    - intros Hn. destruct (solve_loop s k (map st dt)) as [o|] eqn:E; [|reflexivity]. exfalso. apply Hn. apply (lanes_alone _ _ _ _ _ (same_all _ _)) in E. clear - E. induction E as [|e0 e' l l' He Hf IH]; constructor; [|exact IH]. destruct He as (l1 & -> & _). discriminate. }
  assert (Hsame : Forall (fun e => alone s (fst e) k (snd e) <> None) (map st data) <-> Forall (fun e => alone s (fst e) k (snd e) <> None) (map st data')).
  { clear Hiff. revert data' Hd. induction data as [|e data IH]; intros [|e' data'] Hd; try discriminate; [split; constructor|]. cbn [map] in *. injection Hd as He Hd. specialize (IH _ Hd). pose proof (Hone (fst e) (snd e) (snd e')) as Ho. rewrite !Forall_cons_iff, IH. unfold st. cbn [fst snd]. rewrite <- He.
    destruct (alone s (fst e) k (mkLane path_init (ln_l (snd e)) (ln_dy (snd e)))), (alone s (fst e) k (mkLane path_init (ln_l (snd e')) (ln_dy (snd e')))); try contradiction; split; intros (H1 & H2); split; congruence || assumption. }
  unfold ipm_solve. fold st. destruct (solve_loop s k (map st data)) as [o|] eqn:E, (solve_loop s k (map st data')) as [o'|] eqn:E'; [| | | exact I].
  - apply (lanes_alone _ _ _ _ _ (same_all _ _)) in E, E'. clear Hiff Hsame. revert data' o o' Hd E E'. induction data as [|e data IH]; intros [|e' data'] o o' Hd E E'; try discriminate; cbn [map] in *; inversion E as [|? ? ? ? Q1 F1]; inversion E' as [|? ? ? ? Q2 F2]; subst; [reflexivity|].
    injection Hd as He Hd. cbn [map]. f_equal; [|eapply IH; eassumption]. destruct Q1 as (l1 & A1 & P1). destruct Q2 as (l2 & A2 & P2). pose proof (Hone (fst e) (snd e) (snd e')) as Ho. unfold st in A1, A2. cbn [fst snd] in A1, A2. rewrite <- He in A2. rewrite A1, A2 in Ho. unfold solution. rewrite P1, P2.
    apply map_ext_in. intros q Hq. apply in_seq in Hq. destruct Ho as (Ho & _). apply Ho. cbn in Hq. lia.
  - apply Hiff in E'. apply E'. apply Hsame. clear - E. apply (lanes_alone _ _ _ _ _ (same_all _ _)) in E. induction E as [|e0 e' l l' He Hf IH]; constructor; [|exact IH]. destruct He as (l1 & -> & _). discriminate.
  - apply Hiff in E. apply E. apply Hsame. clear - E'. apply (lanes_alone _ _ _ _ _ (same_all _ _)) in E'. induction E' as [|e0 e' l l' He Hf IH]; constructor; [|exact IH]. destruct He as (l1 & -> & _). discriminate.
Qed.
Print Assumptions C64_lanes_independent.
Print Assumptions C64_buffers_do_not_matter.

(** A matrix that meets the hypotheses: the capacity of the first of three flows,
    and a balance [x0 - x1 - x2 = 0]. *)
Definition small : list (list (nat * R)) := [[(0, 1%R)]; [(0, 1%R); (1, (-1)%R); (2, (-1)%R)]].
Lemma small_posed : well_posed small 3 1.
Proof.
  split; [|split; [|split]].
  - intros row [<-|[<-|[]]]; cbn [map fst]; split; repeat constructor.
  - intros row [<-|[<-|[]]]; discriminate.
  - cbn. lia.
  - intros v H0 Hc i Hi. specialize (Hc 0 ltac:(lia)). pose proof (H0 0 ltac:(lia)). unfold dense in Hc. cbn in Hc. cbn [small length] in Hi. destruct i as [|[|i]]; [assumption | lra | lia].
Qed.
(** With these tolerances the method returns. *)
Definition loose (b c : vec) : lane_data :=
  let s := ipm_new small 3 1 in
  mkData b c (primal_feasibility small 3 1 (p_x path_init) (p_w path_init) b + 1)
    (dual_feasibility (transpose 3 small) 2 (p_y path_init) c (p_z path_init) + 1)
    (gap s path_init / (1 + vector_norm 3 (p_x path_init) + vector_norm 2 (p_y path_init)) + 1).
Example C62_example : exists ln, ln_path ln = path_init /\ all_positive 3 1 (ln_path ln) /\ well_posed small 3 1.
Proof. exists (mkLane path_init (fun _ => 0%R) (fun _ => 0%R)). split; [reflexivity|]. split; [|exact small_posed]. unfold all_positive, positive. cbn. repeat split; intros; lra. Qed.
Example C63_example : forall b c, exists out, ipm_solve (ipm_new small 3 1) 5 [(loose b c, mkLane path_init (fun _ => 0%R) (fun _ => 0%R)); (loose c b, mkLane path_init (fun _ => 1%R) (fun _ => 1%R))] = Ok out.
Proof.
  intros b c. assert (H : forall b c, lane_status (ipm_new small 3 1) (loose b c) path_init = true).
  { clear. intros b c. unfold lane_status. cbv zeta. cbn [i_a i_ncols i_wsize i_at ipm_new]. change (length small) with 2. unfold loose at 1 2 3 4 5. cbn [d_b d_c d_primal d_dual d_optimality]. unfold below.
    repeat (match goal with |- context [Rlt_dec ?x ?y] => destruct (Rlt_dec x y) as [|Hn]; [|exfalso; apply Hn; lra] end). reflexivity. }
  unfold ipm_solve. cbn [map fst snd solve_loop ln_l ln_dy]. unfold normal_eqn_step. cbn [forallb fst snd ln_path]. rewrite !H. cbn. eexists. reflexivity.
Qed.
