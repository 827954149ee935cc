(** The flat arrays of a chunk hold, for every scenario, the programme ipm-simd
    has for that scenario alone; and the solver on top. *)
From Coq Require Import Reals Qreals Relations Sorted FunctionalExtensionality Permutation.
From Verif Require Import Base IpmCholesky IpmStep IpmSpec IpmRunSpec IpmDense IpmSymbolic IpmNumeric IpmStepLemmas IpmLoopLemmas IpmBufferLemmas Props_Ipm.
From Verif Require Import Calendar Network NetworkBuild NetworkSpec NetworkBuildLemmas Lp LpSpec LpColLemmas LpRowLemmas IpmLp IpmLpSpec IpmLpCols IpmLpRows IpmLpIndep IpmLpPosed IpmLpUpdate IpmLpSolve IpmLpRun.
From Verif Require Import IpmOcl IpmOclSpec IpmOclLemmas.
Local Open Scope list_scope. Local Open Scope nat_scope.

Lemma change_from_length f : forall vs first l, length (change_from f first vs l) = length l.
Proof. induction vs as [|v vs IH]; intros first l; cbn [change_from]; [reflexivity|]. rewrite IH. apply upd_length. Qed.
Lemma change_from_nth f : forall vs first l k, k < length l ->
  nth k (change_from f first vs l) 0%Q = if (first <=? k) && (k <? first + length vs) then f (nth k l 0%Q) (nth (k - first) vs 0%Q) else nth k l 0%Q.
Proof.
  induction vs as [|v vs IH]; intros first l k Hk; cbn [change_from length].
  - destruct (Nat.leb_spec first k), (Nat.ltb_spec k (first + 0)); try reflexivity; lia.
  - rewrite IH by (rewrite upd_length; exact Hk). destruct (Nat.eq_dec k first) as [->|Hn].
    + rewrite upd_nth_same by exact Hk. destruct (Nat.leb_spec (S first) first); [lia|]. destruct (Nat.leb_spec first first); [|lia]. destruct (Nat.ltb_spec first (first + S (length vs))); [|lia]. cbn [andb]. rewrite Nat.sub_diag. reflexivity.
    + rewrite upd_nth_other by exact Hn. destruct (Nat.leb_spec (S first) k), (Nat.leb_spec first k); cbn [andb]; try lia; try reflexivity.
      replace (S first + length vs) with (first + S (length vs)) by lia. destruct (k <? first + S (length vs)); [|reflexivity]. replace (k - first) with (S (k - S first)) by lia. reflexivity.
Qed.

Lemma Forall2_nth_error_r' {A B} (P : A -> B -> Prop) la lb : Forall2 P la lb -> forall j b, nth_error lb j = Some b -> exists a, nth_error la j = Some a /\ P a b.
Proof. induction 1 as [|a b la lb H HF IH]; intros [|j] b' Hj; try discriminate Hj; [injection Hj as <-; exists a; auto | apply (IH j b' Hj)]. Qed.
(** The number [r] of scenario [i] in the flat array is the number of the first
    lane of row [r]. *)
Definition projects (n i : nat) (flat : list Q) (rows : list (list Q)) : Prop :=
  length flat = length rows * n /\ four rows /\ forall r, nth (r * n + i) flat 0%Q = num rows r 0.
Lemma num_overflow rows r : length rows <= r -> num rows r 0 = 0%Q.
Proof. intros H. unfold num. rewrite (nth_overflow rows) by exact H. reflexivity. Qed.
Lemma projects_change f n i row ub flat rows : i < n -> length ub = n -> projects n i flat rows ->
  projects n i (change_from f (row * n) ub flat) (Lp.upd row (fun v => lanes2 f v (pad [nth i ub 0%Q])) rows).
Proof.
  intros Hi Hu (Hl & Hf & Hp). split; [rewrite change_from_length, upd_length; exact Hl|]. split.
  - intros v Hv. apply upd_In in Hv. destruct Hv as [Hv|(y & Hy & ->)]; [apply Hf, Hv | apply lanes2_length; [apply Hf, Hy | reflexivity]].
  - intros r. destruct (Nat.lt_ge_cases r (length rows)) as [Hr|Hr].
    + rewrite change_from_nth by nia. rewrite Hu, Hp. unfold num. destruct (Nat.eq_dec r row) as [->|Hn].
      * rewrite upd_nth_same by exact Hr. rewrite lanes2_nth by (rewrite ?four_nth by assumption; cbn; lia). destruct (Nat.leb_spec (row * n) (row * n + i)); [|lia]. destruct (Nat.ltb_spec (row * n + i) (row * n + n)); [|lia]. cbn [andb].
        replace (row * n + i - row * n) with i by lia. reflexivity.
      * rewrite upd_nth_other by exact Hn. destruct (Nat.leb_spec (row * n) (r * n + i)), (Nat.ltb_spec (r * n + i) (row * n + n)); cbn [andb]; try reflexivity. exfalso. nia.
    + rewrite num_overflow by (rewrite upd_length; exact Hr). apply nth_overflow. rewrite change_from_length. nia.
Qed.

Section Lp.
Variable net : network.
Hypothesis wf : wf_network net.
Hypothesis anch : anchored net.
Hypothesis used : storages_used net.
Variable b0 : ibuilt.
Hypothesis Hb0 : ipm_create net = Ok b0.
Let Hba0 : built_as net b0 := create_built net wf b0 Hb0.
Let nq := length (il_ineq (ib_lp b0)).
Let ne := length (il_eq (ib_lp b0)).
Let ncols := cm_ncols (edge_columns net).

Record ocl_inv (n : nat) (b : obuilt) : Prop := {
  oi_ineq : ol_ineq (ob_lp b) = il_ineq (ib_lp b0);
  oi_eq : ol_eq (ob_lp b) = il_eq (ib_lp b0);
  oi_rows : ob_node_rows b = ib_node_rows b0;
  oi_num : ol_num (ob_lp b) = n;
  oi_ncols : ol_ncols (ob_lp b) = ncols;
  oi_upper : length (ol_upper (ob_lp b)) = (nq + ne) * n;
  oi_obj : length (ol_obj (ob_lp b)) = ncols * n;
  oi_zero : forall r i, nq <= r -> i < n -> nth (r * n + i) (ol_upper (ob_lp b)) 0%Q = 0%Q }.
Lemma nth_zeros k m : nth k (repeat 0%Q m) 0%Q = 0%Q.
Proof. revert k. induction m as [|m IH]; intros [|k]; cbn; auto. Qed.
Lemma ocl_created n : exists b, ocl_create net n = Ok b /\ ocl_inv n b.
Proof.
  pose proof (ba_ncols net b0 Hba0) as Hc. pose proof Hb0 as Hb. unfold ipm_create in Hb. unfold ocl_create. destruct (net_edges net) as [|e0 es0] eqn:Ene; [discriminate|]. destruct (balance_rows _ _) as [eqs| |]; try discriminate.
  destruct (add_upper_rows [] _) as [ineqs ids] eqn:E. injection Hb as Eb. eexists. split; [reflexivity|]. 
  constructor; unfold nq, ne; rewrite <- ?Eb; cbn [ob_lp ol_ineq ol_eq ol_num ol_ncols ol_upper ol_obj ob_node_rows ib_lp il_ineq il_eq ib_node_rows]; try reflexivity.
  - rewrite repeat_length. f_equal. lia.
  - apply repeat_length.
  - intros. apply nth_zeros.
Qed.

Lemma reset_projects n i up : i < n -> length up = (nq + ne) * n -> (forall r, nq <= r -> nth (r * n + i) up 0%Q = 0%Q) ->
  projects n i (ocl_reset (nq * n) up) (ipm_reset nq (il_upper (ib_lp b0))).
Proof.
  intros Hi Hl Hz. assert (Hub : length (il_upper (ib_lp b0)) = nq + ne) by apply (ba_upper net b0 Hba0). split; [|split].
  - rewrite reset_length, Hub. unfold ocl_reset. rewrite app_length, map_length, <- app_length, firstn_skipn. exact Hl.
  - apply reset_four. exact (ba_lanes net b0 Hba0).
  - intros r. unfold ocl_reset. assert (Lf : length (map (fun _ : Q => B_MAX) (firstn (nq * n) up)) = nq * n) by (rewrite map_length, firstn_length; nia).
    destruct (Nat.lt_ge_cases r nq) as [Hr|Hr].
    + rewrite reset_num by lia. destruct (Nat.ltb_spec r nq); [|lia]. rewrite app_nth1 by nia. transitivity (nth (r * n + i) (map (fun _ : Q => B_MAX) (firstn (nq * n) up)) B_MAX); [apply nth_indep; nia | exact (map_nth (fun _ : Q => B_MAX) (firstn (nq * n) up) 0%Q (r * n + i))].
    + unfold num. rewrite reset_beyond by lia. rewrite (ba_zero net b0 Hba0) by exact Hr. rewrite app_nth2 by nia. rewrite Lf. assert (Ef : length (firstn (nq * n) up) = nq * n) by (rewrite firstn_length; nia). pose proof (Hz r Hr) as Z. rewrite <- (firstn_skipn (nq * n) up) in Z. rewrite app_nth2 in Z by nia. rewrite Ef in Z. exact Z.
Qed.
Lemma limits_project sts i s : nth_error sts i = Some s -> forall ns j, Forall2 (fun u u1 => length u = length sts /\ u1 = [nth i u 0%Q]) (nodes_limits sts j ns) (nodes_limits [s] j ns).
Proof.
  intros Hs. assert (G : forall f : lp_state -> Q, length (map f sts) = length sts /\ [f s] = [nth i (map f sts) 0%Q]).
  { intros f. split; [apply map_length|]. f_equal. symmetry. apply nth_error_nth. rewrite nth_error_map, Hs. reflexivity. }
  induction ns as [|nd ns IH]; intros j; cbn [nodes_limits]; [constructor|]. apply Forall2_app; [|apply IH]. unfold node_limits. cbn [map]. destruct (n_type nd); try destruct (n_max nd); repeat (apply Forall2_cons; [exact (G _)|]); apply Forall2_nil.
Qed.
Lemma apply_project n i : i < n -> forall limits limits1, Forall2 (fun u u1 => length u = n /\ u1 = [nth i u 0%Q]) limits limits1 -> forall ids up rows rows',
  projects n i up rows -> apply_limits ids limits1 rows = Ok rows' -> exists up', ocl_apply_limits n ids limits up = Ok up' /\ projects n i up' rows'.
Proof.
  intros Hi limits limits1 HF. induction HF as [|u u1 limits limits1 (Hu & ->) HF IH]; intros [|id ids] up rows rows' Hp Ha; cbn [apply_limits ocl_apply_limits] in *; try discriminate.
  - injection Ha as <-. exists up. auto.
  - injection Ha as <-. exists up. auto.
  - unfold ocl_apply. rewrite Hu, Nat.eqb_refl. cbn [rbind]. apply (IH ids _ _ _ (projects_change fmin n i id u up rows Hi Hu Hp) Ha).
Qed.
Lemma objectives_project sts i s obj obj1 : nth_error sts i = Some s -> length obj = length obj1 * length sts ->
  exists obj', ocl_objectives net (length sts) sts obj = Ok obj' /\ projects (length sts) i obj' (ipm_objectives net [s] obj1).
Proof.
  intros Hs Hl. assert (Hi : i < length sts) by apply (nth_error_Some_lt _ _ _ Hs). unfold ocl_objectives, ipm_objectives.
  assert (Hp : projects (length sts) i (map (fun _ => 0%Q) obj) (map (fun _ => splat 0) obj1)).
  { split; [rewrite !map_length; exact Hl|]. split; [intros v Hv; apply in_map_iff in Hv; destruct Hv as (? & <- & _); reflexivity|]. intros r. unfold num.
    assert (Z : forall k (l : list Q), nth k (map (fun _ => 0%Q) l) 0%Q = 0%Q) by (intros k l; revert k; induction l; intros [|k]; cbn; auto). rewrite Z.
    destruct (nth_in_or_default r (map (fun _ : list Q => splat 0) obj1) []) as [Hin| ->]; [|reflexivity]. apply in_map_iff in Hin. destruct Hin as (? & <- & _). reflexivity. }
  revert Hp. generalize (map (fun _ : Q => 0%Q) obj) as o. generalize (map (fun _ : list Q => splat 0) obj1) as o1. generalize (combine (seq 0 (length (net_edges net))) (net_edges net)) as es. clear Hl.
  induction es as [|ie es IH]; intros o1 o Hp; cbn [fold_left]; [exists o; auto|]. unfold add_obj_coefficient at 2. cbn [rbind]. rewrite map_length, Nat.eqb_refl. apply IH. cbn [map].
  replace (- edge_cost net (st_env s) (snd ie))%Q with (nth i (map (fun s0 => (- edge_cost net (st_env s0) (snd ie))%Q) sts) 0%Q) by (apply nth_error_nth; rewrite nth_error_map, Hs; reflexivity).
  apply projects_change; [exact Hi | apply map_length | exact Hp].
Qed.
Lemma ocl_updated n b sts t : ocl_inv n b -> length sts = n -> 0 < n -> exists b', ocl_update net b sts = Ok b' /\ ocl_inv n b' /\
  forall i s b1, nth_error sts i = Some s -> ipm_update net b0 [s] = Ok b1 ->
    mkData (own n i (real_buffer (ol_upper (ob_lp b')))) (own n i (real_buffer (ol_obj (ob_lp b')))) (t_primal t) (t_dual t) (t_optimality t) = chunk_data t (ib_lp b1) 0.
Proof.
  intros [Iq Ie Ir In_ Ic Iu Io Iz] Hn Hpos. rewrite <- Hn in *. clear Hn n.
  assert (Hone : forall i s, nth_error sts i = Some s -> exists b1 obj' up', ipm_update net b0 [s] = Ok b1 /\ ocl_objectives net (length sts) sts (ol_obj (ob_lp b)) = Ok obj' /\
    ocl_apply_limits (length sts) (ob_node_rows b) (nodes_limits sts 0 (net_nodes net)) (ocl_reset (nq * length sts) (ol_upper (ob_lp b))) = Ok up' /\
    projects (length sts) i up' (il_upper (ib_lp b1)) /\ projects (length sts) i obj' (il_obj (ib_lp b1)) /\ (forall r, nq <= r -> num (il_upper (ib_lp b1)) r 0 = 0%Q) /\ length (il_upper (ib_lp b1)) = nq + ne /\ length (il_obj (ib_lp b1)) = ncols).
  { intros i s Hs. pose proof (nth_error_Some_lt _ _ _ Hs) as Hi. destruct (update_spec net b0 [s] Hba0 ltac:(cbn; lia)) as (b1 & Hu1 & Hb1 & Q1 & Q2 & Hbo & Hob).
    destruct (objectives_project sts i s (ol_obj (ob_lp b)) (il_obj (ib_lp b0)) Hs) as (obj' & Eo & Po); [rewrite Io, (ba_obj net b0 Hba0); reflexivity|].
    pose proof Hu1 as Hu2. unfold ipm_update in Hu2. destruct (apply_limits _ _ _) as [rows'| |] eqn:Ea; try discriminate. cbn [rbind] in Hu2. injection Hu2 as Eb1.
    destruct (apply_project (length sts) i Hi _ _ (limits_project sts i s Hs (net_nodes net) 0) (ib_node_rows b0) _ _ _ (reset_projects (length sts) i (ol_upper (ob_lp b)) Hi Iu (fun r Hr => Iz r i Hr Hi)) Ea) as (up' & Eu & Pu).
    exists b1, obj', up'. rewrite Ir. split; [exact Hu1|]. split; [exact Eo|]. split; [exact Eu|]. split; [rewrite <- Eb1; exact Pu|]. split; [rewrite Hob; exact Po|]. split; [|split].
    - intros r Hr. apply (bo_zero net b1 [s] Hbo). rewrite Q1. exact Hr.
    - rewrite (ba_upper net b1 Hb1), Q1, Q2. reflexivity.
    - apply (ba_obj net b1 Hb1). }
  destruct (nth_error_lt_Some sts 0 Hpos) as (s0 & Hs0). destruct (Hone 0 s0 Hs0) as (b10 & obj' & up' & _ & Eo & Eu & (Lu & _) & (Lo & _) & _ & Lu2 & Lo2).
  eexists. split; [unfold ocl_update; rewrite In_, Eo; cbn [rbind]; rewrite Iq; fold nq; rewrite Eu; cbn [rbind]; reflexivity|]. split.
  - constructor; cbn [ob_lp ol_ineq ol_eq ol_num ol_ncols ol_upper ol_obj ob_node_rows]; try assumption; try reflexivity; [rewrite Lu, Lu2; reflexivity | rewrite Lo, Lo2; reflexivity|].
    intros r i Hr Hi. destruct (nth_error_lt_Some sts i Hi) as (s & Hs). destruct (Hone i s Hs) as (b1 & o2 & u2 & _ & _ & Eu2 & (_ & _ & Pu) & _ & Hz & _). assert (u2 = up') by congruence. subst u2. rewrite Pu. apply Hz, Hr.
  - intros i s b1 Hs Hu1. cbn [ob_lp ol_upper ol_obj]. destruct (Hone i s Hs) as (b1' & o2 & u2 & Hu1' & Eo2 & Eu2 & (_ & _ & Pu) & (_ & _ & Po) & _). assert (b1' = b1) by congruence. assert (u2 = up') by congruence. assert (o2 = obj') by congruence. subst.
    unfold chunk_data. f_equal; apply functional_extensionality; intros r; unfold own, real_buffer, lane_number, cell; f_equal; [apply Pu | apply Po].
Qed.
Lemma ocl_ipm_same n b : ocl_inv n b -> ocl_ipm (ob_lp b) = ipm_of (ib_lp b0).
Proof. intros [Iq Ie Ir In_ Ic Iu Io Iz]. unfold ocl_ipm, ipm_of, real_matrix, full_matrix. rewrite Iq, Ie, Ic, (ba_ncols net b0 Hba0). reflexivity. Qed.

(** *** ipm-simd with one state *)
Variables (t : tolerances) (k : nat).
Definition zero_lane : lane := mkLane path_init (fun _ => 0%R) (fun _ => 0%R).
Definition simd_alone : lp_state -> res unit (list (nat -> R)) := simd_of net t (100 * k).
Lemma simd_single s b1 : ipm_update net b0 [s] = Ok b1 -> k <> 0 ->
  simd_alone s = match alone (ipm_of (ib_lp b0)) (chunk_data t (ib_lp b1) 0) (100 * k) zero_lane with Some ln => Ok [fun e => p_x (ln_path ln) (col_for_edge net e)] | None => Panic end.
Proof.
  intros Hu Hk. unfold simd_alone, simd_of, ipm_setup. cbn [seq chunks4 chunks4_fuel length skipn firstn rmap]. rewrite Hb0. cbn [rbind]. cbn [ipm_solver_run]. unfold ipm_solver_solve. cbn [chunks4 chunks4_fuel length skipn firstn combine rmap fst snd]. unfold solve_chunk. cbn [fst snd]. rewrite Hu. cbn [rbind].
  assert (Hsb : same_built net b0 b1) by (apply (update_same_built net b0 b0 [s] b1); [exact (create_same net wf b0 Hb0) | cbn; lia | exact Hu]).
  rewrite (ipm_of_same net wf b0 Hb0 b1 Hsb). set (d := chunk_data t (ib_lp b1) 0).
  assert (Hd : map (chunk_data t (ib_lp b1)) (seq 0 4) = repeat d 4).
  { cbn [seq map repeat]. assert (E : forall l, l < 4 -> chunk_data t (ib_lp b1) l = d); [|rewrite !E by lia; reflexivity].
    intros l Hl. apply (update_same net b0 b0 [s] [s] l 0 s b1 b1 t); try assumption; try reflexivity; try (cbn; lia); apply pad_single; lia. }
  rewrite Hd. unfold ipm_solve. cbn [repeat combine map fst snd ln_l ln_dy]. fold zero_lane. set (lanes := [(d, zero_lane); (d, zero_lane); (d, zero_lane); (d, zero_lane)]).
  assert (Hk2 : 100 * k <> 0) by lia.
  destruct (solve_loop (ipm_of (ib_lp b0)) (100 * k) lanes) as [out|] eqn:E.
  - apply (lanes_alone _ _ _ _ _ (same_all _ _)) in E. inversion E as [|? o ? out' (l1 & Hal & Hp) _]; subst. cbn [fst snd] in Hal. rewrite Hal. cbn [map rbind combine concat app snd]. rewrite Hp. reflexivity.
  - destruct (alone (ipm_of (ib_lp b0)) d (100 * k) zero_lane) as [ln|] eqn:Ea; [|reflexivity]. exfalso. revert E. apply (alone_lanes _ _ _ _ Hk2 (same_all _ _)). repeat constructor; cbn [fst snd]; rewrite Ea; discriminate.
Qed.

(** *** A chunk and the solver *)
Hypothesis Hk : k <> 0.
Definition as_simd : lp_state -> (nat -> R) -> Prop := same_flows_as_simd net t (100 * k).
Lemma chunk_result n b m sc sts : ocl_inv n b -> length sts = n -> 0 < n -> Permutation (seq 0 n) (sc_init sc) -> (forall j, fair n (sc_steps sc j)) ->
  match ocl_solve_chunk net t k sc (b, m) sts with
  | Ok (c', fs) => ocl_inv n (fst c') /\ Forall2 as_simd sts fs
  | Panic => exists s, In s sts /\ simd_alone s = Panic
  | Err _ => False
  end.
Proof.
  intros Hb Hn Hpos Hperm Hfair. unfold ocl_solve_chunk. cbn [fst snd]. destruct (ocl_updated n b sts t Hb Hn Hpos) as (b' & Hu & Hb' & Hdata). rewrite Hu. cbn [rbind]. rewrite (oi_num n b' Hb'), (ocl_ipm_same n b' Hb').
  pose proof (posed net wf b0 anch used Hba0) as Hposed. set (bb := real_buffer (ol_upper (ob_lp b'))) in *. set (cc := real_buffer (ol_obj (ob_lp b'))) in *. unfold ocl_solve.
  assert (Hs : forall i s, nth_error sts i = Some s -> exists b1, ipm_update net b0 [s] = Ok b1) by (intros i s _; destruct (update_spec net b0 [s] Hba0 ltac:(cbn; lia)) as (b1 & E & _); eauto).
  rewrite (ba_ncols net b0 Hba0) in Hposed.
  set (ds := fun i => mkData (own n i bb) (own n i cc) (t_primal t) (t_dual t) (t_optimality t)).
  pose proof (init_holds (real_matrix (ib_lp b0)) ncols nq t n Hposed sc bb cc m Hperm) as Hinit.
  pose proof (loop_alone (real_matrix (ib_lp b0)) ncols nq t n Hposed (sc_steps sc) ds Hfair k (fun _ => zero_lane) _ Hinit) as Hloop.
  unfold ipm_of. rewrite (ba_ncols net b0 Hba0). fold ncols nq. set (s0 := ipm_new (real_matrix (ib_lp b0)) ncols nq) in *.
  assert (E0 : s0 = ipm_of (ib_lp b0)) by (unfold s0, ipm_of; rewrite (ba_ncols net b0 Hba0); reflexivity).
  set (m0 := fold_left _ (sc_init sc) (write_bc m bb cc)) in *. fold s0 in Hloop. change (fold_left (fun m1 gid => k_init n gid s0 m1) (sc_init sc) (write_bc m bb cc)) with m0.
  destruct (ocl_loop n s0 t (sc_steps sc) k m0) as [m'|] eqn:El; cbn [rbind].
  - split; [exact Hb'|]. apply Forall2_by_nth; [rewrite map_length, seq_length; reflexivity|]. intros i s f Hsi Hf. pose proof (nth_error_Some_lt _ _ _ Hsi) as Hi.
    rewrite (nth_error_seq_map _ (length sts) i Hi) in Hf. injection Hf as <-. destruct (Hs i s Hsi) as (b1 & Hu1). destruct (Hloop i ltac:(lia)) as (ln & Ha & (_ & (Hag & _) & _)).
    rewrite E0 in Ha. unfold ds in Ha. rewrite (Hdata i s b1 Hsi Hu1) in Ha. exists (fun e => p_x (ln_path ln) (col_for_edge net e)). change (simd_of net t (100 * k) s) with (simd_alone s). rewrite (simd_single s b1 Hu1 Hk), Ha. split; [reflexivity|].
    intros e He. destruct (edge_column_exists net wf e He) as (_ & Hc). destruct (Hag (col_for_edge net e) Hc) as (Hx & _). rewrite <- Hx, Hn. reflexivity.
  - destruct Hloop as [Hl|(i & Hi & Ha)]; [contradiction|]. destruct (nth_error_lt_Some sts i ltac:(lia)) as (s & Hsi). destruct (Hs i s Hsi) as (b1 & Hu1). exists s. split; [apply (nth_error_In _ _ Hsi)|].
    rewrite E0 in Ha. unfold ds in Ha. rewrite (Hdata i s b1 Hsi Hu1) in Ha. rewrite (simd_single s b1 Hu1 Hk), Ha. reflexivity.
Qed.

Lemma chunks_result : forall cs chs, Forall2 (fun c (ch : list lp_state) => ocl_inv (length ch) (fst c) /\ 0 < length ch) cs chs -> forall scs a,
  (forall j ch, nth_error chs j = Some ch -> Permutation (seq 0 (length ch)) (sc_init (scs (a + j))) /\ forall k0, fair (length ch) (sc_steps (scs (a + j)) k0)) ->
  match rmap (fun p => ocl_solve_chunk net t k (scs (fst p)) (fst (snd p)) (snd (snd p))) (combine (seq a (length chs)) (combine cs chs)) with
  | Ok rs => Forall2 (fun c (ch : list lp_state) => ocl_inv (length ch) (fst c)) (map fst rs) chs /\ Forall2 as_simd (concat chs) (concat (map snd rs))
  | Panic => exists s, In s (concat chs) /\ simd_alone s = Panic
  | Err _ => False
  end.
Proof.
  induction 1 as [|c ch cs chs (Hc & Hpos) HF IH]; intros scs a Hs; [split; constructor|]. cbn [length seq combine rmap fst snd concat].
  destruct (Hs 0 ch eq_refl) as (H1 & H2). rewrite Nat.add_0_r in H1, H2. destruct c as [b m]. cbn [fst] in Hc. pose proof (chunk_result (length ch) b m (scs a) ch Hc eq_refl Hpos H1 H2) as R.
  destruct (ocl_solve_chunk net t k (scs a) (b, m) ch) as [[c' fs]| |]; [|destruct R|].
  - specialize (IH scs (S a)). destruct (rmap _ _) as [rs| |]; cbn [map concat fst snd].
    + destruct IH as (I1 & I2); [intros j ch' Hj; replace (S a + j) with (a + S j) by lia; apply (Hs (S j) ch' Hj)|]. destruct R as (R1 & R2). split; [constructor; assumption | apply Forall2_app; assumption].
    + apply IH. intros j ch' Hj; replace (S a + j) with (a + S j) by lia; apply (Hs (S j) ch' Hj).
    + destruct IH as (s & Hin & Hp); [intros j ch' Hj; replace (S a + j) with (a + S j) by lia; apply (Hs (S j) ch' Hj)|]. exists s. split; [apply in_or_app; right; exact Hin | exact Hp].
  - destruct R as (s & Hin & Hp). exists s. split; [apply in_or_app; left; exact Hin | exact Hp].
Qed.

Variables (n size : nat).
Hypothesis Hsize : 0 < size.
Definition solver_ok (o : osolver) : Prop := os_size o = size /\ Forall2 (fun c (ch : list nat) => ocl_inv (length ch) (fst c)) (os_chunks o) (chunks size (seq 0 n)).
Lemma chunks_same_lengths {A B} : forall f (la : list A) (lb : list B), length la = length lb -> Forall2 (fun ca cb => length ca = length cb) (chunks_fuel f size la) (chunks_fuel f size lb).
Proof.
  induction f as [|f IH]; intros [|x la] [|y lb] H; try discriminate H; cbn [chunks_fuel]; try constructor; [rewrite !firstn_length, H; reflexivity|]. apply IH. rewrite !skipn_length, H. reflexivity.
Qed.
Lemma chunks_whole {A} : forall f (l : list A), length l <= f -> concat (chunks_fuel f size l) = l /\ Forall (fun ch => 0 < length ch) (chunks_fuel f size l).
Proof.
  induction f as [|f IH]; intros [|x l] H; cbn [chunks_fuel concat]; try (split; [reflexivity | constructor]); [cbn in H; lia|].
  destruct (IH (skipn size (x :: l))) as (I1 & I2); [rewrite skipn_length; cbn [length] in *; lia|]. rewrite I1, firstn_skipn. split; [reflexivity|]. constructor; [rewrite firstn_length; cbn [length]; lia | exact I2].
Qed.
Lemma solve_result o scs sts : solver_ok o -> length sts = n ->
  (forall j c, nth_error (chunks size (seq 0 n)) j = Some c -> Permutation (seq 0 (length c)) (sc_init (scs j)) /\ forall k0, fair (length c) (sc_steps (scs j) k0)) ->
  match ocl_solver_solve net t k scs o sts with
  | Ok (o', fs) => solver_ok o' /\ Forall2 as_simd sts fs
  | Panic => exists s, In s sts /\ simd_alone s = Panic
  | Err _ => False
  end.
Proof.
  intros (Hz & Ho) Hn Hs. unfold ocl_solver_solve. rewrite Hz. set (chs := chunks size sts).
  assert (Hlen : Forall2 (fun (ca : list nat) (cb : list lp_state) => length ca = length cb) (chunks size (seq 0 n)) chs).
  { unfold chs, chunks. rewrite seq_length, Hn. apply chunks_same_lengths. rewrite seq_length. lia. }
  destruct (chunks_whole (length sts) sts (le_n _)) as (Hc & Hpos). fold (chunks size sts) in Hc, Hpos. fold chs in Hc, Hpos.
  assert (HF : Forall2 (fun c (ch : list lp_state) => ocl_inv (length ch) (fst c) /\ 0 < length ch) (os_chunks o) chs).
  { clear - Ho Hlen Hpos. revert Hlen Hpos. generalize chs as l. induction Ho as [|c ch cs cl Hi Ho IH]; intros l Hlen Hpos; inversion Hlen as [|? cb ? l' El Hl']; subst; constructor; [|apply IH; [exact Hl' | inversion Hpos; assumption]].
    split; [rewrite <- El; exact Hi | inversion Hpos; assumption]. }
  pose proof (chunks_result (os_chunks o) chs HF scs 0) as R. rewrite Hc in R. destruct (rmap _ _) as [rs| |]; cbn [rbind].
  - destruct R as (R1 & R2).
    + intros j ch Hj. destruct (Forall2_nth_error_r' _ _ _ Hlen j ch Hj) as (c & Hcj & El). rewrite <- El. apply (Hs j c Hcj).
    + split; [|exact R2]. split; [reflexivity|]. cbn [os_chunks]. clear - R1 Hlen. revert R1. generalize (map fst rs) as l. induction Hlen as [|ca cb la lb El Hl IH]; intros l R1; inversion R1; subst; constructor; [rewrite El; assumption | apply IH; assumption].
  - apply R. intros j ch Hj. destruct (Forall2_nth_error_r' _ _ _ Hlen j ch Hj) as (c & Hcj & El). rewrite <- El. apply (Hs j c Hcj).
  - apply R. intros j ch Hj. destruct (Forall2_nth_error_r' _ _ _ Hlen j ch Hj) as (c & Hcj & El). rewrite <- El. apply (Hs j c Hcj).
Qed.
Lemma run_result : forall hist o scs last, solver_ok o -> device_finishes size n scs -> Forall (fun sts => length sts = n) hist -> length last = n ->
  match ocl_solver_run net t k scs o hist last with
  | Ok fs => Forall (Forall (fun s => exists f, as_simd s f)) hist /\ Forall2 as_simd last fs
  | Panic => exists sts s, In sts (hist ++ [last]) /\ In s sts /\ simd_alone s = Panic
  | Err _ => False
  end.
Proof.
  induction hist as [|sts hist IH]; intros o scs last Ho Hd Hh Hl; cbn [ocl_solver_run].
  - pose proof (solve_result o (scs 0) last Ho Hl (Hd 0)) as R. destruct (ocl_solver_solve _ _ _ _ _ _) as [[o' fs]| |]; cbn [rbind snd]; [split; [constructor | apply R] | exact R |]. destruct R as (s & H1 & H2). exists last, s. cbn. auto.
  - inversion Hh as [|? ? Hn Hh']; subst. pose proof (solve_result o (scs 0) sts Ho Hn (Hd 0)) as R. destruct (ocl_solver_solve _ _ _ _ _ _) as [[o' fs]| |]; cbn [rbind fst]; [| exact R |].
    + specialize (IH o' (fun i => scs (S i)) last (proj1 R) (fun call => Hd (S call)) Hh' Hl). destruct (ocl_solver_run _ _ _ _ _ _ _); [| exact IH |]; [split; [constructor; [|apply IH] | apply IH]; destruct R as (_ & R); clear - R; induction R; constructor; eauto|]. destruct IH as (sts' & s & H1 & H2). exists sts', s. split; [right; exact H1 | exact H2].
    + destruct R as (s & H1 & H2). exists sts, s. cbn. auto.
Qed.
Lemma setup_chunks fresh : exists cs, rmap (fun c => rbind (ocl_create net (length c)) (fun b => Ok (b, fresh))) (chunks size (seq 0 n)) = Ok cs /\ solver_ok (mkOs cs size).
Proof.
  unfold solver_ok. cbn [os_size os_chunks]. generalize (chunks size (seq 0 n)) as l. induction l as [|c l (cs & E & _ & F)]; [exists []; repeat split; constructor|]. cbn [rmap]. destruct (ocl_created (length c)) as (b & Eb & Ib). rewrite Eb. cbn [rbind]. rewrite E. eexists. split; [reflexivity|]. split; [reflexivity|]. constructor; [exact Ib | exact F].
Qed.
End Lp.
