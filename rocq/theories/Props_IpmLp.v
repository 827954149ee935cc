(** C65: the interior point solver on a network. *)
From Coq Require Import Reals Qreals Relations.
From Verif Require Import Base IpmCholesky IpmStep IpmSpec IpmRunSpec IpmDense IpmSymbolic IpmNumeric IpmStepLemmas Props_Ipm.
From Verif Require Import Calendar Network NetworkBuild NetworkSpec NetworkBuildLemmas Lp LpSpec LpColLemmas LpRowLemmas IpmLp IpmLpSpec IpmLpCols IpmLpRows IpmLpIndep IpmLpPosed IpmLpUpdate IpmLpSolve IpmLpRun.
From Verif Require Import Props_Network.
From Coq Require Import Lra.
Open Scope string_scope. Open Scope list_scope. Open Scope nat_scope.

(** The programme of a network meets the conditions of the method (C62 to C64):
    no row is empty and the rows of the mass balances do not depend on one
    another.  A network without an edge is refused. *)
Theorem C65_programme_well_posed : forall net, wf_network net -> anchored net -> storages_used net ->
  (net_edges net <> [] -> exists b, ipm_create net = Ok b /\ (forall n, exists cs, ipm_setup net n = Ok cs) /\
     well_posed (real_matrix (ib_lp b)) (il_ncols (ib_lp b)) (length (il_ineq (ib_lp b)))) /\
  (net_edges net = [] -> forall n, n <> 0 -> ipm_setup net n = Err NoEdges).
Proof.
  intros net wf Ha Hu. split.
  - intros He. destruct (create_exists net wf He) as (b & Hb). exists b. split; [exact Hb|]. split; [|apply (posed net wf b Ha Hu (create_built net wf b Hb))].
    intros n. unfold ipm_setup. rewrite Hb. cbn [rbind]. generalize (chunks4 (seq 0 n)) as l. induction l as [|x l (cs & IH)]; [eexists; reflexivity|]. cbn [rmap rbind]. rewrite IH. eexists. reflexivity.
  - intros He n Hn. unfold ipm_setup, ipm_create. rewrite He. destruct n as [|n]; [lia|]. reflexivity.
Qed.
Print Assumptions C65_programme_well_posed.

(** The flows of the last call, after calls with any other states. *)
Theorem C65_near_best : forall net t k n b0 cs hist last flows, wf_network net -> anchored net -> storages_used net ->
  (0 <= t_primal t /\ 0 <= t_dual t /\ 0 <= t_optimality t)%R ->
  ipm_create net = Ok b0 -> ipm_setup net n = Ok cs -> Forall (fun sts => length sts = n) hist -> length last = n ->
  ipm_solver_run net t k cs hist last = Ok flows ->
  Forall2 (fun s f => near_best net (ib_lp b0) s t f) last flows.
Proof.
  intros net t k n b0 cs hist last flows wf Ha Hu Ht Hb0 Hcs Hh Hl Hr.
  destruct (setup_ok net wf b0 Hb0 n cs Hcs) as (Hlen & Hok).
  destruct (run_solved net wf Ha Hu b0 Hb0 t k Ht n hist cs last flows Hlen Hok Hh Hl Hr) as (cs' & cs2 & Hl' & Hok' & Hs).
  apply (solved net wf Ha Hu b0 Hb0 t k Ht n cs' last cs2 flows Hl' Hok' Hl Hs).
Qed.
Print Assumptions C65_near_best.

(** A scenario gets the flows it gets when it is the only one and there was no
    earlier call. *)
Theorem C65_scenarios_independent : forall net t k n cs cs1 hist last flows i s f, wf_network net -> anchored net -> storages_used net ->
  (0 <= t_primal t /\ 0 <= t_dual t /\ 0 <= t_optimality t)%R ->
  ipm_setup net n = Ok cs -> ipm_setup net 1 = Ok cs1 -> Forall (fun sts => length sts = n) hist -> length last = n ->
  ipm_solver_run net t k cs hist last = Ok flows -> nth_error last i = Some s -> nth_error flows i = Some f ->
  exists f1, ipm_solver_run net t k cs1 [] [s] = Ok [f1] /\ forall e, e < length (net_edges net) -> f1 e = f e.
Proof.
  intros net t k n cs cs1 hist last flows i s f wf Ha Hu Ht Hcs Hcs1 Hh Hl Hr Hs Hf.
  destruct (ipm_create net) as [b0| |] eqn:Hb0; [|unfold ipm_setup in Hcs1; rewrite Hb0 in Hcs1; discriminate|unfold ipm_setup in Hcs1; rewrite Hb0 in Hcs1; discriminate].
  destruct (setup_ok net wf b0 Hb0 n cs Hcs) as (Hlen & Hok). destruct (setup_ok net wf b0 Hb0 1 cs1 Hcs1) as (Hlen1 & Hok1).
  destruct (run_solved net wf Ha Hu b0 Hb0 t k Ht n hist cs last flows Hlen Hok Hh Hl Hr) as (cs' & cs2 & Hl' & Hok' & Hsol).
  destruct cs1 as [|c1 [|? ?]]; cbn [length chunks4 chunks4_fuel seq skipn firstn] in Hlen1; try discriminate.
  assert (Hc1 : chunk_ok net b0 c1) by (inversion Hok1; assumption).
  assert (G : exists c1' f1, solve_chunk net t k c1 [s] = Ok (c1', [f1]) /\ forall e, e < length (net_edges net) -> f1 e = f e).
  { unfold ipm_solver_solve in Hsol. destruct (rmap _ _) as [rs| |] eqn:E; try discriminate. cbn [rbind] in Hsol. injection Hsol as _ <-. apply rmap_Ok_Forall2 in E.
    assert (Hcl : length cs' = length (chunks4 last)) by (rewrite Hl'; unfold chunks4; rewrite seq_length, Hl; apply chunks_count; rewrite seq_length; lia).
    assert (Hsm : Forall (fun c => length c <= 4) (chunks4 last)) by (apply Forall_forall; intros c Hc; apply (chunks_small _ _ _ Hc)).
    assert (Hcc : concat (chunks4 last) = last) by (unfold chunks4; apply chunks_concat; lia). rewrite <- Hcc in Hs. clear Hcc.
    clear Hr Hl' Hl Hlen Hok Hcs. revert i cs' rs Hcl Hok' E Hsm Hs Hf. induction (chunks4 last) as [|c0 chs IH]; intros i [|c ds] rs Hcl Hds E Hsm Hs Hf; cbn [length] in Hcl; try lia; [destruct i; discriminate|].
    cbn [combine] in E. inversion E as [|? r ? rs' Hr E']; subst. inversion Hds as [|? ? H1 H2]; subst. inversion Hsm as [|? ? H3 H4]; subst. cbn [fst snd] in Hr. destruct r as [c' fs]. cbn [concat map snd] in Hs, Hf.
    destruct (chunk_solved net wf Ha Hu b0 Hb0 t k Ht c c0 c' fs H1 H3 Hr) as (_ & Hfl & _).
    destruct (Nat.lt_ge_cases i (length c0)) as [Hi|Hi].
    - rewrite nth_error_app1 in Hs by exact Hi. rewrite nth_error_app1 in Hf by lia. exact (chunk_alone net wf Ha Hu b0 Hb0 t k c c0 c' fs i s f H1 H3 Hr Hs Hf c1 Hc1).
    - rewrite nth_error_app2 in Hs by exact Hi. rewrite nth_error_app2 in Hf by lia. rewrite Hfl in Hf. apply (IH (i - length c0) ds rs'); try assumption. lia. }
  destruct G as (c1' & f1 & G1 & G2). exists f1. split; [|exact G2]. cbn [ipm_solver_run]. unfold ipm_solver_solve. cbn [chunks4 chunks4_fuel length firstn skipn combine rmap fst snd]. rewrite G1. reflexivity.
Qed.
Print Assumptions C65_scenarios_independent.

(** *** Examples *)
Definition C65_builder : net_builder :=
  mkNetB [mkNb (nm "catchment") TInput None None None (Some (MDyn 0)) None None None;
          mkNb (nm "res") TStorage (Some (MConst (-1))) None None None (Some (IVProportional (1#2))) None (Some (MConst 100));
          mkNb (nm "river") TLink None None None (Some (MConst 20)) None None None;
          mkNb (nm "split") TLink None None None None None None None;
          mkNb (nm "demand") TOutput (Some (MConst (-10))) None None (Some (MConst 5)) None None None;
          mkNb (nm "sea") TOutput None None None None None None None]
         [(nm "catchment", nm "res"); (nm "res", nm "river"); (nm "river", nm "split"); (nm "split", nm "demand"); (nm "split", nm "sea")] [] [].
Definition C65_net : network := match build_network C65_builder with Ok n => n | _ => mkNet [] [] [] [] end.
Definition C65_state (inflow vol : Q) : lp_state := mkSt (fun _ => inflow) (fun _ => vol) (fun _ => 0%Q) (Date 2020 2 28) 1.
Lemma C65_net_ok : wf_network C65_net /\ anchored C65_net /\ storages_used C65_net /\ net_edges C65_net <> [].
Proof.
  split; [apply (C37_built_well_formed C65_builder); vm_compute; reflexivity|]. split; [|split; [|vm_compute; discriminate]].
  - intros i n Hn Ht. exists 5. eexists. split; [|split; [vm_compute; reflexivity | cbn; discriminate]].
    assert (J : forall i j, existsb (fun e => (e_from e =? i) && (e_to e =? j)) (net_edges C65_net) = true -> joined C65_net i j).
    { intros a c H. apply existsb_exists in H. destruct H as (ed & Hin & H). apply andb_prop in H. destruct H as (H1 & H2). apply Nat.eqb_eq in H1, H2. exists ed. auto. }
    assert (J1 : clos_refl_sym_trans nat (joined C65_net) 3 5) by (apply rst_step, J; reflexivity).
    assert (J2 : clos_refl_sym_trans nat (joined C65_net) 2 5) by (apply rst_trans with 3; [apply rst_step, J; reflexivity | exact J1]).
    destruct i as [|[|[|[|[|[|i]]]]]]; vm_compute in Hn; try (injection Hn as <-; vm_compute in Ht; discriminate); try assumption. destruct i; discriminate.
  - intros i n Hn Ht. destruct i as [|[|[|[|[|[|i]]]]]]; vm_compute in Hn; try (injection Hn as <-; vm_compute in Ht; discriminate); [|destruct i; discriminate]. injection Hn as <-. left. cbn. discriminate.
Qed.
(** With large tolerances a call returns at once: the theorems are about calls
    that return. *)
Lemma C65_returns net t k c sts : (forall l b, l < 4 -> ipm_update net (fst c) sts = Ok b -> lane_status (ipm_of (ib_lp b)) (chunk_data t (ib_lp b) l) path_init = true) ->
  (exists b, ipm_update net (fst c) sts = Ok b) -> length (snd c) = 4 -> exists c' fs, solve_chunk net t (S k) c sts = Ok (c', fs).
Proof.
  intros H (b & Hb) Hl. unfold solve_chunk. rewrite Hb. cbn [rbind]. destruct (snd c) as [|l0 [|l1 [|l2 [|l3 [|? ?]]]]]; try discriminate.
  cbn [seq map combine]. unfold ipm_solve. cbn [map fst snd solve_loop ln_l ln_dy]. unfold normal_eqn_step. cbn [forallb fst snd ln_path]. rewrite !(fun l Hl => H l b Hl Hb) by lia. cbn. eexists. eexists. reflexivity.
Qed.
Definition slowness (s : ipm) (b c : vec) : R :=
  (Rabs (primal_feasibility (i_a s) (i_ncols s) (i_wsize s) (p_x path_init) (p_w path_init) b)
   + Rabs (dual_feasibility (i_at s) (length (i_a s)) (p_y path_init) c (p_z path_init))
   + Rabs (gap s path_init / (1 + vector_norm (i_ncols s) (p_x path_init) + vector_norm (length (i_a s)) (p_y path_init))) + 1)%R.
Lemma slow_enough s b c v : (slowness s b c <= v)%R -> lane_status s (mkData b c v v v) path_init = true.
Proof.
  intros H. unfold lane_status. cbv zeta. cbn [d_b d_c d_primal d_dual d_optimality]. unfold below. unfold slowness in H.
  set (A := primal_feasibility _ _ _ _ _ _) in *. set (B := dual_feasibility _ _ _ _ _) in *. set (C := (gap _ _ / _)%R) in *.
  pose proof (Rle_abs A). pose proof (Rle_abs B). pose proof (Rle_abs C). pose proof (Rabs_pos A). pose proof (Rabs_pos B). pose proof (Rabs_pos C).
  repeat (match goal with |- context [Rlt_dec ?x ?y] => destruct (Rlt_dec x y) as [|Hn]; [|exfalso; apply Hn; lra] end). reflexivity.
Qed.
Lemma slowness_pos s b c : (0 <= slowness s b c)%R.
Proof. unfold slowness. repeat match goal with |- context [Rabs ?x] => pose proof (Rabs_pos x); generalize dependent (Rabs x); intros end. lra. Qed.
Lemma C65_tolerance net b sts : exists v, (0 <= v)%R /\ forall v', (v <= v')%R -> forall l b', l < 4 -> ipm_update net b sts = Ok b' -> lane_status (ipm_of (ib_lp b')) (chunk_data (mkTol v' v' v') (ib_lp b') l) path_init = true.
Proof.
  destruct (ipm_update net b sts) as [b'| |]; [|exists 0%R; split; [lra | discriminate]|exists 0%R; split; [lra | discriminate]].
  set (sl := fun l => slowness (ipm_of (ib_lp b')) (lane_number (il_upper (ib_lp b')) l) (lane_number (il_obj (ib_lp b')) l)).
  assert (P : forall l, (0 <= sl l)%R) by (intros; apply slowness_pos). pose proof (P 0). pose proof (P 1). pose proof (P 2). pose proof (P 3).
  exists (sl 0%nat + sl 1%nat + sl 2%nat + sl 3%nat)%R. split; [lra|]. intros v' Hv l b'' Hl [= <-]. apply slow_enough. change (sl l <= v')%R. destruct l as [|[|[|[|l]]]]; [lra | lra | lra | lra | lia].
Qed.
Definition C65_scenarios : list lp_state := [C65_state 7 50; C65_state 9 20; C65_state 0 100].
(** Three scenarios, which make one chunk, and one call before. *)
Example C65_example : exists t b0 cs flows, (0 <= t_primal t /\ 0 <= t_dual t /\ 0 <= t_optimality t)%R /\ ipm_create C65_net = Ok b0 /\ ipm_setup C65_net 3 = Ok cs /\
  ipm_solver_run C65_net t 200 cs [rev C65_scenarios] C65_scenarios = Ok flows /\ length flows = 3.
Proof.
  destruct C65_net_ok as (wf & Ha & Hu & He). destruct (C65_programme_well_posed C65_net wf Ha Hu) as (Hp & _). destruct (Hp He) as (b0 & Hb0 & Hset & _). destruct (Hset 3) as (cs & Hcs).
  destruct (setup_ok C65_net wf b0 Hb0 3 cs Hcs) as (Hlen & Hok). destruct cs as [|c [|? ?]]; cbn in Hlen; [discriminate Hlen| |discriminate Hlen]. assert (Hc : chunk_ok C65_net b0 c) by (inversion Hok; assumption).
  destruct (update_spec C65_net (fst c) (rev C65_scenarios) (proj1 (proj1 Hc)) ltac:(cbn; lia)) as (b1 & Hb1 & Hba1 & _).
  destruct (C65_tolerance C65_net (fst c) (rev C65_scenarios)) as (v1 & P1 & V1). destruct (C65_tolerance C65_net b1 C65_scenarios) as (v2 & P2 & V2).
  set (t := mkTol (v1 + v2)%R (v1 + v2)%R (v1 + v2)%R). assert (Ht : (0 <= t_primal t /\ 0 <= t_dual t /\ 0 <= t_optimality t)%R) by (cbn; repeat split; lra).
  destruct (C65_returns C65_net t 199 c (rev C65_scenarios)) as (c1 & fs1 & E1); [intros l b Hl Hb; apply (V1 (v1 + v2)%R); [lra | exact Hl | exact Hb] | eauto | apply Hc |].
  destruct (chunk_solved C65_net wf Ha Hu b0 Hb0 t 200 Ht c (rev C65_scenarios) c1 fs1 Hc ltac:(cbn; lia) E1) as (Hc1 & _).
  assert (Ef : fst c1 = b1).
  { pose proof E1 as E. unfold solve_chunk in E. rewrite Hb1 in E. cbn [rbind] in E. destruct (ipm_solve _ _ _); [|discriminate E|discriminate E]. injection E as E _. rewrite <- E. reflexivity. }
  destruct (update_spec C65_net b1 C65_scenarios Hba1 ltac:(cbn; lia)) as (b2 & Hb2 & _).
  destruct (C65_returns C65_net t 199 c1 C65_scenarios) as (c2 & fs2 & E2); [intros l b Hl Hb; rewrite Ef in Hb; apply (V2 (v1 + v2)%R); [lra | exact Hl | exact Hb] | rewrite Ef; eauto | apply Hc1 |].
  destruct (chunk_solved C65_net wf Ha Hu b0 Hb0 t 200 Ht c1 C65_scenarios c2 fs2 Hc1 ltac:(cbn; lia) E2) as (_ & Hfl & _).
  exists t, b0, [c], fs2. split; [exact Ht|]. split; [exact Hb0|]. split; [exact Hcs|]. split; [|exact Hfl].
  cbn [ipm_solver_run]. unfold ipm_solver_solve at 1. change (chunks4 (rev C65_scenarios)) with [rev C65_scenarios]. cbn [combine rmap fst snd]. rewrite E1. cbn [rbind map fst].
  unfold ipm_solver_solve. change (chunks4 C65_scenarios) with [C65_scenarios]. cbn [combine rmap fst snd]. rewrite E2. cbn [rbind map snd concat]. rewrite app_nil_r. reflexivity.
Qed.
(** The allocations the near-best flows are compared with exist. *)
Example C65_allocation : allocation C65_net (C65_state 7 50) (fun e => nth e [7; 5; 5; 5; 0] 0)%R.
Proof.
  split; [intros e He; change (e < 5) in He; destruct e as [|[|[|[|[|e]]]]]; cbn; try lra; lia|].
  constructor; intros i n.
  - intros Hn Ht. destruct i as [|[|[|[|[|[|i]]]]]]; vm_compute in Hn; try (injection Hn as <-; vm_compute in Ht; discriminate); [| |destruct i; discriminate]; unfold r_inflow, r_outflow; cbn; replace (_ - _)%R with 0%R by ring; rewrite Rabs_R0; lra.
  - intros m Hn Ht Hm. destruct i as [|[|[|[|[|[|i]]]]]]; vm_compute in Hn; try (injection Hn as <-; vm_compute in Hm; discriminate); [| | |destruct i; discriminate]; injection Hn as <-; cbn in Hm; injection Hm as <-; unfold at_most, r_node_flow, r_inflow, r_outflow; cbn; unfold Q2R; cbn; split; lra.
  - intros Hn Ht. destruct i as [|[|[|[|[|[|i]]]]]]; vm_compute in Hn; try (injection Hn as <-; vm_compute in Ht; discriminate); [|destruct i; discriminate]; injection Hn as <-; unfold at_most, r_node_flow, r_inflow, r_outflow; cbn; unfold Q2R; cbn; split; lra.
  - intros Hn Ht. destruct i as [|[|[|[|[|[|i]]]]]]; vm_compute in Hn; try (injection Hn as <-; vm_compute in Ht; discriminate); [|destruct i; discriminate]; injection Hn as <-; unfold at_most, r_node_flow, r_inflow, r_outflow; cbn; unfold Q2R; cbn; split; lra.
Qed.

(** Minimum flows, and aggregated nodes, make no difference to the solver. *)
Definition without_minimum (n : node) : node := mkNode (n_type n) (n_in n) (n_out n) None (n_max n) (n_minv n) (n_maxv n) (n_init n) (n_cost n).
Definition without_minima (net : network) : network := mkNet (map without_minimum (net_nodes net)) (net_edges net) [] (net_vss net).
Section NoMinima.
Variable net : network.
Lemma nm_columns : edge_columns (without_minima net) = edge_columns net.
Proof.
  unfold edge_columns. cbn [net_nodes net_edges without_minima]. generalize 0 as i. generalize cm_empty as m. induction (net_edges net) as [|e es IH]; intros m i; cbn [add_edge_columns]; [reflexivity|].
  rewrite <- IH. f_equal. unfold add_edge_column. rewrite nth_error_map. destruct (nth_error (net_nodes net) (e_from e)); reflexivity.
Qed.
Lemma nm_col : col_for_edge (without_minima net) = col_for_edge net.
Proof. unfold col_for_edge. rewrite nm_columns. reflexivity. Qed.
Lemma nm_create : ipm_create (without_minima net) = ipm_create net.
Proof.
  unfold ipm_create. rewrite nm_col, nm_columns. cbn [net_nodes net_edges without_minima].
  assert (E1 : balance_rows (col_for_edge net) (map without_minimum (net_nodes net)) = balance_rows (col_for_edge net) (net_nodes net)).
  { unfold balance_rows. f_equal. induction (net_nodes net) as [|n ns IH]; [reflexivity|]. cbn [map rmap]. rewrite IH. reflexivity. }
  rewrite E1. rewrite flat_map_concat_map, map_map, <- flat_map_concat_map. reflexivity.
Qed.
Lemma nm_limits sts : forall ns i, nodes_limits sts i (map without_minimum ns) = nodes_limits sts i ns.
Proof.
  induction ns as [|n ns IH]; intros i; cbn [map nodes_limits]; [reflexivity|]. rewrite IH. f_equal. unfold node_limits, without_minimum, get_bounds. cbn. destruct (n_type n); reflexivity.
Qed.
Lemma nm_objectives sts obj : ipm_objectives (without_minima net) sts obj = ipm_objectives net sts obj.
Proof.
  unfold ipm_objectives. rewrite nm_col. cbn [net_edges without_minima]. generalize (map (fun _ : list Q => splat 0) obj) as o. generalize (combine (seq 0 (length (net_edges net))) (net_edges net)) as es.
  induction es as [|e es IH]; intros o; cbn [fold_left]; [reflexivity|]. rewrite IH. repeat f_equal.
  assert (E : forall e v, edge_cost (without_minima net) e v = edge_cost net e v).
  { intros v ed. unfold edge_cost. cbn [net_nodes without_minima]. rewrite !nth_error_map. f_equal; [destruct (nth_error (net_nodes net) (e_from ed)) | destruct (nth_error (net_nodes net) (e_to ed))]; reflexivity. }
  f_equal. apply FunctionalExtensionality.functional_extensionality. intros v. f_equal. f_equal. apply map_ext. intros s. rewrite E. reflexivity.
Qed.
Lemma nm_solve t k cs sts : ipm_solver_solve (without_minima net) t k cs sts = ipm_solver_solve net t k cs sts.
Proof.
  unfold ipm_solver_solve. f_equal. induction (combine cs (chunks4 sts)) as [|[c s] l IH]; [reflexivity|]. cbn [rmap fst snd]. rewrite IH. f_equal.
  unfold solve_chunk, ipm_update. cbn [net_nodes without_minima]. rewrite nm_limits, nm_objectives, nm_col. reflexivity.
Qed.
End NoMinima.
Theorem C65_minimum_flow_ignored_refuted : forall net t k n cs hist last,
  ipm_setup (without_minima net) n = ipm_setup net n /\
  ipm_solver_run (without_minima net) t k cs hist last = ipm_solver_run net t k cs hist last.
Proof.
  intros net t k n cs hist last. split; [unfold ipm_setup; rewrite nm_create; reflexivity|]. revert cs. induction hist as [|sts hist IH]; intros cs; cbn [ipm_solver_run]; rewrite nm_solve; [reflexivity|].
  destruct (ipm_solver_solve net t k cs sts) as [[cs' fs]| |]; cbn [rbind]; auto.
Qed.
Print Assumptions C65_minimum_flow_ignored_refuted.
(** A network with a minimum flow that its flows need not keep to. *)
Example C65_minimum_example : exists net n, build_network (mkNetB [mkNb (nm "source") TInput None None (Some (MConst 3)) None None None None; mkNb (nm "sink") TOutput None None None None None None None] [(nm "source", nm "sink")] [] []) = Ok net /\
  nth_error (net_nodes net) 0 = Some n /\ n_min n = Some (MConst 3) /\ net <> without_minima net.
Proof. eexists. eexists. split; [vm_compute; reflexivity|]. repeat split. cbn. discriminate. Qed.
