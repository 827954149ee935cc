(** C76: the OpenCL interior point solver. *)
From Coq Require Import Reals Qreals Relations Sorted FunctionalExtensionality Permutation.
From Verif Require Import Base IpmCholesky IpmStep IpmSpec IpmRunSpec IpmDense IpmSymbolic IpmNumeric IpmStepLemmas IpmLoopLemmas IpmBufferLemmas Props_Ipm.
From Verif Require Import Calendar Network NetworkBuild NetworkSpec NetworkBuildLemmas Lp LpSpec LpColLemmas LpRowLemmas IpmLp IpmLpSpec IpmLpCols IpmLpRows IpmLpIndep IpmLpPosed IpmLpUpdate IpmLpSolve IpmLpRun Props_IpmLp TablesLemmas.
From Verif Require Import IpmOcl IpmOclSpec IpmOclLemmas IpmOclLp.
From Coq Require Import Lra.
Local Open Scope list_scope. Local Open Scope nat_scope.

(** Setting up: the double precision solver always can, and the single precision
    solver when there is a scenario for every chunk. *)
Theorem C76_setup : forall net p n nc fresh, wf_network net -> net_edges net <> [] -> nc <> 0 -> p = F64 \/ nc <= n ->
  exists o, ocl_setup p net n nc fresh = Ok o /\ os_size o = Nat.max 1 (n / nc).
Proof.
  intros net p n nc fresh wf He Hnc Hp. destruct (create_exists net wf He) as (b0 & Hb0). unfold ocl_setup.
  assert (Hs : chunk_size p n nc = Ok (Nat.max 1 (n / nc))).
  { unfold chunk_size. destruct (n / nc) as [|q] eqn:E; [|f_equal; lia]. destruct Hp as [-> |Hp]; [reflexivity|]. exfalso. assert (1 <= n / nc) by (apply Nat.div_le_lower_bound; lia). lia. }
  rewrite Hs. cbn [rbind]. destruct (setup_chunks net wf b0 Hb0 n (Nat.max 1 (n / nc)) fresh) as (cs & E & _). rewrite E. eexists. split; reflexivity.
Qed.
Print Assumptions C76_setup.
(** The single precision solver cannot be set up for fewer scenarios than
    chunks (four, unless told otherwise). *)
Theorem C76_few_scenarios_refuted : forall net n nc fresh, nc <> 0 -> n < nc -> ocl_setup F32 net n nc fresh = Panic.
Proof. intros net n nc fresh Hnc Hn. unfold ocl_setup, chunk_size. rewrite (Nat.div_small n nc Hn). reflexivity. Qed.
Print Assumptions C76_few_scenarios_refuted.

Section Run.
Variables (net : network) (t : tolerances) (k : nat).
Hypotheses (wf : wf_network net) (Ha : anchored net) (Hu : storages_used net) (He : net_edges net <> []) (Hk : k <> 0).
Lemma setup_solver p n nc fresh o b0 : ipm_create net = Ok b0 -> ocl_setup p net n nc fresh = Ok o -> 0 < os_size o /\ solver_ok net b0 n (os_size o) o.
Proof.
  intros Hb0 H. unfold ocl_setup in H. destruct (chunk_size p n nc) as [size| |] eqn:Es; cbn [rbind] in H; try discriminate.
  destruct (setup_chunks net wf b0 Hb0 n size fresh) as (cs & E & Hok). rewrite E in H. cbn [rbind] in H. injection H as <-. split; [|exact Hok]. cbn. unfold chunk_size in Es. destruct (n / nc); [destruct p; [discriminate|]|]; injection Es as <-; lia.
Qed.
Lemma run_all p n nc fresh o scs hist last : ocl_setup p net n nc fresh = Ok o -> device_finishes (os_size o) n scs -> Forall (fun sts => length sts = n) hist -> length last = n ->
  match ocl_solver_run net t k scs o hist last with
  | Ok flows => Forall (Forall (fun s => exists f, same_flows_as_simd net t (100 * k) s f)) hist /\ Forall2 (same_flows_as_simd net t (100 * k)) last flows
  | Panic => exists sts s, In sts (hist ++ [last]) /\ In s sts /\ simd_of net t (100 * k) s = Panic
  | Err _ => False
  end.
Proof.
  intros Ho Hd Hh Hl. destruct (create_exists net wf He) as (b0 & Hb0). destruct (setup_solver p n nc fresh o b0 Hb0 Ho) as (Hs & Hok).
  exact (run_result net wf Ha Hu b0 Hb0 t k Hk n (os_size o) Hs hist o scs last Hok Hd Hh Hl).
Qed.
End Run.

(** Whatever the order in which the device runs its work items, however the
    scenarios are divided in chunks and whatever was solved before, each scenario
    gets the flows that ipm-simd gives for its state alone (with 100 iterations
    for each start of the kernel).  The call fails only if ipm-simd fails for one
    of the states. *)
Theorem C76_same_flows : forall net t k p n nc fresh o scs hist last, wf_network net -> anchored net -> storages_used net -> net_edges net <> [] -> k <> 0 ->
  ocl_setup p net n nc fresh = Ok o -> device_finishes (os_size o) n scs -> Forall (fun sts => length sts = n) hist -> length last = n ->
  match ocl_solver_run net t k scs o hist last with
  | Ok flows => Forall (Forall (fun s => exists f, same_flows_as_simd net t (100 * k) s f)) hist /\ Forall2 (same_flows_as_simd net t (100 * k)) last flows
  | Panic => exists sts s, In sts (hist ++ [last]) /\ In s sts /\ simd_of net t (100 * k) s = Panic
  | Err _ => False
  end.
Proof. intros. eapply run_all; eassumption. Qed.
Print Assumptions C76_same_flows.

(** Precision, chunks, the first contents of the buffers and the order of the
    work items do not matter. *)
Theorem C76_schedules_do_not_matter : forall net t k n p1 p2 nc1 nc2 fresh1 fresh2 o1 o2 scs1 scs2 hist last,
  wf_network net -> anchored net -> storages_used net -> net_edges net <> [] -> k <> 0 ->
  ocl_setup p1 net n nc1 fresh1 = Ok o1 -> ocl_setup p2 net n nc2 fresh2 = Ok o2 -> device_finishes (os_size o1) n scs1 -> device_finishes (os_size o2) n scs2 ->
  Forall (fun sts => length sts = n) hist -> length last = n ->
  match ocl_solver_run net t k scs1 o1 hist last, ocl_solver_run net t k scs2 o2 hist last with
  | Ok f1, Ok f2 => Forall2 (fun f g => forall e, e < length (net_edges net) -> f e = g e) f1 f2
  | Panic, Panic => True
  | _, _ => False
  end.
Proof.
  intros net t k n p1 p2 nc1 nc2 fresh1 fresh2 o1 o2 scs1 scs2 hist last wf Ha Hu He Hk H1 H2 D1 D2 Hh Hl.
  pose proof (run_all net t k wf Ha Hu He Hk p1 n nc1 fresh1 o1 scs1 hist last H1 D1 Hh Hl) as R1. pose proof (run_all net t k wf Ha Hu He Hk p2 n nc2 fresh2 o2 scs2 hist last H2 D2 Hh Hl) as R2.
  assert (X : forall flows, Forall (Forall (fun s => exists f, same_flows_as_simd net t (100 * k) s f)) hist -> Forall2 (same_flows_as_simd net t (100 * k)) last flows ->
    (exists sts s, In sts (hist ++ [last]) /\ In s sts /\ simd_of net t (100 * k) s = Panic) -> False).
  { intros flows F1 F2 (sts & s & Hin & Hs & Hp). assert (G : exists f, same_flows_as_simd net t (100 * k) s f).
    { apply in_app_or in Hin. destruct Hin as [Hin|[<-|[]]]; [rewrite Forall_forall in F1; specialize (F1 sts Hin); rewrite Forall_forall in F1; apply F1, Hs|]. clear - F2 Hs. induction F2 as [|a f l fl Hf F2 IH]; [destruct Hs|]. destruct Hs as [-> |Hs]; eauto. }
    destruct G as (f & f1 & E & _). congruence. }
  destruct (ocl_solver_run net t k scs1 o1 hist last) as [f1| |], (ocl_solver_run net t k scs2 o2 hist last) as [f2| |]; try contradiction; try exact I.
  - destruct R1 as (_ & R1), R2 as (_ & R2). clear - R1 R2. revert f2 R2. induction R1 as [|s f l fl (g & Hg & Ef) R1 IH]; intros f2 R2; inversion R2 as [|? f' ? fl' (g' & Hg' & Ef') R2']; subst; constructor; [|apply IH; assumption].
    intros e He. assert (g = g') by congruence. subst. rewrite Ef, Ef' by exact He. reflexivity.
  - destruct R1 as (A1 & A2). exact (X f1 A1 A2 R2).
  - destruct R2 as (A1 & A2). exact (X f2 A1 A2 R1).
Qed.
Print Assumptions C76_schedules_do_not_matter.

(** *** The flows are close to the best allocation *)
Theorem C76_near_best : forall net t k p n nc fresh b0 o scs hist last flows, wf_network net -> anchored net -> storages_used net -> net_edges net <> [] -> k <> 0 ->
  (0 <= t_primal t /\ 0 <= t_dual t /\ 0 <= t_optimality t)%R -> ipm_create net = Ok b0 ->
  ocl_setup p net n nc fresh = Ok o -> device_finishes (os_size o) n scs -> Forall (fun sts => length sts = n) hist -> length last = n ->
  ocl_solver_run net t k scs o hist last = Ok flows ->
  Forall2 (fun s f => exists f1, (forall e, e < length (net_edges net) -> f e = f1 e) /\ near_best net (ib_lp b0) s t f1) last flows.
Proof.
  intros net t k p n nc fresh b0 o scs hist last flows wf Ha Hu He Hk Ht Hb0 Ho Hd Hh Hl Hr.
  pose proof (run_all net t k wf Ha Hu He Hk p n nc fresh o scs hist last Ho Hd Hh Hl) as R. rewrite Hr in R. destruct R as (_ & R).
  eapply TablesLemmas.Forall2_impl; [|exact R]. intros s f (f1 & E & Ef). exists f1. split; [exact Ef|]. unfold simd_of in E. destruct (ipm_setup net 1) as [cs| |] eqn:Ec; try discriminate.
  pose proof (C65_near_best net t (100 * k) 1 b0 cs [] [s] [f1] wf Ha Hu Ht Hb0 Ec (Forall_nil _) eq_refl E) as G. inversion G; assumption.
Qed.
Print Assumptions C76_near_best.

(** *** Example: three scenarios on a device that starts and runs the work items
    out of order, one of them twice as fast, and one call before. *)
Definition C76_schedules : nat -> nat -> schedules := fun _ _ => mkSched [2; 0; 1] (fun _ => concat (repeat [1; 2; 0; 0] 100)).
Definition C76_memory : dmem := mkMem (fun _ => 0%R) (fun _ => 1%R) (fun _ => 2%R) (fun _ => 3%R) (fun _ => 4%R) (fun _ => 5%R) (fun _ => 6%R) (fun _ => 7%R) (fun _ => 8%R) (fun _ => 9%R) (fun _ => 10%R) (fun _ => 11%R) (fun _ => 12%R) (fun _ => 1).
Lemma C76_solvable net (wf : wf_network net) b0 s : ipm_create net = Ok b0 -> exists v, (0 <= v)%R /\ forall v', (v <= v')%R -> simd_of net (mkTol v' v' v') (100 * 2) s <> Panic.
Proof.
  intros Hb0. destruct (C65_tolerance net b0 [s]) as (v & Hv & H). exists v. split; [exact Hv|]. intros v' Hv'. destruct (update_spec net b0 [s] (create_built net wf b0 Hb0) ltac:(cbn; lia)) as (b1 & E & _).
  change (simd_of net (mkTol v' v' v') (100 * 2) s) with (simd_alone net (mkTol v' v' v') 2 s). rewrite (simd_single net wf b0 Hb0 (mkTol v' v' v') 2 s b1 E) by lia.
  assert (Hs : same_built net b0 b1) by (apply (update_same_built net b0 b0 [s] b1); [exact (create_same net wf b0 Hb0) | cbn; lia | exact E]).
  change (100 * 2) with (S 199). cbn [alone]. unfold zero_lane at 1. cbn [ln_path]. rewrite <- (ipm_of_same net wf b0 Hb0 b1 Hs), (H v' Hv' 0 b1 ltac:(lia) E). discriminate.
Qed.
Example C76_example : exists t o flows, (0 <= t_primal t /\ 0 <= t_dual t /\ 0 <= t_optimality t)%R /\ ocl_setup F32 C65_net 3 1 C76_memory = Ok o /\ device_finishes (os_size o) 3 C76_schedules /\
  ocl_solver_run C65_net t 2 C76_schedules o [rev C65_scenarios] C65_scenarios = Ok flows /\ length flows = 3.
Proof.
  destruct C65_net_ok as (wf & Ha & Hu & He). destruct (create_exists C65_net wf He) as (b0 & Hb0).
  destruct (C76_solvable C65_net wf b0 (C65_state 7 50) Hb0) as (v1 & P1 & V1). destruct (C76_solvable C65_net wf b0 (C65_state 9 20) Hb0) as (v2 & P2 & V2). destruct (C76_solvable C65_net wf b0 (C65_state 0 100) Hb0) as (v3 & P3 & V3).
  set (v := (v1 + v2 + v3)%R). destruct (C76_setup C65_net F32 3 1 C76_memory wf He ltac:(lia) ltac:(right; lia)) as (o & Ho & Hz). exists (mkTol v v v), o.
  assert (Hd : device_finishes (os_size o) 3 C76_schedules).
  { rewrite Hz. intros call j c Hj. change (nth_error [[0; 1; 2]] j = Some c) in Hj. destruct j as [|[|j]]; try discriminate Hj. injection Hj as <-. split.
    - cbn. apply perm_trans with [0; 2; 1]; [apply perm_skip, perm_swap | apply perm_swap].
    - intros k0. split; [apply Forall_forall; intros x Hx; cbn [sc_steps C76_schedules] in Hx; apply in_concat in Hx; destruct Hx as (l & Hl & Hx); apply repeat_spec in Hl; subst l; cbn in Hx |- *; destruct Hx as [<- |[<- |[<- |[<- |[]]]]]; auto|].
      intros i Hi. cbn [length] in Hi. destruct i as [|[|[|i]]]; [| | |lia]; apply Nat.leb_le; vm_compute; reflexivity. }
  pose proof (C76_same_flows C65_net (mkTol v v v) 2 F32 3 1 C76_memory o C76_schedules [rev C65_scenarios] C65_scenarios wf Ha Hu He ltac:(lia) Ho Hd ltac:(repeat constructor) eq_refl) as R.
  destruct (ocl_solver_run _ _ _ _ _ _ _) as [fs| |]; [|destruct R|].
  - exists fs. split; [cbn [t_primal t_dual t_optimality]; assert (0 <= v)%R by (unfold v; lra); auto|]. split; [exact Ho|]. split; [exact Hd|]. split; [reflexivity|]. symmetry. apply (Forall2_length' _ _ _ (proj2 R)).
  - exfalso. destruct R as (sts & s & Hin & Hs & Hp). revert Hp. assert (Hs' : In s C65_scenarios) by (destruct Hin as [<- |[<- |[]]]; [apply in_rev, Hs | exact Hs]). destruct Hs' as [<- |[<- |[<- |[]]]]; [apply V1 | apply V2 | apply V3]; unfold v; lra.
Qed.
