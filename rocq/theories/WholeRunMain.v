(** The run of a network that has been set up: parameters, nodes, solver and
    recorders together. *)
From Coq Require Import Ascii String.
From Coq Require Import QArith Lia.
From Verif Require Import Base Calendar Timestep AggFuncs ControlCurves Formulas ParamsTemporal Profiles SchemaNodes SchemaVirtual MetricSets
  SchemaParams ParamBuild ParamBuildSpec ParamEval ParamEvalSpec ParamTiers ParamTiersLemmas ParamTiersMain
  ParamTiersSpec ParamOrderLemmas Network NetworkBuild NetworkSpec NetworkBuildLemmas Lp LpSpec LpRelLemmas SchemaMetrics NetState NetStateSpec
  NetStateLemmas NetRunLemmas NetHistLemmas WholeRun WholeRunSpec WholeRunLemmas.
Local Open Scope string_scope.
Local Open Scope list_scope.
Local Open Scope nat_scope.

(** The states of the parameters and of the network in a run. *)
Lemma run_of_build :
  forall (X : Type) a net solver fm order cd (sm : sem (pvalue X) (pint X) timestep whole run_error) cps ms nd nw coll b0 er nodes other bs mp,
  valid_order net order -> (forall ss l x, solver ss l = Some x -> feasible l x) -> create fm order net = Ok b0 -> drives a net solver cd b0 sm ->
  implements cd ts_date er sm cps -> network_metrics net cd ms nd ->
  network_of cd cps bs nd -> build nodes other bs = Some (Ok (coll, mp)) -> resolve_network mp nd = Ok nw ->
  forall ts outss, simulate sm nw coll ts = Ok outss ->
  forall date, (forall t e, nth_error ts t = Some e -> date t = ts_date e) ->
  exists sh st net1 steps,
    shapes_ok bs sh /\
    (forall b, In b bs -> setup_equation sm bs sh (st 0) b) /\
    (forall t env, nth_error ts t = Some env -> forall b, In b bs -> step_equation sm bs sh env (st t) (st (S t)) (net1 t) b) /\
    runs (vals cd ts st) (others_f sm cd bs ts st net1) (others_i sm cd bs ts st net1) date (length ts) cps /\
    whole_run a net fm order ms (vals cd ts st) (others_f sm cd bs ts st net1) ts steps /\
    length outss = length ts /\
    records cd (vals cd ts st) (others_f sm cd bs ts st net1) (others_i sm cd bs ts st net1) (nd_out nd) outss.
Proof.
  intros X a net solver fm order cd sm cps ms nd nw coll b0 er nodes other bs mp S2 S3 S4 S5 im S7 (Hin & Hp & Hpn & Hty) Hb Hn
    ts outss Hs date Hd.
  assert (Hty' : forall b, In b bs -> well_typed b).
  { intros b Hb'. destruct (Hty b Hb') as [(c & <-)|H]; [apply builder_well_typed|exact H]. }
  apply (equations sm _ _ _ _ _ _ _ Hb Hn Hp Hpn Hty') in Hs. destruct Hs as (sh & s0 & H1 & (H2 & H2') & H3).
  destruct (ParamTiersMain.run_states sm _ _ _ _ _ _ H3) as (st & net1 & E & Hst). subst s0.
  assert (Hst' : forall t env, nth_error ts t = Some env -> forall b, In b bs -> step_equation sm bs sh env (st t) (st (S t)) (net1 t) b)
    by (intros t env He; exact (proj1 (Hst t env He))).
  assert (Hlen : length outss = length ts) by (clear - H3; induction H3; cbn; congruence).
  destruct (all_steps a net solver fm order b0 S4 S2 S3 cd sm S5 ms nd mp nw S7 Hn bs ts st net1 H2'
    (fun t e He => proj1 (proj2 (proj2 (Hst t e He)))) (fun t e He => proj2 (proj2 (proj2 (Hst t e He)))) (length ts) (le_n _))
    as (steps & R1 & R2 & _ & _ & _ & R3).
  rewrite firstn_all in R2.
  assert (Hlt : forall t p, nth_error steps t = Some p -> t < length ts).
  { intros t p Hp'. rewrite <- R2, map_length. apply nth_error_Some. congruence. }
  set (V := vals cd ts st). set (of := others_f sm cd bs ts st net1). set (oi := others_i sm cd bs ts st net1).
  assert (HR : runs V of oi date (length ts) cps)
    by exact (all_run sm cd ts_date er cps im nodes other bs coll mp Hb Hin sh H1 ts st net1 H2 Hst' date Hd).
  assert (HO : forall mo t w m q, t < length ts -> of_network m = true -> observe a net (w_state w) m = Ok q ->
    w = (match mo with Before => net1 t | After => nv_net (st (S t)) end) -> of mo t m = q).
  { intros mo t w m q Ht Hm Hq ->.
    assert (Hu : uref_f cd m = ParamBuild.UOther (cd_f cd m)).
    { destruct m as [u|v|u l|pa na ke r|c|nm]; try discriminate; try reflexivity. destruct u; try reflexivity. discriminate. }
    unfold of, others_f. rewrite (proj2 (Nat.ltb_lt _ _) Ht), Hu.
    destruct mo; cbn [reads read_named ref_target]; rewrite (dr_observe _ _ _ _ _ _ S5 _ _ Hm Hu), Hq; reflexivity. }
  exists sh, st, net1, steps. split; [exact H1|]. split; [exact H2|]. split; [exact Hst'|]. split; [exact HR|]. split; [|split; [exact Hlen|]].
  - constructor; [exact R1|exact R2| | |].
    + intros t p k m Hp' Hk. destruct (R3 t p Hp') as (_ & _ & Hval). specialize (Hval k m Hk).
      refine (agree_f sm cd ts_date er cps im bs ts st net1 date Before t m _ (Hlt _ _ Hp') (or_intror _) Hval).
      destruct S7 as (M1 & _ & _). pose proof (resolved_solve mp nd nw (uref_f cd m) Hn) as Hc. rewrite M1 in Hc.
      specialize (Hc (in_map _ _ _ (nth_error_In _ _ Hk))). unfold current. destruct (uref_f cd m) as [? rv|? rv| | | |]; try exact I; destruct rv; try exact I; destruct Hc.
    + intros t p m q Hp' Hm Hq. destruct (R3 t p Hp') as (E1 & _ & _). rewrite E1 in Hq. exact (HO Before t _ m q (Hlt _ _ Hp') Hm Hq eq_refl).
    + intros t p m q Hp' Hm Hq. destruct (R3 t p Hp') as (_ & E1 & _). rewrite E1 in Hq. exact (HO After t _ m q (Hlt _ _ Hp') Hm Hq eq_refl).
  - intros t outs i Ho. assert (Ht : t < length ts) by (rewrite <- Hlen; apply nth_error_Some; congruence).
    destruct (nth_error_lt_Some ts t Ht) as [env He]. destruct (Hst t env He) as (_ & H5 & _). rewrite H5 in Ho. injection Ho as <-. split.
    + intros m q Hm Hq. rewrite nth_error_map, Hm in Hq. cbn [option_map] in Hq. injection Hq as Hq. symmetry.
      exact (agree_f sm cd ts_date er cps im bs ts st net1 date After t m q Ht (or_introl eq_refl) Hq).
    + intros m q Hm Hq. rewrite nth_error_map, Hm in Hq. cbn [option_map] in Hq. injection Hq as Hq. symmetry.
      exact (agree_i sm cd ts_date er cps im bs ts st net1 date After t m q Ht (or_introl eq_refl) Hq).
Qed.

Lemma run_of_set_up :
  forall (X : Type) a net solver fm order cd (sm : sem (pvalue X) (pint X) timestep whole run_error) cps ms nd nw coll,
  set_up a net solver fm order cd sm cps ms nd nw coll ->
  forall ts outss, simulate sm nw coll ts = Ok outss ->
  forall date, (forall t e, nth_error ts t = Some e -> date t = ts_date e) ->
  exists V other_f other_i steps,
    runs V other_f other_i date (length ts) cps /\
    whole_run a net fm order ms V other_f ts steps /\
    length outss = length ts /\ records cd V other_f other_i (nd_out nd) outss.
Proof.
  intros X a net solver fm order cd sm cps ms nd nw coll [S1 S2 S3 (b0 & S4 & S5) (er & im) S7 (nodes & other & bs & mp & (Hin & Hp & Hpn & Hty) & Hb & Hn)]
    ts outss Hs date Hd.
  destruct (run_of_build X a net solver fm order cd sm cps ms nd nw coll b0 er nodes other bs mp S2 S3 S4 S5 im S7
    (conj Hin (conj Hp (conj Hpn Hty))) Hb Hn ts outss Hs date Hd) as (sh & st & net1 & steps & _ & _ & _ & H).
  eexists _, _, _, steps. exact H.
Qed.
