(** C86: the parameters that the nodes of a model file make for themselves do
    their work in a run of the whole network. *)
From Coq Require Import Ascii String.
From Coq Require Import QArith Lia.
From Verif Require Import Base Calendar Timestep AggFuncs ControlCurves Formulas ParamsTemporal Profiles SchemaNodes SchemaVirtual MetricSets
  SchemaParams SchemaParamsSpec Props_SchemaParams ParamBuild ParamBuildSpec ParamEval ParamEvalSpec ParamTiers ParamTiersLemmas ParamTiersMain
  ParamTiersSpec ParamOrderLemmas Props_ParamTiers.
From Verif Require Import Network NetworkBuild NetworkSpec NetworkBuildLemmas Lp LpSpec LpRelLemmas SchemaMetrics SchemaSpec NetState NetStateSpec NetStateLemmas NetRunLemmas
  NetHistLemmas Props_Network Props_Lp WholeRun WholeRunSpec WholeRunLemmas WholeRunFacts WholeRunMain WholeRunCode LpEnv SchemaRun SchemaRunCheck RoutingSpec Props_Routing PowerSpec Props_Power
  NodeParams NodeParamsSpec NodeParamsLemmas NodeSpecial NodeSpecialSpec NodeSpecialMain NodeSpecialLemmas Props_WholeRun.
Local Open Scope string_scope.
Local Open Scope list_scope.
Local Open Scope nat_scope.

Lemma runs_incl V of oi date T cps cps' : incl cps' cps -> SchemaParams.runs V of oi date T cps -> SchemaParams.runs V of oi date T cps'.
Proof. intros Hi H c mo Hc. apply H. apply Hi. exact Hc. Qed.

(** A run of the whole network is a run of the file. *)
Lemma file_of_run :
  forall (X : Type) key step sc a net solver fm order cd (sm : sem (pvalue X) (pint X) timestep whole run_error) cps sps ms nd nw coll name,
  load_schema key step sc = Ok a ->
  (forall d c, In d (ad_params a) -> registered name d = Some c -> In c cps) ->
  (forall d s, In d (ad_params a) -> registered_special name d = Some s -> In s sps) ->
  set_up_with a net solver fm order cd sm cps sps ms nd nw coll -> numbering key name ms a net ->
  forall ts outss, simulate sm nw coll ts = Ok outss -> regular ts ->
  forall date, (forall t e, nth_error ts t = Some e -> date t = ts_date e) ->
  exists V other_f other_i steps,
    SchemaParams.runs V other_f other_i date (length ts) cps /\
    whole_run a net fm order ms V other_f ts steps /\
    length outss = length ts /\ records cd V other_f other_i (nd_out nd) outss /\
    file_run key step sc a net (seen_run key name V other_f steps) /\
    (forall s, In s sps -> special_runs V other_f (length ts) s).
Proof.
  intros X key step sc a net solver fm order cd sm cps sps ms nd nw coll name Hload Hreg Hsp Hsu nu ts outss Hs Hts date Hd.
  destruct (run_of_set_up_with X a net solver fm order cd sm cps sps ms nd nw coll Hsu ts outss Hs Hts date Hd)
    as (V & of & oi & steps & HR & HS & HK & HZ & wr & L & rec).
  exists V, of, oi, steps. split; [exact HR|]. split; [exact wr|]. split; [exact L|]. split; [exact rec|]. split; [|exact HS].
  pose proof (sw_net _ _ _ _ _ _ _ _ _ _ _ _ _ Hsu) as Hb.
  apply (seen_file_run key step sc a net fm order ms name V of oi date ts steps cps Hload Hb wr nu HR Hreg).
  - intros p m q Hp. destruct (made_kind key step sc a Hload _ Hp) as (u & ->).
    exact (HZ _ u q (Hreg _ _ Hp eq_refl) eq_refl).
  - intros d Hin Hn. destruct (registered_special name d) as [s|] eqn:E.
    + exact (special_follows key step sc a net fm order ms name V of ts steps sps Hload wr nu HK HS Hsp d s Hin E).
    + pose proof (made_kind key step sc a Hload d Hin) as Hk. destruct d; try discriminate; destruct Hk.
Qed.

(** C86.  A network with the nodes of a model file, the parameters of the file
    and those that the nodes make for themselves is simulated.  If the run
    succeeds, it is a run of the file in the sense of C42, C43, C46 and C59: what
    these theorems say of a file holds of the flows and volumes of the run, and
    the recorders record them. *)
Theorem C86_run :
  forall (X : Type) key step sc a net solver fm order cd (sm : sem (pvalue X) (pint X) timestep whole run_error) args f lps cps sps ms nd nw coll name,
  load_schema key step sc = Ok a ->
  load_parameters args f = Ok lps -> incl lps cps ->
  (forall d c, In d (ad_params a) -> registered name d = Some c -> In c cps) ->
  (forall d s, In d (ad_params a) -> registered_special name d = Some s -> In s sps) ->
  set_up_with a net solver fm order cd sm cps sps ms nd nw coll -> numbering key name ms a net ->
  forall ts outss, simulate sm nw coll ts = Ok outss -> regular ts ->
  forall date, (forall t e, nth_error ts t = Some e -> date t = ts_date e) -> (forall t, valid_datetime (date t) = true) ->
  exists V other_f other_i steps,
    whole_run a net fm order ms V other_f ts steps /\
    length outss = length ts /\ records cd V other_f other_i (nd_out nd) outss /\
    (forall sc p, In (sc, p) (in_nodes f ++ in_network f) -> sc = None \/ ~ bare_multi p ->
      SchemaParamsSpec.means args V other_f other_i date (length ts) sc p) /\
    file_run key step sc a net (seen_run key name V other_f steps).
Proof.
  intros X key step sc a net solver fm order cd sm args f lps cps sps ms nd nw coll name Hload Hl Hi Hreg Hsp Hsu nu ts outss Hs Hts date Hd Hv.
  destruct (file_of_run X key step sc a net solver fm order cd sm cps sps ms nd nw coll name Hload Hreg Hsp Hsu nu ts outss Hs Hts date Hd)
    as (V & of & oi & steps & HR & wr & L & rec & FR & _).
  exists V, of, oi, steps. split; [exact wr|]. split; [exact L|]. split; [exact rec|]. split; [|exact FR].
  intros s p Hin' Hm. exact (C70_values_partial args f lps V of oi date (length ts) Hl Hv (runs_incl _ _ _ _ _ _ _ Hi HR) s p Hin' Hm).
Qed.
Print Assumptions C86_run.

(** The dates of the time-steps. *)
Definition dates (ts : list timestep) (t : nat) : datetime := match nth_error ts t with Some e => ts_date e | None => DateTime (Date 0 0 0) 0 end.
Lemma dates_of ts t e : nth_error ts t = Some e -> dates ts t = ts_date e.
Proof. intros H. unfold dates. rewrite H. reflexivity. Qed.

(** What is recorded of a node is what the run has. *)
Section Recorded.
Context {X : Type}.
Variables (key : umetric -> nat) (a : added) (net : Network.network) (fm : Q) (order : list (list nat)) (ms : list lmetric) (name : nat -> lmetric)
  (V : valuation) (of : moment -> nat -> lmetric -> Q) (oi : moment -> nat -> lindex -> Z) (ts : list timestep) (steps : list sim_step)
  (cd : coding) (nd : network_def) (outss : list (list (res run_error (pvalue X)))).
Hypothesis Hb : build_network (declaration a) = Ok net.
Hypothesis wr : whole_run a net fm order ms V of ts steps.
Hypothesis rec : records cd V of oi (nd_out nd) outss.
Hypothesis L : length outss = length ts.

Lemma recorded_step k outs : nth_error outss k = Some outs -> exists s, nth_error (seen_run key name V of steps) k = Some s /\ In s (seen_run key name V of steps).
Proof.
  intros Hk. apply nth_error_Some_lt in Hk. rewrite L in Hk.
  pose proof (wr_times _ _ _ _ _ _ _ _ _ wr) as E. assert (E' : length steps = length ts) by (rewrite <- E, map_length; reflexivity).
  destruct (nth_error_lt_Some steps k) as [p Hp]; [lia|].
  assert (Hs' : nth_error (seen_run key name V of steps) k = Some (seen key name V of k p)) by (rewrite (seen_nth key name V of ts steps), Hp; reflexivity).
  eexists. split; [exact Hs'|exact (nth_error_In _ _ Hs')].
Qed.

Lemma recorded_days : regular ts -> forall s, In s (seen_run key name V of steps) -> (0 < st_days (rs_state s))%Q.
Proof.
  intros Hts s Hs'. unfold seen_run in Hs'. apply in_map_iff in Hs'. destruct Hs' as ((k & p) & <- & Hin). apply in_combine_r in Hin.
  destruct (In_nth_error _ _ Hin) as (k' & Hk). pose proof (wr_times _ _ _ _ _ _ _ _ _ wr) as E.
  assert (E' : nth_error ts k' = Some (sim_t p)) by (rewrite <- E, nth_error_map, Hk; reflexivity).
  destruct (Hts _ _ E') as [_ Hpos]. exact Hpos.
Qed.

Lemma recorded_flow k outs j m n attr x r s : (forall q, m <> UConst q) -> nth_error outss k = Some outs -> nth_error outs j = Some (Ok (PvF x)) ->
  nth_error (nd_out nd) j = Some (uref_f cd (LmNode m)) -> create_metric n (Some attr) = Ok m ->
  nth_error (seen_run key name V of steps) k = Some s -> node_metric a net (rs_x s) n attr r -> (x == r)%Q.
Proof.
  intros Hm Ek Ej Ed Em Hk (m' & v' & Em' & Hfv & Hveq).
  pose proof (proj1 (rec k outs j Ek) _ x Ed Ej) as E. rewrite Em in Em'. injection Em' as <-.
  apply (seen_inv key name V of ts steps) in Hk. destruct Hk as (p & Hp & ->).
  destruct (flow_kind a net name m _ v' Hfv) as [->|[Hf _]]; [destruct (Hm _ eq_refl)|].
  rewrite <- Hveq, <- E. cbn [read_f]. exact (proj1 (flows_after a net fm order ms V of ts steps Hb wr k p m v' Hp Hf Hfv "")).
Qed.
End Recorded.

(** C86.  So what is recorded as the outflow of a delay node, or of a river with a
    delay, is what was recorded as its inflow [d] time-steps before, and in the
    first [d] time-steps the initial value of the file. *)
Theorem C86_delay_recorded :
  forall (X : Type) key step sc a net solver fm order cd (sm : sem (pvalue X) (pint X) timestep whole run_error) cps sps ms nd nw coll name,
  load_schema key step sc = Ok a ->
  (forall d c, In d (ad_params a) -> registered name d = Some c -> In c cps) ->
  (forall d s, In d (ad_params a) -> registered_special name d = Some s -> In s sps) ->
  set_up_with a net solver fm order cd sm cps sps ms nd nw coll -> numbering key name ms a net ->
  forall ts outss, simulate sm nw coll ts = Ok outss -> regular ts ->
  forall n node d q mi mo i o, In n (sc_nodes sc) -> delays n node d q -> not_exclusive a net (sub node "outflow") ->
  create_metric n (Some AtInflow) = Ok mi -> create_metric n (Some AtOutflow) = Ok mo ->
  nth_error (nd_out nd) i = Some (uref_f cd (LmNode mi)) -> nth_error (nd_out nd) o = Some (uref_f cd (LmNode mo)) ->
  forall t outs v, nth_error outss t = Some outs -> nth_error outs o = Some (Ok (PvF v)) ->
  (t < d -> (v == q)%Q) /\
  forall outs' u, d <= t -> nth_error outss (t - d) = Some outs' -> nth_error outs' i = Some (Ok (PvF u)) -> (v == u)%Q.
Proof.
  intros X key step sc a net solver fm order cd sm cps sps ms nd nw coll name Hload Hreg Hsp Hsu nu ts outss Hs Hts
    n node d q mi mo i o Hn Hd Hex Hmi Hmo Hi Ho t outs v Ht Hv.
  destruct (file_of_run X key step sc a net solver fm order cd sm cps sps ms nd nw coll name Hload Hreg Hsp Hsu nu ts outss Hs Hts (dates ts) (dates_of ts))
    as (V & of & oi & steps & HR & wr & L & rec & FR & _).
  pose proof (sw_net _ _ _ _ _ _ _ _ _ _ _ _ _ Hsu) as Hb.
  destruct (C59_delay key step sc a net _ n node d q FR Hn Hd Hex (recorded_days key a net fm order ms name V of ts steps wr Hts)) as (flows & HF & Hflow).
  assert (Hc : forall attr m, attr = AtInflow \/ attr = AtOutflow -> create_metric n (Some attr) = Ok m -> forall x, m <> UConst x).
  { intros attr m Ha Hm x ->. destruct Ha as [E|E]; subst attr; destruct Hd as [->|(lf & ->)]; cbn in Hm; try destruct lf; discriminate Hm. }
  assert (R : forall k outs0 j m attr x r s, attr = AtInflow \/ attr = AtOutflow -> nth_error outss k = Some outs0 -> nth_error outs0 j = Some (Ok (PvF x)) ->
    nth_error (nd_out nd) j = Some (uref_f cd (LmNode m)) -> create_metric n (Some attr) = Ok m ->
    nth_error (seen_run key name V of steps) k = Some s -> node_metric a net (rs_x s) n attr r -> (x == r)%Q).
  { intros k outs0 j m attr x r s Ha E1 E2 E3 E4. exact (recorded_flow key a net fm order ms name V of oi ts steps cd nd outss Hb wr rec k outs0 j m n attr x r s (Hc attr m Ha E4) E1 E2 E3 E4). }
  assert (S : forall k outs0, nth_error outss k = Some outs0 -> exists s io, nth_error (seen_run key name V of steps) k = Some s /\
    nth_error flows k = Some io /\ river_flows a net n s io).
  { intros k outs0 Hk. destruct (recorded_step key a net fm order ms name V of ts steps outss wr L k outs0 Hk) as (s & Hs' & _).
    pose proof (Forall2_length' _ _ _ HF) as E2.
    destruct (nth_error_lt_Some flows k) as [io Hio]; [rewrite <- E2; exact (nth_error_Some_lt _ _ _ Hs')|].
    exists s, io. split; [exact Hs'|]. split; [exact Hio|]. exact (Forall2_nth_error _ _ _ _ _ _ HF Hs' Hio). }
  destruct (S t outs Ht) as (s & io & Hs1 & Hio & [_ Hout]). destruct (Hflow t io Hio) as [F1 F2].
  pose proof (R t outs o mo AtOutflow v (snd io) s (or_intror eq_refl) Ht Hv Ho Hmo Hs1 Hout) as Ev. split.
  - intros Hlt. rewrite Ev. exact (F1 Hlt).
  - intros outs' u Hle Ht' Hu. destruct (F2 Hle) as (io' & Hio' & E). destruct (S _ _ Ht') as (s' & io2 & Hs2 & Hio2 & [Hin _]).
    rewrite Hio' in Hio2. injection Hio2 as <-. rewrite Ev, E. symmetry. exact (R _ outs' i mi AtInflow u (fst io') s' (or_introl eq_refl) Ht' Hu Hi Hmi Hs2 Hin).
Qed.
Print Assumptions C86_delay_recorded.

(** C86.  What is recorded as the inflow and the outflow of a river with Muskingum
    routing and a constant travel time and weight satisfies the equation of
    continuity from one time-step to the next; in the first time-step it continues
    the initial flows of the file, or in a steady state the outflow is the
    inflow. *)
Theorem C86_muskingum_recorded :
  forall (X : Type) key step sc a net solver fm order cd (sm : sem (pvalue X) (pint X) timestep whole run_error) cps sps ms nd nw coll name,
  load_schema key step sc = Ok a ->
  (forall d c, In d (ad_params a) -> registered name d = Some c -> In c cps) ->
  (forall d s, In d (ad_params a) -> registered_special name d = Some s -> In s sps) ->
  set_up_with a net solver fm order cd sm cps sps ms nd nw coll -> numbering key name ms a net ->
  forall ts outss, simulate sm nw coll ts = Ok outss -> regular ts ->
  forall river lf K W ini mi mo i o, let n := SRiver river lf (Some (RtMuskingum (UConst K) (UConst W) ini)) in
  In n (sc_nodes sc) -> separate a net (sub river "aggregated_routing_node") -> routing_defined K W ->
  create_metric n (Some AtInflow) = Ok mi -> create_metric n (Some AtOutflow) = Ok mo ->
  nth_error (nd_out nd) i = Some (uref_f cd (LmNode mi)) -> nth_error (nd_out nd) o = Some (uref_f cd (LmNode mo)) ->
  forall t outs I1 O1, nth_error outss t = Some outs -> nth_error outs i = Some (Ok (PvF I1)) -> nth_error outs o = Some (Ok (PvF O1)) ->
  match t with
  | 0 => match ini with Some (I0, O0) => continuity K W I0 O0 I1 O1 | None => (O1 == I1)%Q end
  | S t' => forall outs' I0 O0, nth_error outss t' = Some outs' -> nth_error outs' i = Some (Ok (PvF I0)) -> nth_error outs' o = Some (Ok (PvF O0)) ->
      continuity K W I0 O0 I1 O1
  end.
Proof.
  intros X key step sc a net solver fm order cd sm cps sps ms nd nw coll name Hload Hreg Hsp Hsu nu ts outss Hs Hts
    river lf K W ini mi mo i o n Hn Hsep Hdef Hmi Hmo Hi Ho.
  destruct (file_of_run X key step sc a net solver fm order cd sm cps sps ms nd nw coll name Hload Hreg Hsp Hsu nu ts outss Hs Hts (dates ts) (dates_of ts))
    as (V & of & oi & steps & HR & wr & L & rec & FR & _).
  pose proof (sw_net _ _ _ _ _ _ _ _ _ _ _ _ _ Hsu) as Hb.
  destruct (C42_river key step sc a net _ river lf (UConst K) (UConst W) ini FR Hn Hsep (fun _ _ => Hdef)) as (flows & HF & Hro).
  fold n in HF.
  assert (Hc : forall attr m, attr = AtInflow \/ attr = AtOutflow -> create_metric n (Some attr) = Ok m -> forall x, m <> UConst x).
  { intros attr m Ha Hm x ->. destruct Ha as [E|E]; subst attr; unfold n in Hm; destruct lf; cbn in Hm; discriminate Hm. }
  assert (S : forall k outs0 I O, nth_error outss k = Some outs0 -> nth_error outs0 i = Some (Ok (PvF I)) -> nth_error outs0 o = Some (Ok (PvF O)) ->
    exists io, nth_error flows k = Some io /\ (I == fst io /\ O == snd io)%Q).
  { intros k outs0 I O Hk HI HO. destruct (recorded_step key a net fm order ms name V of ts steps outss wr L k outs0 Hk) as (s & Hs' & _).
    pose proof (Forall2_length' _ _ _ HF) as E2.
    destruct (nth_error_lt_Some flows k) as [io Hio]; [rewrite <- E2; exact (nth_error_Some_lt _ _ _ Hs')|].
    exists io. split; [exact Hio|]. destruct (Forall2_nth_error _ _ _ _ _ _ HF Hs' Hio) as [F1 F2]. split.
    - exact (recorded_flow key a net fm order ms name V of oi ts steps cd nd outss Hb wr rec k outs0 i mi n AtInflow I _ s (Hc AtInflow mi (or_introl eq_refl) Hmi) Hk HI Hi Hmi Hs' F1).
    - exact (recorded_flow key a net fm order ms name V of oi ts steps cd nd outss Hb wr rec k outs0 o mo n AtOutflow O _ s (Hc AtOutflow mo (or_intror eq_refl) Hmo) Hk HO Ho Hmo Hs' F2). }
  assert (HC : forall (kxs flows : list (Q * Q)) prev k p q, (forall kx, In kx kxs -> kx = (K, W)) -> continues prev kxs flows ->
    nth_error (prev :: flows) k = Some p -> nth_error flows k = Some q -> continuity K W (fst p) (snd p) (fst q) (snd q)).
  { clear. induction kxs as [|kx kxs IH]; intros [|f flows] prev k p q Hk Hc Hp Hq; cbn [continues] in Hc; try contradiction; [destruct k; discriminate Hq|].
    destruct Hc as [Hc1 Hc2]. destruct k as [|k].
    - injection Hp as <-. injection Hq as <-. rewrite (Hk kx (or_introl eq_refl)) in Hc1. exact Hc1.
    - exact (IH flows f k p q (fun x Hx => Hk x (or_intror Hx)) Hc2 Hp Hq). }
  assert (Hkx : forall l kx, In kx (map (fun t => (before key t (UConst K), before key t (UConst W))) l) -> kx = (K, W)).
  { intros l kx H. apply in_map_iff in H. destruct H as (x & <- & _). reflexivity. }
  assert (PC : forall p q I0 O0 I1 O1, (I0 == fst p -> O0 == snd p -> I1 == fst q -> O1 == snd q ->
    continuity K W (fst p) (snd p) (fst q) (snd q) -> continuity K W I0 O0 I1 O1)%Q).
  { intros p q I0 O0 I1 O1 E1 E2 E3 E4 H. unfold continuity, reach_storage in *. rewrite E1, E2, E3, E4. exact H. }
  set (tr := seen_run key name V of steps) in *. clearbody tr. specialize (Hkx tr). revert Hkx Hro. generalize (map (fun t => (before key t (UConst K), before key t (UConst W))) tr). intros kxs Hkx Hro.
  intros t outs I1 O1 Ht HI HO. destruct (S t outs I1 O1 Ht HI HO) as (q & Hq & E1 & E2).
  destruct flows as [|f0 flows]; [destruct t; discriminate Hq|]. destruct kxs as [|kx kxs]; [destruct Hro|].
  cbn [routed] in Hro. destruct Hro as [H0 Hrest]. pose proof (Hkx kx (or_introl eq_refl)) as Ekx. rewrite Ekx in *. cbn [fst snd] in H0. destruct t as [|t].
  - injection Hq as <-. destruct ini as [[I0 O0]|].
    + exact (PC (I0, O0) f0 I0 O0 I1 O1 (Qeq_refl _) (Qeq_refl _) E1 E2 H0).
    + rewrite E1, E2. exact H0.
  - intros outs' I0 O0 Ht' HI0 HO0. destruct (S t outs' I0 O0 Ht' HI0 HO0) as (p & Hp & E3 & E4).
    apply (PC p q); auto. exact (HC kxs flows f0 t p q (fun x Hx => Hkx x (or_intror Hx)) Hrest Hp Hq).
Qed.
Print Assumptions C86_muskingum_recorded.

(** C86.  The power recorded for a turbine is what the flow recorded through it
    produces under its head, and meets the target (here a literal, like the
    elevation of the water, which may be absent). *)
Theorem C86_turbine_recorded :
  forall (X : Type) key step sc a net solver fm order cd (sm : sem (pvalue X) (pint X) timestep whole run_error) cps sps ms nd nw coll name,
  load_schema key step sc = Ok a ->
  (forall d c, In d (ad_params a) -> registered name d = Some c -> In c cps) ->
  (forall d s, In d (ad_params a) -> registered_special name d = Some s -> In s sps) ->
  set_up_with a net solver fm order cd sm cps sps ms nd nw coll -> numbering key name ms a net ->
  forall ts outss, simulate sm nw coll ts = Ok outss -> regular ts ->
  forall turbine c target el tgt h head i o, let n := STurbine turbine c (Some (UConst target)) (option_map UConst el) tgt h in
  In n (sc_nodes sc) -> not_exclusive a net (SchemaNodes.whole turbine) -> proper h -> working_head h el head -> (hy_min_head h < head)%Q ->
  forall mi mp, create_metric n (Some AtInflow) = Ok mi -> create_metric n (Some AtPower) = Ok mp ->
  nth_error (nd_out nd) i = Some (uref_f cd (LmNode mi)) -> nth_error (nd_out nd) o = Some (uref_f cd (metric_of name mp)) ->
  forall t outs flow power, nth_error outss t = Some outs -> nth_error outs i = Some (Ok (PvF flow)) -> nth_error outs o = Some (Ok (PvF power)) ->
  produces h flow head power /\ meets tgt power target.
Proof.
  intros X key step sc a net solver fm order cd sm cps sps ms nd nw coll name Hload Hreg Hsp Hsu nu ts outss Hs Hts
    turbine c target el tgt h head i o n Hn Hex Hp Hw Hm mi mp Hmi Hmp Hi Ho t outs flow power Ht HI HO.
  destruct (file_of_run X key step sc a net solver fm order cd sm cps sps ms nd nw coll name Hload Hreg Hsp Hsu nu ts outss Hs Hts (dates ts) (dates_of ts))
    as (V & of & oi & steps & HR & wr & L & rec & FR & _).
  pose proof (sw_net _ _ _ _ _ _ _ _ _ _ _ _ _ Hsu) as Hb.
  destruct (recorded_step key a net fm order ms name V of ts steps outss wr L t outs Ht) as (s & Hs' & Hin).
  destruct (C46_turbine key step sc a net _ s turbine c (UConst target) (option_map UConst el) tgt h head FR Hin Hn Hex
    (recorded_days key a net fm order ms name V of ts steps wr Hts s Hin) Hp) as (f & p & F1 & _ & Ep & Epow & Hprod & Hmeet); [| |exact Hm|].
  { intros m Hm'. destruct el as [e|]; [|discriminate Hm']. injection Hm' as <-. apply (seen_inv key name V of ts steps) in Hs'. destruct Hs' as (p0 & _ & ->). reflexivity. }
  { destruct el as [e|]; exact Hw. }
  assert (Ef : (flow == f)%Q).
  { refine (recorded_flow key a net fm order ms name V of oi ts steps cd nd outss Hb wr rec t outs i mi n AtInflow flow f s _ Ht HI Hi Hmi Hs' F1).
    intros q ->. discriminate Hmi. }
  fold n in Ep. rewrite Hmp in Ep. injection Ep as ->.
  assert (Epw : (power == p)%Q).
  { rewrite <- Epow. pose proof (proj1 (rec t outs o Ht) _ power Ho HO) as E. apply (seen_inv key name V of ts steps) in Hs'. destruct Hs' as (p0 & _ & ->).
    cbn [seen rs_after]. rewrite E. reflexivity. }
  split.
  - unfold produces in *. rewrite Ef, Epw. exact Hprod.
  - change (before key s (UConst target)) with target in Hmeet. destruct tgt as [[| |]|]; cbn [meets] in *; rewrite Epw; exact Hmeet.
Qed.
Print Assumptions C86_turbine_recorded.

(** ** A concrete case *)

(** Water flows from an input, limited by a monthly profile, through a delay of
    one time-step into a store in three parts and from there to an output; and
    from another input down a river with Muskingum routing and through a turbine
    to another output.  The nodes make twelve parameters. *)
Definition np_hydro : hydro := mkHydro 0 1 1 1 (100 # 981) 1.
Definition np_river : snode := SRiver "riv" None (Some (RtMuskingum (UConst (1#2)) (UConst 0) (Some (2, 2)%Q))).
Definition np_turbine : snode := STurbine "t" None (Some (UConst 4)) (Some (UConst 2)) None np_hydro.
Definition np_schema : schema :=
  mkSchema [SInput "in" None None (Some (SchemaNodes.UOther (MDyn 0))); SDelay "d" 1 1;
            SPiecewiseStorage "r" (UConst 10) (Some (UConst 4)) None [mkStore (UConst (3#10)) None; mkStore (UConst (7#10)) None] (SIProportional (1#2));
            SOutput "out" None None None; SInput "in2" None None (Some (SchemaNodes.UOther (MDyn 0))); np_river; np_turbine; SOutput "out2" None None None] []
    [wr_edge "in" "d"; wr_edge "d" "r"; wr_edge "r" "out"; wr_edge "in2" "riv"; wr_edge "riv" "t"; wr_edge "t" "out2"].
Definition np_flows : list lmetric := [LmNode (UNodeInFlow (sub "riv" "inflow")); LmNode (UNodeOutFlow (sub "riv" "outflow"))].
Definition np_ms : list lmetric :=
  (pt_names ((None, "m") :: (Some "d", "delay") ::
            flat_map (fun i => map (fun w => (Some "r", "store-0" ++ i ++ w)) ["-max-volume"; "-prior-max-volume"; "-min-volume"]) ["0"; "1"; "2"])%string
   ++ pt_names [(Some "t", "power")]
   ++ map (fun k => LmParam (Some "riv") "muskingum" (Some k) RvBefore) ["inflow_factor"; "rhs"] ++ np_flows)%list.
Definition np_name (k : nat) : lmetric := nth k np_ms (LmConst 0).
Definition np_key (m : umetric) : nat := match place (metric_of np_name m) np_ms with Some k => k | None => length np_ms end.
Definition np_added : added := match load_schema np_key None np_schema with Ok a => a | _ => nothing end.
Definition np_net : Network.network := match build_network (declaration np_added) with Ok n => n | _ => mkNet [] [] [] [] end.
Definition np_built : built := match create F64_MAX [] np_net with Ok b => b | _ => mkBuilt (mkLp 0 [] [] []) [] [] [] [] end.
Definition np_args : load_args := mkArgs np_schema [] (fun _ _ => None) (fun _ _ => None).
Definition np_file : pfile := mkPfile [] [] [mkParam "m" (SpMonthly [2; 1; 9; 4; 5; 6; 7; 8; 9; 10; 11; 12]%Q None)].
Definition np_lps : list cparam := match load_parameters np_args np_file with Ok c => c | _ => [] end.
Definition np_cps : list cparam :=
  np_lps ++ flat_map (fun d => match registered np_name d with Some c => [c] | None => [] end) (ad_params np_added).
Definition np_sps : list special := flat_map (fun d => match registered_special np_name d with Some s => [s] | None => [] end) (ad_params np_added).
Definition np_observed : list lmetric :=
  [LmNode (UNodeInFlow (sub "d" "inflow")); LmNode (UNodeOutFlow (sub "d" "outflow")); LmNode (UNodeVolume (sub "r" "store-01"));
   LmNode (UNodeInFlow (SchemaNodes.whole "t")); LmNode (UMultiNodeInFlow [sub "riv" "inflow"]); LmNode (UMultiNodeOutFlow [sub "riv" "outflow"])] ++ np_flows.
Definition np_out : list lmetric := np_observed ++ [LmParam (Some "t") "power" None RvAfter] ++ np_ms.
(** A solver that tries a few numbers for the inputs, for what leaves the delay
    and for what leaves the river. *)
Definition np_solver (ss : list lp_state) (l : lp) : option (nat -> Q) :=
  find (feasible_check l) (map (fun x (k : nat) => match k with 4%nat | 9%nat => fst (fst x) | 6%nat => snd (fst x) | 8%nat => 1 | 10%nat | 11%nat => snd x | _ => 0 end)
    (flat_map (fun x => flat_map (fun y => map (fun z => ((x, y), z)) [2; 3#2; 1]) [1; 2]) [2; 1]))%Q.
Definition np_number (n : cname) : nat := number n (np_cps ++ map (fun s => mkCparam (special_name s) (CConstant 0)) np_sps).
Definition np_special (n : nat) : option special := if n <? length np_cps then None else nth_error np_sps (n - length np_cps).
Definition np_coding : coding := Coding np_number (fun k => if String.eqb k "inflow_factor" then 0 else 1)
  (fun m => match m with LmConst q => 2 * qenc q | _ => code np_observed m end) (fun m => match m with LiConst z => 2 * zenc z + 1 | _ => 0 end).
Definition np_values := list (string * Q).
Definition np_sem : sem (pvalue np_values) (pint np_values) timestep whole run_error :=
  Sem (fun _ => PvF 0%Q) (fun k => if Nat.even k then PvF (qdec (Nat.div2 k)) else PvI (zdec (Nat.div2 k)))
    (fun a v => match a, v with
       | AcMulti k, PvOther l => match nth_error l k with Some e => Ok (PvF (snd e)) | None => Err (ECalc (NotRead "key")) end
       | _, _ => match view a v with Some w => Ok w | None => Err (ECalc (NotRead "metric")) end
       end)
    (fun n => body_setup (pt_body np_cps n))
    (fun n rs s => lift ECalc (const_body (pt_body np_cps n) rs s))
    (fun d n rs s => lift ECalc (simple_body (ts_date d) (pt_body np_cps n) rs s))
    (fun d n rs s => match np_special n with
       | Some p => lift ECalc (rbind (special_before (fun l => l) (is_first d) p rs) (fun v => Ok (v, s)))
       | None => lift ECalc (before_body (ts_date d) (pt_body np_cps n) rs s)
       end)
    (fun d n rs s => match np_special n with
       | Some p => lift ECalc (rbind (special_after p rs) (fun v => Ok (v, s)))
       | None => lift ECalc (after_body (pt_body np_cps n) rs s)
       end)
    (fun d n rs s => lift ECalc (hook_body (pt_body np_cps n) rs s))
    (fun w k => match decode np_observed k with
       | Some m => match observe np_added np_net (w_state w) m with Ok q => Ok (PvF q) | Err e => Err e | Panic => Panic end
       | None => Err ENotResolved end)
    (mkWhole (NetState.initial_state np_net) np_built []) (prepare np_net) (solve_step np_net np_solver) ENotResolved.
Definition np_nd : network_def :=
  NetworkDef [] (map (fun k => uref_f np_coding (nth k np_ms (LmConst 0))) (volume_keys np_net)) (map (uref_f np_coding) np_ms) (map (uref_f np_coding) np_out).
Definition np_builders : list pbuilder := map (builder_of np_coding) np_cps ++ map (special_builder np_coding) np_sps.

(** The hypotheses of the theorems hold.  What leaves the delay is what entered it
    a time-step before: 2 then 1 enter it, 1 then 2 leave it.  The middle store has
    room for 4 of the 10, of which 1 has to stay.  With the time of travel of half
    a time-step and the weight 0, the mean of what enters the river now and before
    leaves it, and the turbine produces as much. *)
Example C86_example :
  exists nw coll outss,
  load_schema np_key None np_schema = Ok np_added /\ length (ad_params np_added) = 12 /\
  load_parameters np_args np_file = Ok np_lps /\ incl np_lps np_cps /\
  (forall d c, In d (ad_params np_added) -> registered np_name d = Some c -> In c np_cps) /\
  (forall d s, In d (ad_params np_added) -> registered_special np_name d = Some s -> In s np_sps) /\
  set_up_with np_added np_net np_solver F64_MAX [] np_coding np_sem np_cps np_sps np_ms np_nd nw coll /\
  numbering np_key np_name np_ms np_added np_net /\
  simulate np_sem nw coll wr_ts = Ok outss /\ regular wr_ts /\
  (delays (SDelay "d" 1 1) "d" 1 1 /\ In (SDelay "d" 1 1) (sc_nodes np_schema) /\ not_exclusive np_added np_net (sub "d" "outflow") /\
   create_metric (SDelay "d" 1 1) (Some AtInflow) = Ok (UNodeInFlow (sub "d" "inflow")) /\
   create_metric (SDelay "d" 1 1) (Some AtOutflow) = Ok (UNodeOutFlow (sub "d" "outflow")) /\
   nth_error (nd_out np_nd) 0 = Some (uref_f np_coding (LmNode (UNodeInFlow (sub "d" "inflow")))) /\
   nth_error (nd_out np_nd) 1 = Some (uref_f np_coding (LmNode (UNodeOutFlow (sub "d" "outflow"))))) /\
  (In np_river (sc_nodes np_schema) /\ separate np_added np_net (sub "riv" "aggregated_routing_node") /\ routing_defined (1#2) 0 /\
   create_metric np_river (Some AtInflow) = Ok (UMultiNodeInFlow [sub "riv" "inflow"]) /\
   create_metric np_river (Some AtOutflow) = Ok (UMultiNodeOutFlow [sub "riv" "outflow"]) /\
   nth_error (nd_out np_nd) 4 = Some (uref_f np_coding (LmNode (UMultiNodeInFlow [sub "riv" "inflow"]))) /\
   nth_error (nd_out np_nd) 5 = Some (uref_f np_coding (LmNode (UMultiNodeOutFlow [sub "riv" "outflow"])))) /\
  (In np_turbine (sc_nodes np_schema) /\ not_exclusive np_added np_net (SchemaNodes.whole "t") /\
   proper np_hydro /\ working_head np_hydro (Some 2%Q) 1 /\ (hy_min_head np_hydro < 1)%Q /\
   create_metric np_turbine (Some AtInflow) = Ok (UNodeInFlow (SchemaNodes.whole "t")) /\
   create_metric np_turbine (Some AtPower) = Ok (UParamAfter ("t", "power")) /\
   nth_error (nd_out np_nd) 3 = Some (uref_f np_coding (LmNode (UNodeInFlow (SchemaNodes.whole "t")))) /\
   nth_error (nd_out np_nd) 8 = Some (uref_f np_coding (metric_of np_name (UParamAfter ("t", "power"))))) /\
  Forall2 (Forall2 (fun r q => exists q', r = Ok (PvF q') /\ q' == q)%Q) (map (firstn 20) outss)
    (map (fun first => first ++ [3; 0; 3; 4; 3; 1; 3; 7; 0]) [[2; 1; 2; 2; 2; 2; 2; 2; 2; 2; 1]; [1; 2; 3; 3#2; 1; 3#2; 1; 3#2; 3#2; 1; 2]; [1; 1; 3; 1; 1; 1; 1; 1; 1; 1; 1]])%Q.
Proof.
  eexists _, _, _. do 3 (split; [vm_compute; reflexivity|]). split; [intros c Hc; apply in_app_iff; left; exact Hc|].
  assert (Hd : forall i, not_exclusive np_added np_net i) by (intros n i _ (g & ns & Hg & (mn & mx & He) & _); vm_compute in Hg; destruct Hg as [<-|[]]; discriminate He).
  split; [|split; [|split; [|split; [|split; [|split; [|split; [|split; [|split]]]]]]]].
  - intros d c Hin E. apply in_app_iff. right. apply in_flat_map. exists d. split; [exact Hin|]. rewrite E. left. reflexivity.
  - intros d s Hin E. apply in_flat_map. exists d. split; [exact Hin|]. rewrite E. left. reflexivity.
  - constructor.
    + vm_compute. reflexivity.
    + apply valid_order_nil. vm_compute. reflexivity.
    + intros ss l x H. apply find_some in H. apply feasible_check_sound. exact (proj2 H).
    + exists np_built. split; [vm_compute; reflexivity|]. constructor; try reflexivity.
      intros w m Hm Hu. cbn [sm_observe np_sem]. assert (E : decode np_observed (cd_f np_coding m) = Some m).
      { destruct m; try discriminate; apply decode_code; exact I. }
      rewrite E. reflexivity.
    + exists ECalc, (fun l => l). assert (H : forall c, In c np_cps -> pt_body np_cps (np_number (cp_name c)) = cp_body c /\ np_special (np_number (cp_name c)) = None).
      { vm_compute. intros c H. repeat (destruct H as [<-|H]; [split; reflexivity|]). destruct H. }
      assert (HS : forall s, In s np_sps -> np_special (np_number (special_name s)) = Some s).
      { vm_compute. intros c H0. repeat (destruct H0 as [<-|H0]; [reflexivity|]). destruct H0. }
      split; constructor; try (intros c Hc; intros; cbn [sm_init sm_const sm_simple sm_before sm_after sm_hook np_sem cd_name np_coding];
        destruct (H c Hc) as [E1 E2]; rewrite ?E1, ?E2, ?E1; reflexivity).
      * intros acc v Hm. destruct acc; try reflexivity. destruct (Hm _ eq_refl).
      * intros q. unfold np_sem, np_coding. cbn [sm_lit cd_f]. rewrite Nat.even_mul, Nat.div2_double, qdec_qenc. reflexivity.
      * intros z. unfold np_sem, np_coding. cbn [sm_lit cd_i].
        rewrite Nat.add_1_r, Nat.even_succ, <- Nat.negb_even, Nat.even_mul, Nat.div2_succ_double, zdec_zenc. reflexivity.
      * intros f r. split; reflexivity.
      * intros s Hs env rs x. cbn [sm_before np_sem cd_name np_coding]. rewrite (HS s Hs). reflexivity.
      * intros s Hs env rs x. cbn [sm_after np_sem cd_name np_coding]. rewrite (HS s Hs). reflexivity.
    + split; [reflexivity|]. split; [reflexivity|]. vm_compute. intros k H. decompose [or] H; subst; try contradiction; lia.
    + exists (seq 0 7), (seq 0 8), np_builders. eexists. split; [|split; [|split]].
      * assert (P : plain_builders np_builders).
        { assert (F : forallb (fun b => forallb (fun u => match fst u with ParamBuild.UNodeMaxFlow _ => false | _ => true end) (pb_refs b)) np_builders = true)
            by (vm_compute; reflexivity).
          rewrite forallb_forall in F. intros b u ph Hb Hu. specialize (F b Hb). rewrite forallb_forall in F. specialize (F _ Hu). destruct u; try exact I. discriminate F. }
        split; [intros c Hc; apply in_app_iff; left; apply in_map; exact Hc|]. split; [exact P|]. split.
        -- vm_compute. intros u H. decompose [or] H; subst; try contradiction; exact I.
        -- intros b Hb. apply in_app_iff in Hb. destruct Hb as [Hb|Hb]; apply in_map_iff in Hb; destruct Hb as (c & <- & Hc); [left; exists c; reflexivity|].
           right. intros ks sh H. destruct c; injection H as <-; exact I.
      * intros s Hs. apply in_app_iff. right. apply in_map. exact Hs.
      * vm_compute. reflexivity.
      * vm_compute. reflexivity.
  - constructor.
    + intros k m H. unfold np_name. exact (nth_error_nth _ _ _ H).
    + vm_compute. intros k H. decompose [or] H; subst; try contradiction; lia.
    + assert (F : forallb (fun m => match m with UConst _ | SchemaNodes.UOther _ => true | _ => match place (metric_of np_name m) np_ms with Some _ => true | None => false end end)
        (flat_map reads (ad_params np_added) ++ flat_map own_metrics (ad_params np_added)) = true) by (vm_compute; reflexivity).
      rewrite forallb_forall in F. intros m H. specialize (F m H).
      assert (G : match place (metric_of np_name m) np_ms with Some _ => true | None => false end = true -> np_name (np_key m) = metric_of np_name m).
      { unfold np_key. destruct (place (metric_of np_name m) np_ms) as [k|] eqn:E; [|discriminate]. intros _. apply place_nth in E. exact (nth_error_nth _ _ _ E). }
      destruct m; try exact I; exact (G F).
  - vm_compute. reflexivity.
  - intros [|[|[|k]]] t H; cbn in H; try discriminate; try (injection H as <-; split; reflexivity). destruct k; discriminate.
  - split; [left; reflexivity|]. split; [cbn; auto 9|]. split; [apply Hd|]. repeat split; reflexivity.
  - split; [cbn; auto 9|]. split; [|split; [|repeat split; reflexivity]].
    + apply separate_check_sound. vm_compute. reflexivity.
    + discriminate.
  - split; [cbn; auto 9|]. split; [apply Hd|]. split; [repeat split; vm_compute; try reflexivity; discriminate|]. repeat split; reflexivity.
  - repeat constructor; eexists; split; reflexivity.
Qed.
