(** C87: the deficit recorded for an output is what its demand is short of. *)
From Coq Require Import Ascii String.
From Coq Require Import QArith Qminmax Lia.
From Verif Require Import Base Calendar Timestep AggFuncs ControlCurves Formulas ParamsTemporal Profiles SchemaNodes SchemaVirtual MetricSets
  SchemaParams SchemaParamsSpec Props_SchemaParams ParamBuild ParamBuildSpec ParamEval ParamEvalSpec ParamTiers ParamTiersLemmas ParamTiersMain
  ParamTiersSpec ParamOrderLemmas Props_ParamTiers.
From Verif Require Import Network NetworkBuild NetworkSpec NetworkBuildLemmas Lp LpSpec LpRelLemmas SchemaLemmas SchemaNodeLemmas Props_Schema SchemaMetrics SchemaSpec NetState NetStateSpec NetStateLemmas NetRunLemmas
  NetHistLemmas Props_Network Props_Lp WholeRun WholeRunSpec WholeRunLemmas WholeRunFacts WholeRunMain WholeRunCode LpEnv SchemaRun
  NodeParams NodeParamsSpec NodeParamsLemmas NodeSpecial NodeSpecialSpec NodeSpecialMain NodeSpecialLemmas Props_WholeRun Props_NodeParams.
From Coq Require Import Lqa.
Local Open Scope string_scope.
Local Open Scope list_scope.
Local Open Scope nat_scope.

(** The metric has one value in a time-step: a number, or a value that a
    parameter has before the solve. *)
Definition settled (m : lmetric) : Prop :=
  match m with LmConst _ | LmParam _ _ None RvBefore => True | _ => False end.

(** The metric of the maximum flow of an output, and whether it is recorded, or
    known, to be [q]. *)
Definition demand_is (cd : coding) (nd : network_def) (name : nat -> lmetric) {X} (outs : list (res run_error (pvalue X))) (mx : option umetric) (q : Q) : Prop :=
  mx = None /\ q = F64_MAX \/ mx = Some (UConst q) \/
  exists k l, mx = Some (SchemaNodes.UOther (MDyn k)) /\ nth_error (nd_out nd) l = Some (uref_f cd (name k)) /\ nth_error outs l = Some (Ok (PvF q)).

Theorem C87_deficit_partial :
  forall (X : Type) key step sc a net solver fm order cd (sm : sem (pvalue X) (pint X) timestep whole run_error) cps sps ms nd nw coll name,
  load_schema key step sc = Ok a ->
  (forall d c, In d (ad_params a) -> registered name d = Some c -> In c cps) ->
  (forall d s, In d (ad_params a) -> registered_special name d = Some s -> In s sps) ->
  set_up_with a net solver fm order cd sm cps sps ms nd nw coll -> numbering key name ms a net ->
  forall ts outss, simulate sm nw coll ts = Ok outss -> regular ts ->
  forall output c mn mx p i j, In (SOutput output c mn mx) (sc_nodes sc) -> not_exclusive a net (SchemaNodes.whole output) ->
  asked_deficit name (SOutput output c mn mx) = Some p -> In p sps ->
  nth_error (nd_out nd) i = Some (uref_f cd (LmNode (UNodeInFlow (SchemaNodes.whole output)))) ->
  nth_error (nd_out nd) j = Some (uref_f cd (metric_of name (UParamAfter (output, "deficit")))) ->
  forall t outs flow short demand, nth_error outss t = Some outs ->
  nth_error outs i = Some (Ok (PvF flow)) -> nth_error outs j = Some (Ok (PvF short)) -> demand_is cd nd name outs mx demand ->
  (short == Qmax (demand - flow) 0)%Q /\
  ((forall k, mx = Some (SchemaNodes.UOther (MDyn k)) -> settled (name k)) -> (flow <= demand /\ short == demand - flow)%Q).
Proof.
  intros X key step sc a net solver fm order cd sm cps sps ms nd nw coll name Hload Hreg Hsp Hsu nu ts outss Hs Hts
    output c mn mx p i j Hn Hex Hp Hin Hi Hj t outs flow short demand Ht HI HJ Hdem.
  destruct (file_of_run X key step sc a net solver fm order cd sm cps sps ms nd nw coll name Hload Hreg Hsp Hsu nu ts outss Hs Hts (dates ts) (dates_of ts))
    as (V & of & oi & steps & HR & wr & L & rec & FR & HS).
  pose proof (sw_net _ _ _ _ _ _ _ _ _ _ _ _ _ Hsu) as Hb.
  destruct (recorded_step key a net fm order ms name V of ts steps outss wr L t outs Ht) as (s & Hs' & Hins).
  assert (Htl : t < length ts) by (rewrite <- L; exact (nth_error_Some_lt _ _ _ Ht)).
  pose proof (recorded_days key a net fm order ms name V of ts steps wr Hts s Hins) as Hdays.
  pose proof (fr_steps _ _ _ _ _ _ FR s Hins) as H. loaded H Hn Hpo.
  assert (Ho : In (SchemaNodes.output key (SchemaNodes.whole output) c mn mx) (ad_nodes a)) by (apply (po_nodes _ _ Hpo); left; reflexivity).
  destruct (a_output _ _ _ _ _ _ _ H _ _ _ _ Ho) as (n & Hdn & Fn).
  pose proof (limits_at _ _ _ _ _ _ _ H _ TOutput _ _ _ n Ho ltac:(discriminate) Hex Hdays Hdn) as (_ & L2). rewrite Fn in L2.
  assert (Ef : (flow == inflow net (edge_flow net (rs_x s)) n)%Q).
  { refine (recorded_flow key a net fm order ms name V of oi ts steps cd nd outss Hb wr rec t outs i (UNodeInFlow (SchemaNodes.whole output)) (SOutput output c mn mx) AtInflow flow _ s _ Ht HI Hi eq_refl Hs' _);
      [discriminate|]. eapply metric_is; [reflexivity|apply (value_in _ _ _ _ _ _ _ H _ n Hdn)|reflexivity]. }
  cbn [asked_deficit] in Hp. injection Hp as <-. pose proof (HS _ Hin t Htl) as D. cbv beta zeta in D. cbn [fst snd] in D.
  pose proof (proj1 (rec t outs i Ht) _ flow Hi HI) as E1. pose proof (proj1 (rec t outs j Ht) _ short Hj HJ) as E2. cbn [metric_of fst snd] in E2.
  rewrite E1, E2 in D. unfold deficit in D. cbn [rbind] in D. injection D as D.
  set (m := match mx with Some m => metric_of name m | None => LmConst F64_MAX end) in *.
  assert (Ed : read_f V of After t m = demand).
  { destruct Hdem as [[E ->]|[E|(k & l & E & Hl & Hq)]]; subst mx; [reflexivity|reflexivity|]. exact (proj1 (rec t outs l Ht) _ demand Hl Hq). }
  rewrite Ed in D. assert (Es : (short == Qmax (demand - flow) 0)%Q) by (rewrite <- D; apply fmax_Qmax). split; [exact Es|].
  intros Hset. assert (Hle : (flow <= demand)%Q).
  { rewrite Ef. apply (Qle_trans _ _ _ L2). apply (seen_inv key name V of ts steps) in Hs'. destruct Hs' as (p0 & _ & ->).
    destruct Hdem as [[E ->]|[E|(k & l & E & _)]]; subst mx; [apply Qle_refl|apply Qle_refl|].
    rewrite <- Ed. unfold m. cbn [metric_of]. specialize (Hset k eq_refl). cbn [value_or SchemaSpec.value to_metric metric_value seen rs_state with_env st_env].
    destruct (name k) as [ | | |? ? kk rv|q| ]; try destruct Hset; try apply Qle_refl. destruct kk; [destruct Hset|]. destruct rv; try destruct Hset. apply Qle_refl. }
  split; [exact Hle|]. rewrite Es. apply Q.max_l. lra.
Qed.
Print Assumptions C87_deficit_partial.

(** If the maximum flow of an output is the flow of another, the limit in force is
    the flow of the time-step before, and 0 in the first; but the deficit is
    counted from the flow of the present time-step (above). *)
Theorem C87_moving_limit :
  forall (X : Type) key step sc a net solver fm order cd (sm : sem (pvalue X) (pint X) timestep whole run_error) cps sps ms nd nw coll name,
  load_schema key step sc = Ok a ->
  (forall d c, In d (ad_params a) -> registered name d = Some c -> In c cps) ->
  (forall d s, In d (ad_params a) -> registered_special name d = Some s -> In s sps) ->
  set_up_with a net solver fm order cd sm cps sps ms nd nw coll -> numbering key name ms a net ->
  forall ts outss, simulate sm nw coll ts = Ok outss -> regular ts ->
  forall output c mn k other c' mn' mx' i l, In (SOutput output c mn (Some (SchemaNodes.UOther (MDyn k)))) (sc_nodes sc) -> not_exclusive a net (SchemaNodes.whole output) ->
  In (SOutput other c' mn' mx') (sc_nodes sc) -> name k = LmNode (UNodeInFlow (SchemaNodes.whole other)) ->
  nth_error (nd_out nd) i = Some (uref_f cd (LmNode (UNodeInFlow (SchemaNodes.whole output)))) -> nth_error (nd_out nd) l = Some (uref_f cd (name k)) ->
  forall t outs flow, nth_error outss t = Some outs -> nth_error outs i = Some (Ok (PvF flow)) ->
  match t with
  | 0 => (flow <= 0)%Q
  | S t' => forall outs' q, nth_error outss t' = Some outs' -> nth_error outs' l = Some (Ok (PvF q)) -> (flow <= q)%Q
  end.
Proof.
  intros X key step sc a net solver fm order cd sm cps sps ms nd nw coll name Hload Hreg Hsp Hsu nu ts outss Hs Hts
    output c mn k other c' mn' mx' i l Hn Hex Hn' Hk Hi Hl t outs flow Ht HI.
  destruct (file_of_run X key step sc a net solver fm order cd sm cps sps ms nd nw coll name Hload Hreg Hsp Hsu nu ts outss Hs Hts (dates ts) (dates_of ts))
    as (V & of & oi & steps & HR & wr & L & rec & FR & HS).
  pose proof (sw_net _ _ _ _ _ _ _ _ _ _ _ _ _ Hsu) as Hb.
  destruct (recorded_step key a net fm order ms name V of ts steps outss wr L t outs Ht) as (s & Hs' & Hins).
  assert (Htl : t < length ts) by (rewrite <- L; exact (nth_error_Some_lt _ _ _ Ht)).
  pose proof (recorded_days key a net fm order ms name V of ts steps wr Hts s Hins) as Hdays.
  pose proof (fr_steps _ _ _ _ _ _ FR s Hins) as H.
  assert (Ho : exists n, declared (declaration a) n (SchemaNodes.whole output) /\ (flow == inflow net (edge_flow net (rs_x s)) n)%Q /\
    (flow <= read_f V of Before t (name k))%Q).
  { loaded H Hn Hpo.
    assert (Ho : In (SchemaNodes.output key (SchemaNodes.whole output) c mn (Some (SchemaNodes.UOther (MDyn k)))) (ad_nodes a)) by (apply (po_nodes _ _ Hpo); left; reflexivity).
    destruct (a_output _ _ _ _ _ _ _ H _ _ _ _ Ho) as (n & Hdn & Fn).
    pose proof (limits_at _ _ _ _ _ _ _ H _ TOutput _ _ _ n Ho ltac:(discriminate) Hex Hdays Hdn) as (_ & L2). rewrite Fn in L2.
    assert (Ef : (flow == inflow net (edge_flow net (rs_x s)) n)%Q).
    { refine (recorded_flow key a net fm order ms name V of oi ts steps cd nd outss Hb wr rec t outs i (UNodeInFlow (SchemaNodes.whole output)) (SOutput output c mn None) AtInflow flow _ s _ Ht HI Hi eq_refl Hs' _);
        [discriminate|]. eapply metric_is; [reflexivity|apply (value_in _ _ _ _ _ _ _ H _ n Hdn)|reflexivity]. }
    exists n. split; [exact Hdn|]. split; [exact Ef|]. rewrite Ef. apply (Qle_trans _ _ _ L2).
    apply (seen_inv key name V of ts steps) in Hs'. destruct Hs' as (p0 & _ & ->). apply Qle_refl. }
  destruct Ho as (_ & _ & _ & Hle). rewrite Hk in Hle. cbn [read_f] in Hle.
  loaded H Hn' Hpo'.
  assert (Ho' : In (SchemaNodes.output key (SchemaNodes.whole other) c' mn' mx') (ad_nodes a)) by (apply (po_nodes _ _ Hpo'); left; reflexivity).
  destruct (a_output _ _ _ _ _ _ _ H _ _ _ _ Ho') as (n' & Hdn' & _).
  assert (HV : forall f, flow_value (declaration a) net f (UNodeInFlow (SchemaNodes.whole other)) = Some (inflow net f n')).
  { intros f. cbn [flow_value]. rewrite (lookup_name _ _ _ _ _ _ _ H n' _ Hdn'). reflexivity. }
  destruct t as [|t].
  - destruct (seen_inv key name V of ts steps _ _ Hs') as (p & Hp & _).
    pose proof (proj2 (C85_flows a net fm order ms V of ts steps Hb wr 0 p (UNodeInFlow (SchemaNodes.whole other)) _ Hp eq_refl) (HV _)) as [E _].
    rewrite E in Hle. assert (Z : (inflow net (fun _ => 0) n' == 0)%Q).
    { unfold inflow. apply LpLemmas.qsum_zero. }
    rewrite Z in Hle. exact Hle.
  - intros outs' q Ht' Hq. pose proof (wr_times _ _ _ _ _ _ _ _ _ wr) as E. assert (El : length steps = length ts) by (rewrite <- E, map_length; reflexivity).
    destruct (nth_error_lt_Some steps t) as [p Hp]; [lia|].
    pose proof (proj1 (C85_flows a net fm order ms V of ts steps Hb wr t p (UNodeInFlow (SchemaNodes.whole other)) _ Hp eq_refl) (HV _)) as (E1 & E2 & _).
    specialize (E2 Htl). rewrite E2, <- E1 in Hle. pose proof (proj1 (rec t outs' l Ht') _ q Hl Hq) as E3. rewrite Hk in E3. cbn [read_f] in E3. rewrite E3 in Hle. exact Hle.
Qed.
Print Assumptions C87_moving_limit.

(** Water flows from an input, limited by a monthly profile, to an output that
    wants 3; and from another input to an output that may take what the first
    output takes. *)
Definition df_first : snode := SOutput "x" None None (Some (UConst 3)).
Definition df_second : snode := SOutput "y" None None (Some (SchemaNodes.UOther (MDyn 1))).
Definition df_schema : schema :=
  mkSchema [SInput "a" None None (Some (SchemaNodes.UOther (MDyn 0))); df_first; SInput "b" None None None; df_second] []
    [wr_edge "a" "x"; wr_edge "b" "y"].
Definition df_flow (n : string) : lmetric := LmNode (UNodeInFlow (SchemaNodes.whole n)).
Definition df_ms : list lmetric := pt_names [(None, "m")] ++ [df_flow "x"].
Definition df_name (k : nat) : lmetric := nth k df_ms (LmConst 0).
Definition df_key (m : umetric) : nat := match place (metric_of df_name m) df_ms with Some k => k | None => length df_ms end.
Definition df_added : added := match load_schema df_key None df_schema with Ok a => a | _ => nothing end.
Definition df_net : Network.network := match build_network (declaration df_added) with Ok n => n | _ => mkNet [] [] [] [] end.
Definition df_built : built := match create F64_MAX [] df_net with Ok b => b | _ => mkBuilt (mkLp 0 [] [] []) [] [] [] [] end.
Definition df_args : load_args := mkArgs df_schema [] (fun _ _ => None) (fun _ _ => None).
Definition df_file : pfile := mkPfile [] [] [mkParam "m" (SpMonthly [1; 2; 9; 4; 5; 6; 7; 8; 9; 10; 11; 12]%Q None)].
Definition df_lps : list cparam := match load_parameters df_args df_file with Ok c => c | _ => [] end.
Definition df_cps : list cparam :=
  df_lps ++ flat_map (fun d => match registered df_name d with Some c => [c] | None => [] end) (ad_params df_added).
Definition df_sps : list special := flat_map (fun n => match asked_deficit df_name n with Some s => [s] | None => [] end) (sc_nodes df_schema).
Definition df_observed : list lmetric := [df_flow "x"; df_flow "y"].
Definition df_out : list lmetric := df_observed ++ map (fun o => LmParam (Some o) "deficit" None RvAfter) ["x"; "y"].
(** A solver that tries a few numbers. *)
Definition df_solver (ss : list lp_state) (l : lp) : option (nat -> Q) :=
  find (feasible_check l) (map (fun x (k : nat) => match k with 0%nat => fst x | 1%nat => snd x | _ => 0 end)
    (flat_map (fun x => map (fun y => (x, y)) [2; 1; 0]) [2; 1]))%Q.
Definition df_number (n : cname) : nat := number n (df_cps ++ map (fun s => mkCparam (special_name s) (CConstant 0)) df_sps).
Definition df_special (n : nat) : option special := if n <? length df_cps then None else nth_error df_sps (n - length df_cps).
Definition df_coding : coding := Coding df_number (fun k => if String.eqb k "inflow_factor" then 0 else 1)
  (fun m => match m with LmConst q => 2 * qenc q | _ => code df_observed m end) (fun m => match m with LiConst z => 2 * zenc z + 1 | _ => 0 end).
Definition df_values := list (string * Q).
Definition df_sem : sem (pvalue df_values) (pint df_values) timestep whole run_error :=
  Sem (fun _ => PvF 0%Q) (fun k => if Nat.even k then PvF (qdec (Nat.div2 k)) else PvI (zdec (Nat.div2 k)))
    (fun a v => match a, v with
       | AcMulti k, PvOther l => match nth_error l k with Some e => Ok (PvF (snd e)) | None => Err (ECalc (NotRead "key")) end
       | _, _ => match view a v with Some w => Ok w | None => Err (ECalc (NotRead "metric")) end
       end)
    (fun n => body_setup (pt_body df_cps n))
    (fun n rs s => lift ECalc (const_body (pt_body df_cps n) rs s))
    (fun d n rs s => lift ECalc (simple_body (ts_date d) (pt_body df_cps n) rs s))
    (fun d n rs s => match df_special n with
       | Some p => lift ECalc (rbind (special_before (fun l => l) (is_first d) p rs) (fun v => Ok (v, s)))
       | None => lift ECalc (before_body (ts_date d) (pt_body df_cps n) rs s)
       end)
    (fun d n rs s => match df_special n with
       | Some p => lift ECalc (rbind (special_after p rs) (fun v => Ok (v, s)))
       | None => lift ECalc (after_body (pt_body df_cps n) rs s)
       end)
    (fun d n rs s => lift ECalc (hook_body (pt_body df_cps n) rs s))
    (fun w k => match decode df_observed k with
       | Some m => match observe df_added df_net (w_state w) m with Ok q => Ok (PvF q) | Err e => Err e | Panic => Panic end
       | None => Err ENotResolved end)
    (mkWhole (NetState.initial_state df_net) df_built []) (prepare df_net) (solve_step df_net df_solver) ENotResolved.
Definition df_nd : network_def :=
  NetworkDef [] (map (fun k => uref_f df_coding (nth k df_ms (LmConst 0))) (volume_keys df_net)) (map (uref_f df_coding) df_ms) (map (uref_f df_coding) df_out).
Definition df_builders : list pbuilder := map (builder_of df_coding) df_cps ++ map (special_builder df_coding) df_sps.

(** The hypotheses of the theorems hold.  The first output is 2, 1 and 1 short of
    3.  The second may take 0, then 1, then 2, takes it, and is said to be 1 short
    in the first two time-steps. *)
Example C87_example :
  exists nw coll outss,
  load_schema df_key None df_schema = Ok df_added /\
  load_parameters df_args df_file = Ok df_lps /\ incl df_lps df_cps /\
  (forall d c, In d (ad_params df_added) -> registered df_name d = Some c -> In c df_cps) /\
  (forall d s, In d (ad_params df_added) -> registered_special df_name d = Some s -> In s df_sps) /\
  set_up_with df_added df_net df_solver F64_MAX [] df_coding df_sem df_cps df_sps df_ms df_nd nw coll /\
  numbering df_key df_name df_ms df_added df_net /\
  simulate df_sem nw coll wr_ts = Ok outss /\ regular wr_ts /\
  (forall i, not_exclusive df_added df_net i) /\
  (forall n, n = df_first \/ n = df_second -> In n (sc_nodes df_schema) /\ exists p, asked_deficit df_name n = Some p /\ In p df_sps) /\
  (nth_error (nd_out df_nd) 0 = Some (uref_f df_coding (LmNode (UNodeInFlow (SchemaNodes.whole "x")))) /\
   nth_error (nd_out df_nd) 1 = Some (uref_f df_coding (LmNode (UNodeInFlow (SchemaNodes.whole "y")))) /\
   nth_error (nd_out df_nd) 2 = Some (uref_f df_coding (metric_of df_name (UParamAfter ("x", "deficit")))) /\
   nth_error (nd_out df_nd) 3 = Some (uref_f df_coding (metric_of df_name (UParamAfter ("y", "deficit")))) /\
   df_name 1 = LmNode (UNodeInFlow (SchemaNodes.whole "x"))) /\
  Forall2 (Forall2 (fun r q => exists q', r = Ok (PvF q') /\ q' == q)%Q) outss [[1; 0; 2; 1]; [2; 1; 1; 1]; [2; 2; 1; 0]]%Q.
Proof.
  eexists _, _, _. do 2 (split; [vm_compute; reflexivity|]). split; [intros c Hc; apply in_app_iff; left; exact Hc|].
  assert (Hd : forall i, not_exclusive df_added df_net i) by (intros n i _ (g & ns & Hg & (mn & mx & He) & _); vm_compute in Hg; destruct Hg).
  split; [|split; [|split; [|split; [|split; [|split; [|split; [|split; [|split]]]]]]]].
  - intros d c Hin E. apply in_app_iff. right. apply in_flat_map. exists d. split; [exact Hin|]. rewrite E. left. reflexivity.
  - vm_compute. intros d s H. destruct H.
  - constructor.
    + vm_compute. reflexivity.
    + apply valid_order_nil. vm_compute. reflexivity.
    + intros ss l x H. apply find_some in H. apply feasible_check_sound. exact (proj2 H).
    + exists df_built. split; [vm_compute; reflexivity|]. constructor; try reflexivity.
      intros w m Hm Hu. cbn [sm_observe df_sem]. assert (E : decode df_observed (cd_f df_coding m) = Some m).
      { destruct m; try discriminate; apply decode_code; exact I. }
      rewrite E. reflexivity.
    + exists ECalc, (fun l => l). assert (H : forall c, In c df_cps -> pt_body df_cps (df_number (cp_name c)) = cp_body c /\ df_special (df_number (cp_name c)) = None).
      { vm_compute. intros c H. repeat (destruct H as [<-|H]; [split; reflexivity|]). destruct H. }
      assert (HS : forall s, In s df_sps -> df_special (df_number (special_name s)) = Some s).
      { vm_compute. intros c H0. repeat (destruct H0 as [<-|H0]; [reflexivity|]). destruct H0. }
      split; constructor; try (intros c Hc; intros; cbn [sm_init sm_const sm_simple sm_before sm_after sm_hook df_sem cd_name df_coding];
        destruct (H c Hc) as [E1 E2]; rewrite ?E1, ?E2, ?E1; reflexivity).
      * intros acc v Hm. destruct acc; try reflexivity. destruct (Hm _ eq_refl).
      * intros q. unfold df_sem, df_coding. cbn [sm_lit cd_f]. rewrite Nat.even_mul, Nat.div2_double, qdec_qenc. reflexivity.
      * intros z. unfold df_sem, df_coding. cbn [sm_lit cd_i].
        rewrite Nat.add_1_r, Nat.even_succ, <- Nat.negb_even, Nat.even_mul, Nat.div2_succ_double, zdec_zenc. reflexivity.
      * intros f r. split; reflexivity.
      * intros s Hs env rs x. cbn [sm_before df_sem cd_name df_coding]. rewrite (HS s Hs). reflexivity.
      * intros s Hs env rs x. cbn [sm_after df_sem cd_name df_coding]. rewrite (HS s Hs). reflexivity.
    + split; [reflexivity|]. split; [reflexivity|]. vm_compute. intros k H. decompose [or] H; subst; try contradiction; lia.
    + exists (seq 0 1), (seq 0 2), df_builders. eexists. split; [|split; [|split]].
      * assert (P : plain_builders df_builders).
        { assert (F : forallb (fun b => forallb (fun u => match fst u with ParamBuild.UNodeMaxFlow _ => false | _ => true end) (pb_refs b)) df_builders = true)
            by (vm_compute; reflexivity).
          rewrite forallb_forall in F. intros b u ph Hb Hu. specialize (F b Hb). rewrite forallb_forall in F. specialize (F _ Hu). destruct u; try exact I. discriminate F. }
        split; [intros c Hc; apply in_app_iff; left; apply in_map; exact Hc|]. split; [exact P|]. split.
        -- vm_compute. intros u H. decompose [or] H; subst; try contradiction; exact I.
        -- intros b Hb. apply in_app_iff in Hb. destruct Hb as [Hb|Hb]; apply in_map_iff in Hb; destruct Hb as (c & <- & Hc); [left; exists c; reflexivity|].
           right. intros ks sh H. destruct c; injection H as <-; exact I.
      * intros s Hs. apply in_app_iff. right. apply in_map. exact Hs.
      * vm_compute. reflexivity.
      * vm_compute. reflexivity.
  - constructor.
    + intros k m H. unfold df_name. exact (nth_error_nth _ _ _ H).
    + vm_compute. intros k H. decompose [or] H; subst; try contradiction; lia.
    + assert (F : forallb (fun m => match m with UConst _ | SchemaNodes.UOther _ => true | _ => match place (metric_of df_name m) df_ms with Some _ => true | None => false end end)
        (flat_map reads (ad_params df_added) ++ flat_map own_metrics (ad_params df_added)) = true) by (vm_compute; reflexivity).
      rewrite forallb_forall in F. intros m H. specialize (F m H).
      assert (G : match place (metric_of df_name m) df_ms with Some _ => true | None => false end = true -> df_name (df_key m) = metric_of df_name m).
      { unfold df_key. destruct (place (metric_of df_name m) df_ms) as [k|] eqn:E; [|discriminate]. intros _. apply place_nth in E. exact (nth_error_nth _ _ _ E). }
      destruct m; try exact I; exact (G F).
  - vm_compute. reflexivity.
  - intros [|[|[|k]]] t H; cbn in H; try discriminate; try (injection H as <-; split; reflexivity). destruct k; discriminate.
  - exact Hd.
  - intros n [-> | ->]; (split; [cbn; auto 9|]); eexists; (split; [reflexivity|]); cbn; auto.
  - repeat split; reflexivity.
  - repeat constructor; eexists; split; reflexivity.
Qed.

(** An output may be said to be short although it takes all that its maximum flow
    allows: the limit in force is the flow of another output in the time-step
    before (C87_moving_limit), the deficit is counted from its flow now. *)
Theorem C87_moving_limit_refuted :
  ~ (forall (X : Type) key step sc a net solver fm order cd (sm : sem (pvalue X) (pint X) timestep whole run_error) cps sps ms nd nw coll name,
     load_schema key step sc = Ok a ->
     (forall d c, In d (ad_params a) -> registered name d = Some c -> In c cps) ->
     (forall d s, In d (ad_params a) -> registered_special name d = Some s -> In s sps) ->
     set_up_with a net solver fm order cd sm cps sps ms nd nw coll -> numbering key name ms a net ->
     forall ts outss, simulate sm nw coll ts = Ok outss -> regular ts ->
     forall output c mn k other c' mn' mx' p i j l, In (SOutput output c mn (Some (SchemaNodes.UOther (MDyn k)))) (sc_nodes sc) ->
     not_exclusive a net (SchemaNodes.whole output) ->
     In (SOutput other c' mn' mx') (sc_nodes sc) -> name k = LmNode (UNodeInFlow (SchemaNodes.whole other)) ->
     asked_deficit name (SOutput output c mn (Some (SchemaNodes.UOther (MDyn k)))) = Some p -> In p sps ->
     nth_error (nd_out nd) i = Some (uref_f cd (LmNode (UNodeInFlow (SchemaNodes.whole output)))) -> nth_error (nd_out nd) l = Some (uref_f cd (name k)) ->
     nth_error (nd_out nd) j = Some (uref_f cd (metric_of name (UParamAfter (output, "deficit")))) ->
     forall t outs outs' limit flow short, nth_error outss t = Some outs -> nth_error outss (S t) = Some outs' ->
     nth_error outs l = Some (Ok (PvF limit)) -> nth_error outs' i = Some (Ok (PvF flow)) -> nth_error outs' j = Some (Ok (PvF short)) ->
     (short == limit - flow)%Q).
Proof.
  intros H. destruct C87_example as (nw & coll & outss & H1 & _ & _ & H2 & H3 & H4 & H5 & H6 & H7 & Hx & Hin & (N0 & N1 & _ & N3 & Hk) & HF).
  assert (Hy : In df_second (sc_nodes df_schema) /\ exists p, asked_deficit df_name df_second = Some p /\ In p df_sps) by (apply Hin; right; reflexivity).
  destruct Hy as (Hy & p & Hp & Hps). assert (Hz : In df_first (sc_nodes df_schema)) by (apply Hin; left; reflexivity).
  destruct outss as [|o0 [|o1 outss]]; [inversion HF|inversion HF as [|? ? ? ? _ HF']; inversion HF'|].
  inversion HF as [|? ? ? ? F0 HF']; subst. inversion HF' as [|? ? ? ? F1 _]; subst.
  inversion F0 as [|r0 ? ? ? (q0 & E0 & Q0) _]; subst. inversion F1 as [|? ? ? ? _ F1']; subst. inversion F1' as [|? ? ? ? (q1 & E1 & Q1) F2]; subst.
  inversion F2 as [|? ? ? ? _ F3]; subst. inversion F3 as [|? ? ? ? (q3 & E3 & Q3) _]; subst.
  rewrite <- Hk in N0.
  pose proof (H _ _ _ _ _ _ _ _ _ _ _ _ _ _ _ _ _ _ H1 H2 H3 H4 H5 _ _ H6 H7 _ _ _ _ _ _ _ _ p 1 3 0 Hy (Hx _) Hz Hk Hp Hps N1 N0 N3 0 _ _ q0 q1 q3 eq_refl eq_refl eq_refl eq_refl eq_refl) as E.
  rewrite Q0, Q1, Q3 in E. discriminate E.
Qed.
Print Assumptions C87_moving_limit_refuted.
