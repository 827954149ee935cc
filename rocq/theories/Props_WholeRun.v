(** C85: the parameters of a model file, the nodes, the solver and the recorders
    work together as the file says. *)
From Coq Require Import Ascii String.
From Coq Require Import QArith Lia.
From Verif Require Import Base Calendar Timestep AggFuncs ControlCurves Formulas ParamsTemporal Profiles SchemaNodes SchemaVirtual MetricSets
  SchemaParams SchemaParamsSpec Props_SchemaParams ParamBuild ParamBuildSpec ParamEval ParamEvalSpec ParamTiers ParamTiersLemmas ParamTiersMain
  ParamTiersSpec ParamOrderLemmas Props_ParamTiers.
From Verif Require Import Network NetworkBuild NetworkSpec NetworkBuildLemmas Lp LpSpec LpRelLemmas SchemaMetrics NetState NetStateSpec NetStateLemmas NetRunLemmas NetHistLemmas Props_Network Props_Lp
  WholeRun WholeRunSpec WholeRunLemmas WholeRunFacts WholeRunMore WholeRunMain WholeRunCode.
Local Open Scope string_scope.
Local Open Scope list_scope.
Local Open Scope nat_scope.

(** ** The parts fit *)

(** C85.  A network with the nodes and the parameters of a model file is
    simulated.  If the run succeeds, there are values of the parameters and
    time-steps of a simulation in the sense of C14 to C18 such that the
    parameters are what the file means (C70, C84), every metric of a node has
    the value the parameters and the state give it, what reads the network reads
    the state of the simulation, and the recorders record these values. *)
Theorem C85_file_partial :
  forall (X : Type) a net solver fm order cd (sm : sem (pvalue X) (pint X) timestep whole run_error) args f cps ms nd nw coll,
  load_parameters args f = Ok cps ->
  set_up a net solver fm order cd sm cps ms nd nw coll ->
  forall ts outss, simulate sm nw coll ts = Ok outss ->
  forall date, (forall t e, nth_error ts t = Some e -> date t = ts_date e) -> (forall t, valid_datetime (date t) = true) ->
  exists V other_f other_i steps,
    whole_run a net fm order ms V other_f ts steps /\
    length outss = length ts /\ records cd V other_f other_i (nd_out nd) outss /\
    forall sc p, In (sc, p) (in_nodes f ++ in_network f) -> sc = None \/ ~ bare_multi p ->
      SchemaParamsSpec.means args V other_f other_i date (length ts) sc p.
Proof.
  intros X a net solver fm order cd sm args f cps ms nd nw coll Hl Hsu ts outss Hs date Hd Hv.
  destruct (run_of_set_up X a net solver fm order cd sm cps ms nd nw coll Hsu ts outss Hs date Hd) as (V & of & oi & steps & HR & wr & L & rec).
  exists V, of, oi, steps. split; [exact wr|]. split; [exact L|]. split; [exact rec|].
  intros sc p Hin' Hm. exact (C70_values_partial args f cps V of oi date (length ts) Hl Hv HR sc p Hin' Hm).
Qed.
Print Assumptions C85_file_partial.

(** ** What a run means for nodes *)

(** C85.  What is recorded as the flow of a node keeps to the limits the node is
    given, be they literals, parameters of the file or metrics of the network:
    those of the same time-step, from before the solve. *)
Theorem C85_limits :
  forall a net fm order ms V other_f ts steps,
  build_network (declaration a) = Ok net -> whole_run a net fm order ms V other_f ts steps -> regular ts ->
  forall t i n u, t < length ts -> nth_error (net_nodes net) i = Some n -> declared (declaration a) i u ->
  n_type n <> TStorage -> ~ in_exclusive_set net i -> numbered_metric ms (n_min n) -> numbered_metric ms (n_max n) ->
  between V other_f ms t (n_min n) (n_max n) (other_f After t (flow_metric (n_type n) u)).
Proof.
  intros a net fm order ms V other_f ts steps Hb wr Hts t i n u Ht Hn Hu Hty Hex H1 H2.
  destruct (step_at _ _ _ _ _ _ _ _ _ wr t Ht) as (p & Hp & _).
  exact (flow_limits _ _ _ _ _ _ _ _ _ Hb wr Hts t p i n u Hp Hn Hu Hty Hex H1 H2).
Qed.
Print Assumptions C85_limits.

(** C85.  A metric of flows, in what is recorded, is that of the flows of the
    time-step; a parameter that reads it before the solve gets that of the
    time-step before, and 0 in the first. *)
Theorem C85_flows :
  forall a net fm order ms V other_f ts steps,
  build_network (declaration a) = Ok net -> whole_run a net fm order ms V other_f ts steps ->
  forall t p m q, nth_error steps t = Some p -> is_flow m = true ->
  (flow_value (declaration a) net (sim_flows net p) m = Some q ->
     (other_f After t (LmNode m) == q)%Q /\ (S t < length ts -> (other_f Before (S t) (LmNode m) == q)%Q) /\
     forall l, (other_f After t (LmEdge m l) == q)%Q /\ (S t < length ts -> (other_f Before (S t) (LmEdge m l) == q)%Q)) /\
  (flow_value (declaration a) net (fun _ => 0%Q) m = Some q ->
     (other_f Before 0%nat (LmNode m) == q)%Q /\ forall l, (other_f Before 0%nat (LmEdge m l) == q)%Q).
Proof.
  intros a net fm order ms V other_f ts steps Hb wr t p m q Hp Hm. split; intros Hq.
  - pose proof (flows_after _ _ _ _ _ _ _ _ _ Hb wr t p m q Hp Hm Hq) as A.
    assert (B : S t < length ts -> forall l, (other_f Before (S t) (LmNode m) == q /\ other_f Before (S t) (LmEdge m l) == q)%Q).
    { intros Hlt l. destruct (step_at _ _ _ _ _ _ _ _ _ wr (S t) Hlt) as (p2 & Hp2 & _).
      refine (flows_before _ _ _ _ _ _ _ _ _ Hb wr (S t) p2 (sim_flows net p) m q Hp2 Hm _ Hq l). rewrite Hp. reflexivity. }
    split; [exact (proj1 (A ""))|]. split; [intros Hlt; exact (proj1 (B Hlt ""))|]. intros l. split; [exact (proj2 (A l))|].
    intros Hlt. exact (proj2 (B Hlt l)).
  - assert (exists p0, nth_error steps 0 = Some p0) as (p0 & Hp0) by (apply nth_error_lt_Some; apply nth_error_Some_lt in Hp; lia).
    pose proof (flows_before _ _ _ _ _ _ _ _ _ Hb wr 0 p0 (fun _ => 0%Q) m q Hp0 Hm eq_refl Hq) as B.
    split; [exact (proj1 (B ""))|]. intros l. exact (proj2 (B l)).
Qed.
Print Assumptions C85_flows.

(** C85.  The volume of a storage starts with what the metrics of the first
    time-step give, is carried from one time-step to the next, changes in each by
    the recorded inflow and outflow over its length, and is recorded within the
    limits that its metrics give in the time-step. *)
Theorem C85_storage :
  forall a net fm order ms V other_f ts steps,
  build_network (declaration a) = Ok net -> whole_run a net fm order ms V other_f ts steps -> regular ts ->
  (forall k, In k (volume_keys net) -> k < length ms) ->
  forall i n u, nth_error (net_nodes net) i = Some n -> declared (declaration a) i u -> n_type n = TStorage ->
  let vol mo t := other_f mo t (LmNode (UNodeVolume u)) in
  (0 < length ts -> (vol Before 0%nat == starting_volume (fun k => given V other_f ms 0%nat (MDyn k)) (n_maxv n) (n_init n))%Q) /\
  (forall t, S t < length ts -> vol Before (S t) = vol After t) /\
  (forall t e, nth_error ts t = Some e -> ~ in_exclusive_set net i ->
     (vol After t == vol Before t + ts_days e * (other_f After t (LmNode (UNodeInFlow u)) - other_f After t (LmNode (UNodeOutFlow u))))%Q /\
     between V other_f ms t (n_minv n) (n_maxv n) (vol After t)).
Proof.
  intros a net fm order ms V other_f ts steps Hb wr Hts Hk i n u Hn Hu Ht vol.
  assert (K : forall m, (forall k, In k (keys_of m) -> In k (volume_keys net)) -> numbered_metric ms m).
  { intros [[q|k]|] H; try exact I. apply Hk, H. left. reflexivity. }
  assert (HI : forall k, In k (keys_of (n_minv n) ++ keys_of (n_maxv n) ++ init_keys (n_init n)) -> In k (volume_keys net)).
  { intros k Hi. unfold volume_keys. rewrite in_app_iff. left. apply in_flat_map. exists n. split; [exact (nth_error_In _ _ Hn)|exact Hi]. }
  split; [|split].
  - intros H0. exact (volume_starts _ _ _ _ _ _ _ _ _ Hb wr Hts i n u H0 Hn Hu Ht Hk).
  - intros t Hlt. exact (volume_kept _ _ _ _ _ _ _ _ _ Hb wr Hts t i n u Hlt Hn Hu Ht).
  - intros t e He Hex. assert (Hlt : t < length ts) by (apply nth_error_Some_lt in He; exact He).
    destruct (step_at _ _ _ _ _ _ _ _ _ wr t Hlt) as (p & Hp & Hpt). rewrite He in Hpt. injection Hpt as ->.
    apply (storage_volumes _ _ _ _ _ _ _ _ _ Hb wr Hts t p i n u Hp Hn Hu Ht Hex).
    + apply K. intros k Hi. apply HI. rewrite !in_app_iff. auto.
    + apply K. intros k Hi. apply HI. rewrite !in_app_iff. auto.
Qed.
Print Assumptions C85_storage.

(** C85.  How full a storage is recorded to be is its recorded volume over the
    maximum volume its metric gives in the time-step; what a parameter reads
    before the solve is that of the time-step before, with the maximum volume of
    then, and in the first time-step the initial one. *)
Theorem C85_proportion :
  forall a net fm order ms V other_f ts steps,
  build_network (declaration a) = Ok net -> whole_run a net fm order ms V other_f ts steps -> regular ts ->
  forall i n u, nth_error (net_nodes net) i = Some n -> declared (declaration a) i u -> n_type n = TStorage -> numbered_metric ms (n_maxv n) ->
  let full mo t := other_f mo t (LmNode (UNodePropVolume u)) in
  let room mo t := other_f mo t (LmNode (UNodeMaxVolume u)) in
  let vol mo t := other_f mo t (LmNode (UNodeVolume u)) in
  let maximum t := match n_maxv n with Some m => given V other_f ms t m | None => F64_MAX end in
  (forall t, t < length ts -> room After t = maximum t /\ full After t = proportion (vol After t) (maximum t)) /\
  (0 < length ts -> room Before 0 = maximum 0 /\ full Before 0 = proportion (vol Before 0) (maximum 0)) /\
  (forall t, S t < length ts -> room Before (S t) = room After t /\ full Before (S t) = full After t).
Proof.
  intros a net fm order ms V other_f ts steps Hb wr Hts i n u Hn Hu Ht Hm full room vol maximum.
  assert (E : forall t, upper_volume (fun k => given V other_f ms t (MDyn k)) (n_maxv n) = maximum t).
  { intros t. unfold maximum. destruct (n_maxv n) as [[q|k]|]; reflexivity. }
  split; [|split].
  - intros t Hlt. rewrite <- E. exact (max_after _ _ _ _ _ _ _ _ _ Hb wr i n u Hn Hu Ht Hm t Hlt).
  - intros Hlt. rewrite <- E. exact (max_first _ _ _ _ _ _ _ _ _ Hb wr Hts i n u Hn Hu Ht Hm Hlt).
  - intros t Hlt. exact (max_kept _ _ _ _ _ _ _ _ _ Hb wr Hts i n u Hn Hu Ht t Hlt).
Qed.
Print Assumptions C85_proportion.

(** C85.  The inflow and the outflow of an aggregated node, whenever they are
    read, are the sums of those of its nodes. *)
Theorem C85_aggregated :
  forall a net fm order ms V other_f ts steps,
  build_network (declaration a) = Ok net -> whole_run a net fm order ms V other_f ts steps ->
  forall mo t u k ag us, t < length ts -> agg_index a u = Some k -> nth_error (net_aggs net) k = Some ag ->
  Forall2 (declared (declaration a)) (concat (a_nodes ag)) us ->
  (other_f mo t (LmVirtual (VmAggInFlow u)) == qsum (map (fun u => other_f mo t (LmNode (UNodeInFlow u))) us))%Q /\
  (other_f mo t (LmVirtual (VmAggOutFlow u)) == qsum (map (fun u => other_f mo t (LmNode (UNodeOutFlow u))) us))%Q.
Proof.
  intros a net fm order ms V other_f ts steps Hb wr mo t u k ag us Hlt Hk Hag Hus.
  exact (agg_flows _ _ _ _ _ _ _ _ _ Hb wr mo t u k ag us Hlt Hk Hag Hus).
Qed.
Print Assumptions C85_aggregated.

(** C85.  A virtual storage that is within its limits before a solve is within
    them after it, and is charged, while it is active, with the recorded flows of
    its nodes times their factors.  One without a rolling window has, at its
    reset times (C17), the volume that the metrics of that time-step give, and
    otherwise keeps its volume from one time-step to the next. *)
Theorem C85_licence :
  forall a net fm order ms V other_f ts steps,
  build_network (declaration a) = Ok net -> whole_run a net fm order ms V other_f ts steps -> regular ts ->
  (forall k, In k (volume_keys net) -> k < length ms) ->
  forall k v u, nth_error (net_vss net) k = Some v -> vs_index a u = Some k ->
  let licence mo t := other_f mo t (LmVirtual (VmVsVolume u)) in
  (forall t e, nth_error ts t = Some e -> between V other_f ms t (v_minv v) (v_maxv v) (licence Before t) ->
     between V other_f ms t (v_minv v) (v_maxv v) (licence After t) /\
     if vs_is_active (v_period v) (ts_day e)
     then (licence After t == licence Before t - ts_days e * qsum (map (fun x => snd x * recorded_flow a net other_f t (fst x)) (vs_terms v)))%Q
     else licence After t = licence Before t) /\
  (v_window v = None -> forall R, reset_rule v steps R -> forall t, t < length ts ->
     (R t -> (licence Before t == reset_target (fun k => given V other_f ms t (MDyn k)) v)%Q) /\
     (forall j, t = S j -> ~ R t -> licence Before t = licence After j)).
Proof.
  intros a net fm order ms V other_f ts steps Hb wr Hts Hk k v u Hv Hi licence.
  assert (HI : forall j, In j (keys_of (v_minv v) ++ keys_of (v_maxv v) ++ init_keys (v_init v)) -> j < length ms).
  { intros j Hj. apply Hk. unfold volume_keys. rewrite in_app_iff. right. apply in_flat_map. exists v. split; [exact (nth_error_In _ _ Hv)|exact Hj]. }
  split.
  - intros t e He B. apply (licence_step _ _ _ _ _ _ _ _ _ Hb wr Hts k v u Hv Hi t e He); [| |exact B].
    + destruct (v_minv v) as [[q|j]|]; try exact I. apply HI. left. reflexivity.
    + destruct (v_maxv v) as [[q|j]|]; try exact I. apply HI. rewrite !in_app_iff. right. left. left. reflexivity.
  - intros Hw R HR t Hlt. exact (licence_resets _ _ _ _ _ _ _ _ _ Hb wr Hts k v u Hv Hi R Hw HR Hk t Hlt).
Qed.
Print Assumptions C85_licence.

(** C85.  So what the recorders write for the flow of a node is within the limits
    that the parameters of the file mean, whatever solution the solver chooses. *)
Theorem C85_recorded_partial :
  forall (X : Type) a net solver fm order cd (sm : sem (pvalue X) (pint X) timestep whole run_error) args f cps ms nd nw coll,
  load_parameters args f = Ok cps ->
  set_up a net solver fm order cd sm cps ms nd nw coll ->
  forall ts outss, simulate sm nw coll ts = Ok outss -> regular ts ->
  forall date, (forall t e, nth_error ts t = Some e -> date t = ts_date e) -> (forall t, valid_datetime (date t) = true) ->
  exists V other_f other_i,
    (forall sc p, In (sc, p) (in_nodes f ++ in_network f) -> sc = None \/ ~ bare_multi p ->
      SchemaParamsSpec.means args V other_f other_i date (length ts) sc p) /\
    forall t outs j q i n u, nth_error outss t = Some outs -> nth_error outs j = Some (Ok (PvF q)) ->
      nth_error (nd_out nd) j = Some (uref_f cd (flow_metric (n_type n) u)) ->
      nth_error (net_nodes net) i = Some n -> declared (declaration a) i u ->
      n_type n <> TStorage -> ~ in_exclusive_set net i -> numbered_metric ms (n_min n) -> numbered_metric ms (n_max n) ->
      between V other_f ms t (n_min n) (n_max n) q.
Proof.
  intros X a net solver fm order cd sm args f cps ms nd nw coll Hl Hsu ts outss Hs Hts date Hd Hv.
  destruct (C85_file_partial X a net solver fm order cd sm args f cps ms nd nw coll Hl Hsu ts outss Hs date Hd Hv) as (V & of & oi & steps & wr & L & rec & mean).
  exists V, of, oi. split; [exact mean|]. intros t outs j q i n u Ho Hq Hj Hn Hu Hty Hex H1 H2.
  pose proof (proj1 (rec t outs j Ho) _ q Hj Hq) as E.
  assert (Ht : t < length ts).
  { rewrite <- L. apply nth_error_Some_lt in Ho. exact Ho. }
  assert (E' : read_f V of After t (flow_metric (n_type n) u) = of After t (flow_metric (n_type n) u)) by reflexivity.
  rewrite <- E, E'. exact (C85_limits a net fm order ms V of ts steps (su_net _ _ _ _ _ _ _ _ _ _ _ _ Hsu) wr Hts t i n u Ht Hn Hu Hty Hex H1 H2).
Qed.
Print Assumptions C85_recorded_partial.

(** ** A concrete case *)

(** Water flows from an input, limited by a monthly profile, into a reservoir and
    from there to a demand, whose limit depends on how full the reservoir is: 8
    above half, 2 below.  The demand has a licence of 50, of which it uses twice
    what it takes. *)
Definition wr_edge (x y : string) : sedge := mkSedge x None y None.
Definition wr_schema : schema :=
  mkSchema [SInput "in" None None (Some (UParam ("", "m") None));
            SStorage "res" (SchemaNodes.mkStorage None None (Some (UConst 100)) (SIAbsolute 45));
            SOutput "out" None None (Some (UParam ("", "c") None))]
           [VAggregated "both" [mkRef "in" None; mkRef "out" None] None None None;
            VStorage "licence" [mkRef "out" None] (Some [2%Q]) None None (Some (UConst 60)) (SIAbsolute 50) None None None]
           [wr_edge "in" "res"; wr_edge "res" "out"].
Definition wr_key (m : umetric) : nat := match m with UParam (_, n) _ => if String.eqb n "m" then 0 else 1 | _ => 2 end.
Definition wr_added : added := match load_schema wr_key None wr_schema with Ok a => a | _ => nothing end.
Definition wr_net : Network.network := match build_network (declaration wr_added) with Ok n => n | _ => mkNet [] [] [] [] end.
Definition wr_built : built := match create F64_MAX [] wr_net with Ok b => b | _ => mkBuilt (mkLp 0 [] [] []) [] [] [] [] end.
Definition wr_args : load_args := mkArgs wr_schema [] (fun _ _ => None) (fun _ _ => None).
Definition wr_file : pfile :=
  mkPfile [] []
    [mkParam "m" (SpMonthly [12; 3; 9; 4; 5; 6; 7; 8; 9; 10; 11; 12]%Q None);
     mkParam "c" (SpCurve [MLiteral (1 # 2)] (MNode "res" (Some AtPropVolume)) [MLiteral 8; MLiteral 2])].
Definition wr_cps : list cparam := match load_parameters wr_args wr_file with Ok c => c | _ => [] end.
(** The metrics of the nodes, and what is recorded. *)
Definition wr_ms : list lmetric := pt_names [(None, "m"); (None, "c")].
Definition wr_observed : list lmetric :=
  [LmNode (UNodeOutFlow ("in", None)); LmNode (UNodeInFlow ("out", None)); LmNode (UNodeVolume ("res", None)); LmVirtual (VmAggInFlow ("both", None));
   LmVirtual (VmVsVolume ("licence", None)); LmNode (UNodePropVolume ("res", None))].
Definition wr_out : list lmetric := wr_observed ++ wr_ms.
Definition wr_ts : list timestep :=
  [Timestep (DateTime (Date 2020 1 31) 0) 0 NS_PER_DAY; Timestep (DateTime (Date 2020 2 1) 0) 1 NS_PER_DAY; Timestep (DateTime (Date 2020 2 2) 0) 2 NS_PER_DAY].
(** A solver that tries whole numbers, the largest demand first. *)
Definition wr_flows (n : nat) (x : nat * nat) : nat -> Q := fun k => inject_Z (Z.of_nat (match k with 0 => n - fst x | 1 => n - snd x | _ => 0 end)).
Definition wr_solver (ss : list lp_state) (l : lp) : option (nat -> Q) :=
  find (feasible_check l) (map (wr_flows 12) (flat_map (fun o => map (fun i => (i, o)) (seq 0 13)) (seq 0 13))).
Definition wr_coding : coding := Coding (fun n => number n wr_cps) (fun _ => 0)
  (fun m => match m with LmConst q => 2 * qenc q | _ => code wr_observed m end) (fun m => match m with LiConst z => 2 * zenc z + 1 | _ => 0 end).
Definition wr_sem : sem pt_value (pint Empty_set) timestep whole run_error :=
  Sem (fun _ => PvF 0%Q) (fun k => if Nat.even k then PvF (qdec (Nat.div2 k)) else PvI (zdec (Nat.div2 k)))
    (fun a v => match view a v with Some w => Ok w | None => Err (ECalc (NotRead "metric")) end)
    (fun n => body_setup (pt_body wr_cps n))
    (fun n rs s => lift ECalc (const_body (pt_body wr_cps n) rs s))
    (fun d n rs s => lift ECalc (simple_body (ts_date d) (pt_body wr_cps n) rs s))
    (fun d n rs s => lift ECalc (before_body (ts_date d) (pt_body wr_cps n) rs s))
    (fun d n rs s => lift ECalc (after_body (pt_body wr_cps n) rs s))
    (fun d n rs s => lift ECalc (hook_body (pt_body wr_cps n) rs s))
    (fun w k => match decode wr_observed k with
       | Some m => match observe wr_added wr_net (w_state w) m with Ok q => Ok (PvF q) | Err e => Err e | Panic => Panic end
       | None => Err ENotResolved end)
    (mkWhole (NetState.initial_state wr_net) wr_built []) (prepare wr_net) (solve_step wr_net wr_solver) ENotResolved.
Definition wr_nd : network_def := NetworkDef [] [] (map (uref_f wr_coding) wr_ms) (map (uref_f wr_coding) wr_out).

(** The hypotheses of the theorems hold, and the values are those one expects:
    the reservoir is below half at first, and then not. *)
Example C85_example :
  exists nw coll outss,
  load_parameters wr_args wr_file = Ok wr_cps /\ length wr_cps = 2 /\
  set_up wr_added wr_net wr_solver F64_MAX [] wr_coding wr_sem wr_cps wr_ms wr_nd nw coll /\
  simulate wr_sem nw coll wr_ts = Ok outss /\ regular wr_ts /\
  Forall2 (Forall2 (fun r q => exists q', r = Ok (PvF q') /\ q' == q)%Q) outss
    [[12; 2; 55; 2; 46; 55 # 100; 12; 2]; [3; 8; 50; 8; 30; 1 # 2; 3; 8]; [3; 8; 45; 8; 14; 45 # 100; 3; 8]]%Q /\
  agg_index wr_added ("both", None) = Some 0 /\ vs_index wr_added ("licence", None) = Some 0 /\ length (net_aggs wr_net) = 1 /\ length (net_vss wr_net) = 1 /\
  (exists n, nth_error (net_nodes wr_net) 2 = Some n /\ declared (declaration wr_added) 2 ("out", None) /\ n_type n = TOutput /\
     n_max n = Some (MDyn 1) /\ ~ in_exclusive_set wr_net 2).
Proof.
  eexists _, _, _. split; [vm_compute; reflexivity|]. split; [vm_compute; reflexivity|]. split; [|split; [|split; [|split]]].
  - constructor.
    + vm_compute. reflexivity.
    + apply valid_order_nil. vm_compute. reflexivity.
    + intros ss l x H. apply find_some in H. apply feasible_check_sound. exact (proj2 H).
    + exists wr_built. split; [vm_compute; reflexivity|]. constructor; try reflexivity.
      intros w m Hm Hu. cbn [sm_observe wr_sem]. assert (E : decode wr_observed (cd_f wr_coding m) = Some m).
      { destruct m; try discriminate; apply decode_code; exact I. }
      rewrite E. reflexivity.
    + exists ECalc. assert (H : forall c, In c wr_cps -> pt_body wr_cps (number (cp_name c) wr_cps) = cp_body c).
      { vm_compute. intros c H. repeat (destruct H as [<-|H]; [reflexivity|]). destruct H. }
      constructor; try (intros c Hc; intros; cbn [sm_init sm_const sm_simple sm_before sm_after sm_hook wr_sem cd_name wr_coding]; rewrite (H c Hc); reflexivity).
      * reflexivity.
      * intros q. unfold wr_sem, wr_coding. cbn [sm_lit cd_f]. rewrite Nat.even_mul, Nat.div2_double, qdec_qenc. reflexivity.
      * intros z. unfold wr_sem, wr_coding. cbn [sm_lit cd_i].
        rewrite Nat.add_1_r, Nat.even_succ, <- Nat.negb_even, Nat.even_mul, Nat.div2_succ_double, zdec_zenc. reflexivity.
    + split; [reflexivity|]. split; [vm_compute; reflexivity|]. vm_compute. intros k [].
    + exists [0; 1; 2], (seq 0 6), (map (builder_of wr_coding) wr_cps). eexists. split; [|split].
      * split; [intros c Hc; apply in_map; exact Hc|]. split; [|split].
        -- intros b u ph Hb. apply in_map_iff in Hb. destruct Hb as (c & <- & Hc). vm_compute in Hc.
           repeat (destruct Hc as [<-|Hc]; [vm_compute; intros H; decompose [or] H; try contradiction; match goal with E : _ = _ |- _ => injection E as <- _ end; exact I|]).
           destruct Hc.
        -- vm_compute. intros u H. decompose [or] H; subst; try contradiction; exact I.
        -- intros b Hb. apply in_map_iff in Hb. destruct Hb as (c & <- & Hc). left. exists c. reflexivity.
      * vm_compute. reflexivity.
      * vm_compute. reflexivity.
  - vm_compute. reflexivity.
  - intros [|[|[|k]]] t H; cbn in H; try discriminate; try (injection H as <-; split; reflexivity). destruct k; discriminate.
  - repeat constructor; eexists; split; reflexivity.
  - repeat (split; [vm_compute; reflexivity|]). eexists. split; [vm_compute; reflexivity|]. repeat split; try reflexivity. intros (g & ns & Hg & (mn & mx & Hr) & _). vm_compute in Hg. destruct Hg as [<-|[]]. discriminate Hr.
Qed.

