(** A run of the whole network is a run of the model file. *)
From Coq Require Import Ascii String.
From Coq Require Import QArith Lia.
From Verif Require Import Base Calendar Timestep Network NetworkBuild NetworkBuildLemmas NetworkSpec Lp LpSpec NetState NetStateSpec NetHistLemmas Formulas AggFuncs ParamsTemporal
  ParamsTemporalLemmas ControlCurves SchemaNodes SchemaMetrics SchemaSpec SchemaLemmas SchemaRun MetricSets SchemaParams WholeRun WholeRunSpec WholeRunFacts LpEnv NodeParams NodeParamsSpec.
Local Open Scope string_scope.
Local Open Scope list_scope.
Local Open Scope nat_scope.

(** What the parameters made by nodes read: delays and turbines read the flow
    into a node.  None of them is a deficit. *)
Definition made_kind_of (d : pdecl) : Prop :=
  match d with
  | PDelay _ m _ _ | PHydropower _ m _ _ _ => exists u, m = UNodeInFlow u
  | PDeficit _ _ _ => False
  | _ => True
  end.
Lemma area_kind name pn b u : made_kind_of (area_param name pn b u).
Proof. unfold area_param. destruct (ba_data b); exact I. Qed.
Lemma node_kind key n p : add_node key n = Ok p -> Forall made_kind_of (ad_params p).
Proof.
  destruct n; cbn [add_node]; intros H; try (injection H as <-); try discriminate H;
    unfold add_link, add_river_gauge, add_loss_link, add_river_split, add_wtw, add_piecewise_link; cbn [ad_params];
    try (repeat match goal with |- context [match ?x with _ => _ end] => destruct x end; cbn [ad_params]; constructor; fail).
  - (* river *)
    unfold add_river. destruct (river_loss key name lf). destruct rt as [[]|]; cbn [river_routing is_some];
    repeat match goal with |- context [match ?x with _ => _ end] => destruct x end; cbn [ad_params]; repeat (apply Forall_cons || apply Forall_nil); cbn; eauto.
  - (* piecewise storage *)
    apply Forall_forall. intros d Hd. apply in_flat_map in Hd. destruct Hd as (i & _ & Hd). unfold store_params in Hd.
    repeat match goal with H : In d (match ?x with _ => _ end) |- _ => destruct x end; apply in_app_iff in Hd;
      destruct Hd as [[<-|[<-|[]]]|Hd]; try exact I; match type of Hd with In _ (match ?x with _ => _ end) => destruct x end; [destruct Hd as [<-|[]]; exact I|destruct Hd].
  - repeat (apply Forall_cons || apply Forall_nil); cbn; eauto.
  - repeat (apply Forall_cons || apply Forall_nil); cbn; eauto.
  - (* reservoir *)
    unfold add_reservoir in H. match type of H with (if ?x then _ else _) = _ => destruct x; [discriminate|] end. injection H as <-.
    cbn [merge ad_params]. repeat (apply Forall_app; split);
      repeat match goal with |- context [match ?x with _ => _ end] => destruct x end; cbn [ad_params nothing]; repeat (apply Forall_cons || apply Forall_nil); try apply area_kind; exact I.
  - unfold add_abstraction in H. repeat match type of H with (match ?x with _ => _ end) = _ => destruct x end; try discriminate H; injection H as <-; constructor.
Qed.
Lemma made_kind key step sc a : load_schema key step sc = Ok a -> forall d, In d (ad_params a) -> made_kind_of d.
Proof.
  intros H d. destruct (load_schema_inv _ _ _ _ H) as (_ & ns & vs & es & Hn & Hv & He & ->). rewrite fold_merge_params. intros Hd.
  apply in_flat_map in Hd. destruct Hd as (p & Hp & Hd). apply in_app_iff in Hp. destruct Hp as [Hp|Hp]; [|apply in_app_iff in Hp; destruct Hp as [Hp|Hp]].
  - destruct (Forall2_In_r _ _ _ _ Hn Hp) as (n & _ & E). apply node_kind in E. rewrite Forall_forall in E. exact (E d Hd).
  - destruct (Forall2_In_r _ _ _ _ Hv Hp) as (v & _ & E). exfalso.
    destruct v; cbn [add_vnode] in E; repeat (apply rbind_Ok in E; destruct E as (? & _ & E)); injection E as <-; destruct Hd.
  - destruct (Forall2_In_r _ _ _ _ He Hp) as (v & _ & E). exfalso. unfold add_edge in E. apply rbind_Ok in E. destruct E as (? & _ & E). injection E as <-. destruct Hd.
Qed.

Section File.
Variables (key : umetric -> nat) (step : option Z) (sc : schema) (a : added) (net : Network.network) (fm : Q) (order : list (list nat))
  (ms : list lmetric) (name : nat -> lmetric) (V : valuation) (other_f : moment -> nat -> lmetric -> Q) (other_i : moment -> nat -> lindex -> Z)
  (date : nat -> datetime) (ts : list timestep) (steps : list sim_step) (cps : list cparam).
Hypothesis Hload : load_schema key step sc = Ok a.
Hypothesis Hbuild : build_network (declaration a) = Ok net.
Hypothesis wr : whole_run a net fm order ms V other_f ts steps.
Hypothesis nu : numbering key name ms a net.
Hypothesis Hruns : SchemaParams.runs V other_f other_i date (length ts) cps.
Hypothesis Hreg : forall d c, In d (ad_params a) -> registered name d = Some c -> In c cps.
(** A delay of zero never runs. *)
Hypothesis Hzero : forall p m q, In (PDelay p m 0 q) (ad_params a) -> ts = [].

Let tr := seen_run key name V other_f steps.
Let T := length ts.

Lemma steps_T : length steps = T.
Proof. unfold T. rewrite <- (wr_times _ _ _ _ _ _ _ _ _ wr), map_length. reflexivity. Qed.

Lemma seen_nth_from k l j : nth_error (map (fun tp => seen key name V other_f (fst tp) (snd tp)) (combine (seq k (length l)) l)) j =
  option_map (seen key name V other_f (k + j)) (nth_error l j).
Proof.
  revert k j. induction l as [|p l IH]; intros k [|j]; cbn [length seq combine map nth_error option_map]; try reflexivity.
  - rewrite Nat.add_0_r. reflexivity.
  - rewrite IH. replace (S k + j) with (k + S j) by lia. reflexivity.
Qed.
Lemma seen_nth j : nth_error tr j = option_map (seen key name V other_f j) (nth_error steps j).
Proof. exact (seen_nth_from 0 steps j). Qed.
Lemma seen_inv j t : nth_error tr j = Some t -> exists p, nth_error steps j = Some p /\ t = seen key name V other_f j p.
Proof. rewrite seen_nth. destruct (nth_error steps j) as [p|]; intros H; [|discriminate]. injection H as <-. eauto. Qed.
Lemma seen_in t : In t tr -> exists j p, nth_error steps j = Some p /\ t = seen key name V other_f j p.
Proof. intros H. apply In_nth_error in H. destruct H as [j H]. exists j. apply seen_inv. exact H. Qed.
Lemma step_lt j p : nth_error steps j = Some p -> j < T.
Proof. intros H. rewrite <- steps_T. exact (nth_error_Some_lt _ _ _ H). Qed.

(** Before the solve metrics have the values that are read then. *)
Lemma before_seen j p m : In m (flat_map reads (ad_params a) ++ flat_map own_metrics (ad_params a)) ->
  before key (seen key name V other_f j p) m = read_f V other_f Before j (metric_of name m).
Proof.
  intros Hm. pose proof (nu_key _ _ _ _ _ nu m Hm) as H. unfold before, SchemaSpec.value.
  destruct m as [q|[q|k]| | | | | | | | | | | | |]; cbn [to_metric metric_value seen rs_state with_env st_env]; try (rewrite H); reflexivity.
Qed.
Lemma before_read d j p m : In d (ad_params a) -> In m (reads d) -> before key (seen key name V other_f j p) m = read_f V other_f Before j (metric_of name m).
Proof. intros Hd Hm. apply before_seen, in_app_iff. left. apply in_flat_map. eauto. Qed.
Lemma before_own d j p m : In d (ad_params a) -> In m (own_metrics d) -> before key (seen key name V other_f j p) m = read_f V other_f Before j (metric_of name m).
Proof. intros Hd Hm. apply before_seen, in_app_iff. right. apply in_flat_map. exists d. split; assumption. Qed.

(** The solver was given these values. *)
Lemma seen_solved j p : nth_error steps j = Some p -> simulated key step sc a net (rs_state (seen key name V other_f j p)) (rs_x (seen key name V other_f j p)).
Proof.
  intros Hp. constructor; [exact Hload|exact Hbuild|]. exists fm, order, (map sim_lp (firstn j steps)).
  destruct (run_nth net fm order steps (wr_run _ _ _ _ _ _ _ _ _ wr) j p Hp) as (_ & H & _).
  refine (same_solved net (sim_env p) _ _ fm order _ (sim_lp p) _ eq_refl H).
  intros k Hk. destruct (nth_error_lt_Some ms k (nu_network _ _ _ _ _ nu k Hk)) as [m Hm].
  rewrite (wr_values _ _ _ _ _ _ _ _ _ wr j p k m Hp Hm), (nu_ms _ _ _ _ _ nu k m Hm). reflexivity.
Qed.

Lemma flow_kind m f q : flow_value (declaration a) net f m = Some q -> m = UConst q \/ (is_flow m = true /\ metric_of name m = LmNode m).
Proof. destruct m; cbn; intros H; try discriminate; try (right; split; reflexivity). left. congruence. Qed.

(** ** Parameters *)

Lemma point_value d c : In d (ad_params a) -> registered name d = Some c -> (forall rd T' o, evaluates rd T' Before (cp_body c) o = (rmap (fun t => point rd Before t (cp_body c)) (seq 0 T') = Ok o)) ->
  body_phase (cp_body c) = PhBefore ->
  forall j p, nth_error steps j = Some p -> point (reader_of V other_f other_i date) Before j (cp_body c) = Ok (V Before j (cp_name c)).
Proof.
  intros Hd Hc He Hph j p Hp. pose proof (Hruns c Before (Hreg d c Hd Hc)) as H. rewrite Hph in H. specialize (H eq_refl). rewrite He in H.
  apply rmap_Ok_Forall2 in H. pose proof (step_lt j p Hp) as Hj. unfold SchemaParams.steps in H.
  assert (G : forall n k, Forall2 (fun t v => point (reader_of V other_f other_i date) Before t (cp_body c) = Ok v) (seq k n) (map (fun t => V Before t (cp_name c)) (seq k n)) ->
    forall i, i < n -> point (reader_of V other_f other_i date) Before (k + i) (cp_body c) = Ok (V Before (k + i) (cp_name c))).
  { clear. induction n as [|n IH]; intros k H i Hi; [lia|]. cbn [seq map] in H. inversion H; subst. destruct i as [|i]; [rewrite Nat.add_0_r; assumption|].
    replace (k + S i) with (S k + i) by lia. apply IH; [assumption|lia]. }
  exact (G _ 0 H j Hj).
Qed.

Lemma map_before d j p l : In d (ad_params a) -> (forall m, In m l -> In m (reads d)) ->
  map (before key (seen key name V other_f j p)) l = map (read_f V other_f Before j) (map (metric_of name) l).
Proof. intros Hd Hl. rewrite map_map. apply map_ext_in. intros m Hm. exact (before_read d j p m Hd (Hl m Hm)). Qed.

Lemma registered_follows d : In d (ad_params a) -> registered name d <> None -> follows key tr d.
Proof.
  intros Hd Hr. destruct (registered name d) as [c|] eqn:Hc; [clear Hr|contradiction].
  destruct d as [p m n q|? ? ? ? ? ?|p l|p l|p x y mn mx|p m u l|p m pts|p m cs|? ? ? ? ?|? ? ?]; try discriminate Hc; cbn [registered] in Hc.
  - (* delay *)
    pose proof (Hreg _ _ Hd Hc) as Hi. injection Hc as <-. destruct (made_kind key step sc a Hload _ Hd) as (u & ->).
    destruct (Hruns _ Before Hi eq_refl) as (qs & H & E). cbn [cp_body cp_name] in *. fold T in H, E.
    assert (EH : map (fun t => rs_after t (UNodeInFlow u)) tr = SchemaParams.steps T (fun t => rd_f (reader_of V other_f other_i date) After t (metric_of name (UNodeInFlow u)))).
    { unfold tr, seen_run, SchemaParams.steps. rewrite map_map, <- steps_T.
      generalize 0. generalize steps as l. induction l as [|s l IH]; intros k; [reflexivity|]. cbn [length seq combine map]. f_equal. apply IH. }
    assert (EQ : hooked_run delay_before delay_after (delay_setup n q) (map (fun t => rs_after t (UNodeInFlow u)) tr) = Ok qs).
    { rewrite EH. destruct H as [H|[S H]]; [exact H|]. destruct n as [|n]; [unfold T in *; rewrite (Hzero _ _ _ Hd) in *; cbn in H |- *; exact H|]. rewrite delay_general by lia. rewrite delay_simple in H. injection H as <-.
      replace (SchemaParams.steps T (fun t => rd_f (reader_of V other_f other_i date) After t (metric_of name (UNodeInFlow u))))
        with (SchemaParams.steps T (fun t => rd_f (reader_of V other_f other_i date) Before t (metric_of name (UNodeInFlow u)))); [reflexivity|].
      apply map_ext. exact S. }
    exists qs. split; [exact EQ|]. clear EQ H EH.
    assert (G : forall j p0, nth_error steps j = Some p0 -> before key (seen key name V other_f j p0) (UParam p None) = float_of (V Before j (own_name p))).
    { intros j p0 Hp. exact (before_own _ j p0 _ Hd (or_introl eq_refl)). }
    assert (E' : map (fun t => float_of (V Before t (own_name p))) (seq 0 (length steps)) = qs).
    { rewrite steps_T, <- (map_map (fun t => V Before t (own_name p)) float_of). unfold SchemaParams.steps in E. rewrite E, map_map. apply map_id. }
    rewrite <- E'. unfold tr, seen_run. clear - G.
    assert (GG : forall k l, (forall j p0, nth_error l j = Some p0 -> before key (seen key name V other_f (k + j) p0) (UParam p None) = float_of (V Before (k + j) (own_name p))) ->
      Forall2 (fun t v => (before key t (UParam p None) == v)%Q) (map (fun tp => seen key name V other_f (fst tp) (snd tp)) (combine (seq k (length l)) l))
        (map (fun t => float_of (V Before t (own_name p))) (seq k (length l)))).
    { intros k l. revert k. induction l as [|s l IH]; intros k HH; cbn [length seq combine map]; [constructor|]. constructor.
      - pose proof (HH 0 s eq_refl) as E. rewrite Nat.add_0_r in E. cbn [fst snd]. rewrite E. reflexivity.
      - apply IH. intros j p0 Hp. replace (S k + j) with (k + S j) by lia. apply HH. exact Hp. }
    apply (GG 0 steps). exact G.
  - (* product *)
    intros t Ht. destruct (seen_in t Ht) as (j & p0 & Hp & ->). pose proof Hc as Hc'. injection Hc as <-.
    pose proof (point_value _ _ Hd Hc' (fun _ _ _ => eq_refl) eq_refl j p0 Hp) as E. cbn [cp_body cp_name point] in E. injection E as E.
    rewrite (before_own _ j p0 _ Hd (or_introl eq_refl)). cbn [metric_of read_f fst snd]. fold (own_name p). rewrite <- E.
    rewrite (map_before _ j p0 l Hd (fun m H => H)). reflexivity.
  - (* sum *)
    intros t Ht. destruct (seen_in t Ht) as (j & p0 & Hp & ->). pose proof Hc as Hc'. injection Hc as <-.
    pose proof (point_value _ _ Hd Hc' (fun _ _ _ => eq_refl) eq_refl j p0 Hp) as E. cbn [cp_body cp_name point] in E. injection E as E.
    rewrite (before_own _ j p0 _ Hd (or_introl eq_refl)). cbn [metric_of read_f fst snd]. fold (own_name p). rewrite <- E.
    rewrite (map_before _ j p0 l Hd (fun m H => H)). reflexivity.
  - (* difference *)
    intros t Ht. destruct (seen_in t Ht) as (j & p0 & Hp & ->). pose proof Hc as Hc'. injection Hc as <-.
    pose proof (point_value _ _ Hd Hc' (fun _ _ _ => eq_refl) eq_refl j p0 Hp) as E. cbn [cp_body cp_name point] in E.
    unfold as_f in E. apply NetworkBuildLemmas.rbind_Ok in E. destruct E as (q & E1 & E2). injection E2 as E2. exists q. split.
    + unfold befores. rewrite (before_read _ j p0 x Hd (or_introl eq_refl)), (before_read _ j p0 y Hd (or_intror (or_introl eq_refl))).
      destruct mn as [mn|], mx as [mx|]; cbn [option_map] in E1 |- *;
        try rewrite (before_read _ j p0 mn Hd) by (cbn; auto); try rewrite (before_read _ j p0 mx Hd) by (cbn; auto); exact E1.
    + rewrite (before_own _ j p0 _ Hd (or_introl eq_refl)). cbn [metric_of read_f fst snd]. fold (own_name p). rewrite <- E2. reflexivity.
  - (* volume between control curves *)
    intros t Ht. destruct (seen_in t Ht) as (j & p0 & Hp & ->). pose proof Hc as Hc'. injection Hc as <-.
    pose proof (point_value _ _ Hd Hc' (fun _ _ _ => eq_refl) eq_refl j p0 Hp) as E. cbn [cp_body cp_name point] in E.
    unfold as_f in E. apply NetworkBuildLemmas.rbind_Ok in E. destruct E as (q & E1 & E2). injection E2 as E2. exists q. split.
    + rewrite (before_read _ j p0 m Hd (or_introl eq_refl)).
      destruct u as [u|], l as [l|]; cbn [option_map] in E1 |- *;
        try rewrite (before_read _ j p0 u Hd) by (cbn; auto); try rewrite (before_read _ j p0 l Hd) by (cbn; auto);
        match goal with |- ?v = _ => change (of_curve v = Ok q) in E1; destruct v as [q'|[]|]; try discriminate E1; injection E1 as ->; reflexivity end.
    + rewrite (before_own _ j p0 _ Hd (or_introl eq_refl)). cbn [metric_of read_f fst snd]. fold (own_name p). rewrite <- E2. reflexivity.
  - (* interpolated *)
    intros t Ht. destruct (seen_in t Ht) as (j & p0 & Hp & ->). pose proof Hc as Hc'. injection Hc as <-.
    pose proof (point_value _ _ Hd Hc' (fun _ _ _ => eq_refl) eq_refl j p0 Hp) as E. cbn [cp_body cp_name point] in E.
    unfold as_f in E. apply NetworkBuildLemmas.rbind_Ok in E. destruct E as (q & E1 & E2). injection E2 as E2. exists q.
    rewrite (before_read _ j p0 m Hd (or_introl eq_refl)). split.
    + rewrite map_map in E1. exact E1.
    + rewrite (before_own _ j p0 _ Hd (or_introl eq_refl)). cbn [metric_of read_f fst snd]. fold (own_name p). rewrite <- E2. reflexivity.
  - (* polynomial *)
    intros t Ht. destruct (seen_in t Ht) as (j & p0 & Hp & ->). pose proof Hc as Hc'. injection Hc as <-.
    pose proof (point_value _ _ Hd Hc' (fun _ _ _ => eq_refl) eq_refl j p0 Hp) as E. cbn [cp_body cp_name point] in E.
    unfold as_f in E. apply NetworkBuildLemmas.rbind_Ok in E. destruct E as (q & E1 & E2). injection E2 as E2. exists q.
    rewrite (before_read _ j p0 m Hd (or_introl eq_refl)). split; [exact E1|].
    rewrite (before_own _ j p0 _ Hd (or_introl eq_refl)). cbn [metric_of read_f fst snd]. fold (own_name p). rewrite <- E2. reflexivity.
Qed.

(** ** The run *)

Lemma seen_file_run : (forall d, In d (ad_params a) -> registered name d = None -> follows key tr d) -> file_run key step sc a net tr.
Proof.
  intros Hrest. constructor.
  - intros t Ht. destruct (seen_in t Ht) as (j & p & Hp & ->). exact (seen_solved j p Hp).
  - intros t m q Ht Hq. destruct (seen_in t Ht) as (j & p & Hp & ->). destruct (flow_kind m _ q Hq) as [->|[Hf E]]; [reflexivity|].
    assert (R : rs_after (seen key name V other_f j p) m = other_f After j (LmNode m)).
    { destruct m; try discriminate Hf; reflexivity. }
    rewrite R. exact (proj1 (flows_after a net fm order ms V other_f ts steps Hbuild wr j p m q Hp Hf Hq "")).
  - intros j t t' m q Ht Ht' Hm Hq. destruct (seen_inv _ _ Ht) as (p & Hp & ->). destruct (seen_inv _ _ Ht') as (p' & Hp' & ->).
    rewrite (before_seen (S j) p' m) by (apply in_app_iff; left; exact Hm).
    destruct (flow_kind m _ q Hq) as [->|[Hf E]]; [reflexivity|]. rewrite E. cbn [read_f].
    refine (proj1 (flows_before a net fm order ms V other_f ts steps Hbuild wr (S j) p' (sim_flows net p) m q Hp' Hf _ Hq "")). rewrite Hp. reflexivity.
  - intros t m q Ht Hm Hq. destruct (seen_inv _ _ Ht) as (p & Hp & ->).
    rewrite (before_seen 0 p m) by (apply in_app_iff; left; exact Hm).
    destruct (flow_kind m _ q Hq) as [->|[Hf E]]; [reflexivity|]. rewrite E. cbn [read_f].
    exact (proj1 (flows_before a net fm order ms V other_f ts steps Hbuild wr 0 p (fun _ => 0%Q) m q Hp Hf eq_refl Hq "")).
  - intros t p k Ht. destruct (seen_in t Ht) as (j & p0 & Hp & ->). reflexivity.
  - intros d Hd. destruct (registered name d) eqn:E; [apply registered_follows; [exact Hd|congruence]|exact (Hrest d Hd E)].
Qed.
End File.
