(** Lemmas for C71 about the feature check and what an accepted network has. *)
From Coq Require Import Qabs.
From Verif Require Import NetworkBuildLemmas.
From Verif Require Import Base Calendar Network NetworkBuild NetworkSpec Lp LpSpec LpColLemmas LpRowLemmas LpUpdateLemmas LpLemmas LpDynLemmas.
From Verif Require Import Backends BackendsSpec BackendsLemmas BackendsMain.
Open Scope nat_scope.

Lemma feature_eqb_eq a b : feature_eqb a b = true <-> a = b.
Proof. destruct a, b; cbn; split; intros H; try discriminate H; reflexivity. Qed.

Lemma metric_not_constant m : metric_is_constant m = false <-> exists i, m = MDyn i.
Proof. unfold metric_is_constant. destruct m as [q|i]; cbn; split; [discriminate | intros (i & H); discriminate H | intros _; exists i; reflexivity | reflexivity]. Qed.
Lemma not_all_constant ms : forallb metric_is_constant ms = false <-> exists m, (exists i, m = MDyn i) /\ In m ms.
Proof.
  induction ms as [|m ms IH]; cbn [forallb]; [split; [discriminate | intros (m & _ & [])]|].
  rewrite andb_false_iff, metric_not_constant, IH. split.
  - intros [(i & ->)|(m' & H1 & H2)]; [exists (MDyn i); split; [eauto | left; reflexivity] | exists m'; split; [exact H1 | right; exact H2]].
  - intros (m' & H1 & [-> | H2]); [left; exact H1 | right; exists m'; auto].
Qed.
Lemma factors_not_constant fs : factors_constant fs = false <->
  exists m, (exists i, m = MDyn i) /\ match fs with FProportion ms | FRatio ms => In m ms | FCoefficients ms rhs => In m ms \/ rhs = Some m end.
Proof.
  destruct fs as [ms|ms|ms rhs]; cbn [factors_constant]; try apply not_all_constant.
  rewrite andb_false_iff, not_all_constant. split.
  - intros [(m & H1 & H2)|H]; [exists m; auto|]. destruct rhs as [m|]; [|discriminate H]. apply metric_not_constant in H. exists m. auto.
  - intros (m & H1 & [H2 | ->]); [left; exists m; auto | right; apply metric_not_constant; exact H1].
Qed.

Lemma required_uses net f : In f (required_features net) <-> uses net f.
Proof.
  unfold required_features. rewrite !in_app_iff.
  assert (Hif : forall (b : bool) (g : feature), In f (if b then [g] else []) <-> b = true /\ f = g).
  { intros b g. destruct b; cbn; split; [intros [H|[]]; auto | intros [_ H]; auto | intros [] | intros [H _]; discriminate H]. }
  assert (Hif' : forall (b : bool) (g : feature), In f (if b then [] else [g]) <-> b = false /\ f = g).
  { intros b g. destruct b; cbn; split; [intros [] | intros [H _]; discriminate H | intros [H|[]]; auto | intros [_ H]; auto]. }
  rewrite !Hif, !Hif'. clear Hif Hif'. rewrite !existsb_exists.
  destruct f; cbn [uses]; split; intros H; repeat match goal with H : _ \/ _ |- _ => destruct H as [H|H] end;
    try (destruct H as [_ H]; discriminate H).
  - destruct H as [H _]. destruct (net_aggs net) as [|a l]; [discriminate H|]. exists a. left. reflexivity.
  - left. split; [|reflexivity]. destruct H as (a & Ha). destruct (net_aggs net); [destruct Ha | reflexivity].
  - destruct H as [(a & Ha & H) _]. unfold has_factors in H. destruct (a_rel a) as [[fs|mn mx]|] eqn:E; try discriminate H. exists a, fs. auto.
  - right; left. split; [|reflexivity]. destruct H as (a & fs & Ha & E). exists a. split; [exact Ha|]. unfold has_factors. rewrite E. reflexivity.
  - destruct H as [(a & Ha & H) _]. apply andb_true_iff in H. destruct H as [H1 H2]. unfold has_factors, has_const_factors in *.
    destruct (a_rel a) as [[fs|mn mx]|] eqn:E; try discriminate H1. apply negb_true_iff, factors_not_constant in H2.
    destruct H2 as (m & Hm & H2). exists a, fs, m. auto.
  - right; right; left. split; [|reflexivity]. destruct H as (a & fs & m & Ha & E & Hm & H). exists a. split; [exact Ha|].
    unfold has_factors, has_const_factors. rewrite E. apply negb_true_iff. apply factors_not_constant. exists m. auto.
  - destruct H as [H _]. destruct (net_vss net) as [|v l]; [discriminate H|]. exists v. left. reflexivity.
  - right; right; right; right. split; [|reflexivity]. destruct H as (v & Hv). destruct (net_vss net); [destruct Hv | reflexivity].
  - destruct H as [(a & Ha & H) _]. unfold has_exclusivity in H. destruct (a_rel a) as [[fs|mn mx]|] eqn:E; try discriminate H. exists a, mn, mx. auto.
  - right; right; right; left. split; [|reflexivity]. destruct H as (a & mn & mx & Ha & E). exists a. split; [exact Ha|]. unfold has_exclusivity. rewrite E. reflexivity.
Qed.
Lemma lacks_features k f : lacks k f <-> ~ In f (features k).
Proof.
  unfold lacks. destruct k, f; cbn; split; intros H; try (exfalso; apply H; tauto); try (destruct H as [[H1 H2]|[H1 H2]]; discriminate); intuition discriminate.
Qed.
Lemma check_uses k net : check_features k net = true <-> forall f, uses net f -> ~ lacks k f.
Proof.
  unfold check_features. rewrite forallb_forall. split.
  - intros H f Hf Hl. apply lacks_features in Hl. apply Hl. apply required_uses in Hf. specialize (H f Hf). apply existsb_exists in H.
    destruct H as (g & Hg & E). apply feature_eqb_eq in E. subst g. exact Hg.
  - intros H f Hf. apply required_uses in Hf. specialize (H f Hf). apply existsb_exists. exists f. split; [|apply feature_eqb_eq; reflexivity].
    destruct (in_dec (fun a b : feature => ltac:(decide equality)) f (features k)) as [Hin|Hno]; [exact Hin|]. exfalso. apply H. apply lacks_features. exact Hno.
Qed.
Lemma setup_not_missing k fm order net : setup k fm order net <> Err EMissingFeatures.
Proof. unfold setup. destruct (create fm order net) as [b|e|]; intros H; discriminate H. Qed.

(** *** What an accepted network has *)
Lemma accepted k fm order net sv : setup_solver k false fm order net = Ok sv ->
  (forall f, uses net f -> ~ lacks k f) /\ setup k fm order net = Ok sv.
Proof.
  unfold setup_solver. cbn [negb andb]. destruct (check_features k net) eqn:E; cbn [negb]; [|discriminate].
  intros H. split; [apply check_uses; exact E | exact H].
Qed.
Lemma created_columns net fm order b V F : created net fm order b V F -> binary_or_continuous (lp_cols (bt_lp b)).
Proof.
  intros H c Hc Ht. rewrite (cr_cols _ _ _ _ _ _ H) in Hc. apply in_app_iff in Hc. destruct Hc as [Hc|Hc]; apply repeat_spec in Hc; subst c; [discriminate Ht | split; reflexivity].
Qed.
Lemma clp_continuous net fm order b V F : created net fm order b V F -> valid_order net order ->
  (forall f, uses net f -> ~ lacks Clp f) -> continuous (lp_cols (bt_lp b)).
Proof.
  intros H [_ Hv] Hf. assert (order = []) as ->.
  { destruct order as [|s l]; [reflexivity|]. exfalso. destruct (proj1 (Hv s) (or_introl eq_refl)) as (a & Ha & He & _).
    apply (Hf FExclusivity); [|left; split; reflexivity]. unfold has_exclusivity in He. destruct (a_rel a) as [[|mn mx]|] eqn:E; try discriminate He.
    exists a, mn, mx. auto. }
  unfold continuous. rewrite (cr_cols _ _ _ _ _ _ H). cbn [length repeat]. rewrite app_nil_r.
  intros c Hc. apply repeat_spec in Hc. subst c. reflexivity.
Qed.

Lemma constant_pairs a fs ps p : a_rel a = Some (RFactored fs) -> factors_constant fs = true ->
  const_factor_pairs a = Some (Ok ps) -> In p ps -> pair_const p = true.
Proof.
  intros Hr Hc H Hp. unfold const_factor_pairs in H. rewrite Hr in H.
  assert (Hall : forall ms, forallb metric_is_constant ms = true -> forall m, In m ms -> exists q, metric_const m = Some q).
  { intros ms Hm m Hin. rewrite forallb_forall in Hm. specialize (Hm m Hin). unfold metric_is_constant in Hm.
    destruct (metric_const m) as [q|]; [exists q; reflexivity | discriminate Hm]. }
  destruct fs as [ms|ms|ms rhs]; cbn [factors_constant] in Hc; injection H as H.
  - unfold const_proportion_pairs in H. destruct (a_nodes a) as [|n0 rest]; [discriminate H|].
    destruct (negb _); [discriminate H|]. destruct (existsb oneg _); [discriminate H|].
    destruct (negb (forallb is_some (map metric_const ms))) eqn:E.
    + exfalso. apply negb_true_iff in E. assert (forallb is_some (map metric_const ms) = true); [|congruence].
      apply forallb_forall. intros o Ho. apply in_map_iff in Ho. destruct Ho as (m & <- & Hm). destruct (Hall ms Hc m Hm) as (q & ->). reflexivity.
    + destruct (Qle_bool 1 _); [discriminate H|]. injection H as <-. apply in_map_iff in Hp. destruct Hp as ([n1 v] & <- & Hin).
      apply in_combine_r in Hin. apply in_map_iff in Hin. destruct Hin as (m & Hm & Hin). destruct (Hall ms Hc m Hin) as (q & Hq).
      cbn [fst snd]. rewrite <- Hm, Hq. reflexivity.
  - unfold const_ratio_pairs in H. destruct (negb _); [discriminate H|]. destruct (a_nodes a) as [|n0 rest]; [discriminate H|].
    destruct ms as [|m0 ms]; [discriminate H|]. destruct (oneg (metric_const m0)); [discriminate H|].
    apply rmap_Ok_Forall2 in H. destruct (Forall2_In_r _ _ _ _ H Hp) as ([n1 m] & Hin & Hok). apply in_combine_r in Hin. cbn [fst snd] in Hok.
    destruct (Hall _ Hc m0 (or_introl eq_refl)) as (q0 & H0). destruct (Hall _ Hc m (or_intror Hin)) as (q1 & H1). rewrite H0, H1 in Hok.
    destruct (oneg (Some q1)); [discriminate Hok|]. injection Hok as <-. reflexivity.
  - apply andb_true_iff in Hc. destruct Hc as [Hc _]. unfold const_coefficient_pairs in H. destruct (negb _); [discriminate H|].
    destruct (a_nodes a) as [|n0 [|n1 [|n2 rest]]]; try discriminate H. destruct ms as [|m0 [|m1 [|m2 ms]]]; try discriminate H.
    injection H as <-. destruct Hp as [<-|[]]. destruct (Hall _ Hc m0 (or_introl eq_refl)) as (q0 & H0).
    destruct (Hall _ Hc m1 (or_intror (or_introl eq_refl))) as (q1 & H1). unfold pair_const. cbn [cp_f0 cp_f1]. rewrite H0, H1. reflexivity.
Qed.

Lemma coef_list_nil ops : (forall ri c v, ~ In (OCoef ri c v) ops) -> coef_list ops = [].
Proof.
  intros H. unfold coef_list. induction ops as [|o ops IH]; [reflexivity|]. cbn. destruct o as [ri lb ub|ri c v].
  - apply IH. intros ri' c v Hin. apply (H ri' c v). right. exact Hin.
  - exfalso. apply (H ri c v). left. reflexivity.
Qed.
Lemma cbc_quiet net fm order b0 V F s ops : wf_network net -> created net fm order b0 V F -> valid_order net order ->
  (forall f, uses net f -> ~ lacks Cbc f) -> exclusive_constant net -> update_ops net b0 s = Ok ops -> coef_list ops = [].
Proof.
  intros wf Hcr Hv Hf Hex Ho. apply coef_list_nil. intros ri c v Hin.
  destruct (proj1 (update_coef_origin net wf b0 s ops ri c v Ho) Hin) as [(nr & cb & Hnr & _ & Hty)|(fi & j & q & Hfi & Hp & _)].
  - destruct (cr_nodes _ _ _ _ _ _ Hcr nr Hnr) as (n & Hn & (_ & Hb & Hbins) & _).
    assert (Hcb : In cb (node_bin_cols (cm_ncols (edge_columns net)) order (nr_node nr))) by (destruct Hty as [Hty|Hty]; rewrite Hty in Hbins; exact Hbins).
    assert (Hmem : in_exclusive_set net (nr_node nr)).
    { apply node_bin_cols_ge in Hcb. destruct Hcb as (k & st & _ & Hk & Hi). apply nth_error_In, Hv in Hk. destruct Hk as (a & Ha & He & Hs).
      exists a, st. split; [exact Ha|]. split; [|auto]. unfold has_exclusivity in He. destruct (a_rel a) as [[|mn mx]|]; try discriminate He. eauto. }
    destruct (Hex _ n Hmem Hn) as (H1 & H2 & H3). unfold get_const_bounds in Hb. unfold constant_limit in *.
    destruct (n_type n); [contradiction || idtac | contradiction || idtac | contradiction || idtac | contradiction || idtac]; try (apply H1; reflexivity);
    destruct (n_min n) as [[?|?]|], (n_max n) as [[?|?]|]; cbn in *; try contradiction; discriminate Hb.
  - destruct Hp as (a & dps & Ha & Hd & Hq & Hri & Hlen). destruct (cr_factors _ _ _ _ _ _ Hcr fi Hfi) as (a' & ps & Ha' & Hps & Hids).
    rewrite Ha in Ha'. injection Ha' as <-.
    assert (Hlt : j < length ps) by (rewrite (Forall2_length' _ _ _ Hids); apply (nth_error_Some_lt _ _ _ Hri)).
    destruct (nth_error_lt_Some _ _ Hlt) as (p & Hp). pose proof (Forall2_nth_error _ _ _ j _ _ Hids Hp Hri) as [Hno _].
    pose proof Hps as Hps'. unfold const_factor_pairs in Hps'. destruct (a_rel a) as [[fs|mn mx]|] eqn:Er; try discriminate Hps'. clear Hps'.
    assert (Hc : factors_constant fs = true).
    { destruct (factors_constant fs) eqn:Ec; [reflexivity|]. exfalso. apply factors_not_constant in Ec. destruct Ec as (m & Hm & Hin').
      apply (Hf FAggDynFactors); [|right; split; reflexivity]. exists a, fs, m. split; [apply (nth_error_In _ _ Ha)|]. auto. }
    rewrite (constant_pairs a fs ps p Er Hc Hps (nth_error_In _ _ Hp)) in Hno. discriminate Hno.
Qed.
