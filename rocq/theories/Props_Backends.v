(** C71: whichever solver is chosen, the problem it is asked to solve in every
    time-step is the network's; networks it does not support are refused. *)
From Coq Require Import Qabs.
From Verif Require Import NetworkBuildLemmas.
From Verif Require Import Base Calendar Network NetworkBuild NetworkSpec Lp LpSpec LpColLemmas LpRowLemmas LpUpdateLemmas LpLemmas LpDynLemmas LpRelLemmas Props_LpRel.
From Verif Require Import Backends BackendsSpec BackendsLemmas BackendsMain BackendsFeat.
Open Scope nat_scope.

(** A solver is refused for a network exactly if the network uses something the
    solver does not support. *)
Theorem C71_features : forall k fm order net,
  setup_solver k false fm order net = Err EMissingFeatures <-> exists f, uses net f /\ lacks k f.
Proof.
  intros k fm order net. unfold setup_solver. cbn [negb andb]. destruct (check_features k net) eqn:E; cbn [negb].
  - split; [intros H; destruct (setup_not_missing _ _ _ _ H)|]. intros (f & H1 & H2). rewrite check_uses in E. destruct (E f H1 H2).
  - split; [intros _ | reflexivity]. destruct (forallb (fun f => existsb (feature_eqb f) (features k)) (required_features net)) eqn:E2; [unfold check_features in E; congruence|].
    assert (Hex : exists f, In f (required_features net) /\ existsb (feature_eqb f) (features k) = false).
    { revert E2. generalize (required_features net). induction l as [|f l IH]; cbn [forallb]; [discriminate|].
      destruct (existsb (feature_eqb f) (features k)) eqn:Ef; [|intros _; exists f; split; [left; reflexivity | exact Ef]].
      intros H. destruct (IH H) as (g & Hg & Eg). exists g. split; [right; exact Hg | exact Eg]. }
    destruct Hex as (f & Hf & Ef). exists f. split; [apply required_uses; exact Hf|]. apply lacks_features. intros Hin.
    assert (existsb (feature_eqb f) (features k) = true); [|congruence]. apply existsb_exists. exists f. split; [exact Hin | apply feature_eqb_eq; reflexivity].
Qed.
Print Assumptions C71_features.

(** Common part: the state of the solver after any history. *)
Lemma history_inv k fm order net sv0 ss sv b0 b : valid_order net order -> setup_solver k false fm order net = Ok sv0 ->
  create fm order net = Ok b0 -> updates net b0 ss = Ok b -> sends k net ss sv0 = Ok sv -> inv net k b0 sv b.
Proof.
  intros Hv Hs Hc Hu Hr. destruct (accepted _ _ _ _ _ Hs) as [Hf Hset]. destruct (create_props _ _ _ _ Hc) as (V & F & Hcr).
  pose proof (created_ready _ _ _ _ _ _ Hcr) as Hready. pose proof (cr_obj _ _ _ _ _ _ Hcr) as Hobj.
  assert (Hclp : k = Clp -> continuous (lp_cols (bt_lp b0))) by (intros ->; apply (clp_continuous _ _ _ _ _ _ Hcr Hv Hf)).
  pose proof (cr_fmax _ _ _ _ _ _ Hcr) as Hfm.
  assert (Hi : inv net k b0 sv0 b0) by (apply (inv_setup net k b0 Hready Hobj Hclp order sv0); rewrite Hfm; assumption).
  apply (sends_inv net k b0 Hready Hobj Hclp ss sv0 b0 sv b Hi Hu Hr).
Qed.
Lemma sends_app k net s : forall ss sv sv2, sends k net (ss ++ [s]) sv = Ok sv2 <-> exists sv1, sends k net ss sv = Ok sv1 /\ send k net s sv1 = Ok sv2.
Proof.
  induction ss as [|a ss IH]; intros sv sv2; cbn [app sends].
  - split; [intros H; apply rbind_Ok in H; destruct H as (sv1 & H & H'); injection H' as <-; exists sv; auto | intros (sv1 & H & H'); injection H as <-; rewrite H'; reflexivity].
  - split.
    + intros H. apply rbind_Ok in H. destruct H as (sv1 & H1 & H). apply IH in H. destruct H as (sv3 & H3 & H4). exists sv3. rewrite H1. auto.
    + intros (sv1 & H & H'). apply rbind_Ok in H. destruct H as (sv3 & H1 & H). rewrite H1. cbn [rbind]. apply IH. exists sv1. auto.
Qed.
Lemma updates_app net s : forall ss b b2, updates net b (ss ++ [s]) = Ok b2 -> exists b1, updates net b ss = Ok b1 /\ update net b1 s = Ok b2.
Proof.
  induction ss as [|a ss IH]; intros b b2 H; cbn [app updates] in *; unfold ures in *.
  - apply rbind_Ok in H. destruct H as (b1 & H & H'). injection H' as <-. exists b. auto.
  - apply rbind_Ok in H. destruct H as (b1 & H1 & H). apply IH in H. destruct H as (b3 & H3 & H4). exists b3. rewrite H1. auto.
Qed.

(** The problem the library holds when it is asked to solve has the solutions
    and the costs of the network's programme, after any history of time-steps.
    Full statement: for all coefficients and bounds; proved for HiGHS with
    coefficients of at most 1e10 and for microlp with lower bounds below and
    upper bounds above the number range's ends. *)
Theorem C71_asks_the_networks_problem_partial : forall k net fm order sv0 ss s sv l,
  valid_order net order -> setup_solver k false fm order net = Ok sv0 ->
  sends k net (ss ++ [s]) sv0 = Ok sv -> programme net fm order (ss ++ [s]) l ->
  (k = Highs -> moderate l) -> (k = Microlp -> proper l) -> same_problem l (sv_held sv).
Proof.
  intros k net fm order sv0 ss s sv l Hv Hs Hr (b0 & b & Hc & Hu & ->) Hmod Hpro.
  destruct (create_props _ _ _ _ Hc) as (V & F & Hcr). pose proof (created_ready _ _ _ _ _ _ Hcr) as Hready.
  pose proof (cr_obj _ _ _ _ _ _ Hcr) as Hobj.
  pose proof (history_inv k fm order net sv0 (ss ++ [s]) sv b0 b Hv Hs Hc Hu Hr) as Hinv.
  destruct Hinv as (Hst & _ & arows & ups & _ & _ & Hk). pose proof Hst as (_ & _ & _ & _ & Hfm & Hcols & Hlen & _).
  assert (Hl : length (lp_obj (bt_lp b)) = length (lp_cols (bt_lp b))) by congruence.
  assert (Hstd : forall prows, Forall2 (row_rel (passes k)) prows (lp_rows (bt_lp b)) ->
            (forall r c v, In r (lp_rows (bt_lp b)) -> In (c, v) (l_cols r) -> passes k v = v) ->
            same_problem (bt_lp b) (HStd (mkPb (cols_of (lp_cols (bt_lp b0)) (lp_obj (bt_lp b))) prows))).
  { intros prows Hrel Hid. assert (prows = map row_of (lp_rows (bt_lp b))) as ->.
    - clear - Hrel Hid. induction Hrel as [|p r ps rs H _ IH]; [reflexivity|]. cbn [map]. f_equal.
      + apply (rel_same _ _ _ H). intros c v Hin. apply (Hid r c v (or_introl eq_refl) Hin).
      + apply IH. intros r' c v Hr'. apply Hid. right. exact Hr'.
    - rewrite <- Hcols. apply same_std. exact Hl. }
  destruct k.
  - destruct Hk as (prows & Hh & Hrel). rewrite Hh. apply Hstd; [exact Hrel|]. intros r c v Hr' Hin. apply clamp_id. apply (Hmod eq_refl r c v Hr' Hin).
  - destruct Hk as (prows & Hh & Hrel). rewrite Hh. apply Hstd; [exact Hrel | reflexivity].
  - destruct Hk as (prows & Hh & Hrel). rewrite Hh. apply Hstd; [exact Hrel | reflexivity].
  - apply sends_app in Hr. destruct Hr as (sv1 & Hr1 & Hr2). destruct (updates_app _ _ _ _ _ Hu) as (b1 & Hu1 & Hu2).
    pose proof (history_inv Microlp fm order net sv0 ss sv1 b0 b1 Hv Hs Hc Hu1 Hr1) as Hi1.
    assert (Hclp : Microlp = Clp -> continuous (lp_cols (bt_lp b0))) by discriminate.
    destruct (send_step net Microlp b0 Hready Hobj Hclp sv1 b1 s b Hi1 Hu2) as [Hstep _].
    destruct (Hstep sv Hr2) as [_ Hm]. destruct (Hm eq_refl) as (q & Hq & ->).
    rewrite <- Hfm, <- Hcols in Hq. apply same_micro; [exact Hl | rewrite Hcols; apply (created_columns _ _ _ _ _ _ Hcr) | apply Hpro; reflexivity | exact Hq].
Qed.
Print Assumptions C71_asks_the_networks_problem_partial.

(** A time-step the network can express never fails before the library is asked.
    Full statement: for all accepted networks; proved for CBC with constant
    limits in mutually exclusive sets, and for microlp with lower bounds that do
    not exceed the upper ones. *)
Theorem C71_steps_reach_the_library_partial : forall k net fm order sv0 ss s sv l,
  wf_network net -> valid_order net order -> setup_solver k false fm order net = Ok sv0 ->
  sends k net ss sv0 = Ok sv -> programme net fm order (ss ++ [s]) l ->
  (k = Cbc -> exclusive_constant net) -> (k = Microlp -> ordered l) ->
  exists sv', sends k net (ss ++ [s]) sv0 = Ok sv'.
Proof.
  intros k net fm order sv0 ss s sv l wf Hv Hs Hr (b0 & b & Hc & Hu & ->) Hcbc Hord.
  destruct (create_props _ _ _ _ Hc) as (V & F & Hcr). pose proof (created_ready _ _ _ _ _ _ Hcr) as Hready.
  pose proof (cr_obj _ _ _ _ _ _ Hcr) as Hobj. destruct (updates_app _ _ _ _ _ Hu) as (b1 & Hu1 & Hu2).
  pose proof (history_inv k fm order net sv0 ss sv b0 b1 Hv Hs Hc Hu1 Hr) as Hi.
  assert (Hclp : k = Clp -> continuous (lp_cols (bt_lp b0))) by (intros ->; apply (clp_continuous _ _ _ _ _ _ Hcr Hv); apply (accepted _ _ _ _ _ Hs)).
  destruct (send_step net k b0 Hready Hobj Hclp sv b1 s b Hi Hu2) as (H1 & H2 & _).
  destruct H2 as (sv' & Hsend).
  - intros -> ops Ho. apply (cbc_quiet net fm order b0 V F s ops wf Hcr Hv); [apply (accepted _ _ _ _ _ Hs) | apply Hcbc; reflexivity | exact Ho].
  - intros ->. pose proof (updates_stable net (ss ++ [s]) b0 b0 b Hready (stable_refl net b0) Hu) as Hst. destruct Hst as (_ & _ & _ & _ & Hfm & Hcols & Hlen & _).
    rewrite <- Hfm, <- Hcols. rewrite make_problem_of; [|congruence | rewrite Hcols; apply (created_columns _ _ _ _ _ _ Hcr)].
    destruct (micro_total (lp_fmax (bt_lp b)) (lp_rows (bt_lp b))) as (css & ->); [apply Hord; reflexivity|]. eexists. reflexivity.
  - exists sv'. apply sends_app. exists sv. auto.
Qed.
Print Assumptions C71_steps_reach_the_library_partial.

(** With a library that calls only optimal values optimal, the flows written by
    HiGHS, CLP and microlp are those of an optimal solution of the network's
    programme. *)
Theorem C71_flows_are_optimal : forall k net fm order lib sv0 ss s sv sv' f l,
  valid_order net order -> setup_solver k false fm order net = Ok sv0 -> sends k net ss sv0 = Ok sv ->
  programme net fm order (ss ++ [s]) l -> (k = Highs -> moderate l) -> (k = Microlp -> proper l) ->
  sound fm lib -> solve k lib net s sv = Ok (sv', f) ->
  (k = Cbc -> an_status (lib 0 (sv_held sv')) = SOptimal) ->
  exists x, optimal l x /\
    forall e, match k with
              | Cbc => (Qabs (f e - edge_flow net x e) < 1 # 10000000000)%Q
              | _ => f e = edge_flow net x e
              end.
Proof.
  intros k net fm order lib sv0 ss s sv sv' f l Hv Hs Hr Hp Hmod Hpro Hsound Hsol Hst.
  unfold solve in Hsol. apply rbind_Ok in Hsol. destruct Hsol as (sv1 & Hsend & Hsol). apply rbind_Ok in Hsol. destruct Hsol as (x & Ha & Hsol).
  injection Hsol as <- <-.
  assert (Hall : sends k net (ss ++ [s]) sv0 = Ok sv1) by (apply sends_app; exists sv; auto).
  pose proof (C71_asks_the_networks_problem_partial k net fm order sv0 ss s sv1 l Hv Hs Hall Hp Hmod Hpro) as Hsame.
  assert (Hfm : lp_fmax l = fm).
  { destruct Hp as (b0 & b & Hc & Hu & ->). destruct (create_props _ _ _ _ Hc) as (V & F & Hcr).
    destruct (updates_stable net (ss ++ [s]) b0 b0 b (created_ready _ _ _ _ _ _ Hcr) (stable_refl net b0) Hu) as (_ & _ & _ & _ & -> & _). apply (cr_fmax _ _ _ _ _ _ Hcr). }
  assert (Hopt : exists n, an_status (lib n (sv_held sv1)) = SOptimal /\ x = an_values (lib n (sv_held sv1))).
  { unfold answered in Ha. destruct k.
    - destruct (an_status (lib 0 (sv_held sv1))) eqn:E0; [injection Ha as <-; exists 0; auto | | discriminate Ha].
      destruct (an_status (lib 1 (sv_held sv1))) eqn:E1; [injection Ha as <-; exists 1; auto | discriminate Ha | discriminate Ha].
    - destruct (an_status (lib 0 (sv_held sv1))) eqn:E0; [injection Ha as <-; exists 0; auto | discriminate Ha | discriminate Ha].
    - destruct (Z.eqb _ _); [injection Ha as <-; exists 0; auto | discriminate Ha].
    - destruct (an_status (lib 0 (sv_held sv1))) eqn:E0; [injection Ha as <-; exists 0; auto | discriminate Ha | discriminate Ha]. }
  destruct Hopt as (n & Hn & ->). destruct (Hsound n (sv_held sv1) Hn) as [Hadm Hbest]. rewrite <- Hfm in *.
  exists (an_values (lib n (sv_held sv1))). split.
  - split; [apply (proj1 (Hsame _)); exact Hadm|]. intros y Hy. rewrite <- (proj2 (Hsame _)), <- (proj2 (Hsame y)). apply Hbest. apply (proj1 (Hsame y)). exact Hy.
  - intros e. unfold written, edge_flow. destruct k; try reflexivity. unfold round_small.
    destruct (Qle_bool (1 # 10000000000) (Qabs (an_values (lib n (sv_held sv1)) (col_for_edge net e)))) eqn:E; cbn [negb].
    + setoid_replace (an_values (lib n (sv_held sv1)) (col_for_edge net e) - an_values (lib n (sv_held sv1)) (col_for_edge net e))%Q with 0%Q by ring. reflexivity.
    + setoid_replace (0 - an_values (lib n (sv_held sv1)) (col_for_edge net e))%Q with (- an_values (lib n (sv_held sv1)) (col_for_edge net e))%Q by ring.
      rewrite Qabs_opp. apply Qnot_le_lt. intros Hle. apply Qle_bool_iff in Hle. congruence.
Qed.
Print Assumptions C71_flows_are_optimal.

(** Values inside the number range that the programme allows are solutions in
    the sense of the other properties of the programme (C31 to C40). *)
Theorem C71_flows_are_solutions : forall net fm order ss s l x,
  valid_order net order -> programme net fm order (ss ++ [s]) l -> allows l x ->
  (forall i, - fm <= x i <= fm)%Q -> (forall r, In r (lp_rows l) -> - fm <= row_value (l_cols r) x <= fm)%Q ->
  solved net fm order ss s x.
Proof.
  intros net fm order ss s l x Hv (b0 & b & Hc & Hu & ->) [Hcol Hrow] Hx Hr. split; [exact Hv|]. exists b0, b. split; [exact Hc|]. split; [exact Hu|].
  destruct (create_props _ _ _ _ Hc) as (V & F & Hcr).
  destruct (updates_stable net (ss ++ [s]) b0 b0 b (created_ready _ _ _ _ _ _ Hcr) (stable_refl net b0) Hu) as (_ & _ & _ & _ & Hfm & _).
  rewrite (cr_fmax _ _ _ _ _ _ Hcr) in Hfm. rewrite Hfm in *. unfold above, below in *. split.
  - intros i c Hi. destruct (Hcol i c Hi) as (H1 & H2 & H3). specialize (Hx i). split; [|exact H3]. split; [destruct H1 | destruct H2]; lra.
  - intros r Hin. destruct (Hrow r Hin) as (H1 & H2). specialize (Hr r Hin). split; [destruct H1 | destruct H2]; lra.
Qed.
Print Assumptions C71_flows_are_solutions.

(** *** What does not hold *)

(** CBC accepts a network with mutually exclusive nodes whose limits vary, and
    then fails in every time-step. *)
Definition C71_dyn_excl := rel_net None (Some (MDyn 0)) [(xy, RExclusive 0 1)].
Theorem C71_cbc_exclusive_refuted :
  exists net order sv s, wf_network net /\ valid_order net order /\ setup_solver Cbc false F64_MAX order net = Ok sv /\
    (exists x, solved net F64_MAX order [] s x) /\
    forall lib, solve Cbc lib net s sv = Err EMissingFeatures.
Proof.
  exists C71_dyn_excl, [[1]; [2]].
  destruct (setup_solver Cbc false F64_MAX [[1]; [2]] C71_dyn_excl) as [sv| |] eqn:E; [|vm_compute in E; discriminate E|vm_compute in E; discriminate E].
  exists sv, (rel_state 5 0). split; [apply (rel_wf None (Some (MDyn 0)) [(xy, RExclusive 0 1)]); vm_compute; reflexivity|].
  split; [eapply valid_order_xy; vm_compute; reflexivity|]. split; [reflexivity|]. split.
  - exists (rel_x [0; 0; 0; 0; 0; 0]%Q). apply solved_check_sound; [eapply valid_order_xy; vm_compute; reflexivity|]. vm_compute. reflexivity.
  - intros lib. unfold solve. assert (Hs : send Cbc C71_dyn_excl (rel_state 5 0) sv = Err EMissingFeatures).
    + vm_compute in E. injection E as <-. vm_compute. reflexivity.
    + rewrite Hs. reflexivity.
Qed.
Print Assumptions C71_cbc_exclusive_refuted.

(** HiGHS is given a coefficient of 1e10 in place of a larger one: it is not
    allowed a solution that the network's programme allows. *)
Definition C71_big := rel_net None None [(xy, RFactored (FCoefficients [MDyn 0; MConst (-1)] None))].
Definition C71_big_state := rel_state (inject_Z 100000000000) 0.
Theorem C71_highs_coefficients_refuted :
  exists net sv0 sv s l x, wf_network net /\ valid_order net [] /\ setup_solver Highs false F64_MAX [] net = Ok sv0 /\
    sends Highs net [s] sv0 = Ok sv /\ programme net F64_MAX [] [s] l /\ solved net F64_MAX [] [] s x /\ allows l x /\
    ~ admits F64_MAX (sv_held sv) x.
Proof.
  set (x := rel_x [1; inject_Z 100000000000; 0; 0]%Q).
  assert (Hwf : wf_network C71_big) by (apply (rel_wf None None [(xy, RFactored (FCoefficients [MDyn 0; MConst (-1)] None))]); vm_compute; reflexivity).
  assert (Hv : valid_order C71_big []) by (apply valid_order_nil; vm_compute; reflexivity).
  assert (Hsol : solved C71_big F64_MAX [] [] C71_big_state x) by (apply solved_check_sound; [exact Hv | vm_compute; reflexivity]).
  destruct (setup_solver Highs false F64_MAX [] C71_big) as [sv0| |] eqn:E; [|vm_compute in E; discriminate E|vm_compute in E; discriminate E].
  destruct (sends Highs C71_big [C71_big_state] sv0) as [sv|e|] eqn:Es;
    [|vm_compute in E; injection E as <-; vm_compute in Es; discriminate Es | vm_compute in E; injection E as <-; vm_compute in Es; discriminate Es].
  pose proof Hsol as (_ & b0 & b & Hc & Hu & Hf).
  exists C71_big, sv0, sv, C71_big_state, (bt_lp b), x.
  split; [exact Hwf|]. split; [exact Hv|]. split; [exact E|]. split; [exact Es|]. split; [exists b0, b; auto|]. split; [exact Hsol|]. split.
  - destruct Hf as [Hf1 Hf2]. split.
    + intros i c Hi. destruct (Hf1 i c Hi) as ([H1 H2] & H3). split; [right; exact H1|]. split; [right; exact H2 | exact H3].
    + intros r Hr. destruct (Hf2 r Hr) as [H1 H2]. split; right; assumption.
  - intros Hadm. vm_compute in E. injection E as <-. vm_compute in Es. injection Es as <-. destruct Hadm as [_ Hrows].
    cbn [sv_held pb_rows] in Hrows.
    match type of Hrows with forall r, In r ?l -> _ =>
      assert (Hb : existsb (fun r => negb (Qle_bool (row_value (pr_cols r) x) (pr_upper r)) && negb (Qle_bool F64_MAX (pr_upper r)) ||
                                     negb (Qle_bool (pr_lower r) (row_value (pr_cols r) x)) && negb (Qle_bool (pr_lower r) (- F64_MAX))) l = true) by (vm_compute; reflexivity)
    end.
    apply existsb_exists in Hb. destruct Hb as (r & Hr & Hb). destruct (Hrows r Hr) as [Ha Hbe]. unfold above, below in Ha, Hbe.
    rewrite orb_true_iff, !andb_true_iff, !negb_true_iff in Hb. rewrite <- !Qle_bool_iff in Ha, Hbe. destruct Hb as [[B1 B2]|[B1 B2]].
    + rewrite B1, B2 in Hbe. destruct Hbe as [Hbe|Hbe]; discriminate Hbe.
    + rewrite B1, B2 in Ha. destruct Ha as [Ha|Ha]; discriminate Ha.
Qed.
Print Assumptions C71_highs_coefficients_refuted.

(** With a lower bound above the upper one, microlp panics where the others ask
    the library (which finds that there is no solution). *)
Definition C71_crossed := rel_net (Some (MDyn 0)) (Some (MDyn 1)) [].
Theorem C71_microlp_panics_refuted :
  exists net sv sv1 sv2 s, wf_network net /\ valid_order net [] /\
    setup_solver Microlp false F64_MAX [] net = Ok sv /\ (forall lib, solve Microlp lib net s sv = Panic) /\
    setup_solver Highs false F64_MAX [] net = Ok sv1 /\ send Highs net s sv1 = Ok sv2.
Proof.
  destruct (setup_solver Microlp false F64_MAX [] C71_crossed) as [sv| |] eqn:E; [|vm_compute in E; discriminate E|vm_compute in E; discriminate E].
  destruct (setup_solver Highs false F64_MAX [] C71_crossed) as [sv1| |] eqn:E1; [|vm_compute in E1; discriminate E1|vm_compute in E1; discriminate E1].
  destruct (send Highs C71_crossed (rel_state 5 3) sv1) as [sv2| |] eqn:E2;
    [|vm_compute in E1; injection E1 as <-; vm_compute in E2; discriminate E2|vm_compute in E1; injection E1 as <-; vm_compute in E2; discriminate E2].
  exists C71_crossed, sv, sv1, sv2, (rel_state 5 3).
  split; [apply (rel_wf (Some (MDyn 0)) (Some (MDyn 1)) []); vm_compute; reflexivity|].
  split; [apply valid_order_nil; vm_compute; reflexivity|]. split; [exact E|]. split; [|split; [exact E1 | exact E2]].
  intros lib. unfold solve. assert (Hs : send Microlp C71_crossed (rel_state 5 3) sv = Panic) by (vm_compute in E; injection E as <-; vm_compute; reflexivity).
  rewrite Hs. reflexivity.
Qed.
Print Assumptions C71_microlp_panics_refuted.

(** CBC's status is not looked at: a time-step whose programme has no solution is
    completed with whatever values the library holds. *)
Theorem C71_cbc_status_refuted :
  exists net sv sv' s lib f l, wf_network net /\ valid_order net [] /\ setup_solver Cbc false F64_MAX [] net = Ok sv /\
    sound F64_MAX lib /\ programme net F64_MAX [] [s] l /\ (forall x, ~ allows l x) /\ solve Cbc lib net s sv = Ok (sv', f).
Proof.
  destruct (setup_solver Cbc false F64_MAX [] C71_crossed) as [sv| |] eqn:E; [|vm_compute in E; discriminate E|vm_compute in E; discriminate E].
  set (lib := fun (_ : nat) (_ : held) => mkAns SOther 0 (fun _ => 0%Q)).
  destruct (send Cbc C71_crossed (rel_state 5 3) sv) as [sv1| |] eqn:E1;
    [|vm_compute in E; injection E as <-; vm_compute in E1; discriminate E1|vm_compute in E; injection E as <-; vm_compute in E1; discriminate E1].
  destruct (create F64_MAX [] C71_crossed) as [b0| |] eqn:Ec; [|vm_compute in Ec; discriminate Ec|vm_compute in Ec; discriminate Ec].
  destruct (updates C71_crossed b0 [rel_state 5 3]) as [b| |] eqn:Eu;
    [|vm_compute in Ec; injection Ec as <-; vm_compute in Eu; discriminate Eu|vm_compute in Ec; injection Ec as <-; vm_compute in Eu; discriminate Eu].
  exists C71_crossed, sv, sv1, (rel_state 5 3), lib, (written Cbc C71_crossed (fun _ => 0%Q)), (bt_lp b).
  split; [apply (rel_wf (Some (MDyn 0)) (Some (MDyn 1)) []); vm_compute; reflexivity|].
  split; [apply valid_order_nil; vm_compute; reflexivity|]. split; [exact E|].
  split; [intros n h H; discriminate H|]. split; [exists b0, b; auto|]. split.
  - intros x [_ Hr]. assert (Hb : existsb (fun r => Qeq_bool (l_lower r) 5 && Qeq_bool (l_upper r) 3) (lp_rows (bt_lp b)) = true /\ lp_fmax (bt_lp b) = F64_MAX).
    { vm_compute in Ec. injection Ec as <-. vm_compute in Eu. injection Eu as <-. split; vm_compute; reflexivity. }
    destruct Hb as [Hb Hfm]. apply existsb_exists in Hb. destruct Hb as (r & Hin & Hb). apply andb_true_iff in Hb. destruct Hb as [B1 B2].
    apply Qeq_bool_iff in B1. apply Qeq_bool_iff in B2. destruct (Hr r Hin) as [H1 H2]. unfold above, below in H1, H2. rewrite Hfm in *. rewrite B1 in H1. rewrite B2 in H2.
    assert (Hbig : ~ (F64_MAX <= 3)%Q /\ ~ (5 <= - F64_MAX)%Q).
    { split; intros H; apply Qle_bool_iff in H; vm_compute in H; discriminate H. }
    destruct H1 as [H1|H1]; [tauto|]. destruct H2 as [H2|H2]; [tauto|]. lra.
  - unfold solve. rewrite E1. reflexivity.
Qed.
Print Assumptions C71_cbc_status_refuted.

(** *** Examples *)
Definition moderate_b (l : lp) : bool :=
  forallb (fun r => forallb (fun cv => Qle_bool (- inject_Z 10000000000) (snd cv) && Qle_bool (snd cv) (inject_Z 10000000000)) (l_cols r)) (lp_rows l).
Definition ordered_b (l : lp) : bool := forallb (fun r => Qle_bool (l_lower r) (l_upper r)) (lp_rows l).
Definition proper_b (l : lp) : bool :=
  forallb (fun r => negb (Qle_bool (lp_fmax l) (l_lower r)) && negb (Qle_bool (l_upper r) (- lp_fmax l))) (lp_rows l).
Lemma moderate_sound l : moderate_b l = true -> moderate l.
Proof.
  intros H r c v Hr Hc. unfold moderate_b in H. rewrite forallb_forall in H. specialize (H r Hr). rewrite forallb_forall in H. specialize (H _ Hc).
  apply andb_true_iff in H. rewrite !Qle_bool_iff in H. exact H.
Qed.
Lemma ordered_sound l : ordered_b l = true -> ordered l.
Proof. intros H r Hr. unfold ordered_b in H. rewrite forallb_forall in H. apply Qle_bool_iff. apply (H r Hr). Qed.
Lemma proper_sound l : proper_b l = true -> proper l.
Proof.
  intros H r Hr. unfold proper_b in H. rewrite forallb_forall in H. specialize (H r Hr). apply andb_true_iff in H. destruct H as [H1 H2].
  apply negb_true_iff in H1. apply negb_true_iff in H2. split; apply Qnot_le_lt; intros Hle; apply Qle_bool_iff in Hle; congruence.
Qed.

(** A network with a share that changes from step to step, in all solvers but
    CBC; with a constant share in CBC; with exclusive sets in HiGHS and CBC. *)
Definition C71_run (k : backend) (order : list (list nat)) (net : network) (ss : list lp_state) : bool :=
  match setup_solver k false F64_MAX order net, create F64_MAX order net with
  | Ok sv, Ok b0 =>
      match sends k net ss sv, updates net b0 ss with
      | Ok _, Ok b => moderate_b (bt_lp b) && ordered_b (bt_lp b) && proper_b (bt_lp b)
      | _, _ => false
      end
  | _, _ => false
  end.
Definition C71_history := [rel_state (1#2) 0; rel_state (1#4) 0; rel_state (1#3) 0].
Definition C71_excl := rel_net None (Some (MConst 10)) [(xy, RExclusive 0 1)].
Example C71_example :
  forallb (fun k => C71_run k [] C38_dyn_net C71_history) [Highs; Clp; Microlp] = true /\
  C71_run Cbc [] C38_net C71_history = true /\
  forallb (fun k => C71_run k [[1]; [2]] C71_excl C71_history) [Highs; Cbc; Microlp] = true /\
  setup_solver Cbc false F64_MAX [] C38_dyn_net = Err EMissingFeatures /\
  setup_solver Clp false F64_MAX [[1]; [2]] C71_excl = Err EMissingFeatures.
Proof. repeat split; vm_compute; reflexivity. Qed.
Lemma C71_run_meets k order net ss : C71_run k order net ss = true ->
  exists sv0 sv l, setup_solver k false F64_MAX order net = Ok sv0 /\ sends k net ss sv0 = Ok sv /\
    programme net F64_MAX order ss l /\ moderate l /\ ordered l /\ proper l.
Proof.
  unfold C71_run. intros H. destruct (setup_solver k false F64_MAX order net) as [sv0| |]; try discriminate H.
  destruct (create F64_MAX order net) as [b0| |] eqn:Ec; try discriminate H. destruct (sends k net ss sv0) as [sv| |] eqn:Es; try discriminate H.
  destruct (updates net b0 ss) as [b| |] eqn:Eu; try discriminate H. rewrite !andb_true_iff in H. destruct H as [[H1 H2] H3].
  exists sv0, sv, (bt_lp b). split; [reflexivity|]. split; [exact Es|]. split; [exists b0, b; auto|].
  split; [apply moderate_sound; exact H1|]. split; [apply ordered_sound; exact H2 | apply proper_sound; exact H3].
Qed.
Example C71_excl_example : wf_network C71_excl /\ valid_order C71_excl [[1]; [2]] /\ exclusive_constant C71_excl.
Proof.
  split; [apply (rel_wf None (Some (MConst 10)) [(xy, RExclusive 0 1)]); vm_compute; reflexivity|].
  split; [eapply valid_order_xy; vm_compute; reflexivity|].
  intros i n (a & ns & Ha & _ & Hns & Hi) Hn. vm_compute in Ha. destruct Ha as [<-|[]]. cbn [a_nodes] in Hns.
  destruct Hns as [<-|[<-|[]]]; destruct Hi as [<-|[]]; vm_compute in Hn; injection Hn as <-; repeat split; discriminate.
Qed.
