From Verif Require Import Base NetworkBuildLemmas ParamBuild ParamBuildSpec ParamBuildLemmas ParamEval
  ParamEvalSpec ParamEvalLemmas ParamMeaningLemmas ParamStepLemmas.
From Coq Require Import Permutation Relations.

(** ** What is built from the same definitions in another order. *)

Lemma resolve_index_transfer : forall n a idx idx' rv ph mt sh,
  idx_shape idx sh -> idx_shape idx' sh -> resolve_index n a idx rv ph = Ok mt ->
  exists mt', resolve_index n a idx' rv ph = Ok mt'.
Proof.
  intros n a idx idx' rv ph mt sh H1 H2 H. unfold resolve_index in *.
  destruct idx as [i|i|r]; destruct sh as [| |bf af]; cbn [idx_shape] in H1; try contradiction;
    destruct idx' as [i'|i'|r']; cbn [idx_shape] in H2; try contradiction.
  - destruct rv; try discriminate H. eexists; reflexivity.
  - destruct rv; try discriminate H. eexists; reflexivity.
  - destruct H1 as [B1 A1]. destruct H2 as [B2 A2].
    assert (EB : (exists o, reg_before r = Some o) -> exists o, reg_before r' = Some o).
    { intros [o E]. rewrite E in B1. subst bf. destruct (reg_before r') as [o'|]; [eauto|discriminate B2]. }
    assert (EA : (exists o, reg_after r = Some o) -> exists o, reg_after r' = Some o).
    { intros [o E]. rewrite E in A1. subst af. destruct (reg_after r') as [o'|]; [eauto|]. exfalso. apply A2. reflexivity. }
    destruct rv, ph; try discriminate H.
    all: first [ destruct (reg_before r) as [o|] eqn:E; [|discriminate H]; destruct (EB (ex_intro _ o eq_refl)) as [o' ->];
                 eexists; reflexivity
               | destruct (reg_after r) as [o|] eqn:E; [|discriminate H]; destruct (EA (ex_intro _ o eq_refl)) as [o' ->];
                 eexists; reflexivity ].
Qed.

Lemma resolve_absent : forall nodes other es c m u ph n,
  trace nodes other es c m -> names_param u n ->
  (forall el, In el es -> el_name el <> n) ->
  resolve m u ph = Err (RNotFound n).
Proof.
  intros nodes other es c m u ph n Ht Hn Hno.
  assert (HL : forall t, lookup (map_of t m) n = None).
  { intro t. destruct (lookup (map_of t m) n) as [i|] eqn:E; [|reflexivity].
    apply (trace_lookup _ _ _ _ _ Ht) in E. destruct E as (el & H1 & H2 & _). exfalso. exact (Hno el H1 H2). }
  pose proof (HL PF64) as L1. pose proof (HL PU64) as L2. pose proof (HL PMulti) as L3. cbn [map_of] in *.
  destruct u; cbn [names_param] in Hn; try contradiction; subst; cbn [resolve].
  - rewrite L1, L2. reflexivity.
  - rewrite L2. reflexivity.
  - rewrite L3. reflexivity.
Qed.

Section Transfer.

Variables nodes other : list nat.
Variables es es' : list elem.
Variables c c' : collection.
Variables m m' : maps.
Variable bs : list pbuilder.
Hypothesis Ht : trace nodes other es c m.
Hypothesis HP : Permutation bs (map el_b es).
Hypothesis Ht' : trace nodes other es' c' m'.
Hypothesis Hi : incl (map el_b es') bs.

Lemma same_shape : forall el', In el' es' ->
  exists el, In el es /\ el_b el = el_b el' /\ el_shape el = el_shape el'.
Proof.
  intros el' Hin'.
  assert (Hb : In (el_b el') (map el_b es)).
  { apply (Permutation_in _ HP). apply Hi. apply in_map. exact Hin'. }
  apply in_map_iff in Hb. destruct Hb as (el & E & Hin). exists el. split; [exact Hin|]. split; [exact E|].
  pose proof (trace_shapes_ok _ _ _ _ _ _ Ht HP) as Hok.
  rewrite <- (shapes_unique _ _ _ _ _ _ _ Ht' (fun el H => Hi _ (in_map el_b _ _ H)) Hok _ Hin').
  unfold shape_in. replace (el_name el') with (el_name el) by (unfold el_name; rewrite E; reflexivity).
  rewrite (find_el_In _ _ (trace_NoDup _ _ _ _ _ Ht) Hin). reflexivity.
Qed.

Lemma resolve_transfer : forall u ph mt, resolve m u ph = Ok mt ->
  (exists mt', resolve m' u ph = Ok mt') \/
  (exists n, names_param u n /\ (forall el, In el es' -> el_name el <> n) /\
     resolve m' u ph = Err (RNotFound n)).
Proof.
  intros u ph mt H. destruct (names_param_dec u) as [[n Hn]|Hn].
  - destruct (find_el es' n) as [el'|] eqn:Ef.
    + left. apply find_some in Ef. destruct Ef as [Hin' En]. apply Nat.eqb_eq in En.
      destruct (same_shape el' Hin') as (el & Hin & Eb & Es).
      destruct (resolve_found _ _ _ _ _ _ _ _ _ Ht Hn H) as (el0 & G1 & G2 & G3 & G4).
      assert (el0 = el).
      { apply (trace_name_inj _ _ _ _ _ _ _ Ht G1 Hin). rewrite G2, <- En. unfold el_name. rewrite Eb. reflexivity. }
      subst el0.
      assert (Ety : el_type el' = el_type el) by (unfold el_type; rewrite Eb; reflexivity).
      subst n.
      assert (Hacc : accepts u (el_type el')) by (rewrite Ety; exact G3).
      rewrite (resolve_by_elem _ _ _ _ _ el' u ph Ht' Hin' Hn Hacc). rewrite Ety.
      eapply resolve_index_transfer; [| |exact G4].
      * exact (trace_shape _ _ _ _ _ Ht _ Hin).
      * rewrite Es. exact (trace_shape _ _ _ _ _ Ht' _ Hin').
    + right. exists n. split; [exact Hn|].
      assert (Hno : forall el, In el es' -> el_name el <> n).
      { intros el Hin E. pose proof (find_none _ _ Ef el Hin) as F. cbn beta in F. lia. }
      split; [exact Hno|]. exact (resolve_absent _ _ _ _ _ _ _ _ Ht' Hn Hno).
  - left. destruct (trace_maps _ _ _ _ _ Ht) as [M1 M2]. destruct (trace_maps _ _ _ _ _ Ht') as [M1' M2'].
    destruct u as [k rv|k rv|k key rv|k|k|k]; cbn [names_param resolve] in *;
      try (exfalso; exact (Hn _ eq_refl)).
    + eauto.
    + rewrite M1', <- M1. eauto.
    + rewrite M2', <- M2. eauto.
Qed.

Lemma build1_transfer : forall el, In el es -> build1 m' (el_b el) <> Err B1Fail.
Proof.
  intros el Hin H.
  destruct (trace_split _ _ _ _ _ _ Ht Hin) as (pre & post & c0 & m0 & Ees & Ht0 & Hb0).
  apply build1_Ok in Hb0. destruct Hb0 as (Hpre & _ & Hr & Hsh).
  unfold build1 in H. rewrite Hpre in H.
  destruct (resolve_refs m' (pb_refs (el_b el))) as [mts|e|] eqn:E.
  - pose proof (resolve_refs_Ok _ _ _ E) as HF'.
    pose proof (trace_metrics _ _ _ _ _ _ Ht Hin) as HF.
    assert (Hc : map (fun p => metric_class (fst p)) mts =
                 map (fun p => metric_class (fst p)) (e_metrics (el_entry el))).
    { rewrite (classes_refs _ _ _ _ _ _ _ (shape_in es) Ht HF).
      - apply (classes_refs _ _ _ _ _ _ _ (shape_in es) Ht' HF').
        intros el' Hin' _. destruct (same_shape el' Hin') as (el0 & G1 & G2 & G3). rewrite <- G3.
        unfold shape_in. replace (el_name el') with (el_name el0) by (unfold el_name; rewrite G2; reflexivity).
        rewrite (find_el_In _ _ (trace_NoDup _ _ _ _ _ Ht) G1). reflexivity.
      - intros el0 G1 _. unfold shape_in. rewrite (find_el_In _ _ (trace_NoDup _ _ _ _ _ Ht) G1). reflexivity. }
    rewrite Hc, Hsh in H. discriminate H.
  - assert (He : e = B1Fail) by congruence. subst e. clear H.
    pose proof (trace_metrics _ _ _ _ _ _ Ht Hin) as HF. clear - E HF Ht HP Ht' Hi.
    revert E. induction HF as [|[u ph] [mt ph'] rs mts [H1 H2] HF IH]; intro E; cbn [resolve_refs] in E; [discriminate E|].
    cbn [fst snd] in *. destruct (resolve_transfer _ _ _ H1) as [[mt' E']|(n & _ & _ & E')]; rewrite E' in E.
    + destruct (resolve_refs m' rs) as [l|e|]; try discriminate E. apply IH. exact E.
    + discriminate E.
  - discriminate H.
Qed.

End Transfer.

Lemma build_Ok : forall nodes other bs c m, build nodes other bs = Some (Ok (c, m)) ->
  unique_names bs /\ exists es, trace nodes other es c m /\ Permutation bs (map el_b es).
Proof.
  intros nodes other bs c m H. unfold build in H.
  destruct (build_cases nodes other bs) as (r & E & Hs). rewrite E in H. apply Some_inj' in H. subst r.
  cbn [build_spec] in Hs. destruct Hs as [Hu (es & H1 & H2)]. cbn [app] in H1. eauto.
Qed.

Lemma build_perm : forall nodes other bs bs' c m,
  build nodes other bs = Some (Ok (c, m)) -> Permutation bs bs' ->
  exists c' m', build nodes other bs' = Some (Ok (c', m')).
Proof.
  intros nodes other bs bs' c m H HPm.
  destruct (build_Ok _ _ _ _ _ H) as (Hu & es & Ht & HP).
  assert (Hu' : unique_names bs').
  { unfold unique_names in *. exact (Permutation_NoDup (Permutation_map _ HPm) Hu). }
  assert (Hac : acyclic bs').
  { apply (acyclic_perm (map el_b es)); [|exact (trace_acyclic _ _ _ _ _ Ht)].
    eapply perm_trans; [apply Permutation_sym; exact HP|exact HPm]. }
  assert (Had : all_defined bs').
  { apply (all_defined_perm (map el_b es)); [|exact (trace_all_defined _ _ _ _ _ Ht)].
    eapply perm_trans; [apply Permutation_sym; exact HP|exact HPm]. }
  destruct (build_cases nodes other bs') as (r & E & Hs). fold (build nodes other bs') in E.
  destruct r as [[c' m']|[n|n|n|ns]|]; cbn [build_spec] in Hs.
  - eauto.
  - exfalso. destruct Hs as (l1 & l2 & E1 & E2). unfold unique_names in Hu'. rewrite E1 in Hu'.
    apply NoDup_remove_2 in Hu'. apply Hu'. apply in_app_iff. left. exact E2.
  - exfalso. destruct Hs as (_ & b & es' & c0 & m0 & Hb & _ & Hincl & Ht0 & Hf). cbn [app] in Ht0.
    assert (Hb' : In b (map el_b es)).
    { apply (Permutation_in _ HP). apply (Permutation_in _ (Permutation_sym HPm)). exact Hb. }
    apply in_map_iff in Hb'. destruct Hb' as (el & <- & Hin).
    refine (build1_transfer _ _ _ _ _ _ _ _ bs Ht HP Ht0 _ el Hin Hf).
    intros x Hx. apply (Permutation_in _ (Permutation_sym HPm)). apply Hincl. exact Hx.
  - exfalso. destruct Hs as (_ & es' & c0 & m0 & lf & Ht0 & HP0 & _ & Hlf & Es). symmetry in Es. cbn [app] in Ht0.
    destruct (stuck_not_found _ _ Es) as (b & Hin & Hno).
    pose proof (build1_retry _ _ _ (Hlf _ _ Hin)) as (u & ph & Hu1 & Hr).
    destruct (resolve_missing _ _ _ _ _ _ _ _ Ht0 Hr) as [Hnm Hna].
    assert (Hb : In b bs').
    { apply (Permutation_in _ (Permutation_sym HP0)). apply in_app_iff. right. apply in_map_iff. exists (b, n). auto. }
    destruct (Had b u ph Hb Hu1 n Hnm) as (b2 & Hb2 & En & Hacc).
    apply (Permutation_in _ HP0) in Hb2. apply in_app_iff in Hb2. destruct Hb2 as [Hb2|Hb2].
    + apply in_map_iff in Hb2. destruct Hb2 as (el & <- & Hel). exact (Hna el Hel En Hacc).
    + apply Hno. apply in_map_iff in Hb2. destruct Hb2 as ([b3 k] & E3 & Hb3). cbn in E3. subst b3.
      apply in_map_iff. exists (b2, k). auto.
  - exfalso. destruct Hs as (_ & es' & c0 & m0 & lf & Ht0 & HP0 & Hne & Hlf & Es). symmetry in Es.
    destruct (stuck_circular _ _ Es) as [-> Hcl].
    destruct (finite_cycle (fun x y => depends bs' x y) (map (fun p => pb_name (fst p)) lf)) as (x & Hx & Hc).
    + destruct lf; [contradiction|discriminate].
    + intros x Hx. apply in_map_iff in Hx. destruct Hx as ([b n] & <- & Hin). exists n.
      split; [exact (Hcl _ _ Hin)|]. cbn [fst].
      pose proof (build1_retry _ _ _ (Hlf _ _ Hin)) as (u & ph & Hu1 & Hr).
      destruct (resolve_missing _ _ _ _ _ _ _ _ Ht0 Hr) as [Hnm _].
      exists b. split; [|split; [reflexivity|exists u, ph; auto]].
      apply (Permutation_in _ (Permutation_sym HP0)). apply in_app_iff. right. apply in_map_iff. exists (b, n). auto.
    + apply (Hac x). revert Hc. apply clos_trans_mono. tauto.
  - destruct Hs as [_ []].
Qed.

(** ** The equations do not depend on the order. *)

Lemma type_of_perm : forall bs bs' n, unique_names bs -> Permutation bs bs' -> type_of bs n = type_of bs' n.
Proof.
  intros bs bs' n Hu HP.
  assert (Hu' : unique_names bs') by (exact (Permutation_NoDup (Permutation_map _ HP) Hu)).
  destruct (type_of bs n) as [t|] eqn:E.
  - unfold type_of in E. destruct (find _ bs) as [b|] eqn:Ef; [|discriminate E]. apply find_some in Ef.
    destruct Ef as [Hin En]. apply Nat.eqb_eq in En. subst n. injection E as <-. symmetry.
    apply type_of_In; [exact Hu'|]. exact (Permutation_in _ HP Hin).
  - destruct (type_of bs' n) as [t|] eqn:E'; [|reflexivity].
    unfold type_of in E'. destruct (find _ bs') as [b|] eqn:Ef; [|discriminate E']. apply find_some in Ef.
    destruct Ef as [Hin En]. apply Nat.eqb_eq in En. subst n.
    rewrite (type_of_In bs b Hu (Permutation_in _ (Permutation_sym HP) Hin)) in E. discriminate E.
Qed.

Section Perm.

Context {V St Env Net Er : Type}.
Variable sm : sem V St Env Net Er.

Lemma read_named_perm : forall bs bs' vals afters net u, unique_names bs -> Permutation bs bs' ->
  read_named sm bs vals afters net u = read_named sm bs' vals afters net u.
Proof.
  intros bs bs' vals afters net u Hu HP. unfold read_named. destruct (ref_target u) as [[n rv]|]; [|reflexivity].
  rewrite (type_of_perm _ _ n Hu HP). reflexivity.
Qed.

Lemma map_read_perm : forall bs bs' vals afters net us, unique_names bs -> Permutation bs bs' ->
  map (read_named sm bs vals afters net) us = map (read_named sm bs' vals afters net) us.
Proof. intros. apply map_ext. intro u. apply read_named_perm; assumption. Qed.

Lemma means_perm : forall bs bs' nd envs outss, unique_names bs -> Permutation bs bs' ->
  means sm bs nd envs outss -> means sm bs' nd envs outss.
Proof.
  intros bs bs' nd envs outss Hu HP (sh & s0 & H1 & [H2 H2n] & H3).
  pose proof (fun b => Permutation_in b (Permutation_sym HP)) as Hin.
  exists sh, s0. split; [|split; [split|]].
  - intros b Hb. apply H1. apply Hin. exact Hb.
  - intros b Hb. specialize (H2 b (Hin _ Hb)). unfold setup_equation in *. cbn zeta in *.
    rewrite <- (map_read_perm bs bs') by assumption. exact H2.
  - exact H2n.
  - clear H1 H2 H2n. induction H3 as [s|s s' env envs outs outss HE HR IH]; [constructor|].
    econstructor; [|exact IH]. destruct HE as (net1 & E1 & E2 & E3 & E4). exists net1.
    rewrite <- !(map_read_perm bs bs') by assumption. split; [|auto].
    intros b Hb. specialize (E1 b (Hin _ Hb)). unfold step_equation in *. cbn zeta in *.
    rewrite <- !(map_read_perm bs bs') by assumption. exact E1.
Qed.

End Perm.

Section Main.

Context {V St Env Net Er : Type}.
Variable sm : sem V St Env Net Er.

Lemma equations : forall nodes other bs c m nd nw,
  build nodes other bs = Some (Ok (c, m)) -> resolve_network m nd = Ok nw ->
  plain_builders bs -> plain_network nd -> (forall b, In b bs -> well_typed b) ->
  forall envs outss, simulate sm nw c envs = Ok outss <-> means sm bs nd envs outss.
Proof.
  intros nodes other bs c m nd nw Hb Hn Hp Hpn Hty envs outss.
  destruct (build_Ok _ _ _ _ _ Hb) as (Hu & es & Ht & HP).
  assert (Hin : forall el, In el es -> In (el_b el) bs).
  { intros el H. apply (Permutation_in _ (Permutation_sym HP)). apply in_map. exact H. }
  apply (simulate_means sm nw nodes other es c m bs nd Ht HP); try assumption.
  - intros el u ph H1 H2. exact (Hp _ _ _ (Hin _ H1) H2).
  - intros el H. apply Hty. apply Hin. exact H.
  - intros u H. apply Hpn. rewrite !in_app_iff. auto.
  - intros u H. apply Hpn. rewrite !in_app_iff. auto.
  - intros u H. apply Hpn. rewrite !in_app_iff. auto.
Qed.

Lemma rmap_transfer : forall {E A B} (f g : A -> res E B) l r,
  (forall a b, f a = Ok b -> exists b', g a = Ok b') ->
  rmap f l = Ok r -> exists r', rmap g l = Ok r'.
Proof.
  intros E A B f g l. induction l as [|a l IH]; intros r H Hr; cbn [rmap] in *; [eauto|].
  destruct (f a) as [b|e|] eqn:Ea; try discriminate Hr.
  destruct (rmap f l) as [r0|e|] eqn:Er0; try discriminate Hr.
  destruct (H a b Ea) as [b' ->]. destruct (IH _ H eq_refl) as [r' ->]. eauto.
Qed.

Lemma network_perm : forall nodes other bs bs' c m c' m' nd nw,
  build nodes other bs = Some (Ok (c, m)) -> build nodes other bs' = Some (Ok (c', m')) ->
  Permutation bs bs' -> resolve_network m nd = Ok nw ->
  exists nw', resolve_network m' nd = Ok nw'.
Proof.
  intros nodes other bs bs' c m c' m' nd nw Hb Hb' HPm H.
  destruct (build_Ok _ _ _ _ _ Hb) as (Hu & es & Ht & HP).
  destruct (build_Ok _ _ _ _ _ Hb') as (Hu' & es' & Ht' & HP').
  assert (Hi : incl (map el_b es') bs).
  { intros x Hx. apply (Permutation_in _ (Permutation_sym HPm)). exact (Permutation_in _ (Permutation_sym HP') Hx). }
  assert (T : forall u ph mt, resolve m u ph = Ok mt ->
            exists mt', resolve m' u ph = Ok mt' /\ metric_class mt' = metric_class mt).
  { intros u ph mt E.
    destruct (resolve_transfer _ _ _ _ _ _ _ _ bs Ht HP Ht' Hi u ph mt E) as [[mt' E']|(n & Hnm & Hno & _)].
    - exists mt'. split; [exact E'|].
      rewrite (metric_class_ref _ _ _ _ _ _ _ _ (shape_in es) Ht E).
      + apply (metric_class_ref _ _ _ _ _ _ _ _ (shape_in es) Ht' E').
        intros el' Hin' _. destruct (same_shape _ _ _ _ _ _ _ _ bs Ht HP Ht' Hi el' Hin') as (el0 & G1 & G2 & G3). rewrite <- G3.
        unfold shape_in. replace (el_name el') with (el_name el0) by (unfold el_name; rewrite G2; reflexivity).
        rewrite (find_el_In _ _ (trace_NoDup _ _ _ _ _ Ht) G1). reflexivity.
      + intros el0 G1 _. unfold shape_in. rewrite (find_el_In _ _ (trace_NoDup _ _ _ _ _ Ht) G1). reflexivity.
    - exfalso. destruct (resolve_found _ _ _ _ _ _ _ _ _ Ht Hnm E) as (el & G1 & G2 & _).
      assert (Hb2 : In (el_b el) (map el_b es')).
      { apply (Permutation_in _ HP'). apply (Permutation_in _ HPm). apply (Permutation_in _ (Permutation_sym HP)).
        apply in_map. exact G1. }
      apply in_map_iff in Hb2. destruct Hb2 as (el' & Eb & Hin'). apply (Hno el' Hin').
      rewrite <- G2. unfold el_name. rewrite Eb. reflexivity. }
  unfold resolve_network, resolve_all in *.
  apply rbind_Ok in H. destruct H as (mf & H0 & H).
  apply rbind_Ok in H. destruct H as (si & H1 & H).
  apply rbind_Ok in H. destruct H as (so & H2 & H).
  apply rbind_Ok in H. destruct H as (ou & H3 & H).
  eapply (rmap_transfer _ (fun p => rbind (resolve m' (snd p) CBefore) (fun mt => Ok (fst p, mt)))) in H0.
  eapply (rmap_transfer _ (fun u => rbind (resolve m' u CBefore) simple_metric)) in H1.
  eapply (rmap_transfer _ (fun u => resolve m' u CBefore)) in H2.
  eapply (rmap_transfer _ (fun u => resolve m' u CAfter)) in H3.
  - destruct H0 as [mf' ->]. destruct H1 as [si' ->]. destruct H2 as [so' ->]. destruct H3 as [ou' ->].
    cbn [rbind]. eauto.
  - intros u mt E. destruct (T _ _ _ E) as (mt' & E' & _). eauto.
  - intros u mt E. destruct (T _ _ _ E) as (mt' & E' & _). eauto.
  - intros u mt E. apply rbind_Ok in E. destruct E as (mt0 & E1 & E2).
    destruct (T _ _ _ E1) as (mt' & E' & Ec). rewrite E'. cbn [rbind]. unfold simple_metric in *. rewrite Ec.
    destruct (metric_class mt0); try discriminate E2; eauto.
  - intros p mt E. apply rbind_Ok in E. destruct E as (mt0 & E1 & E2).
    destruct (T _ _ _ E1) as (mt' & E' & Ec). rewrite E'. cbn [rbind]. eauto.
Qed.

Lemma declaration_order : forall nodes other bs bs' c m nd nw,
  build nodes other bs = Some (Ok (c, m)) -> resolve_network m nd = Ok nw ->
  plain_builders bs -> plain_network nd -> (forall b, In b bs -> well_typed b) ->
  Permutation bs bs' ->
  exists c' m' nw',
    build nodes other bs' = Some (Ok (c', m')) /\ resolve_network m' nd = Ok nw' /\
    forall envs outss, simulate sm nw c envs = Ok outss <-> simulate sm nw' c' envs = Ok outss.
Proof.
  intros nodes other bs bs' c m nd nw Hb Hn Hp Hpn Hty HPm.
  destruct (build_perm _ _ _ _ _ _ Hb HPm) as (c' & m' & Hb').
  destruct (network_perm _ _ _ _ _ _ _ _ _ _ Hb Hb' HPm Hn) as (nw' & Hn').
  exists c', m', nw'. split; [exact Hb'|]. split; [exact Hn'|]. intros envs outss.
  destruct (build_Ok _ _ _ _ _ Hb) as (Hu & _). destruct (build_Ok _ _ _ _ _ Hb') as (Hu' & _).
  rewrite (equations _ _ _ _ _ _ _ Hb Hn Hp Hpn Hty envs outss).
  rewrite (equations _ _ _ _ _ _ _ Hb' Hn').
  - split; apply means_perm; try assumption. apply Permutation_sym. exact HPm.
  - intros b u ph H1 H2. exact (Hp b u ph (Permutation_in _ (Permutation_sym HPm) H1) H2).
  - exact Hpn.
  - intros b H. apply Hty. exact (Permutation_in _ (Permutation_sym HPm) H).
Qed.

End Main.
