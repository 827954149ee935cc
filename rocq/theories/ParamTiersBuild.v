(** Which parameters of a model file can be built. *)
From Coq Require Import Lia Permutation.
From Verif Require Import Base Calendar Profiles NetworkBuildLemmas MetricSets SchemaParams ParamBuild ParamBuildSpec ParamBuildLemmas ParamEval ParamEvalSpec
  ParamEvalLemmas ParamSchedLemmas ParamMeaningLemmas ParamStepLemmas ParamOrderLemmas ParamTiers ParamTiersLemmas ParamTiersSpec.
Local Open Scope list_scope.
Local Open Scope nat_scope.

(** Which values an entry has. *)
Definition has_before (sh : shape) : bool := match sh with ShGeneral b _ => b | _ => true end.
Definition has_after (sh : shape) : bool := match sh with ShGeneral _ (Some OpValue) => true | _ => false end.
Lemma body_moments b ks sh : body_shape b ks = Some sh ->
  has_before sh = at_moment (body_phase b) Before /\ has_after sh = at_moment (body_phase b) After.
Proof.
  intros H. destruct b as [| | | | | | [] | [] | [] | | | | | | | | | | | | | | | | | | | | | | |]; cbn in H |- *;
    repeat match goal with H : context [match ?x with _ => _ end] |- _ => destruct x end; try discriminate H; injection H as <-; split; reflexivity.
Qed.
Lemma consumer_after b : body_consumer b = CAfter <-> reads_after b.
Proof. destruct b as [| | | | | | [] | [] | [] | | | | | | | | | | | | | | | | | | | | | | |]; cbn; split; intros H; try exact I; try reflexivity; try discriminate H; try contradiction H. Qed.

Lemma resolve_index_iff n a idx sh rv ph : idx_shape idx sh ->
  ((exists mt, resolve_index n a idx rv ph = Ok mt) <->
   match rv with
   | RVBefore => has_before sh = true
   | RVAfter => has_after sh = true /\ ph = CAfter
   | RVAfterOrInitial => has_after sh = true
   end) /\ (forall k, resolve_index n a idx rv ph <> Err (RNotFound k)) /\ resolve_index n a idx rv ph <> Panic.
Proof.
  intros H. destruct idx as [i|i|[rp rb ra]]; destruct sh as [| |bf af]; cbn [idx_shape] in H; try contradiction H.
  - destruct rv; cbn; (split; [split; intros X; try (destruct X; discriminate); try discriminate X; eauto|split; [intros k|]; discriminate]).
  - destruct rv; cbn; (split; [split; intros X; try (destruct X; discriminate); try discriminate X; eauto|split; [intros k|]; discriminate]).
  - destruct H as [H1 H2].
    destruct rv, ph, rb, ra; cbn in *; subst; try (destruct af as [[|]|]; try (exfalso; apply H2; reflexivity); cbn);
      (split; [split; intros X; try (destruct X; discriminate); try discriminate X; eauto|split; [intros k|]; discriminate]).
Qed.

Section Accepted.
Variables (cd : coding) (cps : list cparam) (nodes other : list nat).
Let bs := map (builder_of cd) cps.

(** A metric of a parameter, once what it refers to is built. *)
Lemma resolve_readable es c m x u : trace nodes other es c m -> incl (map el_b es) bs -> unique_names bs ->
  In x cps -> In u (body_urefs cd (cp_body x)) -> ref_defined bs u -> readable cd cps nodes other (cp_body x) u ->
  (exists mt, resolve m u (body_consumer (cp_body x)) = Ok mt) \/ exists n, resolve m u (body_consumer (cp_body x)) = Err (RNotFound n).
Proof.
  intros Ht Hi Hun Hx Hu Hd Hr. destruct (names_param_dec u) as [[n Hn]|Hn].
  - destruct (find_el es n) as [el|] eqn:Ef.
    + left. apply find_some in Ef. destruct Ef as [Hin En]. apply Nat.eqb_eq in En. subst n.
      destruct (Hd _ Hn) as (b & Hb & Eb & Hacc).
      assert (E : b = el_b el).
      { apply (NoDup_map_inj pb_name bs); [exact Hun|exact Hb|apply Hi, in_map, Hin|exact Eb]. }
      subst b. assert (Hacc' : accepts u (el_type el)) by exact Hacc.
      rewrite (resolve_by_elem _ _ _ _ _ el u _ Ht Hin Hn Hacc').
      apply (proj1 (resolve_index_iff (el_name el) (ref_access u (el_type el)) _ _ (ref_rv u) (body_consumer (cp_body x)) (trace_shape _ _ _ _ _ Ht el Hin))).
      apply in_map_iff in Hb. destruct Hb as (c' & Ec & Hc').
      destruct (trace_split _ _ _ _ _ _ Ht Hin) as (pre & post & c0 & m0 & _ & _ & Hb0). apply build1_Ok in Hb0. destruct Hb0 as (_ & _ & _ & Hsh).
      rewrite <- Ec in Hsh. destruct (body_moments _ _ _ Hsh) as [M1 M2].
      assert (Hname : cd_name cd (cp_name c') = el_name el) by (unfold el_name; rewrite <- Ec; reflexivity).
      destruct u as [k rv|k rv|k key rv|k|k|k]; cbn [names_param ref_rv readable] in *; try contradiction; subst k; specialize (Hr c' Hc' Hname);
        destruct rv; rewrite ?M1, ?M2; try exact Hr; destruct Hr as [R1 R2]; (split; [exact R1|apply consumer_after; exact R2]).
    + right. exists n.
      assert (Hno : forall el, In el es -> el_name el <> n).
      { intros el Hin E. pose proof (find_none _ _ Ef el Hin) as F. cbn beta in F. lia. }
      exact (resolve_absent _ _ _ _ _ _ _ _ Ht Hn Hno).
  - left. destruct (trace_maps _ _ _ _ _ Ht) as [M1 M2].
    destruct u as [k rv|k rv|k key rv|k|k|k]; cbn [names_param resolve readable] in *; try (exfalso; exact (Hn _ eq_refl)).
    + eauto.
    + rewrite M1. replace (existsb (Nat.eqb k) nodes) with true; [eauto|]. symmetry. apply existsb_exists. exists k. split; [exact Hr|apply Nat.eqb_refl].
    + rewrite M2. replace (existsb (Nat.eqb k) other) with true; [eauto|]. symmetry. apply existsb_exists. exists k. split; [exact Hr|apply Nat.eqb_refl].
Qed.

Lemma resolve_refs_not_failing m ph us : (forall u, In u us -> (exists mt, resolve m u ph = Ok mt) \/ exists n, resolve m u ph = Err (RNotFound n)) ->
  (exists mts, resolve_refs m (map (fun u => (u, ph)) us) = Ok mts) \/ exists n, resolve_refs m (map (fun u => (u, ph)) us) = Err (B1Retry n).
Proof.
  induction us as [|u us IH]; intros H; cbn [map resolve_refs]; [eauto|].
  destruct (H u (or_introl eq_refl)) as [(mt & ->)|(n & ->)]; [|eauto].
  destruct (IH (fun v Hv => H v (or_intror Hv))) as [(mts & ->)|(n & ->)]; eauto.
Qed.

Lemma shape_exists b mts : not_made_by_storage b -> length mts = length (body_urefs cd b) -> body_shape b mts <> None.
Proof.
  intros Hv H. destruct b as [| | | | | | [] | [] | [] | | | | | | | | | | | | | | | | | | | | | | |]; cbn in H |- *; try discriminate; try contradiction Hv;
    repeat match goal with |- context [if ?x then _ else _] => destruct x end; try discriminate; destruct mts; try discriminate H; discriminate.
Qed.
Lemma precheck_iff b : body_precheck b = true <-> reset_exists b.
Proof.
  destruct b; cbn; try (split; intros; [exact I|reflexivity]). destruct (reset_day_of_year _ _); split; intros H; try reflexivity; try discriminate; congruence.
Qed.

Lemma resolve_refs_length m rs mts : resolve_refs m rs = Ok mts -> length mts = length rs.
Proof. intros H. apply resolve_refs_Ok in H. induction H; cbn; congruence. Qed.

Lemma accepted_iff : (forall c, In c cps -> not_made_by_storage (cp_body c)) ->
  (exists coll mp, build nodes other bs = Some (Ok (coll, mp))) <->
  (unique_names bs /\ all_defined bs /\ acyclic bs /\
   forall c, In c cps -> reset_exists (cp_body c) /\ forall u, In u (body_urefs cd (cp_body c)) -> readable cd cps nodes other (cp_body c) u).
Proof.
  intros Hvol. split.
  - intros (coll & mp & Hb). destruct (build_success _ _ _ _ _ Hb) as (U & D & A). split; [exact U|]. split; [exact D|]. split; [exact A|].
    destruct (build_Ok _ _ _ _ _ Hb) as (_ & es & Ht & HP). intros x Hx.
    assert (Hin : In (builder_of cd x) (map el_b es)) by (apply (Permutation_in _ HP), in_map, Hx).
    apply in_map_iff in Hin. destruct Hin as (el & Eel & Hel).
    destruct (trace_split _ _ _ _ _ _ Ht Hel) as (pre & post & c0 & m0 & _ & _ & Hb0). apply build1_Ok in Hb0. destruct Hb0 as (Hp & _ & _ & _).
    rewrite Eel in Hp. split; [apply precheck_iff; exact Hp|]. intros u Hu.
    pose proof (trace_metrics _ _ _ _ _ _ Ht Hel) as HF. rewrite Eel in HF. cbn [builder_of pb_refs] in HF.
    apply (Forall2_In_l _ _ _ _ HF) in Hu || (apply (in_map (fun u => (u, body_consumer (cp_body x)))) in Hu; apply (Forall2_In_l _ _ _ _ HF) in Hu).
    destruct Hu as (p & _ & Hr & _). cbn [fst snd] in Hr.
    destruct (names_param_dec u) as [[n Hn]|Hn].
    + destruct (resolve_found _ _ _ _ _ _ _ _ _ Ht Hn Hr) as (el' & Hel' & En & Hacc & Hri).
      pose proof (proj1 (proj1 (resolve_index_iff n (ref_access u (el_type el')) _ _ (ref_rv u) (body_consumer (cp_body x)) (trace_shape _ _ _ _ _ Ht el' Hel')))
        (ex_intro _ _ Hri)) as H.
      assert (HR : forall c', In c' cps -> cd_name cd (cp_name c') = n ->
        has_before (el_shape el') = at_moment (body_phase (cp_body c')) Before /\ has_after (el_shape el') = at_moment (body_phase (cp_body c')) After).
      { intros c' Hc' En'. assert (Eb : el_b el' = builder_of cd c').
        { apply (NoDup_map_inj pb_name bs); [exact U|apply (Permutation_in _ (Permutation_sym HP)), in_map, Hel'|apply in_map, Hc'|].
          change (pb_name (el_b el')) with (el_name el'). rewrite En, <- En'. reflexivity. }
        destruct (trace_split _ _ _ _ _ _ Ht Hel') as (pre' & post' & c1 & m1 & _ & _ & Hb1). apply build1_Ok in Hb1. destruct Hb1 as (_ & _ & _ & Hsh).
        rewrite Eb in Hsh. exact (body_moments _ _ _ Hsh). }
      destruct u as [k rv|k rv|k key rv|k|k|k]; cbn [names_param ref_rv readable] in *; try contradiction; subst k; intros c' Hc' En';
        destruct (HR c' Hc' En') as [R1 R2]; destruct rv; rewrite <- ?R1, <- ?R2; try exact H; destruct H as [H1 H2]; (split; [exact H1|apply consumer_after; exact H2]).
    + destruct (trace_maps _ _ _ _ _ Ht) as [M1 M2].
      destruct u as [k rv|k rv|k key rv|k|k|k]; cbn [names_param resolve readable] in *; try (exfalso; exact (Hn _ eq_refl)); [exact I| |].
      * rewrite M1 in Hr. destruct (existsb (Nat.eqb k) nodes) eqn:E; [|discriminate]. apply existsb_exists in E. destruct E as (y & Hy & Ey). apply Nat.eqb_eq in Ey. subst y. exact Hy.
      * rewrite M2 in Hr. destruct (existsb (Nat.eqb k) other) eqn:E; [|discriminate]. apply existsb_exists in E. destruct E as (y & Hy & Ey). apply Nat.eqb_eq in Ey. subst y. exact Hy.
  - intros (U & D & A & R). apply build_iff; [|auto]. intros n Hf. unfold build in Hf.
    destruct (build_cases nodes other bs) as (r & E & Hs). rewrite E in Hf. injection Hf as ->. cbn [build_spec] in Hs.
    destruct Hs as (_ & b & es & c0 & m0 & Hb & _ & Hi & Ht & H1). cbn [app] in Ht.
    apply in_map_iff in Hb. destruct Hb as (x & <- & Hx). destruct (R x Hx) as [R1 R2].
    unfold build1 in H1. cbn [builder_of pb_precheck pb_refs pb_shape pb_name] in H1. rewrite (proj2 (precheck_iff _) R1) in H1.
    destruct (resolve_refs_not_failing m0 (body_consumer (cp_body x)) (body_urefs cd (cp_body x))) as [(mts & Em)|(k & Em)].
    + intros u Hu. apply (resolve_readable es c0); auto. apply (D (builder_of cd x) u (body_consumer (cp_body x))); [apply in_map; exact Hx|].
      cbn [builder_of pb_refs]. exact (in_map (fun u => (u, body_consumer (cp_body x))) _ _ Hu).
    + rewrite Em in H1. pose proof (shape_exists (cp_body x) (map (fun p => metric_class (fst p)) mts) (Hvol x Hx)) as Hsh.
      rewrite map_length, (resolve_refs_length _ _ _ Em), map_length in Hsh. specialize (Hsh eq_refl).
      destruct (body_shape (cp_body x) (map (fun p => metric_class (fst p)) mts)); [discriminate H1|apply Hsh; reflexivity].
    + rewrite Em in H1. discriminate H1.
Qed.
End Accepted.
