(** A parameter with a memory inside a whole network: what it returns in a run
    is what its functions give for the values its metric was recorded with. *)
From Verif Require Import Base ParamBuild ParamBuildSpec ParamEval ParamEvalSpec
  ParamMeaningLemmas ParamOrderLemmas ParamSchedLemmas ParamStepLemmas
  ParamsTemporal ParamsTemporalSpec ParamsTemporalLemmas ParamMemorySpec.

Section InModel.
Context {V St Env Net Er S : Type}.
Variable sm : sem V St Env Net Er.

Definition no_after (bs : list pbuilder) (sh : pname -> shape) (s : nstore V St Net) : Prop :=
  forall b, In b bs -> match sh (pb_name b) with ShGeneral _ _ => True | _ => nv_after s (pb_name b) = None end.

Lemma type_of_In (bs : list pbuilder) n t : type_of bs n = Some t -> exists b, In b bs /\ pb_name b = n.
Proof.
  unfold type_of. destruct (find _ bs) as [b|] eqn:E; [|discriminate]. intros _. apply find_some in E.
  exists b. split; [tauto|]. apply Nat.eqb_eq. tauto.
Qed.
Lemma read_simple_same bs vals s s' net net' sh u :
  ref_class sh u <> KGeneral -> no_after bs sh s -> no_after bs sh s' ->
  read_named sm bs vals (nv_after s) net u = read_named sm bs vals (nv_after s') net' u.
Proof.
  intros Hc H1 H2. unfold read_named.
  assert (Hn : forall n, (match sh n with ShConst => KConst | ShSimple => KSimple | ShGeneral _ _ => KGeneral end) <> KGeneral ->
    forall t, type_of bs n = Some t -> nv_after s n = nv_after s' n).
  { intros n Hn t Ht. apply type_of_In in Ht. destruct Ht as (b & Hb & <-). specialize (H1 b Hb). specialize (H2 b Hb).
    destruct (sh (pb_name b)); congruence. }
  destruct u; cbn in *; try congruence; try reflexivity;
    match goal with |- context [type_of bs ?n] => specialize (Hn n Hc); destruct (type_of bs n) as [t|]; [|reflexivity];
      rewrite (Hn t eq_refl); reflexivity end.
Qed.
Lemma step_no_after bs nd sh env s s' outs : step_equations sm bs nd sh env s s' outs -> no_after bs sh s'.
Proof.
  intros (net1 & Heq & _) b Hb. specialize (Heq b Hb). unfold step_equation in Heq. cbv zeta in Heq.
  destruct (sh (pb_name b)); [tauto| |exact I]. destruct Heq as (x & v & x' & H). tauto.
Qed.
Lemma setup_no_after bs sh s : setup_equations sm bs sh s -> no_after bs sh s.
Proof.
  intros [Heq _] b Hb. specialize (Heq b Hb). unfold setup_equation in Heq. cbv zeta in Heq.
  destruct (sh (pb_name b)); [destruct Heq as (v & x & H); tauto|tauto|exact I].
Qed.

Variables (bs : list pbuilder) (nd : network_def) (sh : pname -> shape).
Variables (b : pbuilder) (u ud : uref) (i j : nat).
Variables (emb : S -> St) (setup : S) (before : S -> res Er (V * S))
  (after : V -> S -> S) (compute : V -> S -> res Er (V * S)).
Hypothesis Hshapes : shapes_ok bs sh.
Hypothesis Hb : In b bs.
Hypothesis Hmb : memory_builder b u.
Hypothesis Hbh : behaves sm (pb_name b) emb setup before after compute.
Hypothesis Hud : ref_target ud = Some (pb_name b, RVBefore).
Hypothesis Hview : forall t v, type_of bs (pb_name b) = Some t -> sm_view sm (conversion ud t) v = Ok v.
Hypothesis Hi : nth_error (nd_out nd) i = Some ud.
Hypothesis Hj : nth_error (nd_out nd) j = Some u.

Lemma memory_shape : (ref_class sh u <> KGeneral /\ sh (pb_name b) = ShSimple) \/ sh (pb_name b) = ShGeneral true (Some OpHook).
Proof.
  destruct Hmb as (Hr & H1 & H2 & H3). specialize (Hshapes b Hb). rewrite Hr in Hshapes. cbn [map fst] in Hshapes.
  destruct (ref_class sh u); [left|left|right]; try (split; [congruence|]); congruence.
Qed.
Lemma type_of_b : exists t, type_of bs (pb_name b) = Some t.
Proof.
  unfold type_of. destruct (find (fun b0 => pb_name b0 =? pb_name b) bs) as [b'|] eqn:E; [eexists; reflexivity|].
  apply (find_none _ _ E) in Hb. rewrite Nat.eqb_refl in Hb. discriminate.
Qed.
Lemma read_ud vals afters net v : vals (pb_name b) = Some v -> read_named sm bs vals afters net ud = Ok v.
Proof.
  intros Hv. unfold read_named. rewrite Hud. destruct type_of_b as (t & Ht). rewrite Ht, Hv. apply Hview. exact Ht.
Qed.

Lemma memory_run s envs outss : run_equations sm bs nd sh s envs outss ->
  forall st, nv_int s (pb_name b) = Some (emb st) -> no_after bs sh s ->
  exists hist vals,
    Forall2 (fun o h => nth_error o j = Some (Ok h)) outss hist /\
    Forall2 (fun o v => nth_error o i = Some (Ok v)) outss vals /\
    (hooked_run before after st hist = Ok vals /\ sh (pb_name b) <> ShSimple \/
     direct_run compute st hist = Ok vals /\ sh (pb_name b) = ShSimple).
Proof.
  induction 1 as [s|s s' env envs outs outss Hstep Hrun IH]; intros st Hint Hna.
  - exists [], []. split; [constructor|]. split; [constructor|].
    destruct memory_shape as [[_ Hs]|Hs]; rewrite Hs; [right; split; reflexivity|left; split; [reflexivity|discriminate]].
  - pose proof (step_no_after _ _ _ _ _ _ _ Hstep) as Hna'.
    destruct Hstep as (net1 & Heq & _ & _ & Houts). specialize (Heq b Hb). unfold step_equation in Heq. cbv zeta in Heq.
    destruct Hmb as (Hr & _).
    assert (Hoj : nth_error outs j = Some (read_named sm bs (nv_val s') (nv_after s') (nv_net s') u)).
    { rewrite Houts. apply map_nth_error. exact Hj. }
    assert (Hoi : nth_error outs i = Some (read_named sm bs (nv_val s') (nv_after s') (nv_net s') ud)).
    { rewrite Houts. apply map_nth_error. exact Hi. }
    destruct memory_shape as [[Hc Hs]|Hs]; rewrite Hs in *.
    + destruct Heq as (x & v & x' & Hx & Hcomp & Hv & _ & Hx').
      assert (x = emb st) by congruence. subst x.
      unfold refs_all in Hcomp. rewrite Hr in Hcomp. cbn [map fst] in Hcomp.
      rewrite (bh_simple _ _ _ _ _ _ _ Hbh) in Hcomp.
      rewrite (read_simple_same _ _ s s' net1 (nv_net s') sh u Hc Hna Hna') in Hcomp.
      destruct (read_named sm bs (nv_val s') (nv_after s') (nv_net s') u) as [h| |] eqn:Eh; try discriminate. cbn [rbind] in Hcomp.
      destruct (compute h st) as [[v1 st1]| |] eqn:Ec; try discriminate. cbn [rbind fst snd] in Hcomp. injection Hcomp as <- <-.
      destruct (IH st1 Hx' Hna') as (hist & vals & F1 & F2 & [[_ Hd]|[Hd _]]); [congruence|].
      exists (h :: hist), (v1 :: vals). repeat split.
      * constructor; [exact Hoj|exact F1].
      * constructor; [rewrite Hoi; f_equal; apply read_ud; exact Hv|exact F2].
      * right. split; [|reflexivity]. cbn [direct_run]. rewrite Ec. cbn [rbind fst snd]. rewrite Hd. reflexivity.
    + destruct Heq as (x & x1 & x2 & Hx & Hx2 & (v & Hbef & Hv) & Hhook & _).
      assert (x = emb st) by congruence. subst x.
      unfold refs_before in Hbef. rewrite Hr in Hbef. cbn [filter snd map] in Hbef.
      rewrite (bh_before _ _ _ _ _ _ _ Hbh) in Hbef.
      destruct (before st) as [[v1 st1]| |] eqn:Eb; try discriminate. cbn [rbind fst snd] in Hbef. injection Hbef as <- <-.
      unfold refs_all in Hhook. rewrite Hr in Hhook. cbn [map fst] in Hhook.
      rewrite (bh_hook _ _ _ _ _ _ _ Hbh) in Hhook.
      destruct (read_named sm bs (nv_val s') (nv_after s') (nv_net s') u) as [h| |] eqn:Eh; try discriminate. cbn [rbind] in Hhook. injection Hhook as <-.
      destruct (IH (after h st1) Hx2 Hna') as (hist & vals & F1 & F2 & [[Hd _]|[_ Hd]]); [|congruence].
      exists (h :: hist), (v1 :: vals). repeat split.
      * constructor; [exact Hoj|exact F1].
      * constructor; [rewrite Hoi; f_equal; apply read_ud; exact Hv|exact F2].
      * left. split; [|discriminate]. cbn [hooked_run]. rewrite Eb. cbn [rbind fst snd]. rewrite Hd. reflexivity.
Qed.

Lemma memory_setup s : setup_equations sm bs sh s -> nv_int s (pb_name b) = Some (emb setup).
Proof.
  intros [Heq _]. specialize (Heq b Hb). unfold setup_equation in Heq. cbv zeta in Heq.
  destruct memory_shape as [[_ Hs]|Hs]; rewrite Hs in Heq; rewrite <- (bh_init _ _ _ _ _ _ _ Hbh); tauto.
Qed.
End InModel.

Section Model.
Context {V St Env Net Er S : Type}.
Lemma memory_in_model (sm : sem V St Env Net Er) nodes other bs c m nd nw envs outss
    b u ud i j (emb : S -> St) setup before after compute :
  build nodes other bs = Some (Ok (c, m)) -> resolve_network m nd = Ok nw ->
  plain_builders bs -> plain_network nd -> (forall b, In b bs -> well_typed b) ->
  simulate sm nw c envs = Ok outss ->
  In b bs -> memory_builder b u -> behaves sm (pb_name b) emb setup before after compute ->
  ref_target ud = Some (pb_name b, RVBefore) ->
  (forall t v, type_of bs (pb_name b) = Some t -> sm_view sm (conversion ud t) v = Ok v) ->
  nth_error (nd_out nd) i = Some ud -> nth_error (nd_out nd) j = Some u ->
  exists hist vals,
    Forall2 (fun o h => nth_error o j = Some (Ok h)) outss hist /\
    Forall2 (fun o v => nth_error o i = Some (Ok v)) outss vals /\
    (hooked_run before after setup hist = Ok vals \/ direct_run compute setup hist = Ok vals).
Proof.
  intros Hbuild Hres Hpb Hpn Hwt Hsim Hb Hmb Hbh Hud Hview Hi Hj.
  apply (equations sm nodes other bs c m nd nw Hbuild Hres Hpb Hpn Hwt) in Hsim.
  destruct Hsim as (sh & s0 & Hsh & Hset & Hrun).
  destruct (memory_run sm bs nd sh b u ud i j emb setup before after compute Hsh Hb Hmb Hbh Hud Hview Hi Hj s0 envs outss Hrun setup)
    as (hist & vals & F1 & F2 & H).
  - eapply memory_setup; eassumption.
  - eapply setup_no_after; eassumption.
  - exists hist, vals. tauto.
Qed.
End Model.

Lemma hooked_map_err {S A V E Er} (e : Er) (before : S -> res E (V * S)) (after : A -> S -> S) h : forall s,
  hooked_run (fun s => map_err e (before s)) after s h = map_err e (hooked_run before after s h).
Proof.
  induction h as [|a h IH]; intros s; [reflexivity|]. cbn [hooked_run]. destruct (before s) as [p| |]; try reflexivity.
  cbn [map_err rbind]. rewrite IH. destruct (hooked_run before after (after a (snd p)) h); reflexivity.
Qed.
Lemma direct_map_err {S A V E Er} (e : Er) (compute : A -> S -> res E (V * S)) h : forall s,
  direct_run (fun a s => map_err e (compute a s)) s h = map_err e (direct_run compute s h).
Proof.
  induction h as [|a h IH]; intros s; [reflexivity|]. cbn [direct_run]. destruct (compute a s) as [p| |]; try reflexivity.
  cbn [map_err rbind]. rewrite IH. destruct (direct_run compute (snd p) h); reflexivity.
Qed.

Lemma Forall2_nth {A B} (P : A -> B -> Prop) l l' t a : Forall2 P l l' -> nth_error l t = Some a ->
  exists b, nth_error l' t = Some b /\ P a b.
Proof.
  intros H. revert t. induction H as [|x y l l' Hxy H IH]; intros [|t] Hn; try discriminate; cbn in *.
  - injection Hn as <-. exists y. tauto.
  - apply IH. exact Hn.
Qed.
Lemma Forall2_nth_l {A B} (P : A -> B -> Prop) l l' t b : Forall2 P l l' -> nth_error l' t = Some b ->
  exists a, nth_error l t = Some a /\ P a b.
Proof.
  intros H. revert t. induction H as [|x y l l' Hxy H IH]; intros [|t] Hn; try discriminate; cbn in *.
  - injection Hn as <-. exists x. tauto.
  - apply IH. exact Hn.
Qed.
Lemma rmap_nth {E A B} (f : A -> res E B) l vs t a : rmap f l = Ok vs -> nth_error l t = Some a ->
  exists v, nth_error vs t = Some v /\ f a = Ok v.
Proof. intros H Hn. apply rmap_Ok_Forall2 in H. destruct (Forall2_nth _ _ _ _ _ H Hn) as (v & Hv & Hf). exists v. tauto. Qed.

Section Instances.
Context {V St Env Net Er : Type}.
Lemma delay_in_model (sm : sem V St Env Net Er) nodes other bs c m nd nw envs outss b u ud i j n initial :
  build nodes other bs = Some (Ok (c, m)) -> resolve_network m nd = Ok nw ->
  plain_builders bs -> plain_network nd -> (forall b, In b bs -> well_typed b) ->
  simulate sm nw c envs = Ok outss ->
  In b bs -> memory_builder b u -> delay_parameter sm (pb_name b) n initial ->
  ref_target ud = Some (pb_name b, RVBefore) ->
  (forall t v, type_of bs (pb_name b) = Some t -> sm_view sm (conversion ud t) v = Ok v) ->
  nth_error (nd_out nd) i = Some ud -> nth_error (nd_out nd) j = Some u ->
  forall t outs, nth_error outss t = Some outs ->
    (t < n -> nth_error outs i = Some (Ok initial)) /\
    (n <= t -> exists outs' v, nth_error outss (t - n) = Some outs' /\
       nth_error outs' j = Some (Ok v) /\ nth_error outs i = Some (Ok v)).
Proof.
  intros Hbuild Hres Hpb Hpn Hwt Hsim Hb Hmb (emb & e & Hbh) Hud Hview Hi Hj t outs Ht.
  destruct (memory_in_model sm nodes other bs c m nd nw envs outss b u ud i j emb _ _ _ _ Hbuild Hres Hpb Hpn Hwt Hsim Hb Hmb Hbh Hud Hview Hi Hj)
    as (hist & vals & F1 & F2 & Hrun).
  assert (Hvals : vals = map (delayed n initial hist) (seq 0 (length hist))).
  { destruct (Forall2_nth _ _ _ _ _ F1 Ht) as (h0 & Hh0 & _).
    destruct Hrun as [H|H].
    - rewrite hooked_map_err in H. destruct n as [|n].
      + destruct hist as [|h1 hist]; [destruct t; discriminate|]. discriminate.
      + rewrite delay_general in H by lia. cbn [map_err] in H. congruence.
    - rewrite direct_map_err, delay_simple in H. cbn [map_err] in H. congruence. }
  destruct (Forall2_nth _ _ _ _ _ F1 Ht) as (h & Hh & _).
  destruct (Forall2_nth _ _ _ _ _ F2 Ht) as (v & Hv & Hov).
  assert (Hlt : t < length hist) by (apply nth_error_Some; congruence).
  rewrite Hvals in Hv. rewrite (map_nth_error _ t (seq 0 (length hist)) (d := t)) in Hv.
  2:{ rewrite nth_error_nth' with (d := 0) by (rewrite seq_length; exact Hlt). rewrite seq_nth by exact Hlt. reflexivity. }
  injection Hv as <-. unfold delayed in Hov. split; intros Hn.
  - destruct (t <? n) eqn:E; [|lia]. exact Hov.
  - destruct (t <? n) eqn:E; [lia|].
    destruct (nth_error hist (t - n)) as [h'|] eqn:E'; [|apply nth_error_None in E'; lia].
    destruct (Forall2_nth_l _ _ _ _ _ F1 E') as (outs' & Ho' & Hj').
    exists outs', h'. split; [exact Ho'|]. split; [exact Hj'|]. rewrite Hov. do 2 f_equal. apply nth_error_nth. exact E'.
Qed.
Lemma rolling_in_model (sm : sem V St Env Net Er) nodes other bs c m nd nw envs outss b u ud i j agg w mn initial :
  build nodes other bs = Some (Ok (c, m)) -> resolve_network m nd = Ok nw ->
  plain_builders bs -> plain_network nd -> (forall b, In b bs -> well_typed b) ->
  simulate sm nw c envs = Ok outss ->
  In b bs -> memory_builder b u -> rolling_parameter sm (pb_name b) agg w mn initial ->
  ref_target ud = Some (pb_name b, RVBefore) ->
  (forall t v, type_of bs (pb_name b) = Some t -> sm_view sm (conversion ud t) v = Ok v) ->
  nth_error (nd_out nd) i = Some ud -> nth_error (nd_out nd) j = Some u ->
  exists history,
    Forall2 (fun outs h => nth_error outs j = Some (Ok h)) outss history /\
    forall t outs, nth_error outss t = Some outs ->
      exists v, rolling agg w mn initial history t = Ok v /\ nth_error outs i = Some (Ok v).
Proof.
  intros Hbuild Hres Hpb Hpn Hwt Hsim Hb Hmb (emb & Hbh) Hud Hview Hi Hj.
  destruct (memory_in_model sm nodes other bs c m nd nw envs outss b u ud i j emb _ _ _ _ Hbuild Hres Hpb Hpn Hwt Hsim Hb Hmb Hbh Hud Hview Hi Hj)
    as (hist & vals & F1 & F2 & Hrun).
  exists hist. split; [exact F1|]. intros t outs Ht.
  assert (Hvals : rmap (rolling agg w mn initial hist) (seq 0 (length hist)) = Ok vals).
  { destruct Hrun as [H|H]; [rewrite rolling_general in H|rewrite rolling_simple in H]; exact H. }
  destruct (Forall2_nth _ _ _ _ _ F1 Ht) as (h & Hh & _).
  destruct (Forall2_nth _ _ _ _ _ F2 Ht) as (v & Hv & Hov).
  assert (Hlt : t < length hist) by (apply nth_error_Some; congruence).
  destruct (rmap_nth _ _ _ t t Hvals) as (v' & Hv' & Hf).
  { rewrite nth_error_nth' with (d := 0) by (rewrite seq_length; exact Hlt). rewrite seq_nth by exact Hlt. reflexivity. }
  exists v. split; [congruence|exact Hov].
Qed.
End Instances.
