(** Several recorders in one run do not disturb each other. *)
From Coq Require Import QArith String.
From Verif Require Import Base Calendar Timestep Network NetworkBuildLemmas AggFuncs AggFuncsSpec Aggregator Memory MemorySpec Outputs OutputsSpec MetricSets SchemaOutputs SchemaOutputsSpec.
Open Scope list_scope.
Open Scope nat_scope.

Section Run.
  Variable p : printing.
  Variable sets : list built_set.
  Variable scenarios : list scenario_id.
  Notation SETS := (core_sets sets).

  Fixpoint run1 (r : recorder) (k : nat) (steps : list saved_step) (states : list (list metric_set_state)) (st : rstate)
    : res out_error (list (list metric_set_state) * rstate) :=
    match steps with
    | [] => Ok (states, st)
    | s :: rest =>
        rbind (of_sets (save_scenarios SETS (sv_date s) (sv_dur s) (sv_values s) states)) (fun states' =>
        rbind (save_recorder p sets scenarios k s states' r st) (fun st' => run1 r (S k) rest states' st'))
    end.

  Lemma ns_cons r rs : forall steps k states st sts S X,
    network_steps p sets scenarios (r :: rs) k steps states (st :: sts) = Ok (S, X) <->
    exists st' sts', X = st' :: sts' /\ run1 r k steps states st = Ok (S, st') /\ network_steps p sets scenarios rs k steps states sts = Ok (S, sts').
  Proof.
    induction steps as [|s steps IH]; intros k states st sts S0 X; cbn [network_steps run1].
    - split.
      + intros [= <- <-]. eauto.
      + intros (st' & sts' & -> & [= <- <-] & [= <-]). reflexivity.
    - destruct (of_sets (save_scenarios SETS (sv_date s) (sv_dur s) (sv_values s) states)) as [states'| |]; cbn [rbind];
        [|split; [discriminate|intros (? & ? & _ & ? & _); discriminate]|split; [discriminate|intros (? & ? & _ & ? & _); discriminate]].
      cbn [save_recorders]. destruct (save_recorder p sets scenarios k s states' r st) as [st1| |]; cbn [rbind];
        [|split; [discriminate|intros (? & ? & _ & ? & _); discriminate]|split; [discriminate|intros (? & ? & _ & ? & _); discriminate]].
      destruct (save_recorders p sets scenarios k s states' rs sts) as [sts1| |]; cbn [rbind];
        [|split; [discriminate|intros (? & ? & _ & _ & ?); discriminate]|split; [discriminate|intros (? & ? & _ & _ & ?); discriminate]].
      apply IH.
  Qed.

  Lemma run_cons steps r rs X :
    network_run p sets (r :: rs) scenarios steps = Ok X <->
    exists o os, X = o :: os /\ network_run p sets [r] scenarios steps = Ok [o] /\ network_run p sets rs scenarios steps = Ok os.
  Proof.
    unfold network_run. cbn [rmap]. set (init := repeat _ _).
    destruct (setup_recorder p sets scenarios (length steps) r) as [st| |]; cbn [rbind];
      [|split; [discriminate|intros (? & ? & _ & ? & _); discriminate]|split; [discriminate|intros (? & ? & _ & ? & _); discriminate]].
    destruct (rmap (setup_recorder p sets scenarios (length steps)) rs) as [sts| |]; cbn [rbind];
      [|split; [discriminate|intros (? & ? & _ & _ & ?); discriminate]|split; [discriminate|intros (? & ? & _ & _ & ?); discriminate]].
    split.
    - intros H. apply rbind_Ok in H. destruct H as ([S1 X1] & H & H2). apply rbind_Ok in H2. destruct H2 as (S2 & F & H2).
      apply ns_cons in H. destruct H as (st' & sts' & -> & R1 & R2). cbn [finalise_recorders] in H2.
      apply rbind_Ok in H2. destruct H2 as (o & Ho & H2). apply rbind_Ok in H2. destruct H2 as (os & Hos & H2). injection H2 as <-.
      exists o, os. split; [reflexivity|]. split.
      + assert (E : network_steps p sets scenarios [r] 0 steps init [st] = Ok (S1, [st'])).
        { apply ns_cons. exists st', []. split; [reflexivity|]. split; [exact R1|].
          clear - R2. revert R2. generalize 0, init, sts. induction steps as [|s l IH]; intros k states sts0; cbn [network_steps]; [intros [= <- _]; reflexivity|].
          intros H. apply rbind_Ok in H. destruct H as (s' & -> & H). cbn [rbind save_recorders]. apply rbind_Ok in H. destruct H as (x & _ & H). exact (IH _ _ _ H). }
        rewrite E. cbn [rbind]. rewrite F. cbn [rbind finalise_recorders]. rewrite Ho. reflexivity.
      + rewrite R2. cbn [rbind]. rewrite F. exact Hos.
    - intros (o & os & -> & H1 & H2). apply rbind_Ok in H1. destruct H1 as ([S1 X1] & H & H1). apply ns_cons in H. destruct H as (st' & x & -> & R1 & _).
      apply rbind_Ok in H1. destruct H1 as (S2 & F & H1). cbn [finalise_recorders] in H1. apply rbind_Ok in H1. destruct H1 as (o' & Ho & H1).
      apply rbind_Ok in H1. destruct H1 as (nil' & _ & H1). injection H1 as <- _.
      apply rbind_Ok in H2. destruct H2 as ([S1' X1] & R2 & H2). 
      assert (S1' = S1).
      { clear - R1 R2. revert R1 R2. generalize 0, init, st, sts. induction steps as [|s l IH]; intros k states st0 sts0; cbn [network_steps run1]; [congruence|].
        intros R1 R2. apply rbind_Ok in R1. destruct R1 as (a & Ea & R1). rewrite Ea in R2. cbn [rbind] in R2.
        apply rbind_Ok in R1. destruct R1 as (b & _ & R1). apply rbind_Ok in R2. destruct R2 as (c & _ & R2). exact (IH _ _ _ _ R1 R2). }
      subst S1'. apply rbind_Ok in H2. destruct H2 as (S2' & F' & H2). rewrite F in F'. injection F' as <-.
      assert (E : network_steps p sets scenarios (r :: rs) 0 steps init (st :: sts) = Ok (S1, st' :: X1)) by (apply ns_cons; eauto).
      rewrite E. cbn [rbind]. rewrite F. cbn [rbind finalise_recorders]. rewrite Ho. cbn [rbind]. rewrite H2. reflexivity.
  Qed.

  Lemma run_independent steps : forall rs os,
    network_run p sets rs scenarios steps = Ok os <->
    network_run p sets [] scenarios steps = Ok [] /\ Forall2 (fun r o => network_run p sets [r] scenarios steps = Ok [o]) rs os.
  Proof.
    induction rs as [|r rs IH]; intros os.
    - split.
      + intros H. assert (os = []) as ->; [|split; [exact H|constructor]].
        unfold network_run in H. cbn [rmap rbind] in H. apply rbind_Ok in H. destruct H as ([a b] & _ & H). apply rbind_Ok in H. destruct H as (c & _ & H). cbn [finalise_recorders] in H. congruence.
      + intros [H F]. inversion F. exact H.
    - rewrite run_cons. split.
      + intros (o & os' & -> & H1 & H2). apply IH in H2. destruct H2 as [H2 H3]. split; [exact H2|]. constructor; assumption.
      + intros [H F]. inversion F as [|? o ? os' H1 H2]; subst. exists o, os'. split; [reflexivity|]. split; [exact H1|]. apply IH. auto.
  Qed.

  (** A recorder alone does what Memory.v and Outputs.v say. *)
  Lemma mem_steps name i agg order : forall steps k states d S st',
    run1 (RMemory name i agg order) k steps states (StMemory d) = Ok (S, st') <->
    exists d', st' = StMemory d' /\ save_steps SETS i steps states d = Ok (S, d').
  Proof.
    induction steps as [|s steps IH]; intros k states d S0 st'; cbn [run1 save_steps].
    - split; [intros [= <- <-]; eauto|intros (d' & -> & [= <- <-]); reflexivity].
    - destruct (save_scenarios SETS (sv_date s) (sv_dur s) (sv_values s) states) as [states'| |]; cbn [of_sets rbind];
        [|split; [discriminate|intros (? & _ & ?); discriminate]|split; [discriminate|intros (? & _ & ?); discriminate]].
      cbn [save_recorder write_recorder]. destruct (mem_save i states' d) as [d1| |]; cbn [of_sets rbind];
        [|split; [discriminate|intros (? & _ & ?); discriminate]|split; [discriminate|intros (? & _ & ?); discriminate]].
      apply IH.
  Qed.

  Lemma of_sets_Ok {A} (r : res mem_error A) a : of_sets r = Ok a <-> r = Ok a.
  Proof. destruct r; cbn; split; congruence. Qed.

  Lemma mem_alone name i agg order steps o :
    network_run p sets [RMemory name i agg order] scenarios steps = Ok [o] <->
    exists ms data, nth_error SETS i = Some ms /\ record_run SETS i (length scenarios) steps = Ok data /\
      o = OutMemory (mkMemResult name scenarios (ms_metrics ms) data agg order).
  Proof.
    unfold network_run, record_run. cbn [rmap setup_recorder rbind]. cbv zeta. set (init := repeat _ _). split.
    - intros H. apply rbind_Ok in H. destruct H as ([S1 X] & H & H2). apply ns_cons in H. destruct H as (st' & sts' & -> & R1 & R2).
      apply mem_steps in R1. destruct R1 as (d' & -> & R1). rewrite R1. cbn [rbind].
      apply rbind_Ok in H2. destruct H2 as (S2 & F & H2). apply of_sets_Ok in F. rewrite F. cbn [rbind].
      cbn [finalise_recorders finalise_recorder] in H2. unfold get_metric_set in H2. destruct (nth_error SETS i) as [ms|]; [|discriminate].
      cbn [write_recorder] in H2. destruct (mem_save i S2 d') as [d2| |]; cbn [of_sets rbind] in H2; try discriminate. injection H2 as <-.
      exists ms, d2. auto.
    - intros (ms & data & Hm & H & ->). apply rbind_Ok in H. destruct H as ([S1 d'] & H & H2).
      assert (E : network_steps p sets scenarios [RMemory name i agg order] 0 steps init [StMemory (mem_setup (length scenarios))] = Ok (S1, [StMemory d'])).
      { apply ns_cons. exists (StMemory d'), []. split; [reflexivity|]. split; [apply mem_steps; eauto|].
        clear - H. revert H. generalize 0, init, (mem_setup (length scenarios)). induction steps as [|s l IH]; intros k states d; cbn [network_steps save_steps]; [intros [= <- _]; reflexivity|].
        intros H. apply rbind_Ok in H. destruct H as (s' & -> & H). cbn [of_sets rbind save_recorders]. apply rbind_Ok in H. destruct H as (x & _ & H). exact (IH _ _ _ H). }
      rewrite E. cbn [rbind]. apply rbind_Ok in H2. destruct H2 as (S2 & F & H2). rewrite F. cbn [of_sets rbind finalise_recorders finalise_recorder].
      unfold get_metric_set. rewrite Hm in *. cbn [write_recorder]. rewrite H2. reflexivity.
  Qed.

  (** The recorders of CSV files. *)
  Lemma csv_steps {D} (save : list (list metric_set_state) -> D -> res out_error D) (inj : D -> rstate) r :
    (forall k s states d, save_recorder p sets scenarios k s states r (inj d) = rbind (save states d) (fun d' => Ok (inj d'))) ->
    forall steps k states d S st',
    run1 r k steps states (inj d) = Ok (S, st') <->
    exists d', st' = inj d' /\ run_steps save SETS steps states d = Ok (S, d').
  Proof.
    intros Hs. induction steps as [|s steps IH]; intros k states d S0 st'; cbn [run1 run_steps].
    - split; [intros [= <- <-]; eauto|intros (d' & -> & [= <- <-]); reflexivity].
    - destruct (of_sets (save_scenarios SETS (sv_date s) (sv_dur s) (sv_values s) states)) as [states'| |]; cbn [rbind];
        [|split; [discriminate|intros (? & _ & ?); discriminate]|split; [discriminate|intros (? & _ & ?); discriminate]].
      rewrite Hs. destruct (save states' d) as [d1| |]; cbn [rbind];
        [|split; [discriminate|intros (? & _ & ?); discriminate]|split; [discriminate|intros (? & _ & ?); discriminate]].
      apply IH.
  Qed.

  Lemma no_steps {D} (save : list (list metric_set_state) -> D -> res out_error D) : forall steps k states d S d',
    run_steps save SETS steps states d = Ok (S, d') -> network_steps p sets scenarios [] k steps states [] = Ok (S, []).
  Proof.
    induction steps as [|s l IH]; intros k states d S0 d'; cbn [network_steps run_steps]; [intros [= <- _]; reflexivity|].
    intros H. apply rbind_Ok in H. destruct H as (s' & -> & H). cbn [rbind save_recorders]. apply rbind_Ok in H. destruct H as (x & _ & H). exact (IH _ _ _ _ _ H).
  Qed.

  Lemma csv_alone {D} (save : list (list metric_set_state) -> D -> res out_error D) (inj : D -> rstate) (out : D -> outcome) r d0 steps o :
    setup_recorder p sets scenarios (length steps) r = Ok (inj d0) ->
    (forall k s states d, save_recorder p sets scenarios k s states r (inj d) = rbind (save states d) (fun d' => Ok (inj d'))) ->
    (forall states d, finalise_recorder p sets scenarios states r (inj d) = rbind (save states d) (fun d' => Ok (out d'))) ->
    network_run p sets [r] scenarios steps = Ok [o] <->
    exists d, run_recorder save d0 SETS (length scenarios) steps = Ok d /\ o = out d.
  Proof.
    intros H0 Hs Hf. unfold network_run, run_recorder. cbn [rmap]. rewrite H0. cbn [rbind]. set (init := repeat _ _). split.
    - intros H. apply rbind_Ok in H. destruct H as ([S1 X] & H & H2). apply ns_cons in H. destruct H as (st' & sts' & -> & R1 & R2).
      apply (csv_steps save inj r Hs) in R1. destruct R1 as (d' & -> & R1). rewrite R1. cbn [rbind].
      apply rbind_Ok in H2. destruct H2 as (S2 & F & H2). rewrite F. cbn [rbind].
      cbn [finalise_recorders] in H2. rewrite Hf in H2. destruct (save S2 d') as [d2| |]; cbn [rbind] in H2; try discriminate. injection H2 as <-.
      exists d2. auto.
    - intros (d & H & ->). apply rbind_Ok in H. destruct H as ([S1 d'] & H & H2).
      assert (E : network_steps p sets scenarios [r] 0 steps init [inj d0] = Ok (S1, [inj d'])).
      { apply ns_cons. exists (inj d'), []. split; [reflexivity|]. split; [apply (csv_steps save inj r Hs); eauto|]. exact (no_steps _ _ _ _ _ _ _ H). }
      rewrite E. cbn [rbind]. apply rbind_Ok in H2. destruct H2 as (S2 & F & H2). rewrite F. cbn [rbind finalise_recorders]. rewrite Hf, H2. reflexivity.
  Qed.

  Lemma wide_alone name f i steps o :
    network_run p sets [RWide name f i] scenarios steps = Ok [o] <->
    exists file, wide_run p SETS i scenarios steps = Ok file /\ o = OutWide f file.
  Proof.
    unfold wide_run. destruct (nth_error SETS i) as [ms|] eqn:Em.
    - apply (csv_alone (wide_save p i) StWide (OutWide f)).
      + cbn [setup_recorder]. unfold get_metric_set. rewrite Em. reflexivity.
      + reflexivity.
      + intros states d. cbn [finalise_recorder write_recorder]. destruct (wide_save p i states d); reflexivity.
    - split; [|intros (? & ? & _); discriminate]. unfold network_run. cbn [rmap setup_recorder]. unfold get_metric_set. rewrite Em. discriminate.
  Qed.

  Lemma long_alone name f is places steps o :
    network_run p sets [RLong name f is places] scenarios steps = Ok [o] <->
    exists file, long_run places SETS (map bs_name sets) is scenarios steps = Ok file /\ o = OutLong f file.
  Proof.
    apply (csv_alone (long_save places SETS (map bs_name sets) is scenarios) StLong (OutLong f)).
    - reflexivity.
    - reflexivity.
    - intros states d. cbn [finalise_recorder write_recorder]. destruct (long_save _ _ _ _ _ _ _); reflexivity.
  Qed.

  Lemma hdf_run1 name f i : forall steps k states d S st',
    run1 (RHdf5 name f i) k steps states (StHdf5 d) = Ok (S, st') <->
    exists d', st' = StHdf5 d' /\ hdf_steps i k steps d = Ok d' /\ network_steps p sets scenarios [] k steps states [] = Ok (S, []).
  Proof.
    induction steps as [|s steps IH]; intros k states d S0 st'; cbn [run1 hdf_steps network_steps].
    - split; [intros [= <- <-]; eauto|intros (d' & -> & [= <-] & [= <-]); reflexivity].
    - destruct (of_sets (save_scenarios SETS (sv_date s) (sv_dur s) (sv_values s) states)) as [states'| |]; cbn [rbind];
        [|split; [discriminate|intros (? & _ & _ & ?); discriminate]|split; [discriminate|intros (? & _ & _ & ?); discriminate]].
      cbn [save_recorder save_recorders]. destruct (hdf_save i k (sv_values s) d) as [d1| |]; cbn [rbind];
        [|split; [discriminate|intros (? & _ & ? & _); discriminate]|split; [discriminate|intros (? & _ & ? & _); discriminate]].
      apply IH.
  Qed.

  Lemma hdf_alone name f i steps o :
    network_run p sets [RHdf5 name f i] scenarios steps = Ok [o] <->
    network_run p sets [] scenarios steps = Ok [] /\ exists d, hdf_run SETS i (length scenarios) steps = Ok d /\ o = OutHdf5 f d.
  Proof.
    unfold network_run, hdf_run. cbn [rmap setup_recorder]. unfold get_metric_set. set (init := repeat _ (length scenarios)).
    destruct (nth_error SETS i) as [ms|]; cbn [rbind]; [|split; [discriminate|intros (_ & ? & ? & _); discriminate]].
    destruct (hdf_setup (ms_metrics ms) (length steps) (length scenarios)) as [d0| |]; cbn [rbind];
      [|split; [discriminate|intros (_ & ? & ? & _); discriminate]|split; [discriminate|intros (_ & ? & ? & _); discriminate]].
    split.
    - intros H. apply rbind_Ok in H. destruct H as ([S1 X] & H & H2). apply ns_cons in H. destruct H as (st' & sts' & -> & R1 & R2).
      apply hdf_run1 in R1. destruct R1 as (d' & -> & R1 & R3). rewrite R3. cbn [rbind]. apply rbind_Ok in H2. destruct H2 as (S2 & F & H2). rewrite F. cbn [rbind].
      cbn [finalise_recorders finalise_recorder rbind] in *. injection H2 as <-. eauto.
    - intros (H1 & d & H & ->). apply rbind_Ok in H1. destruct H1 as ([S1 X] & H1 & H2).
      assert (X = []) as ->.
      { clear - H1. revert H1. generalize 0, init. induction steps as [|s l IH]; intros k states; cbn [network_steps]; [congruence|].
        intros H. apply rbind_Ok in H. destruct H as (s' & _ & H). cbn [rbind save_recorders] in H. exact (IH _ _ H). }
      assert (E : network_steps p sets scenarios [RHdf5 name f i] 0 steps init [StHdf5 d0] = Ok (S1, [StHdf5 d])).
      { apply ns_cons. exists (StHdf5 d), []. split; [reflexivity|]. split; [apply hdf_run1; eauto|exact H1]. }
      rewrite E. cbn [rbind]. apply rbind_Ok in H2. destruct H2 as (S2 & F & _). rewrite F. reflexivity.
  Qed.
End Run.
