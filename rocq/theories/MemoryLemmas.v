(** The memory recorder keeps scenarios, periods and metrics apart. *)
From Coq Require Import QArith Lqa.
From Verif Require Import Base Calendar CalendarLemmas Timestep Network NetworkBuildLemmas LpRowLemmas AggFuncs AggFuncsSpec AggFuncsLemmas Aggregator AggregatorSpec LockstepLemmas Memory MemorySpec.
Open Scope nat_scope.

(* ---------- one metric set ---------- *)

Definition all_alike (l : list agg_state) : Prop := forall s t, In s l -> In t l -> state_alike s t.

Lemma lift_Ok {A} (r : res unit A) a : lift r = Ok a <-> r = Ok a.
Proof. destruct r; cbn; split; congruence. Qed.

Lemma append_each_inv a : forall values sts aggs sts', length values = length sts ->
  append_each a values sts = Ok (aggs, sts') ->
  exists os, length os = length sts /\ length sts' = length sts /\ aggs = emitted os /\
    forall j v s, nth_error values j = Some v -> nth_error sts j = Some s ->
      exists o s', nth_error os j = Some o /\ nth_error sts' j = Some s' /\ append_value a s v = Ok (o, s').
Proof.
  induction values as [|v values IH]; intros sts aggs sts' L H; destruct sts as [|s sts]; try discriminate; cbn [append_each] in H.
  - injection H as <- <-. exists []. repeat split; auto. intros [|j]; discriminate.
  - apply rbind_Ok in H. destruct H as ((o, s1) & E1 & H). apply (proj1 (lift_Ok _ _)) in E1.
    apply rbind_Ok in H. destruct H as ((ag, sts1) & E2 & H). injection H as <- <-.
    destruct (IH sts ag sts1 ltac:(cbn in L; lia) E2) as (os & L1 & L2 & -> & K).
    exists (o :: os). cbn [length]. repeat split; try lia.
    + destruct o; reflexivity.
    + intros [|j] v' s' Hv Hs; cbn [nth_error] in *; [|eauto]. injection Hv as <-. injection Hs as <-. exists o, s1. auto.
Qed.

Lemma append_each_ok a : forall values sts, length values = length sts ->
  (forall j v s, nth_error values j = Some v -> nth_error sts j = Some s -> exists r, append_value a s v = Ok r) ->
  exists r, append_each a values sts = Ok r.
Proof.
  induction values as [|v values IH]; intros sts L H; destruct sts as [|s sts]; try discriminate; cbn [append_each]; [eauto|].
  destruct (H 0 v s eq_refl eq_refl) as [[o s'] E]. rewrite E. cbn [lift rbind].
  destruct (IH sts ltac:(cbn in L; lia)) as [[ag st'] E2]; [intros j; apply (H (S j))|]. rewrite E2. cbn [rbind]. eauto.
Qed.

Lemma emitted_none os : Forall (fun o : option pvalue => o = None) os -> emitted os = [].
Proof. induction 1 as [|o os -> H IH]; [reflexivity|exact IH]. Qed.

Lemma emitted_length_le os : length (emitted os) <= length os.
Proof.
  induction os as [|[v|] os IH]; [apply Nat.le_refl| |].
  - change (emitted (Some v :: os)) with (v :: emitted os). cbn [length]. lia.
  - change (emitted (None :: os)) with (emitted os). cbn [length]. lia.
Qed.

(** What one save of an aggregating metric set does, metric by metric. *)
Lemma ms_save_inv ms a date dur vals cv sts st' :
  ms_aggregator ms = Some a -> length vals = length sts -> all_alike sts ->
  ms_save ms date dur vals (MetricSetState cv (Some sts)) = Ok st' ->
  exists os sts', st' = MetricSetState (current_values st') (Some sts') /\ length os = length sts /\ length sts' = length sts /\ all_alike sts' /\
    (forall j x s, nth_error vals j = Some x -> nth_error sts j = Some s ->
      exists o s', nth_error os j = Some o /\ nth_error sts' j = Some s' /\ append_value a s (PV date dur x) = Ok (o, s')) /\
    (forall o p, In o os -> In p os -> option_alike o p) /\
    ((current_values st' = None /\ emitted os = []) \/ (current_values st' = Some (emitted os) /\ os = map Some (emitted os) /\ os <> [])).
Proof.
  intros Ha L AL H. unfold ms_save in H. rewrite Ha in H. cbn [aggregation_states] in H. cbv zeta in H.
  apply rbind_Ok in H. destruct H as ((aggs, sts') & E & H).
  destruct (append_each_inv a _ sts aggs sts' ltac:(rewrite map_length; exact L) E) as (os & L1 & L2 & -> & K).
  exists os, sts'.
  assert (K' : forall j x s, nth_error vals j = Some x -> nth_error sts j = Some s ->
      exists o s', nth_error os j = Some o /\ nth_error sts' j = Some s' /\ append_value a s (PV date dur x) = Ok (o, s')).
  { intros j x s Hx Hs. apply (K j); [rewrite nth_error_map, Hx; reflexivity|exact Hs]. }
  assert (AA : forall i j o p s t, nth_error os i = Some o -> nth_error os j = Some p -> nth_error sts' i = Some s -> nth_error sts' j = Some t -> option_alike o p /\ state_alike s t).
  { intros i j o p s t Hi Hj Hs Ht.
    assert (Bi : exists x s0, nth_error vals i = Some x /\ nth_error sts i = Some s0).
    { assert (i < length sts) by (rewrite <- L2; apply nth_error_Some; congruence).
      destruct (nth_error vals i) eqn:E1; [|apply nth_error_None in E1; lia]. destruct (nth_error sts i) eqn:E2; [|apply nth_error_None in E2; lia]. eauto. }
    assert (Bj : exists x s0, nth_error vals j = Some x /\ nth_error sts j = Some s0).
    { assert (j < length sts) by (rewrite <- L2; apply nth_error_Some; congruence).
      destruct (nth_error vals j) eqn:E1; [|apply nth_error_None in E1; lia]. destruct (nth_error sts j) eqn:E2; [|apply nth_error_None in E2; lia]. eauto. }
    destruct Bi as (x & s0 & X1 & X2). destruct Bj as (y & t0 & Y1 & Y2).
    destruct (K' i x s0 X1 X2) as (o' & s' & A1 & A2 & A3). destruct (K' j y t0 Y1 Y2) as (p' & t' & B1 & B2 & B3).
    assert (o' = o) by congruence. assert (s' = s) by congruence. assert (p' = p) by congruence. assert (t' = t) by congruence. subst.
    pose proof (append_alike a s0 t0 (PV date dur x) (PV date dur y)) as G. rewrite A3, B3 in G. apply G.
    - apply AL; eapply nth_error_In; eassumption.
    - split; reflexivity. }
  assert (AS : all_alike sts').
  { intros s t Is It. apply In_nth_error in Is. apply In_nth_error in It. destruct Is as [i Hi], It as [j Hj].
    destruct (nth_error os i) as [o|] eqn:Oi. 2:{ apply nth_error_None in Oi. assert (i < length sts') by (apply nth_error_Some; congruence). lia. }
    destruct (nth_error os j) as [p|] eqn:Oj. 2:{ apply nth_error_None in Oj. assert (j < length sts') by (apply nth_error_Some; congruence). lia. }
    apply (AA i j o p s t Oi Oj Hi Hj). }
  assert (AO : forall o p, In o os -> In p os -> option_alike o p).
  { intros o p Io Ip. apply In_nth_error in Io. apply In_nth_error in Ip. destruct Io as [i Hi], Ip as [j Hj].
    destruct (nth_error sts' i) as [s|] eqn:Oi. 2:{ apply nth_error_None in Oi. assert (i < length os) by (apply nth_error_Some; congruence). lia. }
    destruct (nth_error sts' j) as [t|] eqn:Oj. 2:{ apply nth_error_None in Oj. assert (j < length os) by (apply nth_error_Some; congruence). lia. }
    apply (AA i j o p s t Hi Hj Oi Oj). }
  rewrite map_length in H.
  destruct (length (emitted os) =? 0) eqn:Z.
  - injection H as <-. cbn [current_values]. repeat split; auto. left. split; [reflexivity|]. destruct (emitted os); [reflexivity|discriminate].
  - destruct (length (emitted os) =? length vals) eqn:Z2; [|discriminate]. injection H as <-. cbn [current_values]. repeat split; auto. right.
    split; [reflexivity|]. split.
    + assert (G : length (emitted os) = length os) by lia. clear - G. induction os as [|[v|] os IH]; [reflexivity| |].
      * change (emitted (Some v :: os)) with (v :: emitted os) in *. cbn [length map] in *. f_equal. apply IH. lia.
      * exfalso. change (emitted (None :: os)) with (emitted os) in G. cbn [length] in G. pose proof (emitted_length_le os). lia.
    + intros ->. discriminate Z.
Qed.

Lemma ms_save_ok ms a date dur vals cv sts :
  ms_aggregator ms = Some a -> length vals = length sts -> all_alike sts ->
  (forall j x s, nth_error vals j = Some x -> nth_error sts j = Some s -> exists r, append_value a s (PV date dur x) = Ok r) ->
  exists st', ms_save ms date dur vals (MetricSetState cv (Some sts)) = Ok st'.
Proof.
  intros Ha L AL K. unfold ms_save. rewrite Ha. cbn [aggregation_states]. cbv zeta.
  destruct (append_each_ok a (map (fun x => PV date dur x) vals) sts) as [[aggs sts'] E].
  - rewrite map_length; exact L.
  - intros j v s Hv Hs. rewrite nth_error_map in Hv. destruct (nth_error vals j) as [x|] eqn:E; [|discriminate]. injection Hv as <-. eauto.
  - rewrite E. cbn [rbind].
    destruct (append_each_inv a _ sts aggs sts' ltac:(rewrite map_length; exact L) E) as (os & L1 & L2 & -> & K2).
    assert (AO : forall i j o p, nth_error os i = Some o -> nth_error os j = Some p -> option_alike o p).
    { intros i j o p Hi Hj.
      assert (Bi : i < length sts) by (rewrite <- L1; apply nth_error_Some; congruence).
      assert (Bj : j < length sts) by (rewrite <- L1; apply nth_error_Some; congruence).
      destruct (nth_error vals i) as [x|] eqn:X1; [|apply nth_error_None in X1; lia]. destruct (nth_error sts i) as [s0|] eqn:X2; [|apply nth_error_None in X2; lia].
      destruct (nth_error vals j) as [y|] eqn:Y1; [|apply nth_error_None in Y1; lia]. destruct (nth_error sts j) as [t0|] eqn:Y2; [|apply nth_error_None in Y2; lia].
      destruct (K2 i (PV date dur x) s0) as (o' & s' & A1 & A2 & A3); [rewrite nth_error_map, X1; reflexivity|exact X2|].
      destruct (K2 j (PV date dur y) t0) as (p' & t' & B1 & B2 & B3); [rewrite nth_error_map, Y1; reflexivity|exact Y2|].
      assert (o' = o) by congruence. assert (p' = p) by congruence. subst.
      pose proof (append_alike a s0 t0 (PV date dur x) (PV date dur y)) as G. rewrite A3, B3 in G. apply G.
      - apply AL; eapply nth_error_In; eassumption.
      - split; reflexivity. }
    rewrite map_length. destruct (length (emitted os) =? 0) eqn:Z; [eauto|].
    assert (G : length (emitted os) = length os).
    { destruct os as [|o os]; [discriminate Z|].
      assert (N : forall p, In p (o :: os) -> p <> None).
      { intros p Ip Hp. subst p. apply In_nth_error in Ip. destruct Ip as [i Hi].
        assert (E0 : emitted (o :: os) = []); [|rewrite E0 in Z; discriminate Z]. apply emitted_none. apply Forall_forall. intros q Iq. apply In_nth_error in Iq. destruct Iq as [k Hk].
        specialize (AO i k None q Hi Hk). destruct q; [destruct AO|reflexivity]. }
      clear - N. induction (o :: os) as [|[v|] l IH]; [reflexivity| |].
      - change (emitted (Some v :: l)) with (v :: emitted l). cbn [length]. f_equal. apply IH. intros p Hp. apply N. right; exact Hp.
      - exfalso. apply (N None); [left; reflexivity|reflexivity]. }
    destruct (length (emitted os) =? length vals) eqn:Z2; [eauto|lia].
Qed.

Lemma finalise_each_inv a : forall sts vs sts', finalise_each a sts = Ok (vs, sts') -> all_alike sts ->
  exists os, length os = length sts /\
    (forall j s, nth_error sts j = Some s -> exists o s', nth_error os j = Some o /\ finalise a s = Ok (o, s')) /\
    match vs with Some l => os = map Some l | None => Forall (fun o => o = None) os end /\
    (forall o p, In o os -> In p os -> option_alike o p).
Proof.
  intros sts vs sts' H AL.
  assert (G : forall sts vs sts', finalise_each a sts = Ok (vs, sts') ->
     (exists l, vs = Some l /\ length l = length sts /\ forall j s, nth_error sts j = Some s -> exists v s', nth_error l j = Some v /\ finalise a s = Ok (Some v, s')) \/
     (vs = None /\ exists j s s', nth_error sts j = Some s /\ finalise a s = Ok (None, s'))).
  { clear. induction sts as [|s sts IH]; intros vs sts' H; cbn [finalise_each] in H.
    - injection H as <- <-. left. exists []. repeat split. intros [|j]; discriminate.
    - apply rbind_Ok in H. destruct H as ((o, s1) & E1 & H). apply (proj1 (lift_Ok _ _)) in E1. destruct o as [v|].
      + apply rbind_Ok in H. destruct H as ((ws, sts1) & E2 & H). injection H as <- <-.
        destruct (IH _ _ E2) as [(l & -> & L & K)|(-> & j & t & t' & A & B)].
        * left. exists (v :: l). cbn [option_map length]. split; [reflexivity|]. split; [lia|]. intros [|j] t Ht; cbn [nth_error] in *; [|eauto]. injection Ht as <-. eauto.
        * right. split; [reflexivity|]. exists (S j), t, t'. auto.
      + injection H as <- <-. right. split; [reflexivity|]. exists 0, s, s1. auto. }
  destruct (G sts vs sts' H) as [(l & -> & L & K)|(-> & j & s & s' & A & B)].
  - exists (map Some l). rewrite map_length. split; [exact L|]. split.
    + intros j s Hs. destruct (K j s Hs) as (v & s' & Hv & Hf). exists (Some v), s'. rewrite nth_error_map, Hv. auto.
    + split; [reflexivity|]. intros o p Ho Hp. apply in_map_iff in Ho, Hp. destruct Ho as (v & <- & Iv), Hp as (w & <- & Iw).
      apply In_nth_error in Iv, Iw. destruct Iv as [i Hi], Iw as [k Hk].
      assert (Bi : i < length sts) by (rewrite <- L; apply nth_error_Some; congruence).
      assert (Bk : k < length sts) by (rewrite <- L; apply nth_error_Some; congruence).
      destruct (nth_error sts i) as [s|] eqn:Si; [|apply nth_error_None in Si; lia]. destruct (nth_error sts k) as [t|] eqn:Sk; [|apply nth_error_None in Sk; lia].
      destruct (K i s Si) as (v' & s' & V1 & V2). destruct (K k t Sk) as (w' & t' & W1 & W2).
      assert (v' = v) by congruence. assert (w' = w) by congruence. subst.
      pose proof (finalise_alike a s t (AL _ _ (nth_error_In _ _ Si) (nth_error_In _ _ Sk))) as F. rewrite V2, W2 in F. exact (proj1 F).
  - exists (repeat None (length sts)). rewrite repeat_length. split; [reflexivity|].
    assert (N : forall k o, nth_error (repeat (@None pvalue) (length sts)) k = Some o -> o = None).
    { intros k o Hk. apply nth_error_In in Hk. apply repeat_spec in Hk. exact Hk. }
    split; [|split; [apply Forall_forall; intros o Ho; apply repeat_spec in Ho; exact Ho|intros o p Ho Hp; apply repeat_spec in Ho, Hp; subst; exact I]].
    intros k t Ht. assert (Bk : k < length sts) by (apply nth_error_Some; congruence).
    pose proof (finalise_alike a s t (AL _ _ (nth_error_In _ _ A) (nth_error_In _ _ Ht))) as F. rewrite B in F.
    destruct (finalise a t) as [[o t']| |] eqn:E; try destruct F. cbn [fst] in *. destruct o; [contradiction|].
    exists None, t'. split; [|auto]. destruct (nth_error (repeat None (length sts)) k) as [o|] eqn:EK; [f_equal; apply (N k o EK)|].
    apply nth_error_None in EK. rewrite repeat_length in EK. lia.
Qed.
