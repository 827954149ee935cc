(** C22, C23, C24: delay, rolling, threshold and switch parameters over every
    history of the values they depend on. *)
From Coq Require Import QArith Qabs.
From Verif Require Import Base AggFuncs ParamBuild ParamBuildSpec ParamEval ParamEvalSpec
  ParamsTemporal ParamsTemporalSpec ParamsTemporalLemmas ParamMemorySpec ParamMemoryLemmas.
Local Open Scope nat_scope.

(** C22, driven by model results: from a delay of one time-step on. *)
Theorem C22_general : forall (A : Type) (n : nat) (initial : A) (history : list A), 1 <= n ->
  hooked_run delay_before delay_after (delay_setup n initial) history
  = Ok (map (delayed n initial history) (seq 0 (length history))).
Proof. exact @delay_general. Qed.
Print Assumptions C22_general.

(** C22, driven by simple inputs: any delay, including none. *)
Theorem C22_simple : forall (A : Type) (n : nat) (initial : A) (history : list A),
  direct_run delay_compute (delay_setup n initial) history
  = Ok (map (delayed n initial history) (seq 0 (length history))).
Proof. exact @delay_simple. Qed.
Print Assumptions C22_simple.

(** A delay of no time-steps driven by model results fails in the first
    time-step; it never returns a wrong value. *)
Theorem C22_general_zero : forall (A : Type) (initial first : A) (rest : list A),
  hooked_run delay_before delay_after (delay_setup 0 initial) (first :: rest) = Err tt.
Proof. exact @delay_general_zero. Qed.
Print Assumptions C22_general_zero.

(** C22 in a run of a whole network, where the values the delay depends on may
    in turn depend on the delayed ones: if the outputs record the delay (at
    position [i]) and the metric it delays (at position [j]), then what is
    recorded for the delay in a time-step is what was recorded for the metric
    [n] time-steps earlier. *)
Theorem C22_in_model :
  forall (V St Env Net Er : Type) (sm : sem V St Env Net Er) nodes other bs c m nd nw envs outss b u ud i j n initial,
  build nodes other bs = Some (Ok (c, m)) -> resolve_network m nd = Ok nw ->
  plain_builders bs -> plain_network nd -> (forall b, In b bs -> well_typed b) ->
  simulate sm nw c envs = Ok outss ->
  In b bs -> memory_builder b u -> delay_parameter sm (pb_name b) n initial ->
  ref_target ud = Some (pb_name b, RVBefore) ->
  (forall t v, type_of bs (pb_name b) = Some t -> sm_view sm (conversion ud t) v = Ok v) ->
  nth_error (nd_out nd) i = Some ud -> nth_error (nd_out nd) j = Some u ->
  forall t outs, nth_error outss t = Some outs ->
    (t < n -> nth_error outs i = Some (Ok initial)) /\
    (n <= t -> exists outs' v, nth_error outss (t - n) = Some outs' /\
       nth_error outs' j = Some (Ok v) /\ nth_error outs i = Some (Ok v)).
Proof. exact @delay_in_model. Qed.
Print Assumptions C22_in_model.

Example C22_case :
  hooked_run delay_before delay_after (delay_setup 2 0%Z) [5; 6; 7; 8]%Z = Ok [0; 0; 5; 6]%Z /\
  direct_run delay_compute (delay_setup 2 0%Z) [5; 6; 7; 8]%Z = Ok [0; 0; 5; 6]%Z /\
  direct_run delay_compute (delay_setup 0 0%Z) [5; 6]%Z = Ok [5; 6]%Z.
Proof. repeat split. Qed.

(** C23, driven by model results and by simple inputs: the run returns the
    aggregation of the window in each time-step, and fails exactly when the
    aggregation function fails. *)
Theorem C23_general : forall (A E : Type) (agg : list A -> res E A) window min_values initial history,
  hooked_run (rolling_before agg min_values initial) (rolling_after window) rolling_setup history
  = rmap (rolling agg window min_values initial history) (seq 0 (length history)).
Proof. exact @rolling_general. Qed.
Print Assumptions C23_general.

Theorem C23_simple : forall (A E : Type) (agg : list A -> res E A) window min_values initial history,
  direct_run (rolling_compute agg window min_values initial) rolling_setup history
  = rmap (rolling agg window min_values initial history) (seq 0 (length history)).
Proof. exact @rolling_simple. Qed.
Print Assumptions C23_simple.

(** The window at time-step [t] holds exactly the [min t window] values before
    [t], in order: those of time-steps [t - min t window] up to [t - 1]. *)
Theorem C23_window : forall (A : Type) window (history : list A) t, t <= length history ->
  length (last_values window (firstn t history)) = Nat.min t window /\
  forall k, k < Nat.min t window ->
    nth_error (last_values window (firstn t history)) k = nth_error history (t - Nat.min t window + k).
Proof.
  intros A w h t H. split; [apply rolling_window_length; exact H|]. intros k Hk. apply rolling_window_values; assumption.
Qed.
Print Assumptions C23_window.

(** A minimum larger than the window can never be reached. *)
Theorem C23_minimum_beyond_window : forall (A E : Type) (agg : list A -> res E A) window min_values initial history,
  window < min_values ->
  hooked_run (rolling_before agg min_values initial) (rolling_after window) rolling_setup history
  = Ok (map (fun _ => initial) history).
Proof.
  intros A E agg w m i h Hm. rewrite rolling_general. erewrite rmap_ext with (g := fun _ => Ok i).
  - rewrite rmap_Ok_map, !map_const_repeat, seq_length. reflexivity.
  - intros t Ht. apply in_seq in Ht. unfold rolling. rewrite rolling_window_length by lia.
    destruct (Nat.min t w <? m) eqn:E0; [reflexivity|lia].
Qed.
Print Assumptions C23_minimum_beyond_window.

(** C23 in a run of a whole network. *)
Theorem C23_in_model :
  forall (V St Env Net Er : Type) (sm : sem V St Env Net Er) nodes other bs c m nd nw envs outss b u ud i j
    agg window min_values initial,
  build nodes other bs = Some (Ok (c, m)) -> resolve_network m nd = Ok nw ->
  plain_builders bs -> plain_network nd -> (forall b, In b bs -> well_typed b) ->
  simulate sm nw c envs = Ok outss ->
  In b bs -> memory_builder b u -> rolling_parameter sm (pb_name b) agg window min_values initial ->
  ref_target ud = Some (pb_name b, RVBefore) ->
  (forall t v, type_of bs (pb_name b) = Some t -> sm_view sm (conversion ud t) v = Ok v) ->
  nth_error (nd_out nd) i = Some ud -> nth_error (nd_out nd) j = Some u ->
  exists history,
    Forall2 (fun outs h => nth_error outs j = Some (Ok h)) outss history /\
    forall t outs, nth_error outss t = Some outs ->
      exists v, rolling agg window min_values initial history t = Ok v /\ nth_error outs i = Some (Ok v).
Proof. exact @rolling_in_model. Qed.
Print Assumptions C23_in_model.

(** A network in which the solver adds the environment, the delayed and the
    rolling value to the state that both of them observe. *)
Definition memory_shape_of (ks : list mclass) : option shape :=
  if forallb (fun k => match k with KGeneral => false | _ => true end) ks then Some ShSimple
  else Some (ShGeneral true (Some OpHook)).
Definition memory_bs : list pbuilder :=
  [ PBuilder 1 PF64 true [(UOther 7, CAfter)] memory_shape_of;
    PBuilder 2 PF64 true [(UOther 7, CAfter)] memory_shape_of ].
Definition memory_nd : network_def :=
  NetworkDef [] [] [UF64 1 RVBefore; UF64 2 RVBefore] [UF64 1 RVBefore; UF64 2 RVBefore; UOther 7].
Definition memory_sum (l : list (res unit Z)) : Z :=
  fold_right (fun r a => match r with Ok v => (v + a)%Z | _ => a end) 0%Z l.
Definition rolling_agg : list Z -> res unit Z := calc_iter_u64 Wrapping USum.
Definition memory_sem : sem Z (list Z) Z Z unit :=
  Sem (fun _ => 0%Z) (fun _ => 0%Z) (fun _ v => Ok v)
    (fun n => if n =? 1 then delay_setup 2 100%Z else rolling_setup)
    (fun _ _ x => Ok (0%Z, x))
    (fun _ n l x => match l with
       | [r] => rbind r (fun v => if n =? 1 then delay_compute v x else rolling_compute rolling_agg 2 1 50%Z v x)
       | _ => Err tt end)
    (fun _ n _ x => if n =? 1 then delay_before x else rolling_before rolling_agg 1 50%Z x)
    (fun _ _ _ x => Ok (0%Z, x))
    (fun _ n l x => match l with
       | [r] => rbind r (fun v => Ok (if n =? 1 then delay_after v x else rolling_after 2 v x))
       | _ => Err tt end)
    (fun net _ => Ok net) 0%Z
    (fun _ _ net => Ok net)
    (fun env l _ => Ok (env + memory_sum l)%Z) tt.
Definition memory_build : collection * maps :=
  match build [] [7] memory_bs with Some (Ok p) => p | _ => (empty_collection, initial_maps [] []) end.
Definition memory_network : network :=
  match resolve_network (snd memory_build) memory_nd with Ok nw => nw | _ => Network [] [] [] [] end.

Example C22_C23_model_case :
  build [] [7] memory_bs = Some (Ok (fst memory_build, snd memory_build)) /\
  resolve_network (snd memory_build) memory_nd = Ok memory_network /\
  plain_builders memory_bs /\ plain_network memory_nd /\ (forall b, In b memory_bs -> well_typed b) /\
  (forall b, In b memory_bs -> memory_builder b (UOther 7)) /\
  delay_parameter memory_sem 1 2 100%Z /\ rolling_parameter memory_sem 2 rolling_agg 2 1 50%Z /\
  simulate memory_sem memory_network (fst memory_build) [1; 2; 3; 4]%Z
  = Ok [[Ok 100; Ok 50; Ok 151]; [Ok 100; Ok 151; Ok 253]; [Ok 151; Ok 404; Ok 558]; [Ok 253; Ok 811; Ok 1068]]%Z.
Proof.
  split; [vm_compute; reflexivity|]. split; [vm_compute; reflexivity|].
  split; [intros b u ph [<-|[<-|[]]] [H|[]]; injection H as <- <-; exact I|].
  split; [intros u Hu; cbn in Hu; repeat (destruct Hu as [<-|Hu]; [exact I|]); destruct Hu|].
  split.
  { intros b Hb. assert (Hs : pb_shape b = memory_shape_of) by (destruct Hb as [<-|[<-|[]]]; reflexivity).
    intros ks sh H. rewrite Hs in H. unfold memory_shape_of in H.
    destruct (forallb _ ks) eqn:E; injection H as <-; [|exact I].
    apply Forall_forall. intros k Hk. rewrite forallb_forall in E. specialize (E k Hk). destruct k; [discriminate|discriminate|discriminate E]. }
  split; [intros b [<-|[<-|[]]]; repeat split|].
  split; [exists (fun q => q), tt; split|].
  - reflexivity.
  - intros env s. cbn. unfold delay_before. destruct s; reflexivity.
  - reflexivity.
  - intros env r s. cbn. destruct r as [v| |]; try reflexivity. cbn [rbind]. unfold delay_compute. destruct s; reflexivity.
  - split; [exists (fun q => q); split|vm_compute; reflexivity].
    + reflexivity.
    + intros env s. cbn [sm_before memory_sem Nat.eqb].
      destruct (rolling_before rolling_agg 1 50%Z s) as [[v q]| |]; reflexivity.
    + reflexivity.
    + intros env r s. cbn [sm_simple memory_sem Nat.eqb]. destruct r as [v| |]; try reflexivity. cbn [rbind].
      destruct (rolling_compute rolling_agg 2 1 50%Z v s) as [[v' q]| |]; reflexivity.
Qed.

Example C23_case :
  hooked_run (rolling_before (calc_iter_u64 Checked USum) 2 9%Z) (rolling_after 3) rolling_setup [1; 2; 3; 4; 5; 6]%Z
  = Ok [9; 9; 3; 6; 9; 12]%Z.
Proof. reflexivity. Qed.

(** C24: a ratcheting threshold is on exactly if it has been met by now. *)
Theorem C24_threshold_ratchet : forall p history,
  exists outs, direct_run (threshold_before p true) threshold_setup history = Ok outs /\
    length outs = length history /\
    forall t o, nth_error outs t = Some o ->
      (o = 1%Z /\ exists u, u <= t /\ met_at p history u) \/
      (o = 0%Z /\ ~ exists u, u <= t /\ met_at p history u).
Proof. exact threshold_ratchet. Qed.
Print Assumptions C24_threshold_ratchet.

(** In particular it never releases. *)
Theorem C24_threshold_never_releases : forall p history outs t u,
  direct_run (threshold_before p true) threshold_setup history = Ok outs ->
  nth_error outs t = Some 1%Z -> t <= u -> u < length history -> nth_error outs u = Some 1%Z.
Proof.
  intros p h outs t u Hr Ht Htu Hu. destruct (threshold_ratchet p h) as (outs' & Hr' & Hl & Ho).
  rewrite Hr in Hr'. injection Hr' as <-.
  destruct (Ho t _ Ht) as [[_ (w & Hw & Hm)]|[H _]]; [|discriminate].
  destruct (nth_error outs u) as [o|] eqn:E; [|apply nth_error_None in E; lia].
  destruct (Ho u o E) as [[-> _]|[_ H]]; [reflexivity|]. exfalso. apply H. exists w. split; [lia|exact Hm].
Qed.
Print Assumptions C24_threshold_never_releases.

(** Without ratchet it is on exactly when it is met now. *)
Theorem C24_threshold_plain : forall p history,
  exists outs, direct_run (threshold_before p false) threshold_setup history = Ok outs /\
    length outs = length history /\
    forall t o, nth_error outs t = Some o ->
      (o = 1%Z /\ met_at p history t) \/ (o = 0%Z /\ ~ met_at p history t).
Proof. exact threshold_plain. Qed.
Print Assumptions C24_threshold_plain.

(** A ratcheting multi-threshold returns the largest position seen so far. *)
Theorem C24_multi_threshold_ratchet : forall p history,
  exists outs, direct_run (multi_threshold_before p true) multi_threshold_setup history = Ok outs /\
    length outs = length history /\
    forall t o, nth_error outs t = Some o ->
      (exists u, u <= t /\ first_met_at p history u o) /\
      (forall u k, u <= t -> first_met_at p history u k -> k <= o).
Proof. exact multi_threshold_ratchet. Qed.
Print Assumptions C24_multi_threshold_ratchet.

Theorem C24_multi_threshold_plain : forall p history,
  exists outs, direct_run (multi_threshold_before p false) multi_threshold_setup history = Ok outs /\
    length outs = length history /\
    forall t o, nth_error outs t = Some o -> first_met_at p history t o.
Proof. exact multi_threshold_plain. Qed.
Print Assumptions C24_multi_threshold_plain.

(** The position that is met first is unique. *)
Theorem C24_first_met_unique : forall p value thresholds j k,
  first_met p value thresholds j -> first_met p value thresholds k -> j = k.
Proof. exact first_met_unique. Qed.
Print Assumptions C24_first_met_unique.

(** The asymmetric switch is on exactly if there was an on signal after which
    both signals were never absent together. *)
Theorem C24_switch : forall history,
  exists outs, direct_run switch_before switch_setup history = Ok outs /\
    length outs = length history /\
    forall t o, nth_error outs t = Some o ->
      let on := exists u, u <= t /\ on_at history u /\ forall v, u < v -> v <= t -> ~ all_off_at history v in
      (o = 1%Z /\ on) \/ (o = 0%Z /\ ~ on).
Proof. exact asymmetric_switch. Qed.
Print Assumptions C24_switch.

Example C24_case :
  direct_run (threshold_before PLess true) threshold_setup [(5, 4); (3, 4); (6, 4)]%Q = Ok [0; 1; 1]%Z /\
  direct_run (threshold_before PLess false) threshold_setup [(5, 4); (3, 4); (6, 4)]%Q = Ok [0; 1; 0]%Z /\
  direct_run (multi_threshold_before PGreater true) multi_threshold_setup
    [(9, [7; 5]); (6, [7; 5]); (8, [7; 5])]%Q = Ok [0; 1; 1] /\
  direct_run switch_before switch_setup [(0, 1); (1, 1); (0, 1); (0, 0); (0, 1)]%Z = Ok [0; 1; 1; 0; 0]%Z.
Proof. repeat split. Qed.
