(** Proofs about the parameters with a memory. *)
From Coq Require Import QArith Qabs Lqa.
From Verif Require Import Base AggFuncs ParamsTemporal ParamsTemporalSpec.
Local Open Scope nat_scope.

Lemma nth_app_cases {A} (l1 l2 : list A) i d :
  nth i (l1 ++ l2) d = if i <? length l1 then nth i l1 d else nth (i - length l1) l2 d.
Proof.
  destruct (i <? length l1) eqn:E.
  - apply app_nth1. lia.
  - apply app_nth2. lia.
Qed.
Lemma map_const_repeat {A B} (b : B) (l : list A) : map (fun _ => b) l = repeat b (length l).
Proof. induction l; cbn; congruence. Qed.
Lemma delay_setup_repeat {A} n (i : A) : delay_setup n i = repeat i n.
Proof. unfold delay_setup. rewrite map_const_repeat, seq_length. reflexivity. Qed.

Lemma rmap_Ok_map {E A B} (f : A -> B) l : rmap (fun a => Ok (f a)) l = Ok (E := E) (map f l).
Proof. induction l; cbn; [reflexivity | rewrite IHl; reflexivity]. Qed.

Lemma delayed_queue {A} n (i : A) h t : t < length h -> nth t (repeat i n ++ h) i = delayed n i h t.
Proof.
  intros H. unfold delayed. rewrite nth_app_cases, repeat_length. destruct (t <? n) eqn:E; [|reflexivity].
  apply nth_repeat.
Qed.

Lemma map_delayed {A} n (i : A) h : map (delayed n i h) (seq 0 (length h)) = firstn (length h) (repeat i n ++ h).
Proof.
  apply nth_ext with (d := i) (d' := i).
  - rewrite map_length, seq_length, firstn_length, app_length, repeat_length. lia.
  - intros t Ht. rewrite map_length, seq_length in Ht.
    rewrite nth_indep with (d' := delayed n i h 0) by (rewrite map_length, seq_length; lia).
    rewrite map_nth, seq_nth by lia. cbn [plus].
    rewrite <- delayed_queue by lia.
    rewrite <- (firstn_skipn (length h) (repeat i n ++ h)) at 1.
    apply app_nth1. rewrite firstn_length, app_length, repeat_length. lia.
Qed.

Lemma delay_general_queue {A} h : forall q : list A, 1 <= length q ->
  hooked_run delay_before delay_after q h = Ok (firstn (length h) (q ++ h)).
Proof.
  induction h as [|a h IH]; intros q Hq; [reflexivity|].
  destruct q as [|v q]; [cbn in Hq; lia|].
  cbn [hooked_run]. unfold delay_before at 1. cbn [pop_front rbind fst snd].
  rewrite IH by (unfold delay_after, push_back; rewrite app_length; cbn; lia).
  cbn [rbind]. unfold delay_after, push_back. rewrite <- app_assoc. reflexivity.
Qed.
Lemma delay_general {A} n (i : A) h : 1 <= n ->
  hooked_run delay_before delay_after (delay_setup n i) h = Ok (map (delayed n i h) (seq 0 (length h))).
Proof.
  intros Hn. rewrite delay_general_queue by (rewrite delay_setup_repeat, repeat_length; lia).
  rewrite map_delayed, delay_setup_repeat. reflexivity.
Qed.
Lemma delay_general_zero {A} (i a : A) h :
  hooked_run delay_before delay_after (delay_setup 0 i) (a :: h) = Err tt.
Proof. reflexivity. Qed.

Lemma delay_simple_queue {A} h : forall q : list A,
  direct_run delay_compute q h = Ok (firstn (length h) (q ++ h)).
Proof.
  induction h as [|a h IH]; intros q; [reflexivity|].
  cbn [direct_run]. unfold delay_compute at 1, push_back.
  replace (q ++ a :: h) with ((q ++ [a]) ++ h) by (rewrite <- app_assoc; reflexivity).
  destruct (q ++ [a]) as [|v q'] eqn:E; [destruct q; discriminate|].
  cbn [pop_front rbind fst snd]. rewrite IH. cbn [rbind length firstn app]. reflexivity.
Qed.
Lemma delay_simple {A} n (i : A) h :
  direct_run delay_compute (delay_setup n i) h = Ok (map (delayed n i h) (seq 0 (length h))).
Proof. rewrite delay_simple_queue, map_delayed, delay_setup_repeat. reflexivity. Qed.

(** ** Rolling *)
Lemma last_values_push {A} w (v : A) seen :
  rolling_after w v (last_values w seen) = last_values w (seen ++ [v]).
Proof.
  unfold rolling_after, push_back, last_values. rewrite app_length, skipn_length, app_length. cbn [length].
  destruct (w <? length seen - (length seen - w) + 1) eqn:E.
  - assert (w <= length seen) by lia.
    replace (length seen + 1 - w) with (S (length seen - w)) by lia.
    assert (Htl : forall (l : list A) k x, k <= length l -> snd (pop_front (skipn k l ++ [x])) = skipn (S k) (l ++ [x])).
    { clear. induction l as [|y l IH]; intros k x Hk.
      - cbn in Hk. replace k with 0 by lia. reflexivity.
      - destruct k; [reflexivity|]. cbn [skipn app]. rewrite IH by (cbn in Hk; lia). reflexivity. }
    apply Htl. lia.
  - replace (length seen - w) with 0 by lia. replace (length seen + 1 - w) with 0 by lia. reflexivity.
Qed.

Lemma rmap_seq_shift {E A} (f : nat -> res E A) k n : rmap f (seq (S k) n) = rmap (fun t => f (S t)) (seq k n).
Proof. revert k. induction n; intros k; [reflexivity|]. cbn. destruct (f (S k)); try reflexivity. rewrite IHn. reflexivity. Qed.
Lemma rmap_ext_seq {E A} (f g : nat -> res E A) n : (forall t, t < n -> f t = g t) -> rmap f (seq 0 n) = rmap g (seq 0 n).
Proof. intros H. apply rmap_ext. intros t Ht. apply H. apply in_seq in Ht. lia. Qed.

Lemma rolling_run_general {A E} (agg : list A -> res E A) w m i h : forall seen,
  hooked_run (rolling_before agg m i) (rolling_after w) (last_values w seen) h
  = rmap (fun t => rolling agg w m i (seen ++ h) (length seen + t)) (seq 0 (length h)).
Proof.
  induction h as [|a h IH]; intros seen; [reflexivity|].
  cbn [hooked_run length seq rmap]. rewrite Nat.add_0_r.
  unfold rolling at 1. rewrite firstn_app, Nat.sub_diag, firstn_all. cbn [firstn]. rewrite app_nil_r.
  unfold rolling_before at 1.
  assert (Hrec : rbind (hooked_run (rolling_before agg m i) (rolling_after w) (rolling_after w a (last_values w seen)) h)
     = fun k : list A -> res E (list A) => rbind (rmap (fun t => rolling agg w m i (seen ++ a :: h) (length seen + t)) (seq 1 (length h))) k).
  { rewrite last_values_push, IH.
    replace (rmap (fun t => rolling agg w m i ((seen ++ [a]) ++ h) (length (seen ++ [a]) + t)) (seq 0 (length h)))
      with (rmap (fun t => rolling agg w m i (seen ++ a :: h) (length seen + t)) (seq 1 (length h))); [reflexivity|].
    rewrite rmap_seq_shift. apply rmap_ext. intros t _.
    rewrite <- app_assoc, app_length. cbn [length app]. f_equal. lia. }
  destruct (length (last_values w seen) <? m); [|destruct (agg (last_values w seen)); [|reflexivity|reflexivity]];
    cbn [rbind fst snd]; rewrite Hrec;
    destruct (rmap (fun t => rolling agg w m i (seen ++ a :: h) (length seen + t)) (seq 1 (length h))); reflexivity.
Qed.
Lemma rolling_general {A E} (agg : list A -> res E A) w m i h :
  hooked_run (rolling_before agg m i) (rolling_after w) rolling_setup h = rmap (rolling agg w m i h) (seq 0 (length h)).
Proof.
  change rolling_setup with (last_values w (@nil A)). rewrite rolling_run_general. apply rmap_ext. intros t _. reflexivity.
Qed.
Lemma rolling_direct_hooked {A E} (agg : list A -> res E A) w m i h : forall s,
  direct_run (rolling_compute agg w m i) s h = hooked_run (rolling_before agg m i) (rolling_after w) s h.
Proof.
  induction h as [|a h IH]; intros s; [reflexivity|].
  cbn [direct_run hooked_run]. unfold rolling_compute at 1, rolling_before at 1.
  destruct (length s <? m); cbn [rbind fst snd].
  - rewrite IH. reflexivity.
  - destruct (agg s); cbn [rbind fst snd]; [rewrite IH|..]; reflexivity.
Qed.
Lemma rolling_simple {A E} (agg : list A -> res E A) w m i h :
  direct_run (rolling_compute agg w m i) rolling_setup h = rmap (rolling agg w m i h) (seq 0 (length h)).
Proof. rewrite rolling_direct_hooked. apply rolling_general. Qed.
Lemma rolling_window_length {A} w (h : list A) t : t <= length h -> length (last_values w (firstn t h)) = Nat.min t w.
Proof. intros H. unfold last_values. rewrite skipn_length, firstn_length. lia. Qed.
Lemma rolling_window_values {A} w (h : list A) t k : t <= length h -> k < Nat.min t w ->
  nth_error (last_values w (firstn t h)) k = nth_error h (t - Nat.min t w + k).
Proof.
  intros H Hk. unfold last_values. rewrite firstn_length_le by lia.
  replace (t - w) with (t - Nat.min t w) by lia. set (d := t - Nat.min t w).
  assert (Hs : forall (l : list A) a b, nth_error (skipn a l) b = nth_error l (a + b)).
  { induction l; intros [|x] b; cbn; try reflexivity; [destruct b; reflexivity| apply IHl]. }
  rewrite Hs. clear Hs. assert (Hlt : d + k < t) by lia. revert Hlt. generalize (d + k). clear. intros n Hlt. revert n t Hlt. induction h; intros n t Hlt; destruct t; try lia; [destruct n; reflexivity|].
  destruct n; [reflexivity|]. cbn. apply IHh. lia.
Qed.

(** ** Thresholds *)
Lemma predicate_holds p v th : predicate_apply p v th = true <-> holds p v th.
Proof.
  destruct p; cbn.
  - rewrite negb_true_iff. split; intros H.
    + apply Qnot_le_lt. intros H'. apply Qle_bool_iff in H'. congruence.
    + destruct (Qle_bool th v) eqn:E; [apply Qle_bool_iff in E; lra|reflexivity].
  - rewrite negb_true_iff. split; intros H.
    + apply Qnot_le_lt. intros H'. apply Qle_bool_iff in H'. congruence.
    + destruct (Qle_bool v th) eqn:E; [apply Qle_bool_iff in E; lra|reflexivity].
  - apply Qle_bool_iff.
  - apply Qle_bool_iff.
  - apply Qle_bool_iff.
Qed.

Lemma direct_run_spec {S A V E} (f : A -> S -> res E (V * S)) (P : S -> list A -> Prop) (R : list A -> V -> Prop) :
  (forall s seen a, P s seen -> exists v s', f a s = Ok (v, s') /\ P s' (seen ++ [a]) /\ R (seen ++ [a]) v) ->
  forall h s seen, P s seen -> exists vs, direct_run f s h = Ok vs /\ length vs = length h /\
    forall t v, nth_error vs t = Some v -> R (seen ++ firstn (Datatypes.S t) h) v.
Proof.
  intros Hf. induction h as [|a h IH]; intros s seen HP.
  - exists []. repeat split. intros [|t] v H; discriminate.
  - destruct (Hf s seen a HP) as (v & s' & Hfa & HP' & HR).
    destruct (IH s' _ HP') as (vs & Hrun & Hlen & Hvs).
    exists (v :: vs). cbn [direct_run]. rewrite Hfa. cbn [rbind fst snd]. rewrite Hrun. cbn [rbind]. repeat split.
    + cbn. congruence.
    + intros [|t] v' Hv; cbn in Hv.
      * injection Hv as <-. exact HR.
      * apply Hvs in Hv. rewrite <- app_assoc in Hv. exact Hv.
Qed.

Lemma nth_error_firstn {A} (l : list A) t u : u < t -> nth_error (firstn t l) u = nth_error l u.
Proof. revert t u. induction l; intros [|t] [|u] H; cbn; try lia; try reflexivity. apply IHl. lia. Qed.
Lemma nth_error_snoc {A} (l : list A) a u x :
  nth_error (l ++ [a]) u = Some x <-> nth_error l u = Some x \/ (u = length l /\ x = a).
Proof.
  destruct (lt_eq_lt_dec u (length l)) as [[H|H]|H].
  - rewrite nth_error_app1 by lia. split; [tauto|]. intros [?|[? ?]]; [assumption|lia].
  - subst u. rewrite nth_error_app2, Nat.sub_diag by lia. cbn. split.
    + intros [= ->]. right. split; reflexivity.
    + intros [E|[_ ->]]; [|reflexivity]. assert (nth_error l (length l) <> None) by congruence. apply nth_error_Some in H. lia.
  - split; [|intros [E|[E _]]; [|lia]].
    + intros E. assert (nth_error (l ++ [a]) u <> None) by congruence. apply nth_error_Some in H0. rewrite app_length in H0. cbn in H0. lia.
    + assert (nth_error l u <> None) by congruence. apply nth_error_Some in H0. lia.
Qed.

Definition ever_met (p : predicate) (h : list (Q * Q)) : Prop := exists u, met_at p h u.

Lemma ever_met_snoc p h v th : ever_met p (h ++ [(v, th)]) <-> ever_met p h \/ holds p v th.
Proof.
  unfold ever_met, met_at. split.
  - intros (u & v' & th' & Hn & Hh). apply nth_error_snoc in Hn. destruct Hn as [Hn|[_ Hn]].
    + left. exists u, v', th'. tauto.
    + injection Hn as -> ->. right. exact Hh.
  - intros [(u & v' & th' & Hn & Hh)|Hh].
    + exists u, v', th'. split; [|exact Hh]. apply nth_error_snoc. left. exact Hn.
    + exists (length h), v, th. split; [|exact Hh]. apply nth_error_snoc. right. tauto.
Qed.
Lemma ever_met_firstn p h t : t < length h -> ever_met p (firstn (S t) h) <-> exists u, u <= t /\ met_at p h u.
Proof.
  intros Ht. split.
  - intros (u & v & th & Hn & Hh).
    assert (u < length (firstn (S t) h)) by (apply nth_error_Some; congruence). rewrite firstn_length in H.
    exists u. split; [lia|]. exists v, th. rewrite nth_error_firstn in Hn by lia. tauto.
  - intros (u & Hu & v & th & Hn & Hh). exists u, v, th. rewrite nth_error_firstn by lia. tauto.
Qed.

Lemma threshold_ratchet p h :
  exists outs, direct_run (threshold_before p true) threshold_setup h = Ok outs /\ length outs = length h /\
    forall t o, nth_error outs t = Some o ->
      (o = 1%Z /\ exists u, u <= t /\ met_at p h u) \/ (o = 0%Z /\ ~ exists u, u <= t /\ met_at p h u).
Proof.
  destruct (direct_run_spec (threshold_before p true)
    (fun s seen => s = true <-> ever_met p seen)
    (fun seen o => (o = 1%Z /\ ever_met p seen) \/ (o = 0%Z /\ ~ ever_met p seen))) with (h := h) (s := threshold_setup) (seen := @nil (Q * Q)) as (outs & Hr & Hl & Ho).
  - intros s seen [v th] HP. unfold threshold_before. cbn [fst snd].
    destruct s; cbn [andb].
    + exists 1%Z, true. split; [reflexivity|]. assert (ever_met p seen) by (apply HP; reflexivity).
      rewrite ever_met_snoc. tauto.
    + assert (Hno : ~ ever_met p seen) by (intros H; apply HP in H; discriminate).
      destruct (predicate_apply p v th) eqn:E.
      * apply predicate_holds in E. exists 1%Z, true. split; [reflexivity|]. rewrite ever_met_snoc. tauto.
      * assert (~ holds p v th) by (intros H; apply predicate_holds in H; congruence).
        exists 0%Z, false. split; [reflexivity|]. rewrite ever_met_snoc. split; [|tauto]. split; [discriminate|tauto].
  - split; [discriminate|]. intros (u & v & th & Hn & _). destruct u; discriminate.
  - exists outs. split; [exact Hr|]. split; [exact Hl|]. intros t o Hn. pose proof (Ho t o Hn) as H. cbn [app] in H.
    assert (t < length h) by (rewrite <- Hl; apply nth_error_Some; congruence).
    rewrite ever_met_firstn in H by assumption. exact H.
Qed.

Lemma firstn_S_last {A} (h : list A) t x : nth_error h t = Some x -> firstn (S t) h = firstn t h ++ [x].
Proof. revert t. induction h; intros [|t] H; try discriminate; cbn in *; [injection H as ->; reflexivity|]. rewrite (IHh t H). reflexivity. Qed.

Lemma snoc_inj {A} (l l' : list A) a a' : l ++ [a] = l' ++ [a'] -> a = a'.
Proof. intros H. apply app_inj_tail in H. tauto. Qed.

Lemma threshold_plain p h :
  exists outs, direct_run (threshold_before p false) threshold_setup h = Ok outs /\ length outs = length h /\
    forall t o, nth_error outs t = Some o -> (o = 1%Z /\ met_at p h t) \/ (o = 0%Z /\ ~ met_at p h t).
Proof.
  destruct (direct_run_spec (threshold_before p false) (fun _ _ => True)
    (fun seen o => exists l v th, seen = l ++ [(v, th)] /\ ((o = 1%Z /\ holds p v th) \/ (o = 0%Z /\ ~ holds p v th))))
    with (h := h) (s := threshold_setup) (seen := @nil (Q * Q)) as (outs & Hr & Hl & Ho).
  - intros s seen [v th] _. unfold threshold_before. cbn [andb fst snd].
    destruct (predicate_apply p v th) eqn:E.
    + apply predicate_holds in E. exists 1%Z, true. split; [reflexivity|]. split; [exact I|]. exists seen, v, th. tauto.
    + assert (~ holds p v th) by (intros H; apply predicate_holds in H; congruence).
      exists 0%Z, s. split; [reflexivity|]. split; [exact I|]. exists seen, v, th. tauto.
  - exact I.
  - exists outs. split; [exact Hr|]. split; [exact Hl|]. intros t o Hn. destruct (Ho t o Hn) as (l & v & th & Hs & H).
    assert (Ht : t < length h) by (rewrite <- Hl; apply nth_error_Some; congruence).
    destruct (nth_error h t) as [[v' th']|] eqn:En; [|apply nth_error_None in En; lia].
    cbn [app] in Hs. rewrite (firstn_S_last _ _ _ En) in Hs. apply snoc_inj in Hs. injection Hs as -> ->.
    unfold met_at. destruct H as [[-> H]|[-> H]]; [left|right]; (split; [reflexivity|]).
    + exists v, th. tauto.
    + intros (v2 & th2 & E2 & H2). rewrite En in E2. injection E2 as -> ->. tauto.
Qed.

(** ** Multi-threshold *)
Lemma multi_position_spec p v ths : forall k, exists j, multi_position p v ths k = k + j /\ first_met p v ths j.
Proof.
  induction ths as [|th ths IH]; intros k; cbn [multi_position].
  - exists 0. split; [lia|]. split; [|left; reflexivity]. intros j th H. destruct j; discriminate.
  - destruct (predicate_apply p v th) eqn:E.
    + apply predicate_holds in E. exists 0. split; [lia|]. split; [lia|]. right. exists th. split; [reflexivity|exact E].
    + destruct (IH (k + 1)) as (j & Hj & Hno & Hend). exists (S j). split; [lia|]. split.
      * intros [|j'] th' Hn Hlt; cbn in Hn.
        -- injection Hn as <-. intros H. apply predicate_holds in H. congruence.
        -- apply (Hno j'); [exact Hn|lia].
      * destruct Hend as [->|(th' & Hn & Hh)]; [left; reflexivity|right; exists th'; split; [exact Hn|exact Hh]].
Qed.
Lemma first_met_unique p v ths j k : first_met p v ths j -> first_met p v ths k -> j = k.
Proof.
  intros [Hj1 Hj2] [Hk1 Hk2]. destruct (lt_eq_lt_dec j k) as [[H|H]|H]; [|exact H|].
  - destruct Hj2 as [->|(th & Hn & Hh)]; [|exfalso; exact (Hk1 j th Hn H Hh)].
    destruct Hk2 as [->|(th & Hn & _)]; [reflexivity|]. assert (k < length ths) by (apply nth_error_Some; congruence). lia.
  - destruct Hk2 as [->|(th & Hn & Hh)]; [|exfalso; exact (Hj1 k th Hn H Hh)].
    destruct Hj2 as [->|(th & Hn & _)]; [reflexivity|]. assert (j < length ths) by (apply nth_error_Some; congruence). lia.
Qed.
Lemma multi_position0 p v ths : first_met p v ths (multi_position p v ths 0).
Proof. destruct (multi_position_spec p v ths 0) as (j & -> & H). exact H. Qed.

Lemma multi_threshold_plain p h :
  exists outs, direct_run (multi_threshold_before p false) multi_threshold_setup h = Ok outs /\ length outs = length h /\
    forall t o, nth_error outs t = Some o -> first_met_at p h t o.
Proof.
  destruct (direct_run_spec (multi_threshold_before p false) (fun _ _ => True)
    (fun seen o => exists l v ths, seen = l ++ [(v, ths)] /\ first_met p v ths o))
    with (h := h) (s := multi_threshold_setup) (seen := @nil (Q * list Q)) as (outs & Hr & Hl & Ho).
  - intros s seen [v ths] _. exists (multi_position p v ths 0), s. split; [reflexivity|]. split; [exact I|].
    exists seen, v, ths. split; [reflexivity|]. apply multi_position0.
  - exact I.
  - exists outs. split; [exact Hr|]. split; [exact Hl|]. intros t o Hn. destruct (Ho t o Hn) as (l & v & ths & Hs & H).
    assert (Ht : t < length h) by (rewrite <- Hl; apply nth_error_Some; congruence).
    destruct (nth_error h t) as [[v' ths']|] eqn:En; [|apply nth_error_None in En; lia].
    cbn [app] in Hs. rewrite (firstn_S_last _ _ _ En) in Hs. apply snoc_inj in Hs. injection Hs as -> ->.
    exists v, ths. tauto.
Qed.

Lemma multi_threshold_ratchet p h :
  exists outs, direct_run (multi_threshold_before p true) multi_threshold_setup h = Ok outs /\ length outs = length h /\
    forall t o, nth_error outs t = Some o ->
      (exists u, u <= t /\ first_met_at p h u o) /\ (forall u k, u <= t -> first_met_at p h u k -> k <= o).
Proof.
  set (bound := fun (seen : list (Q * list Q)) (o : nat) => forall u k, first_met_at p seen u k -> k <= o).
  set (attained := fun (seen : list (Q * list Q)) (o : nat) => exists u, first_met_at p seen u o).
  destruct (direct_run_spec (multi_threshold_before p true)
    (fun s seen => bound seen s /\ (attained seen s \/ (s = 0 /\ seen = [])))
    (fun seen o => bound seen o /\ attained seen o))
    with (h := h) (s := multi_threshold_setup) (seen := @nil (Q * list Q)) as (outs & Hr & Hl & Ho).
  - intros s seen [v ths] [HB HA]. unfold multi_threshold_before. cbn [fst snd].
    pose proof (multi_position0 p v ths) as Hp. set (k := multi_position p v ths 0) in *.
    assert (Hnew : first_met_at p (seen ++ [(v, ths)]) (length seen) k).
    { exists v, ths. split; [apply nth_error_snoc; right; tauto|exact Hp]. }
    assert (Hb : bound (seen ++ [(v, ths)]) (Nat.max s k)).
    { intros u j (v' & ths' & Hn & Hf). apply nth_error_snoc in Hn. destruct Hn as [Hn|[_ Hn]].
      - assert (j <= s) by (apply (HB u); exists v', ths'; tauto). lia.
      - injection Hn as -> ->. rewrite (first_met_unique p v ths j k Hf Hp). lia. }
    destruct (s <? k) eqn:E.
    + exists k, k. replace (Nat.max s k) with k in Hb by lia. split; [reflexivity|].
      assert (attained (seen ++ [(v, ths)]) k) by (exists (length seen); exact Hnew). tauto.
    + exists s, s. replace (Nat.max s k) with s in Hb by lia. split; [reflexivity|].
      assert (attained (seen ++ [(v, ths)]) s).
      { destruct HA as [(u & v' & ths' & Hn & Hf)|[-> ->]].
        - exists u, v', ths'. split; [apply nth_error_snoc; left; exact Hn|exact Hf].
        - exists 0. replace 0 with k at 2 by lia. exact Hnew. }
      tauto.
  - split; [|right; split; reflexivity]. intros u k (v & ths & Hn & _). destruct u; discriminate.
  - exists outs. split; [exact Hr|]. split; [exact Hl|]. intros t o Hn. destruct (Ho t o Hn) as [HB (u & v & ths & Hu & Hf)].
    cbn [app] in *.
    assert (Ht : t < length h) by (rewrite <- Hl; apply nth_error_Some; congruence).
    assert (u < length (firstn (S t) h)) by (apply nth_error_Some; congruence). rewrite firstn_length in H.
    split.
    + exists u. split; [lia|]. exists v, ths. rewrite nth_error_firstn in Hu by lia. tauto.
    + intros u' k Hu' (v' & ths' & Hn' & Hf'). apply (HB u'). exists v', ths'. rewrite nth_error_firstn by lia. tauto.
Qed.

(** ** Asymmetric switch *)
Lemma asymmetric_switch h :
  exists outs, direct_run switch_before switch_setup h = Ok outs /\ length outs = length h /\
    forall t o, nth_error outs t = Some o ->
      let on := exists u, u <= t /\ on_at h u /\ forall v, u < v -> v <= t -> ~ all_off_at h v in
      (o = 1%Z /\ on) \/ (o = 0%Z /\ ~ on).
Proof.
  set (on := fun seen : list (Z * Z) => exists u, on_at seen u /\ forall v, u < v -> ~ all_off_at seen v).
  assert (Hon : forall seen a b, on (seen ++ [(a, b)]) <-> (0 < a)%Z \/ (on seen /\ ~ ((a <= 0)%Z /\ b = 0%Z))).
  { intros seen a b. split.
    - intros (u & (x & y & Hn & Hx) & Hv). apply nth_error_snoc in Hn. destruct Hn as [Hn|[-> Hn]].
      + assert (u < length seen) by (apply nth_error_Some; congruence).
        destruct (Z_lt_dec 0 a) as [Ha|Ha]; [left; exact Ha|]. right. split.
        * exists u. split; [exists x, y; tauto|]. intros v Huv (z & Hz & Hz0). apply (Hv v Huv). exists z.
          split; [apply nth_error_snoc; left; exact Hz|exact Hz0].
        * intros [Ha' ->]. apply (Hv (length seen) H). exists a. split; [apply nth_error_snoc; right; tauto|exact Ha'].
      + injection Hn as -> ->. left. exact Hx.
    - intros [Ha|[(u & (x & y & Hn & Hx) & Hv) Hno]].
      + exists (length seen). split; [exists a, b; split; [apply nth_error_snoc; right; tauto|exact Ha]|].
        intros v Hlt (z & Hz & _). apply nth_error_snoc in Hz. destruct Hz as [Hz|[-> _]]; [|lia].
        assert (v < length seen) by (apply nth_error_Some; congruence). lia.
      + exists u. split; [exists x, y; split; [apply nth_error_snoc; left; exact Hn|exact Hx]|].
        intros v Hlt (z & Hz & Hz0). apply nth_error_snoc in Hz. destruct Hz as [Hz|[-> Hz]].
        * apply (Hv v Hlt). exists z. tauto.
        * injection Hz as -> <-. apply Hno. tauto. }
  destruct (direct_run_spec switch_before
    (fun s seen => (s = 1%Z /\ on seen) \/ (s = 0%Z /\ ~ on seen))
    (fun seen o => (o = 1%Z /\ on seen) \/ (o = 0%Z /\ ~ on seen)))
    with (h := h) (s := switch_setup) (seen := @nil (Z * Z)) as (outs & Hr & Hl & Ho).
  - intros s seen [a b] HP. unfold switch_before.
    eexists _, _. split; [reflexivity|]. cut (forall P : Prop, P -> P /\ P); [|tauto]. intros dup. apply dup. clear dup.
    rewrite Hon. destruct HP as [[-> H]|[-> H]]; cbn [Z.ltb Z.compare].
    + destruct (0 <? a)%Z eqn:Ea; [left; split; [reflexivity|left; lia]|].
      destruct (b =? 0)%Z eqn:Eb.
      * right. split; [reflexivity|]. intros [Hx|[_ Hx]]; [lia|]. apply Hx. lia.
      * left. split; [reflexivity|]. right. split; [exact H|]. intros [_ ->]. discriminate.
    + destruct (0 <? a)%Z eqn:Ea; [left; split; [reflexivity|left; lia]|].
      right. split; [reflexivity|]. intros [Hx|[Hx _]]; [lia|tauto].
  - right. split; [reflexivity|]. intros (u & (x & y & Hn & _) & _). destruct u; discriminate.
  - exists outs. split; [exact Hr|]. split; [exact Hl|]. intros t o Hn. cbv zeta. pose proof (Ho t o Hn) as H. cbn [app] in H.
    assert (Ht : t < length h) by (rewrite <- Hl; apply nth_error_Some; congruence).
    assert (Heq : on (firstn (S t) h) <-> exists u, u <= t /\ on_at h u /\ forall v, u < v -> v <= t -> ~ all_off_at h v).
    { split.
      - intros (u & (x & y & Hu & Hx) & Hv).
        assert (u < length (firstn (S t) h)) by (apply nth_error_Some; congruence). rewrite firstn_length in H0.
        exists u. split; [lia|]. split; [exists x, y; rewrite nth_error_firstn in Hu by lia; tauto|].
        intros v Huv Hvt (z & Hz & Hz0). apply (Hv v Huv). exists z. rewrite nth_error_firstn by lia. tauto.
      - intros (u & Hut & (x & y & Hu & Hx) & Hv). exists u. split; [exists x, y; rewrite nth_error_firstn by lia; tauto|].
        intros v Huv (z & Hz & Hz0).
        assert (v < length (firstn (S t) h)) by (apply nth_error_Some; congruence). rewrite firstn_length in H0.
        apply (Hv v Huv); [lia|]. exists z. rewrite nth_error_firstn in Hz by lia. tauto. }
    rewrite Heq in H. exact H.
Qed.
