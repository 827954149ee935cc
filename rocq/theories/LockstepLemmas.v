(** Aggregators fed with the same periods move in step, whatever the values. *)
From Coq Require Import QArith Lqa.
From Verif Require Import Base Calendar CalendarLemmas Timestep Network NetworkBuildLemmas LpRowLemmas AggFuncs AggFuncsSpec AggFuncsLemmas Aggregator AggregatorSpec.
Open Scope Z_scope.

(** The same period, perhaps another value. *)
Definition alike (v w : pvalue) : Prop := pv_start v = pv_start w /\ pv_dur v = pv_dur w.

Definition pstate_alike (s t : pstate) : Prop :=
  match s, t with
  | Some l, Some m => Forall2 alike l m
  | None, None => True
  | _, _ => False
  end.

Fixpoint state_alike (s t : agg_state) : Prop :=
  match s, t with
  | SBase x, SBase y => pstate_alike x y
  | SNest x c, SNest y d => pstate_alike x y /\ state_alike c d
  | _, _ => False
  end.

Definition option_alike (o p : option pvalue) : Prop :=
  match o, p with
  | Some v, Some w => alike v w
  | None, None => True
  | _, _ => False
  end.

Definition res_alike {A B} (P : A -> B -> Prop) (r : res unit A) (q : res unit B) : Prop :=
  match r, q with
  | Ok a, Ok b => P a b
  | Err _, Err _ => True
  | Panic, Panic => True
  | _, _ => False
  end.

Definition out_alike {S} (P : S -> S -> Prop) (a b : option pvalue * S) : Prop :=
  option_alike (fst a) (fst b) /\ P (snd a) (snd b).

Lemma res_alike_bind {A B C D} (P : A -> B -> Prop) (Q : C -> D -> Prop) r q f g :
  res_alike P r q -> (forall a b, P a b -> res_alike Q (f a) (g b)) -> res_alike Q (rbind r f) (rbind q g).
Proof. destruct r, q; cbn; intros H K; try contradiction; auto. Qed.

Lemma alike_refl v : alike v v.
Proof. split; reflexivity. Qed.

Lemma calc_alike f l m : Forall2 alike l m ->
  match calc_period_values f l, calc_period_values f m with
  | Some _, Some _ | None, None => True
  | _, _ => False
  end.
Proof.
  intros H. destruct f; cbn [calc_period_values]; try exact I.
  - cbv zeta.
    assert (E : map (fun v : period_value Q => fractional_days (pv_dur v)) l = map (fun v : period_value Q => fractional_days (pv_dur v)) m).
    { induction H as [|x y l m [_ D] H IH]; [reflexivity|]. cbn [map]. rewrite D, IH. reflexivity. }
    rewrite E. destruct (Qeq_bool _ 0); exact I.
  - destruct H; cbn; exact I.
  - destruct H; cbn; exact I.
Qed.

Lemma split_alike f v w : alike v w ->
  res_alike (Forall2 alike) (split_value_into_periods f v) (split_value_into_periods f w).
Proof.
  intros [S D]. unfold split_value_into_periods, pv_end. rewrite S, D.
  generalize (Z.to_nat (pv_dur w / NS_PER_DAY + 3)) as fuel. intros fuel.
  generalize (pv_start w) at 1 3 as cur. generalize (add_duration (pv_start w) (pv_dur w)) as stop. intros stop cur.
  assert (G : match split_loop fuel f cur stop (pv_value v), split_loop fuel f cur stop (pv_value w) with
              | Some l, Some m => Forall2 alike l m | None, None => True | _, _ => False end).
  { revert cur. induction fuel as [|fuel IH]; intros cur; cbn [split_loop]; [exact I|].
    destruct (_ <? _); [|constructor]. cbv zeta. specialize (IH (start_of_next_period f cur)).
    destruct (split_loop fuel f _ stop (pv_value v)), (split_loop fuel f _ stop (pv_value w)); try contradiction; [|exact I].
    constructor; [split; reflexivity|exact IH]. }
  destruct (split_loop _ _ _ _ (pv_value v)), (split_loop _ _ _ _ (pv_value w)); try contradiction; [exact G|exact I].
Qed.

Lemma state_process_alike f func s t v w : pstate_alike s t -> alike v w ->
  res_alike (out_alike pstate_alike) (state_process_value f func s v) (state_process_value f func t w).
Proof.
  intros Hs Hv. pose proof Hv as [S D].
  destruct s as [l|], t as [m|]; try contradiction; cbn [state_process_value].
  - cbn in Hs. pose proof Hs as Hs'. destruct Hs as [|x y l m [Sx Dx] H]; [exact I|].
    rewrite Sx, S. destruct (is_date_in_period _ _ _).
    + split; cbn [fst snd]; [exact I|]. apply Forall2_app; [exact Hs'|]. constructor; [exact Hv|constructor].
    + pose proof (calc_alike func _ _ Hs') as K.
      destruct (calc_period_values func (x :: l)), (calc_period_values func (y :: m)); try contradiction; split; cbn [fst snd]; try exact I;
        try (constructor; [exact Hv|constructor]). split; reflexivity.
  - split; cbn [fst snd]; [exact I|]. constructor; [exact Hv|constructor].
Qed.

Lemma process_parts_alike f func l m : Forall2 alike l m -> forall s t o p, pstate_alike s t -> option_alike o p ->
  res_alike (out_alike pstate_alike) (process_parts f func s l o) (process_parts f func t m p).
Proof.
  induction 1 as [|v w l m Hv H IH]; intros s t o p Hs Ho; cbn [process_parts]; [split; assumption|].
  eapply res_alike_bind; [apply state_process_alike; eassumption|].
  intros [o1 s1] [p1 t1] [K1 K2]. cbn [fst snd] in *.
  destruct o1, p1; try contradiction; [|apply IH; assumption].
  destruct o, p; try contradiction; [exact I|]. apply IH; assumption.
Qed.

Lemma level_alike l s t v w : pstate_alike s t -> alike v w ->
  res_alike (out_alike pstate_alike) (level_process_value l s v) (level_process_value l t w).
Proof.
  intros Hs Hv. unfold level_process_value. destruct (lv_freq l) as [f|].
  - eapply res_alike_bind; [apply split_alike, Hv|]. intros a b H. apply process_parts_alike; auto. exact I.
  - split; cbn [fst snd]; [exact I|]. destruct s, t; try contradiction; cbn [process_value_no_period].
    + apply Forall2_app; [exact Hs|]. constructor; [exact Hv|constructor].
    + constructor; [exact Hv|constructor].
Qed.

Lemma append_alike a : forall s t v w, state_alike s t -> alike v w ->
  res_alike (out_alike state_alike) (append_value a s v) (append_value a t w).
Proof.
  induction a as [l|l c IH]; intros s t v w Hs Hv; destruct s as [x|x sc], t as [y|y tc]; try contradiction; cbn [append_value]; try exact I.
  - eapply res_alike_bind; [apply level_alike; eassumption|]. intros [o s'] [p t'] [K1 K2]. split; assumption.
  - destruct Hs as [H1 H2]. eapply res_alike_bind; [apply IH; eassumption|]. intros [o s'] [p t'] [K1 K2]. cbn [fst snd] in *.
    destruct o, p; try contradiction.
    + eapply res_alike_bind; [apply level_alike; eassumption|]. intros [o2 s2] [p2 t2] [K3 K4]. split; [exact K3|]. split; assumption.
    + split; [exact I|]. split; assumption.
Qed.

Lemma calc_aggregation_alike func s t : pstate_alike s t ->
  res_alike option_alike (calc_aggregation func s) (calc_aggregation func t).
Proof.
  intros H. destruct s as [l|], t as [m|]; try contradiction; cbn [calc_aggregation]; [|exact I].
  cbn in H. pose proof (calc_alike func l m H) as K. destruct (calc_period_values func l), (calc_period_values func m); try contradiction; [|exact I].
  assert (L : forall x y, alike x y -> alike (last l x) (last m y)).
  { clear K. induction H as [|a b l m Ha H IH]; intros x y Hx; [exact Hx|]. destruct H; [exact Ha|]. cbn [last] in *. apply IH. exact Hx. }
  destruct H as [|x y l m [Sx Dx] H]; [exact I|].
  destruct (L x y (conj Sx Dx)) as [S1 D1]. split; cbn [pv_start pv_dur]; [exact Sx|].
  rewrite Sx. unfold alike in *. rewrite S1. reflexivity.
Qed.

Lemma finalise_alike a : forall s t, state_alike s t -> res_alike (out_alike state_alike) (finalise a s) (finalise a t).
Proof.
  induction a as [l|l c IH]; intros s t Hs; destruct s as [x|x sc], t as [y|y tc]; try contradiction; cbn [finalise]; try exact I.
  - eapply res_alike_bind; [apply calc_aggregation_alike; exact Hs|]. intros o p K. split; assumption.
  - destruct Hs as [H1 H2]. eapply res_alike_bind; [apply IH; eassumption|]. intros [o s'] [p t'] [K1 K2]. cbn [fst snd] in *.
    eapply (res_alike_bind pstate_alike).
    + destruct o, p; try contradiction; [|exact H1]. eapply res_alike_bind; [apply level_alike; eassumption|].
      intros [o2 s2] [p2 t2] [K3 K4]. exact K4.
    + intros s2 t2 K. eapply res_alike_bind; [apply calc_aggregation_alike; exact K|]. intros o2 p2 K3. split; [exact K3|]. split; assumption.
Qed.

Lemma setup_alike a : state_alike (setup a) (setup a).
Proof. induction a; cbn; auto. Qed.

Lemma append_all_alike a : forall vs ws, Forall2 alike vs ws -> forall s t, state_alike s t ->
  res_alike (fun x y => Forall2 option_alike (fst x) (fst y) /\ state_alike (snd x) (snd y)) (append_all a s vs) (append_all a t ws).
Proof.
  induction 1 as [|v w vs ws Hv H IH]; intros s t Hs; cbn [append_all]; [split; [constructor|exact Hs]|].
  eapply res_alike_bind; [apply append_alike; eassumption|]. intros [o s'] [p t'] [K1 K2].
  eapply res_alike_bind; [apply IH; exact K2|]. intros [os s2] [ps t2] [K3 K4]. split; [constructor; assumption|exact K4].
Qed.
