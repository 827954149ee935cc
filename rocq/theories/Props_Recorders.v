(** C88: array recorders hold what was simulated; assertion recorders let exactly
    the runs pass that agree with what is expected. *)
From Coq Require Import String.
From Coq Require Import QArith ZArith List Arith Lia.
From Verif Require Import Base Recorders.
Import ListNotations.
Local Open Scope nat_scope.

Section Props.
Context {Mf Mu Er : Type}.
Variable value_f : Mf -> nat -> nat -> res Er Q.
Variable value_u : Mu -> nat -> nat -> res Er Z.
Variable approx : Q * Z -> Q -> Q -> bool.

(** What the recorder demands of a value in a time-step and scenario. *)
Definition accepts (r : recorder Mf Mu) (t s : nat) : Prop :=
  match r with
  | RArray m => exists v, value_f m t s = Ok v
  | RAssertF m expected margin => exists v e, value_f m t s = Ok v /\ cell expected t s = Some e /\ approx margin v e = true
  | RAssertU m expected => exists v, value_u m t s = Ok v /\ cell expected t s = Some v
  | RAssertFn m expected margin => exists v, value_f m t s = Ok v /\ approx margin v (expected t s) = true
  end.

(** The array of the shape [T] by [S] and what it holds. *)
Definition shape (T S : nat) (a : list (list Q)) : Prop := length a = T /\ forall row, In row a -> length row = S.

(** What is in the state of a recorder after the time-steps and scenarios in [done]. *)
Definition holds (T S : nat) (r : recorder Mf Mu) (done : nat -> nat -> Prop) (st : rstate) : Prop :=
  match r with
  | RArray m => exists a, st = Some a /\ shape T S a /\ forall t s v, done t s -> value_f m t s = Ok v -> cell a t s = Some v
  | _ => st = None
  end.

Lemma put_length {A} (l : list A) k x : k < length l -> length (put l k x) = length l.
Proof. intros H. unfold put. rewrite app_length, firstn_length. cbn [length]. rewrite skipn_length. lia. Qed.

Lemma put_nth {A} (l : list A) k x : forall j, k < length l -> nth_error (put l k x) j = if j =? k then Some x else nth_error l j.
Proof.
  unfold put. revert k. induction l as [|a l IH]; intros k j H; [cbn in H; lia|].
  destruct k as [|k]; destruct j as [|j]; cbn [firstn skipn app nth_error Nat.eqb]; try reflexivity. apply IH. cbn in H. lia.
Qed.

Lemma put_in {A} (l : list A) k x y : k < length l -> In y (put l k x) -> y = x \/ In y l.
Proof.
  intros H Hy. apply In_nth_error in Hy. destruct Hy as (j & Hj). rewrite put_nth in Hj by exact H.
  destruct (j =? k); [injection Hj; auto|]. right. exact (nth_error_In _ _ Hj).
Qed.

Lemma assign_ok T S a t s v : shape T S a -> t < T -> s < S ->
  exists a', assign (Er := Er) a t s v = Ok a' /\ shape T S a' /\ forall t' s', cell a' t' s' = if (t' =? t) && (s' =? s) then Some v else cell a t' s'.
Proof.
  intros [L R] Ht Hs. unfold assign. destruct (nth_error a t) as [row|] eqn:Er0; [|apply nth_error_None in Er0; lia].
  pose proof (R row (nth_error_In _ _ Er0)) as Lr. rewrite (proj2 (Nat.ltb_lt s (length row))) by lia. eexists. split; [reflexivity|]. split.
  - split; [rewrite put_length; lia|]. intros row' H. apply put_in in H; [|lia]. destruct H as [-> |H]; [rewrite put_length; lia|exact (R _ H)].
  - intros t' s'. unfold cell. rewrite put_nth by lia. destruct (Nat.eqb_spec t' t) as [->|N]; [|reflexivity]. cbn [andb].
    rewrite put_nth by lia. rewrite Er0. reflexivity.
Qed.

Lemma save_scenario_ok T S r t s done st : holds T S r done st -> t < T -> s < S ->
  (accepts r t s -> exists st', save_scenario value_f value_u approx r t s st = Ok st' /\ holds T S r (fun t' s' => done t' s' \/ (t' = t /\ s' = s)) st') /\
  (forall st', save_scenario value_f value_u approx r t s st = Ok st' -> accepts r t s).
Proof.
  intros H Ht Hs. destruct r as [m|m ex mg|m ex|m ex mg]; cbn [holds accepts save_scenario] in *.
  - destruct H as (a & -> & Hsh & Ha). split.
    + intros (v & Hv). rewrite Hv. cbn [rbind]. destruct (assign_ok T S a t s v Hsh Ht Hs) as (a' & -> & Hsh' & Hc). cbn [rbind]. eexists. split; [reflexivity|].
      exists a'. split; [reflexivity|]. split; [exact Hsh'|]. intros t' s' w D Hw. rewrite Hc. destruct (Nat.eqb_spec t' t) as [->|N1]; cbn [andb].
      * destruct (Nat.eqb_spec s' s) as [->|N2]; [congruence|]. destruct D as [D|[_ D]]; [exact (Ha _ _ _ D Hw)|congruence].
      * destruct D as [D|[D _]]; [exact (Ha _ _ _ D Hw)|congruence].
    + intros st' E. destruct (value_f m t s) as [v|e|]; [eexists; reflexivity|discriminate|discriminate].
  - subst st. split.
    + intros (v & e & Hv & He & Ha). rewrite He, Hv. cbn [rbind]. rewrite Ha. eexists. split; reflexivity.
    + intros st' E. destruct (cell ex t s) as [e|]; [|discriminate]. destruct (value_f m t s) as [v|x|]; cbn [rbind] in E; try discriminate.
      destruct (approx mg v e) eqn:Ea; [|discriminate]. exists v, e. auto.
  - subst st. split.
    + intros (v & Hv & He). rewrite He, Hv. cbn [rbind]. rewrite Z.eqb_refl. eexists. split; reflexivity.
    + intros st' E. destruct (cell ex t s) as [e|]; [|discriminate]. destruct (value_u m t s) as [v|x|]; cbn [rbind] in E; try discriminate.
      destruct (Z.eqb v e) eqn:Ez; [|discriminate]. apply Z.eqb_eq in Ez. exists v. rewrite Ez. auto.
  - subst st. split.
    + intros (v & Hv & He). rewrite Hv. cbn [rbind]. rewrite He. eexists. split; reflexivity.
    + intros st' E. destruct (value_f m t s) as [v|x|]; cbn [rbind] in E; try discriminate.
      destruct (approx mg v (ex t s)) eqn:Ea; [|discriminate]. exists v. auto.
Qed.

Lemma holds_ext T S r (d d' : nat -> nat -> Prop) st : (forall t s, d' t s -> d t s) -> holds T S r d st -> holds T S r d' st.
Proof. intros E H. destruct r; cbn [holds] in *; try exact H. destruct H as (a & H1 & H2 & H3). exists a. eauto. Qed.

Lemma recorder_save_ok T S r t l : t < T -> forall done st, holds T S r done st -> (forall s, In s l -> s < S) ->
  ((forall s, In s l -> accepts r t s) -> exists st', recorder_save value_f value_u approx r t l st = Ok st' /\ holds T S r (fun t' s' => done t' s' \/ (t' = t /\ In s' l)) st') /\
  (forall st', recorder_save value_f value_u approx r t l st = Ok st' -> forall s, In s l -> accepts r t s).
Proof.
  intros Ht. induction l as [|s l IH]; intros done st H Hl; cbn [recorder_save].
  - split; [|intros st' _ s []]. intros _. exists st. split; [reflexivity|]. apply (holds_ext T S r done); [|exact H]. intros t' s' [D|[_ []]]. exact D.
  - destruct (save_scenario_ok T S r t s done st H Ht (Hl s (or_introl eq_refl))) as [A B]. split.
    + intros HA. destruct (A (HA s (or_introl eq_refl))) as (st1 & E1 & H1). rewrite E1. cbn [rbind].
      destruct (IH _ st1 H1 (fun s' I => Hl s' (or_intror I))) as [C _]. destruct (C (fun s' I => HA s' (or_intror I))) as (st2 & E2 & H2).
      exists st2. split; [exact E2|]. revert H2. apply holds_ext. intros t' s' [D|[-> [<-|D]]]; auto.
    + intros st' E s' I. destruct (save_scenario value_f value_u approx r t s st) as [st1|e|] eqn:E1; cbn [rbind] in E; try discriminate.
      pose proof (B _ eq_refl) as As. destruct I as [<-|I]; [exact As|]. destruct (A As) as (st1' & E1' & H1). injection E1' as <-.
      exact (proj2 (IH _ st1 H1 (fun s' I => Hl s' (or_intror I))) _ E s' I).
Qed.

Lemma Forall2_weaken {A B} (P Q : A -> B -> Prop) l l' : (forall a b, P a b -> Q a b) -> Forall2 P l l' -> Forall2 Q l l'.
Proof. intros H F. induction F; constructor; auto. Qed.

Definition state_of (T S : nat) (done : nat -> nat -> Prop) (nr : string * recorder Mf Mu) (st : rstate) : Prop := holds T S (snd nr) done st.

Lemma save_recorders_ok T S t l : t < T -> (forall s, In s l -> s < S) -> forall rs done sts, Forall2 (state_of T S done) rs sts ->
  ((forall n r s, In (n, r) rs -> In s l -> accepts r t s) -> exists sts', save_recorders value_f value_u approx rs t l sts = Ok sts' /\
     Forall2 (state_of T S (fun t' s' => done t' s' \/ (t' = t /\ In s' l))) rs sts') /\
  (forall sts', save_recorders value_f value_u approx rs t l sts = Ok sts' -> forall n r s, In (n, r) rs -> In s l -> accepts r t s).
Proof.
  intros Ht Hl. induction rs as [|[n r] rs IH]; intros done sts H; inversion H as [|? st ? sts0 H0 H1]; subst; cbn [save_recorders].
  - split; [|intros ? _ ? ? ? []]. intros _. exists []. split; [reflexivity|constructor].
  - destruct (recorder_save_ok T S r t l Ht done st H0 Hl) as [A B]. destruct (IH done sts0 H1) as [C D]. split.
    + intros HA. destruct (A (fun s I => HA n r s (or_introl eq_refl) I)) as (st' & -> & H2).
      destruct (C (fun n' r' s I J => HA n' r' s (or_intror I) J)) as (sts' & -> & H3). cbn [rbind]. eexists. split; [reflexivity|]. constructor; assumption.
    + intros sts' E n' r' s I J. destruct (recorder_save value_f value_u approx r t l st) as [st'|e|]; try discriminate.
      destruct (save_recorders value_f value_u approx rs t l sts0) as [x|e|] eqn:E2; cbn [rbind] in E; try discriminate.
      destruct I as [I|I]; [injection I as <- <-; exact (B _ eq_refl s J)|exact (D _ eq_refl n' r' s I J)].
Qed.

Lemma record_run_ok T S l times : (forall s, In s l -> s < S) -> (forall t, In t times -> t < T) -> forall rs done sts, Forall2 (state_of T S done) rs sts ->
  ((forall n r t s, In (n, r) rs -> In t times -> In s l -> accepts r t s) -> exists sts', record_run value_f value_u approx rs times l sts = Ok sts' /\
     Forall2 (state_of T S (fun t' s' => done t' s' \/ (In t' times /\ In s' l))) rs sts') /\
  (forall sts', record_run value_f value_u approx rs times l sts = Ok sts' -> forall n r t s, In (n, r) rs -> In t times -> In s l -> accepts r t s).
Proof.
  intros Hl. induction times as [|t times IH]; intros Ht rs done sts H; cbn [record_run].
  - split; [|intros ? _ ? ? ? ? _ []]. intros _. exists sts. split; [reflexivity|].
    revert H. apply Forall2_weaken. intros [n r] st. apply holds_ext. intros t s [D|[[] _]]. exact D.
  - destruct (save_recorders_ok T S t l (Ht t (or_introl eq_refl)) Hl rs done sts H) as [A B]. split.
    + intros HA. destruct (A (fun n r s I J => HA n r t s I (or_introl eq_refl) J)) as (sts1 & -> & H1). cbn [rbind].
      destruct (IH (fun t' I => Ht t' (or_intror I)) rs _ sts1 H1) as [C _]. destruct (C (fun n r t' s I J K => HA n r t' s I (or_intror J) K)) as (sts2 & -> & H2).
      exists sts2. split; [reflexivity|]. revert H2. apply Forall2_weaken. intros [n r] st. apply holds_ext. intros t' s [D|[[<-|D] E]]; auto.
    + intros sts' E n r t' s I J K. destruct (save_recorders value_f value_u approx rs t l sts) as [sts1|e|] eqn:E1; cbn [rbind] in E; try discriminate.
      pose proof (B _ eq_refl) as As. destruct J as [<-|J]; [exact (As n r s I K)|]. destruct (A As) as (sts1' & E1' & H1). injection E1' as <-.
      exact (proj2 (IH (fun t' I => Ht t' (or_intror I)) rs _ sts1 H1) _ E n r t' s I J K).
Qed.

Lemma setup_holds T S rs : Forall2 (state_of T S (fun _ _ => False)) rs (map (fun nr => recorder_setup T S (snd nr)) rs).
Proof.
  induction rs as [|[n r] rs IH]; cbn [map]; constructor; [|exact IH]. unfold state_of. cbn [snd].
  destruct r; cbn [recorder_setup holds]; try reflexivity. eexists. split; [reflexivity|]. split; [|intros ? ? ? []].
  split; [apply repeat_length|]. intros row H. apply repeat_spec in H. subst row. apply repeat_length.
Qed.
End Props.

(** C88.  A run completes with its recorders exactly if every value can be read and
    agrees with what is expected of it, in every time-step and scenario; then every
    array recorder holds the values of its metric. *)
Theorem C88_recorders_partial : forall (Mf Mu Er : Type) value_f value_u approx (rs : list (string * recorder Mf Mu)) times scenarios,
  let run := record_run (Er := Er) value_f value_u approx rs (seq 0 times) (seq 0 scenarios) (map (fun nr => recorder_setup times scenarios (snd nr)) rs) in
  ((exists sts, run = Ok sts) <->
   forall n r t s, In (n, r) rs -> t < times -> s < scenarios ->
   match r with
   | RArray m => exists v, value_f m t s = Ok v
   | RAssertF m expected margin => exists v e, value_f m t s = Ok v /\ cell expected t s = Some e /\ approx margin v e = true
   | RAssertU m expected => exists v, value_u m t s = Ok v /\ cell expected t s = Some v
   | RAssertFn m expected margin => exists v, value_f m t s = Ok v /\ approx margin v (expected t s) = true
   end) /\
  (forall sts, run = Ok sts -> length sts = length rs /\
   forall k n m, nth_error rs k = Some (n, RArray m) ->
   exists a, nth_error sts k = Some (Some a) /\ length a = times /\ (forall row, In row a -> length row = scenarios) /\
   forall t s, t < times -> s < scenarios -> exists v, value_f m t s = Ok v /\ cell a t s = Some v).
Proof.
  intros Mf Mu Er value_f value_u approx rs times scenarios run.
  assert (Hs : forall s, In s (seq 0 scenarios) -> s < scenarios) by (intros s H; apply in_seq in H; lia).
  assert (Ht : forall t, In t (seq 0 times) -> t < times) by (intros t H; apply in_seq in H; lia).
  destruct (record_run_ok value_f value_u approx times scenarios _ _ Hs Ht rs _ _ (setup_holds (Mu := Mu) value_f times scenarios rs)) as [A B].
  fold run in A, B. split; [split|].
  - intros (sts & E) n r t s I Jt Js. exact (B sts E n r t s I (proj2 (in_seq _ _ _) (conj (Nat.le_0_l _) Jt)) (proj2 (in_seq _ _ _) (conj (Nat.le_0_l _) Js))).
  - intros H. destruct A as (sts & E & _); [|exists sts; exact E]. intros n r t s I Jt Js. exact (H n r t s I (Ht t Jt) (Hs s Js)).
  - intros sts E. pose proof (B sts E) as H. destruct (A H) as (sts' & E' & F). rewrite E in E'. injection E' as <-. split; [clear - F; induction F; cbn [length]; congruence|].
    intros k n m Hk.
    assert (Hst : exists st, nth_error sts k = Some st /\ holds value_f times scenarios (RArray (Mu := Mu) m) (fun t' s' => False \/ In t' (seq 0 times) /\ In s' (seq 0 scenarios)) st).
    { clear - F Hk. revert k Hk. induction F as [|x y l l' P F IH]; intros [|k] Hk; try discriminate; [|exact (IH k Hk)].
      injection Hk as ->. exists y. split; [reflexivity|exact P]. }
    destruct Hst as (st & Hst & a & -> & [L R] & Ha). exists a. split; [exact Hst|]. split; [exact L|]. split; [exact R|].
    intros t s Jt Js. assert (It : In t (seq 0 times)) by (apply in_seq; lia). assert (Is : In s (seq 0 scenarios)) by (apply in_seq; lia).
    destruct (H n _ t s (nth_error_In _ _ Hk) It Is) as (v & Hv). exists v. split; [exact Hv|]. apply Ha; [right; auto|exact Hv].
Qed.
Print Assumptions C88_recorders_partial.

(** An error says which recorder it comes from, and is the error of reading its
    metric in one of the time-steps and scenarios. *)
Theorem C88_error_named : forall (Mf Mu Er : Type) value_f value_u approx (rs : list (string * recorder Mf Mu)) times scenarios n (e : Er),
  record_run value_f value_u approx rs (seq 0 times) (seq 0 scenarios) (map (fun nr => recorder_setup times scenarios (snd nr)) rs) = Err (n, e) ->
  exists r t s, In (n, r) rs /\ t < times /\ s < scenarios /\
  match r with
  | RArray m | RAssertF m _ _ | RAssertFn m _ _ => value_f m t s = Err e
  | RAssertU m _ => value_u m t s = Err e
  end.
Proof.
  intros Mf Mu Er value_f value_u approx rs times scenarios n e.
  set (failing := fun (r : recorder Mf Mu) t s => match r with RArray m | RAssertF m _ _ | RAssertFn m _ _ => value_f m t s = Err e | RAssertU m _ => value_u m t s = Err e end).
  assert (H0 : forall r t s st, save_scenario value_f value_u approx r t s st = Err e -> failing r t s).
  { intros [m|m ex mg|m ex|m ex mg] t s st; cbn [save_scenario failing].
    - destruct st as [a|]; [|discriminate]. destruct (value_f m t s); cbn [rbind]; [|intros E; congruence|discriminate].
      unfold assign. destruct (nth_error a t) as [row|]; [|discriminate]. destruct (s <? length row); discriminate.
    - destruct (cell ex t s); [|discriminate]. destruct (value_f m t s); cbn [rbind]; [|intros E; congruence|discriminate]. destruct (approx mg a q); discriminate.
    - destruct (cell ex t s); [|discriminate]. destruct (value_u m t s); cbn [rbind]; [|intros E; congruence|discriminate]. destruct (Z.eqb a z); discriminate.
    - destruct (value_f m t s); cbn [rbind]; [|intros E; congruence|discriminate]. destruct (approx mg a (ex t s)); discriminate. }
  assert (H1 : forall r t l st, recorder_save value_f value_u approx r t l st = Err e -> exists s, In s l /\ failing r t s).
  { intros r t. induction l as [|s l IH]; intros st; cbn [recorder_save]; [discriminate|].
    destruct (save_scenario value_f value_u approx r t s st) as [st'|x|] eqn:E; cbn [rbind]; intros E'; [| |discriminate].
    - destruct (IH _ E') as (s' & I & F). exists s'. split; [right; exact I|exact F].
    - injection E' as ->. exists s. split; [left; reflexivity|exact (H0 _ _ _ _ E)]. }
  assert (H2 : forall t l rs sts, save_recorders value_f value_u approx rs t l sts = Err (n, e) -> exists r s, In (n, r) rs /\ In s l /\ failing r t s).
  { intros t l. induction rs0 as [|[n' r] rs0 IH]; intros [|st sts]; cbn [save_recorders]; try discriminate.
    destruct (recorder_save value_f value_u approx r t l st) as [st'|x|] eqn:E; [| |discriminate].
    - destruct (save_recorders value_f value_u approx rs0 t l sts) as [y|y|] eqn:E2; cbn [rbind]; intros E'; try discriminate.
      injection E' as ->. destruct (IH _ E2) as (r' & s & I & J & F). exists r', s. split; [right; exact I|auto].
    - intros E'. injection E' as -> ->. destruct (H1 _ _ _ _ E) as (s & I & F). exists r, s. split; [left; reflexivity|auto]. }
  assert (H3 : forall l ts sts, record_run value_f value_u approx rs ts l sts = Err (n, e) -> exists r t s, In (n, r) rs /\ In t ts /\ In s l /\ failing r t s).
  { intros l. induction ts as [|t ts IH]; intros sts; cbn [record_run]; [discriminate|].
    destruct (save_recorders value_f value_u approx rs t l sts) as [y|y|] eqn:E; cbn [rbind]; intros E'; [| |discriminate].
    - destruct (IH _ E') as (r & t' & s & I & J & F). exists r, t', s. split; [exact I|]. split; [right; exact J|exact F].
    - injection E' as ->. destruct (H2 _ _ _ _ E) as (r & s & I & J & F). exists r, t, s. split; [exact I|]. split; [left; reflexivity|auto]. }
  intros E. destruct (H3 _ _ _ E) as (r & t & s & I & J & K & F). apply in_seq in J, K. exists r, t, s. repeat split; try lia; assumption.
Qed.
Print Assumptions C88_error_named.

(** An assertion does not notice that a run is too short: with only the first
    time-steps simulated it passes, whatever is expected of the others. *)
Theorem C88_short_run_refuted : forall (Mf Mu Er : Type) value_f value_u approx n m expected margin times scenarios missing sts,
  length expected = times ->
  let run ex := record_run (Mf := Mf) (Mu := Mu) (Er := Er) value_f value_u approx [(n, RAssertF m ex margin)] (seq 0 times) (seq 0 scenarios) [None] in
  run expected = Ok sts -> run (expected ++ missing) = Ok sts.
Proof.
  intros Mf Mu Er value_f value_u approx n m expected margin times scenarios missing sts L run. subst run. cbv beta.
  assert (Hc : forall t s, t < times -> cell (expected ++ missing) t s = cell expected t s).
  { intros t s Ht. unfold cell. rewrite nth_error_app1 by lia. reflexivity. }
  assert (G : forall ts st, (forall t, In t ts -> t < times) ->
    record_run (Mu := Mu) (Er := Er) value_f value_u approx [(n, RAssertF m (expected ++ missing) margin)] ts (seq 0 scenarios) [st] =
    record_run value_f value_u approx [(n, RAssertF m expected margin)] ts (seq 0 scenarios) [st]).
  { induction ts as [|t ts IH]; intros st Ht; [reflexivity|]. cbn [record_run save_recorders].
    assert (K : forall l st, recorder_save (Mu := Mu) (Er := Er) value_f value_u approx (RAssertF m (expected ++ missing) margin) t l st =
      recorder_save value_f value_u approx (RAssertF m expected margin) t l st).
    { induction l as [|s l IHl]; intros st0; [reflexivity|]. cbn [recorder_save save_scenario]. rewrite (Hc t s (Ht t (or_introl eq_refl))).
      destruct (cell expected t s) as [e|]; [|reflexivity]. destruct (value_f m t s) as [v|x|]; cbn [rbind]; try reflexivity.
      destruct (approx margin v e); cbn [rbind]; [apply IHl|reflexivity]. }
    rewrite K. destruct (recorder_save _ _ _ _ _ _ _) as [st'|x|]; cbn [rbind]; try reflexivity. apply IH. intros t' I. apply Ht. right. exact I. }
  intros H. rewrite G; [exact H|]. intros t I. apply in_seq in I. lia.
Qed.
Print Assumptions C88_short_run_refuted.

(** Two time-steps of two scenarios, with a recorder of each kind. *)
Definition rc_value (m : Q) (t s : nat) : res unit Q := Ok (m + inject_Z (Z.of_nat (2 * t + s)))%Q.
Definition rc_approx (margin : Q * Z) (a b : Q) : bool := Qle_bool (a - b) (fst margin) && Qle_bool (b - a) (fst margin).
Definition rc_recorders : list (string * recorder Q unit) :=
  [("array"%string, RArray 1%Q); ("asserted"%string, RAssertF 1%Q [[1; 2]; [3; 4]; [9; 9]]%Q ((1#10), 0%Z));
   ("index"%string, RAssertU tt [[7; 7]; [7; 7]]%Z); ("function"%string, RAssertFn 0%Q (fun t s => inject_Z (Z.of_nat (2 * t + s))) (0%Q, 0%Z))].
Example C88_example :
  record_run rc_value (fun _ _ _ => Ok 7%Z) rc_approx rc_recorders (seq 0 2) (seq 0 2) (map (fun nr => recorder_setup 2 2 (snd nr)) rc_recorders) =
    Ok [Some [[1; 2]; [3; 4]]; None; None; None]%Q /\
  record_run rc_value (fun _ _ _ => Ok 8%Z) rc_approx rc_recorders (seq 0 2) (seq 0 2) (map (fun nr => recorder_setup 2 2 (snd nr)) rc_recorders) = Panic /\
  record_run rc_value (fun _ t _ => if t =? 1 then Err tt else Ok 7%Z) rc_approx rc_recorders (seq 0 2) (seq 0 2) (map (fun nr => recorder_setup 2 2 (snd nr)) rc_recorders) = Err ("index"%string, tt) /\
  record_run rc_value (fun _ _ _ => Ok 7%Z) rc_approx rc_recorders (seq 0 4) (seq 0 2) (map (fun nr => recorder_setup 4 2 (snd nr)) rc_recorders) = Panic.
Proof. vm_compute. repeat split; reflexivity. Qed.
