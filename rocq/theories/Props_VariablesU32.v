(** C51: the days of radial basis profiles set and read through the network. *)
From Coq Require Import String.
From Coq Require Import QArith ZArith List Arith Lia.
From Verif Require Import Base Profiles Recorders VariablesU32.
Import ListNotations.
Local Open Scope nat_scope.

(** What is set is what is read. *)
Definition keeps {V St VE} (v : variable V St VE) : Prop :=
  forall values st st', set_values v values st = Ok st' -> get_values v st' = Some values.

(** The state of parameter [p] in scenario [s]. *)
Definition state_at {St} (l : list (list St)) (s p : nat) : option St := match nth_error l s with Some row => nth_error row p | None => None end.

Lemma put_length {A} (l : list A) k x : k < length l -> length (put l k x) = length l.
Proof. intros H. unfold put. rewrite app_length, firstn_length. cbn [length]. rewrite skipn_length. lia. Qed.

Lemma put_nth {A} (l : list A) k x : forall j, k < length l -> nth_error (put l k x) j = if j =? k then Some x else nth_error l j.
Proof.
  unfold put. revert k. induction l as [|a l IH]; intros k j H; [cbn in H; lia|].
  destruct k as [|k]; destruct j as [|j]; cbn [firstn skipn app nth_error Nat.eqb]; try reflexivity. apply IH. cbn in H. lia.
Qed.

Lemma state_put {St} (l : list (list St)) s p row st s' p' : nth_error l s = Some row -> p < length row ->
  state_at (put l s (put row p st)) s' p' = if (s' =? s) && (p' =? p) then Some st else state_at l s' p'.
Proof.
  intros Hr Hp. assert (Hs : s < length l) by (apply nth_error_Some; congruence). unfold state_at. rewrite put_nth by exact Hs.
  destruct (Nat.eqb_spec s' s) as [->|N]; [|reflexivity]. cbn [andb]. rewrite put_nth by exact Hp. rewrite Hr. reflexivity.
Qed.

(** Setting the values of one scenario: they are read again there, and nothing else
    changes; after an error nothing has changed at all. *)
Theorem C51_set_days_of_scenario : forall (V St VE : Type) (ps : list (string * option (variable V St VE))) p s values l,
  let '(r, l') := set_one ps p s values l in
  match r with
  | Ok _ => exists name v, nth_error ps p = Some (name, Some v) /\ length l' = length l /\
      (keeps v -> get_one ps p s l' = Ok (Some values)) /\
      forall s' p', (s', p') <> (s, p) -> state_at l' s' p' = state_at l s' p'
  | _ => l' = l
  end.
Proof.
  intros V St VE ps p s values l. unfold set_one, get_one. destruct (nth_error ps p) as [[name [v|]]|] eqn:Ep; try reflexivity.
  destruct (nth_error l s) as [row|] eqn:Er; [|reflexivity]. destruct (nth_error row p) as [st|] eqn:Es; [|reflexivity].
  destruct (set_values v values st) as [st'|e|] eqn:Ev; try reflexivity.
  assert (Hs : s < length l) by (apply nth_error_Some; congruence). assert (Hp : p < length row) by (apply nth_error_Some; congruence).
  exists name, v. split; [reflexivity|]. split; [apply put_length; exact Hs|]. split.
  - intros K. rewrite put_nth by exact Hs. rewrite Nat.eqb_refl, put_nth by exact Hp. rewrite Nat.eqb_refl. rewrite (K _ _ _ Ev). reflexivity.
  - intros s' p' N. rewrite (state_put l s p row st' s' p' Er Hp). destruct (Nat.eqb_spec s' s) as [->|]; [|reflexivity].
    destruct (Nat.eqb_spec p' p) as [->|]; [congruence|reflexivity].
Qed.
Print Assumptions C51_set_days_of_scenario.

(** Setting the values of all scenarios: they are read again in each, and no other
    parameter changes. *)
Theorem C51_set_days_everywhere : forall (V St VE : Type) (ps : list (string * option (variable V St VE))) p values l l',
  set_all ps p values l = (Ok tt, l') ->
  exists name v, nth_error ps p = Some (name, Some v) /\ length l' = length l /\
    (keeps v -> forall s, s < length l -> get_one ps p s l' = Ok (Some values)) /\
    (forall s p', p' <> p -> state_at l' s p' = state_at l s p').
Proof.
  intros V St VE ps p values l l'. unfold set_all, get_one. destruct (nth_error ps p) as [[name [v|]]|] eqn:Ep; try discriminate.
  intros H. exists name, v. split; [reflexivity|]. revert l' H. induction l as [|row l IH]; intros l'; cbn [set_loop].
  - intros H. injection H as <-. split; [reflexivity|]. split; [intros _ s Hs; cbn in Hs; lia|reflexivity].
  - destruct (nth_error row p) as [st|] eqn:Es; [|discriminate]. destruct (set_values v values st) as [st'|e|] eqn:Ev; try discriminate.
    destruct (set_loop p name v values l) as [r rest]. intros H. injection H as -> <-. destruct (IH rest eq_refl) as (L & G & O).
    assert (Hp : p < length row) by (apply nth_error_Some; congruence). cbn [length]. split; [congruence|]. split.
    + intros K [|s] Hs; cbn [nth_error]; [|apply G; [exact K|lia]]. rewrite put_nth by exact Hp. rewrite Nat.eqb_refl, (K _ _ _ Ev). reflexivity.
    + intros [|s] p' N; [|exact (O s p' N)]. unfold state_at. cbn [nth_error]. rewrite put_nth by exact Hp.
      destruct (Nat.eqb_spec p' p) as [->|]; [destruct (N eq_refl)|reflexivity].
Qed.
Print Assumptions C51_set_days_everywhere.

(** What each call says of a parameter that has no integer variables, or is none. *)
Theorem C51_days_refused : forall (V St VE : Type) (ps : list (string * option (variable V St VE))) p s values l,
  (length ps <= p -> set_all ps p values l = (Err (ParameterIndexNotFound p), l) /\ set_one ps p s values l = (Err (ParameterIndexNotFound p), l) /\
     get_one ps p s l = Err (ParameterIndexNotFound p)) /\
  (forall name, nth_error ps p = Some (name, None) ->
     set_all ps p values l = (Err (ParameterTypeNotVariable name), l) /\ set_one ps p s values l = (Err (ParameterTypeNotVariable name), l) /\
     get_one ps p s l = Err (ParameterTypeNotVariable name)).
Proof.
  intros V St VE ps p s values l. unfold set_all, set_one, get_one. split.
  - intros H. apply nth_error_None in H. rewrite H. auto.
  - intros name ->. auto.
Qed.
Print Assumptions C51_days_refused.

(** The days of a radial basis profile are kept, if there are as many as points;
    otherwise the call is an error in which nothing changes, in one scenario or in
    all of them. *)
Theorem C51_days_of_profile : forall solve points f,
  keeps (rbf_days solve points f) /\
  forall ps p name days l, nth_error ps p = Some (name, Some (rbf_days solve points f)) -> length days <> length points ->
    (forall s row, nth_error l s = Some row -> p < length row -> set_one ps p s days l = (Err (VariableParameterError name (length days)), l)) /\
    (l <> [] -> (forall row, In row l -> p < length row) -> set_all ps p days l = (Err (VariableParameterError name (length days)), l)).
Proof.
  intros solve points f. split.
  - intros days st st'. unfold rbf_days, rbf_set_days, rbf_update. cbn [set_values get_values]. destruct (length days =? length points); [|discriminate].
    cbn [rbf_x rbf_y]. destruct (interpolate_rbf_profile _ _ _) as [pr|e|]; cbn [rbind]; try discriminate. intros H. injection H as <-. reflexivity.
  - intros ps p name days l Hp N.
    assert (E : forall st, set_values (rbf_days solve points f) days st = Err (length days)).
    { intros st. unfold rbf_days, rbf_set_days. cbn [set_values]. rewrite (proj2 (Nat.eqb_neq _ _) N). reflexivity. }
    unfold set_one, set_all. rewrite Hp. split.
    + intros s row Hr L. rewrite Hr. destruct (nth_error row p) as [st|] eqn:Es; [|apply nth_error_None in Es; lia]. rewrite E. reflexivity.
    + intros Hl L. destruct l as [|row l]; [congruence|]. cbn [set_loop]. specialize (L row (or_introl eq_refl)).
      destruct (nth_error row p) as [st|] eqn:Es; [|apply nth_error_None in Es; lia]. rewrite E. reflexivity.
Qed.
Print Assumptions C51_days_of_profile.

(** Two scenarios of a network with a constant and a profile of two points. *)
Definition vu_solve (m : list (list Q)) (b : list Q) : option (list Q) := Some b.
Definition vu_points : list (Z * Q) := [(10%Z, 1%Q); (200%Z, 2%Q)].
Definition vu_ps : list (string * option (variable Z rbf_state nat)) := [("constant"%string, None); ("profile"%string, Some (rbf_days vu_solve vu_points RLinear))].
Definition vu_state : list (list rbf_state) := repeat [RbfState [] None None; RbfState [] None None] 2.
Example C51_days_example :
  (let l := snd (set_one vu_ps 1 1 [20; 210]%Z vu_state) in
   get_one vu_ps 1 0 l = Ok None /\ get_one vu_ps 1 1 l = Ok (Some [20; 210]%Z)) /\
  fst (set_all vu_ps 1 [20; 210]%Z vu_state) = Ok tt /\
  fst (set_all vu_ps 1 [20]%Z vu_state) = Err (VariableParameterError "profile"%string 1) /\
  fst (set_all vu_ps 0 [20]%Z vu_state) = Err (ParameterTypeNotVariable "constant"%string).
Proof. vm_compute. repeat split; reflexivity. Qed.
