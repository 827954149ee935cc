(** Proofs about running scenarios. *)
From Verif Require Import Base Memory Run RunSpec.

Lemma set_nth_nth {A} (l : list A) i (x : A) j : i < length l ->
  nth_error (firstn i l ++ x :: skipn (S i) l) j = if j =? i then Some x else nth_error l j.
Proof.
  revert i j. induction l as [|a l IH]; intros [|i] [|j] H; cbn [length] in H; try lia; try reflexivity.
  cbn [firstn skipn app nth_error]. change (S j =? S i) with (j =? i). apply IH. lia.
Qed.

Lemma set_nth_length {A} (l : list A) i (x : A) : i < length l ->
  length (firstn i l ++ x :: skipn (S i) l) = length l.
Proof. intros H. rewrite app_length, firstn_length. cbn [length]. rewrite skipn_length. lia. Qed.

Lemma Forall2_intro_nth {A B} (P : A -> B -> Prop) l l' :
  length l = length l' ->
  (forall i x y, nth_error l i = Some x -> nth_error l' i = Some y -> P x y) -> Forall2 P l l'.
Proof.
  revert l'. induction l as [|a l IH]; intros [|b l'] Hl H; cbn in Hl; try lia; constructor.
  - exact (H 0 a b eq_refl eq_refl).
  - apply IH; [lia|]. intros i x y. exact (H (S i) x y).
Qed.

Lemma Forall2_refl' {A} (P : A -> A -> Prop) l : (forall x, P x x) -> Forall2 P l l.
Proof. intros H. induction l; constructor; auto. Qed.

Lemma Forall2_trans' {A B C} (P : A -> B -> Prop) (R : B -> C -> Prop) (T : A -> C -> Prop) l1 l2 l3 :
  (forall x y z, P x y -> R y z -> T x z) -> Forall2 P l1 l2 -> Forall2 R l2 l3 -> Forall2 T l1 l3.
Proof.
  intros H H1. revert l3. induction H1; intros l3 H2; inversion H2; subst; constructor; eauto.
Qed.

Section Lemmas.
Context {E Local TS SC : Type}.
Notation operation := (TS -> SC -> Local -> res E Local).
Implicit Types (ops : list operation) (ls : list Local) (scs : list SC).

Lemma perform_app ops ops' t s l :
  perform (ops ++ ops') t s l = rbind (perform ops t s l) (perform ops' t s).
Proof.
  revert l. induction ops as [|op ops IH]; intros l; cbn [app perform]; [reflexivity|].
  destruct (op t s l); cbn [rbind]; [apply IH | reflexivity | reflexivity].
Qed.

(** * One parallel step *)

(** Two tasks still to give the same result. *)
Definition same_task (t : TS) (a b : task (E := E) (Local := Local) (TS := TS) (SC := SC)) : Prop :=
  tk_scenario a = tk_scenario b /\
  perform (tk_todo a) t (tk_scenario a) (tk_local a) = perform (tk_todo b) t (tk_scenario b) (tk_local b).

Lemma advance_same t k tasks tasks' : advance t k tasks = Ok tasks' -> Forall2 (same_task t) tasks tasks'.
Proof.
  unfold advance. destruct (nth_error tasks k) as [[[|op rest] s l]|] eqn:En.
  - injection 1 as <-. apply Forall2_refl'. split; reflexivity.
  - destruct (op t s l) as [l'| |] eqn:Eo; try discriminate. intros H.
    assert (Hlt := nth_error_Some_lt _ _ _ En).
    assert (H' : firstn k tasks ++ Task rest s l' :: skipn (S k) tasks = tasks') by congruence. subst tasks'. clear H.
    apply Forall2_intro_nth; [now rewrite set_nth_length|].
    intros i x y Hx Hy. rewrite set_nth_nth in Hy by assumption.
    destruct (Nat.eqb_spec i k) as [->|].
    + injection Hy as <-. assert (x = Task (op :: rest) s l) by congruence. subst x.
      split; [reflexivity|]. cbn. now rewrite Eo.
    + assert (x = y) by congruence. subst. split; reflexivity.
  - injection 1 as <-. apply Forall2_refl'. split; reflexivity.
Qed.

Lemma same_task_trans t a b c : same_task t a b -> same_task t b c -> same_task t a c.
Proof. intros [H1 H2] [H3 H4]. split; congruence. Qed.

Lemma interleave_same t sched tasks tasks' : interleave t sched tasks = Ok tasks' -> Forall2 (same_task t) tasks tasks'.
Proof.
  revert tasks. induction sched as [|k sched IH]; intros tasks; cbn [interleave].
  - injection 1 as <-. apply Forall2_refl'. split; reflexivity.
  - destruct (advance t k tasks) as [mid| |] eqn:Ea; cbn [rbind]; try discriminate. intros H.
    eapply Forall2_trans'; [apply same_task_trans | exact (advance_same _ _ _ _ Ea) | exact (IH _ H)].
Qed.

(** The result a step of all tasks gives. *)
Definition task_result (t : TS) (k : task (E := E) (Local := Local) (TS := TS) (SC := SC)) : res E Local :=
  perform (tk_todo k) t (tk_scenario k) (tk_local k).

Lemma finished_results t tasks : finished tasks = true ->
  Forall (fun k => task_result t k = Ok (tk_local k)) tasks.
Proof.
  unfold finished. rewrite forallb_forall, Forall_forall. intros H k Hk. specialize (H k Hk).
  unfold task_result. destruct (tk_todo k); [reflexivity | discriminate].
Qed.

Lemma step_spawn ops t scs ls ls' :
  step ops t scs ls = Ok ls' <->
  exists done, Forall2 (fun k l => task_result t k = Ok l) (spawn ops scs ls) done /\
               ls' = done ++ skipn (length scs) ls.
Proof.
  revert ls ls'. induction scs as [|s scs IH]; intros ls ls'.
  - unfold spawn. cbn. split.
    + injection 1 as <-. exists []. split; [constructor | reflexivity].
    + intros [done [H ->]]. inversion H. reflexivity.
  - destruct ls as [|l ls].
    + unfold spawn. cbn. split.
      * injection 1 as <-. exists []. split; [constructor | reflexivity].
      * intros [done [H ->]]. inversion H. reflexivity.
    + cbn [step]. unfold spawn. cbn [combine map length skipn].
      destruct (perform ops t s l) as [l'| |] eqn:Ep; cbn [rbind].
      * destruct (step ops t scs ls) as [rest| |] eqn:Es; cbn [rbind].
        -- split.
           ++ injection 1 as <-. destruct (proj1 (IH ls rest) Es) as [done [Hd ->]].
              exists (l' :: done). split; [constructor; [exact Ep | exact Hd] | reflexivity].
           ++ intros [done [H ->]]. inversion H as [|k x ks xs Hk Hks]; subst.
              unfold task_result in Hk. cbn in Hk. rewrite Ep in Hk. injection Hk as <-.
              assert (Hr : Ok rest = Ok (xs ++ skipn (length scs) ls))
                by (rewrite <- Es; apply IH; exists xs; split; [exact Hks | reflexivity]).
              injection Hr as ->. reflexivity.
        -- split; [discriminate|]. intros [done [H ->]]. inversion H as [|k x ks xs Hk Hks]; subst.
           assert (Hc : step ops t scs ls = Ok (xs ++ skipn (length scs) ls))
             by (apply IH; exists xs; split; [exact Hks | reflexivity]). congruence.
        -- split; [discriminate|]. intros [done [H ->]]. inversion H as [|k x ks xs Hk Hks]; subst.
           assert (Hc : step ops t scs ls = Ok (xs ++ skipn (length scs) ls))
             by (apply IH; exists xs; split; [exact Hks | reflexivity]). congruence.
      * split; [discriminate|]. intros [done [H _]]. inversion H as [|k x ks xs Hk Hks]; subst.
        unfold task_result in Hk. cbn in Hk. congruence.
      * split; [discriminate|]. intros [done [H _]]. inversion H as [|k x ks xs Hk Hks]; subst.
        unfold task_result in Hk. cbn in Hk. congruence.
Qed.

(** A parallel step that succeeds is the sequential step. *)
Lemma step_par_ok ops t sched scs ls ls' :
  step_par ops t sched scs ls = Some (Ok ls') -> step ops t scs ls = Ok ls'.
Proof.
  unfold step_par. destruct (interleave t sched (spawn ops scs ls)) as [tasks| |] eqn:Ei; try discriminate.
  destruct (finished tasks) eqn:Ef; [|discriminate]. intros H.
  assert (Hl : map tk_local tasks ++ skipn (length scs) ls = ls') by congruence. clear H.
  apply step_spawn. exists (map tk_local tasks). split; [|congruence].
  pose proof (interleave_same _ _ _ _ Ei) as Hs. pose proof (finished_results t _ Ef) as Hf.
  clear Ei Ef Hl. induction Hs as [|a b l l' Hab Hs IH]; cbn; [constructor|].
  inversion Hf; subst. constructor; [|now apply IH].
  unfold task_result in *. destruct Hab as [_ ->]. assumption.
Qed.

Lemma interleave_not_err t sched tasks e : interleave (E := E) (Local := Local) (TS := TS) (SC := SC) t sched tasks <> Err e.
Proof.
  revert tasks. induction sched as [|k sched IH]; intros tasks; cbn [interleave]; [discriminate|].
  unfold advance. destruct (nth_error tasks k) as [[[|op rest] s l]|]; cbn [rbind]; try apply IH.
  destruct (op t s l); cbn [rbind]; [apply IH | discriminate | discriminate].
Qed.

(** A parallel step never reports an error: it panics instead. *)
Lemma step_par_not_err ops t sched scs ls e : step_par ops t sched scs ls <> Some (Err e).
Proof.
  unfold step_par. destruct (interleave t sched (spawn ops scs ls)) eqn:Ei.
  - destruct (finished a); discriminate.
  - exfalso. exact (interleave_not_err _ _ _ _ Ei).
  - discriminate.
Qed.

(** If it panics, the sequential step does not succeed. *)
Lemma interleave_panic t sched tasks done :
  interleave t sched tasks = Panic -> Forall2 (fun k l => task_result t k = Ok l) tasks done -> False.
Proof.
  revert tasks. induction sched as [|k sched IH]; intros tasks; cbn [interleave]; [discriminate|].
  destruct (advance t k tasks) as [mid| |] eqn:Ea; cbn [rbind]; [|discriminate|].
  - intros H Hd. apply (IH mid H). pose proof (advance_same _ _ _ _ Ea) as Hs. clear - Hd Hs.
    revert done Hd. induction Hs as [|a b l l' [_ Hab] Hs IH]; intros done Hd; inversion Hd; subst; constructor.
    + unfold task_result in *. congruence.
    + now apply IH.
  - intros _ Hd. unfold advance in Ea. destruct (nth_error tasks k) as [[[|op rest] s l]|] eqn:En; try discriminate.
    destruct (nth_error_lt_Some done k) as [y Hy].
    { rewrite <- (Forall2_length' _ _ _ Hd). exact (nth_error_Some_lt _ _ _ En). }
    pose proof (Forall2_nth_error _ _ _ _ _ _ Hd En Hy) as Hr. unfold task_result in Hr. cbn in Hr.
    destruct (op t s l); cbn [rbind] in *; discriminate.
Qed.

Lemma step_par_panic ops t sched scs ls ls' :
  step_par ops t sched scs ls = Some Panic -> step ops t scs ls <> Ok ls'.
Proof.
  unfold step_par. destruct (interleave t sched (spawn ops scs ls)) as [tasks| |] eqn:Ei; try discriminate.
  - destruct (finished tasks); discriminate.
  - intros _ H. apply step_spawn in H. destruct H as [done [Hd _]]. exact (interleave_panic _ _ _ _ Ei Hd).
Qed.

(** * Enough turns finish the step *)

Definition left_over (tasks : list (task (E := E) (Local := Local) (TS := TS) (SC := SC))) (sched : list nat) : Prop :=
  forall k tk, nth_error tasks k = Some tk -> length (tk_todo tk) <= count_occ Nat.eq_dec sched k.

Lemma left_over_advance t k sched tasks tasks' :
  advance t k tasks = Ok tasks' -> left_over tasks (k :: sched) -> left_over tasks' sched.
Proof.
  unfold advance. intros H Hl j tk Hj. cbn [count_occ] in *.
  destruct (nth_error tasks k) as [[[|op rest] s l]|] eqn:En.
  - injection H as <-. specialize (Hl j tk Hj). cbn [count_occ] in Hl.
    destruct (Nat.eq_dec k j) as [->|]; [|exact Hl].
    rewrite Hj in En. injection En as ->. cbn. lia.
  - destruct (op t s l) as [l'| |]; try discriminate.
    assert (H' : firstn k tasks ++ Task rest s l' :: skipn (S k) tasks = tasks') by congruence. subst tasks'. clear H.
    rewrite set_nth_nth in Hj by exact (nth_error_Some_lt _ _ _ En).
    destruct (Nat.eqb_spec j k) as [->|Hne].
    + injection Hj as <-. specialize (Hl k _ En). cbn [count_occ tk_todo length] in Hl.
      destruct (Nat.eq_dec k k); [cbn; lia | congruence].
    + specialize (Hl j tk Hj). cbn [count_occ] in Hl. destruct (Nat.eq_dec k j); [congruence | exact Hl].
  - injection H as <-. specialize (Hl j tk Hj). cbn [count_occ] in Hl.
    destruct (Nat.eq_dec k j) as [->|]; [congruence | exact Hl].
Qed.

Lemma interleave_finishes t sched tasks tasks' :
  interleave t sched tasks = Ok tasks' -> left_over tasks sched -> finished tasks' = true.
Proof.
  revert tasks. induction sched as [|k sched IH]; intros tasks; cbn [interleave].
  - injection 1 as <-. intros Hl. unfold finished. apply forallb_forall. intros tk Hin.
    apply In_nth_error in Hin. destruct Hin as [k Hk]. specialize (Hl k tk Hk). cbn in Hl.
    destruct (tk_todo tk); [reflexivity | cbn in Hl; lia].
  - destruct (advance t k tasks) as [mid| |] eqn:Ea; cbn [rbind]; try discriminate.
    intros H Hl. apply (IH mid H). exact (left_over_advance _ _ _ _ _ Ea Hl).
Qed.

Lemma step_par_scheduled ops t sched scs ls :
  enough_turns (length scs) (length ops) sched -> step_par ops t sched scs ls <> None.
Proof.
  intros H. unfold step_par. destruct (interleave t sched (spawn ops scs ls)) as [tasks| |] eqn:Ei; try discriminate.
  rewrite (interleave_finishes _ _ _ _ Ei); [discriminate|].
  intros k tk Hk. unfold spawn in Hk. rewrite nth_error_map in Hk.
  destruct (nth_error (combine scs ls) k) as [p|] eqn:Ec; [|discriminate]. cbn in Hk. injection Hk as <-. cbn.
  apply H. pose proof (nth_error_Some_lt _ _ _ Ec) as Hlt. rewrite combine_length in Hlt. lia.
Qed.

(** Summary for one step. *)
Lemma par_step_spec ops t sched scs ls :
  match step ops t scs ls with
  | Ok ls' => step_par ops t sched scs ls = Some (Ok ls') \/ step_par ops t sched scs ls = None
  | _ => step_par ops t sched scs ls = Some Panic \/ step_par ops t sched scs ls = None
  end.
Proof.
  destruct (step_par ops t sched scs ls) as [[ls'|e|]|] eqn:Ep.
  - rewrite (step_par_ok _ _ _ _ _ _ Ep). auto.
  - exfalso. exact (step_par_not_err _ _ _ _ _ _ Ep).
  - destruct (step ops t scs ls) as [ls'| |] eqn:Es; auto. exfalso. exact (step_par_panic _ _ _ _ _ _ Ep Es).
  - destruct (step ops t scs ls); auto.
Qed.
End Lemmas.

(** * Whole runs *)

Section Runs.
Context {E Local TS SC Rec : Type}.
Variable save : TS -> list SC -> list Local -> Rec -> res E Rec.
Notation operation := (TS -> SC -> Local -> res E Local).
Implicit Types (ops : list operation) (scs : list SC) (m : model_state (Local := Local) (Rec := Rec)).

(** The loop ends: it makes one turn per remaining time-step and one more. *)
Lemma run_ends fuel tss scs ops m : length tss - ms_index m < fuel ->
  run_loop save fuel tss scs (sequential ops) m <> None.
Proof.
  revert m. induction fuel as [|f IH]; intros m Hf; [lia|]. cbn [run_loop]. unfold model_step.
  destruct (nth_error tss (ms_index m)) as [t|] eqn:En; [|discriminate].
  unfold sequential at 1. destruct (step ops t scs (ms_locals m)) as [ls| |]; try discriminate.
  destruct (save t scs ls (ms_rec m)) as [r| |]; try discriminate.
  apply IH. cbn. pose proof (nth_error_Some_lt _ _ _ En). lia.
Qed.

(** More fuel makes no difference. *)
Lemma run_fuel fuel fuel' tss scs go m r :
  run_loop save fuel tss scs go m = Some r -> fuel <= fuel' -> run_loop save fuel' tss scs go m = Some r.
Proof.
  revert fuel' m. induction fuel as [|f IH]; intros fuel' m H Hf; [discriminate|].
  destruct fuel' as [|f']; [lia|]. cbn [run_loop] in *.
  destruct (model_step save tss scs (go (ms_index m)) m); try exact H; try discriminate.
  apply IH; [exact H | lia].
Qed.

Lemma parallel_run fuel fuel' tss scs ops scheds m r r' :
  run_loop save fuel tss scs (sequential ops) m = Some r ->
  run_loop save fuel' tss scs (parallel ops scheds) m = Some r' ->
  match r with
  | Ok m' => r' = Ok m'
  | Err e => r' = Err e \/ r' = Panic
  | Panic => r' = Panic
  end.
Proof.
  revert fuel' m. induction fuel as [|f IH]; intros fuel' m; [discriminate|].
  destruct fuel' as [|f']; [discriminate|]. cbn [run_loop]. unfold model_step.
  destruct (nth_error tss (ms_index m)) as [t|].
  - unfold sequential at 1, parallel at 1.
    pose proof (par_step_spec ops t (scheds (ms_index m)) scs (ms_locals m)) as Hp.
    destruct (step ops t scs (ms_locals m)) as [ls|e|].
    + destruct Hp as [-> | ->]; [|discriminate].
      destruct (save t scs ls (ms_rec m)) as [rr|e|].
      * apply IH.
      * intros H1 H2. injection H1 as <-. injection H2 as <-. auto.
      * intros H1 H2. injection H1 as <-. injection H2 as <-. auto.
    + destruct Hp as [-> | ->]; [|discriminate]. intros H1 H2. injection H1 as <-. injection H2 as <-. auto.
    + destruct Hp as [-> | ->]; [|discriminate]. intros H1 H2. injection H1 as <-. injection H2 as <-. auto.
  - intros H1 H2. injection H1 as <-. injection H2 as <-. reflexivity.
Qed.

Lemma parallel_run_ends fuel tss scs ops scheds m : length tss - ms_index m < fuel ->
  (forall i, enough_turns (length scs) (length ops) (scheds i)) ->
  run_loop save fuel tss scs (parallel ops scheds) m <> None.
Proof.
  intros Hf Hs. revert m Hf. induction fuel as [|f IH]; intros m Hf; [lia|]. cbn [run_loop]. unfold model_step.
  destruct (nth_error tss (ms_index m)) as [t|] eqn:En; [|discriminate].
  unfold parallel at 1.
  destruct (step_par ops t (scheds (ms_index m)) scs (ms_locals m)) as [[ls| |]|] eqn:Ep; try discriminate.
  - destruct (save t scs ls (ms_rec m)) as [r| |]; try discriminate.
    apply IH. cbn. pose proof (nth_error_Some_lt _ _ _ En). lia.
  - exfalso. exact (step_par_scheduled _ _ _ _ _ (Hs _) Ep).
Qed.

End Runs.

(** * The solver of many states *)

Section Steps.
Context {E Local TS SC : Type}.
Notation operation := (TS -> SC -> Local -> res E Local).
Implicit Types (ops : list operation) (scs : list SC).

Lemma step_unzip ops t scs ls ls' : length scs = length ls ->
  step ops t scs ls = Ok ls' <->
  length ls' = length ls /\
  forall k s l, nth_error scs k = Some s -> nth_error ls k = Some l ->
    exists l', nth_error ls' k = Some l' /\ perform ops t s l = Ok l'.
Proof.
  revert ls ls'. induction scs as [|s scs IH]; intros [|l ls] ls' Hl; cbn in Hl; try lia.
  - cbn. split.
    + injection 1 as <-. split; [reflexivity|]. intros [|k] s l; discriminate.
    + intros [H _]. destruct ls'; [reflexivity | discriminate].
  - cbn [step]. split.
    + destruct (perform ops t s l) as [l1| |] eqn:Ep; cbn [rbind]; try discriminate.
      destruct (step ops t scs ls) as [rest| |] eqn:Es; cbn [rbind]; try discriminate.
      injection 1 as <-. apply IH in Es; [|lia]. destruct Es as [Hr Hk]. split; [cbn; lia|].
      intros [|k] s0 l0 Hs0 Hl0; cbn in *.
      * injection Hs0 as <-. injection Hl0 as <-. eauto.
      * exact (Hk k s0 l0 Hs0 Hl0).
    + intros [H Hk]. destruct ls' as [|l1 ls']; [cbn in H; lia|].
      destruct (Hk 0 s l eq_refl eq_refl) as [l1' [H1 H2]]. cbn in H1. injection H1 as <-. rewrite H2. cbn [rbind].
      assert (Hs : step ops t scs ls = Ok ls').
      { apply IH; [lia|]. split; [cbn in H; lia|]. intros k s0 l0. exact (Hk (S k) s0 l0). }
      now rewrite Hs.
Qed.

Lemma step_app ops ops' t scs ls : length scs = length ls ->
  forall ls', step (ops ++ ops') t scs ls = Ok ls' <->
    exists mid, step ops t scs ls = Ok mid /\ step ops' t scs mid = Ok ls'.
Proof.
  intros Hl ls'. revert ls ls' Hl. induction scs as [|s scs IH]; intros [|l ls] ls' Hl; cbn in Hl; try lia.
  - cbn. split; [intros H; exists []; auto | intros [mid [H1 H2]]; congruence].
  - cbn [step]. rewrite perform_app. split.
    + destruct (perform ops t s l) as [l1| |] eqn:E1; cbn [rbind]; try discriminate.
      destruct (perform ops' t s l1) as [l2| |] eqn:E2; cbn [rbind]; try discriminate.
      destruct (step (ops ++ ops') t scs ls) as [rest| |] eqn:Es; cbn [rbind]; try discriminate.
      injection 1 as <-. apply IH in Es; [|lia]. destruct Es as [mid [H1 H2]].
      exists (l1 :: mid). rewrite H1. cbn [rbind]. rewrite E2, H2. auto.
    + intros [mid [H1 H2]].
      destruct (perform ops t s l) as [l1| |] eqn:E1; cbn [rbind] in *; try discriminate.
      destruct (step ops t scs ls) as [rest| |] eqn:Es; cbn [rbind] in *; try discriminate.
      injection H1 as <-.
      destruct (perform ops' t s l1) as [l2| |] eqn:E2; cbn [rbind] in *; try discriminate.
      destruct (step ops' t scs rest) as [rest'| |] eqn:Es'; cbn [rbind] in *; try discriminate.
      assert (Ha : step (ops ++ ops') t scs ls = Ok rest') by (apply IH; [lia | eauto]).
      rewrite Ha. exact H2.
Qed.

Lemma multi_scenario_step (before after : list operation) solve solve_all t s1 s2 scs ls ls' :
  length scs = length ls -> solves_separately solve solve_all ->
  step_multi_scenario before after solve_all t s1 s2 scs ls = Some (Ok ls') ->
  step (before ++ [fun t _ l => solve t l] ++ after) t scs ls = Ok ls'.
Proof.
  intros Hl Hs. unfold step_multi_scenario.
  destruct (step_par before t s1 scs ls) as [[ls1| |]|] eqn:E1; try discriminate.
  destruct (solve_all t ls1) as [ls2| |] eqn:E2; cbn [unwrap]; try discriminate.
  intros E3. apply step_par_ok in E1, E3.
  apply step_app; [exact Hl|]. exists ls1. split; [exact E1|].
  assert (Hl1 : length ls1 = length ls) by (apply step_unzip in E1; tauto).
  pose proof (Hs _ _ _ E2) as Hf.
  apply step_app; [lia|]. exists ls2. split; [|exact E3].
  apply step_unzip; [lia|]. split; [symmetry; exact (Forall2_length' _ _ _ Hf)|].
  intros k s l Hk Hkl. destruct (nth_error_lt_Some ls2 k) as [l2 H2].
  { rewrite <- (Forall2_length' _ _ _ Hf). exact (nth_error_Some_lt _ _ _ Hkl). }
  exists l2. split; [exact H2|]. cbn. rewrite (Forall2_nth_error _ _ _ _ _ _ Hf Hkl H2). reflexivity.
Qed.

(** * A selection of the scenarios *)

Lemma selects_length {A} ks (w p : list A) : selects ks w p -> length p = length ks.
Proof. intros H. symmetry. exact (Forall2_length' _ _ _ H). Qed.

Lemma step_selection ops t scs ls ls' ks scs' part :
  length scs = length ls -> step ops t scs ls = Ok ls' -> selects ks scs scs' -> selects ks ls part ->
  exists part', step ops t scs' part = Ok part' /\ selects ks ls' part'.
Proof.
  intros Hl Hs. apply step_unzip in Hs; [|exact Hl]. destruct Hs as [_ Hs].
  intros H1. revert part. induction H1 as [|k s ks scs' Hk H1 IH]; intros part H2.
  - inversion H2; subst. exists []. split; [reflexivity | constructor].
  - inversion H2 as [|k' l ks' part0 Hkl H2']; subst.
    destruct (IH _ H2') as [part' [Hp Hsel]].
    destruct (Hs k s l Hk Hkl) as [l' [Hn Hperf]].
    exists (l' :: part'). cbn [step]. rewrite Hperf. cbn [rbind]. rewrite Hp. cbn [rbind].
    split; [reflexivity | constructor; assumption].
Qed.

(** What [mem_save] does to one scenario's rows. *)
Definition save_one (idx : nat) (sc : list metric_set_state) (d : list row) : res mem_error (list row) :=
  match nth_error sc idx with
  | None => Err MetricSetIndexNotFound
  | Some st =>
      match current_values st with
      | Some vs => rbind (row_of vs) (fun r => Ok (d ++ [r]))
      | None => Ok d
      end
  end.

Lemma mem_save_unzip idx (scs : list (list metric_set_state)) data data' : length scs = length data ->
  mem_save idx scs data = Ok data' ->
  length data' = length data /\
  forall k sc d, nth_error scs k = Some sc -> nth_error data k = Some d ->
    exists d', nth_error data' k = Some d' /\ save_one idx sc d = Ok d'.
Proof.
  revert data data'. induction scs as [|sc scs IH]; intros [|d data] data' Hl; cbn in Hl; try lia.
  - cbn. injection 1 as <-. split; [reflexivity|]. intros [|k]; discriminate.
  - cbn [mem_save]. destruct (nth_error sc idx) as [st|] eqn:En; [|discriminate].
    destruct (match current_values st with Some _ => _ | None => _ end) as [d1| |] eqn:Ed; cbn [rbind]; try discriminate.
    destruct (mem_save idx scs data) as [rest| |] eqn:Er; cbn [rbind]; try discriminate.
    injection 1 as <-. apply IH in Er; [|lia]. destruct Er as [Hr Hk]. split; [cbn; lia|].
    intros [|k] sc0 d0 Hs0 Hd0; cbn in *.
    + injection Hs0 as <-. injection Hd0 as <-. exists d1. split; [reflexivity|].
      unfold save_one. rewrite En. exact Ed.
    + exact (Hk k sc0 d0 Hs0 Hd0).
Qed.

Lemma mem_save_selection idx (scs : list (list metric_set_state)) data data' ks (scs' : list (list metric_set_state)) part :
  length scs = length data -> mem_save idx scs data = Ok data' -> selects ks scs scs' -> selects ks data part ->
  exists part', mem_save idx scs' part = Ok part' /\ selects ks data' part'.
Proof.
  intros Hl Hs. apply mem_save_unzip in Hs; [|exact Hl]. destruct Hs as [_ Hs].
  intros H1. revert part. induction H1 as [|k s ks scs' Hk H1 IH]; intros part H2.
  - inversion H2; subst. exists []. split; [reflexivity | constructor].
  - inversion H2 as [|k' l ks' part0 Hkl H2']; subst.
    destruct (IH _ H2') as [part' [Hp Hsel]].
    destruct (Hs k s l Hk Hkl) as [l' [Hn Hperf]].
    exists (l' :: part'). cbn [mem_save]. unfold save_one in Hperf.
    destruct (nth_error s idx) as [st|]; [|discriminate]. rewrite Hperf. cbn [rbind]. rewrite Hp. cbn [rbind].
    split; [reflexivity | constructor; assumption].
Qed.

Lemma selects_map {A B} (f : A -> B) ks w p : selects ks w p -> selects ks (map f w) (map f p).
Proof.
  unfold selects. intros H. induction H; cbn; constructor; [|assumption]. now apply map_nth_error.
Qed.
End Steps.

Section Selection.
Context {E Local TS SC : Type}.
Variable inj : mem_error -> E.
Variable sets_of : Local -> list metric_set_state.
Variable idx : nat.
Notation operation := (TS -> SC -> Local -> res E Local).

Lemma run_selection fuel tss scs (ops : list operation) m m' ks scs' part data :
  length scs = length (ms_locals m) -> length scs = length (ms_rec m) ->
  run_loop (memory_save inj sets_of idx) fuel tss scs (sequential ops) m = Some (Ok m') ->
  selects ks scs scs' -> selects ks (ms_locals m) part -> selects ks (ms_rec m) data ->
  exists m2, run_loop (memory_save inj sets_of idx) fuel tss scs' (sequential ops) (ModelState (ms_index m) part data) = Some (Ok m2) /\
    ms_index m2 = ms_index m' /\ selects ks (ms_locals m') (ms_locals m2) /\ selects ks (ms_rec m') (ms_rec m2).
Proof.
  revert m part data. induction fuel as [|f IH]; intros m part data Hl1 Hl2; [discriminate|].
  cbn [run_loop]. unfold model_step. cbn [ms_index ms_locals ms_rec].
  destruct (nth_error tss (ms_index m)) as [t|] eqn:En.
  - unfold sequential at 1 3. destruct (step ops t scs (ms_locals m)) as [ls| |] eqn:Es; try discriminate.
    unfold memory_save at 1 3. destruct (mem_save idx (map sets_of ls) (ms_rec m)) as [r| |] eqn:Er; try discriminate.
    intros H Hk1 Hk2 Hk3.
    destruct (step_selection ops t scs _ ls ks scs' part Hl1 Es Hk1 Hk2) as [part' [Hp Hsel]].
    assert (Hls : length ls = length (ms_locals m)) by (apply (step_unzip ops t scs _ ls Hl1) in Es; tauto).
    destruct (mem_save_selection idx (map sets_of ls) (ms_rec m) r ks (map sets_of part') data) as [data' [Hd Hdsel]];
      [rewrite map_length; lia | exact Er | now apply selects_map | exact Hk3 |].
    rewrite Hp, Hd. apply (IH (ModelState (S (ms_index m)) ls r)); cbn [ms_index ms_locals ms_rec]; try assumption; try lia.
    destruct (mem_save_unzip idx (map sets_of ls) (ms_rec m) r) as [Hr _]; [rewrite map_length; lia | exact Er | lia].
  - intros H Hk1 Hk2 Hk3. injection H as <-. eexists. split; [reflexivity|]. cbn. auto.
Qed.
End Selection.

Section Renumbered.
Context {E Local TS SC Rec : Type}.
Variable save : TS -> list SC -> list Local -> Rec -> res E Rec.
Notation operation := (TS -> SC -> Local -> res E Local).

Lemma step_renumbered (ops ops' : list operation) t scs scs' ls :
  Forall2 (fun s s' => forall t l, perform ops t s l = perform ops' t s' l) scs scs' ->
  step ops t scs ls = step ops' t scs' ls.
Proof.
  intros H. revert ls. induction H as [|s s' scs scs' Hs H IH]; intros [|l ls]; cbn [step]; try reflexivity.
  rewrite Hs, IH. reflexivity.
Qed.

Lemma run_renumbered fuel tss (ops ops' : list operation) scs scs' m :
  (forall t ls r, save t scs ls r = save t scs' ls r) ->
  Forall2 (fun s s' => forall t l, perform ops t s l = perform ops' t s' l) scs scs' ->
  run_loop save fuel tss scs (sequential ops) m = run_loop save fuel tss scs' (sequential ops') m.
Proof.
  intros Hsave H. revert m. induction fuel as [|f IH]; intros m; cbn [run_loop]; [reflexivity|].
  unfold model_step. destruct (nth_error tss (ms_index m)) as [t|]; [|reflexivity].
  unfold sequential at 1 3. rewrite (step_renumbered ops ops' t scs scs' _ H).
  destruct (step ops' t scs' (ms_locals m)) as [ls| |]; try reflexivity.
  rewrite Hsave. destruct (save t scs' ls (ms_rec m)); [apply IH | reflexivity | reflexivity].
Qed.
End Renumbered.
