(** C75: what a parameter written in Python is given and what it gives. *)
From Coq Require Import QArith.
From Verif Require Import Base PyParams PyParamsSpec PyParamsLemmas.
Local Open Scope string_scope.
Local Open Scope list_scope.
Local Open Scope nat_scope.

(** The arguments given in the model file reach Python as the same values, if
    their integers fit an i64. *)
Theorem C75_arguments_partial : forall args kwargs,
  (forall v, In v args -> fits v) -> (forall k v, In (k, v) kwargs -> fits v) ->
  Forall2 same_value args (load_args_py (Some args)) /\
  Forall2 (fun kv kv' => fst kv' = fst kv /\ same_value (snd kv) (snd kv')) kwargs (load_kwargs_py (Some kwargs)) /\
  load_args_py None = [] /\ load_kwargs_py None = [].
Proof.
  intros args kwargs Ha Hk. split; [|split; [|split; reflexivity]].
  - simpl. induction args as [|v args IH]; simpl; [apply Forall2_nil|]. apply Forall2_cons.
    + apply into_py_same. apply Ha. left. reflexivity.
    + apply IH. intros v' Hv'. apply Ha. right. exact Hv'.
  - simpl. induction kwargs as [|[k v] kwargs IH]; simpl; [apply Forall2_nil|]. apply Forall2_cons.
    + simpl. split; [reflexivity|]. apply into_py_same. apply (Hk k). left. reflexivity.
    + apply IH. intros k' v' Hv'. apply (Hk k'). right. exact Hv'.
Qed.
Print Assumptions C75_arguments_partial.

Example C75_arguments_example :
  into_py (JObj [("a", JArr [JNum (JPos 3); JNum (JNeg (-2)); JNum (JFloat (1 # 2)); JNull]); ("b", JBool true)]) =
  PyDict [(PyStr "a", PyList [PyInt 3; PyInt (-2); PyFloat (1 # 2); PyNone]); (PyStr "b", PyBool true)].
Proof. reflexivity. Qed.

(** A larger integer reaches Python as a float. *)
Theorem C75_large_integer_refuted : exists z, (0 <= z < 2 ^ 64)%Z /\ ~ same_value (JNum (JPos z)) (into_py (JNum (JPos z))).
Proof. exists (2 ^ 63)%Z. split; [lia|]. intros H. vm_compute in H. inversion H. Qed.
Print Assumptions C75_large_integer_refuted.

(** A class whose objects keep to themselves: in every order in which the calls
    of the scenarios are made, the results of each scenario are those of an object
    of its own, new at the start, called with that scenario's calls in order, each
    time with an info object that shows the values of that moment. *)
Theorem C75_scenarios : forall W Obj Em M I St str_of (cls : pyclass W Obj) (c : common M I) t (start : St) step n
    (calls : list (nat * (pmethod * context Em M I))) w,
  keeps_to_itself cls start step -> distinct_keys c ->
  exists rs, class_results str_of cls c t n calls w = Ok rs /\ length rs = length calls /\
    forall i, i < n -> follows str_of c t (class_has cls) step start (of_scenario i calls) (results_of i calls rs).
Proof.
  intros W Obj Em M I St str_of cls c t start step n calls w (ex & rem & Hnew & Hhas & Hcall & _) Hk.
  destruct (setup_all_spec cls c start ex rem Hnew n w) as (ss & w' & Hs & Hlen & HR & Hstart & _).
  unfold class_results. rewrite Hs. eexists. split; [reflexivity|].
  destruct (run_class_spec str_of cls c t step ex rem Hhas Hcall Hk calls ss w' HR) as [Hl Hf].
  split; [exact Hl|]. intros i Hi. destruct (nth_error_lt_Some ss i) as [s Hs']; [lia|].
  rewrite <- (proj1 (Hstart i s Hs')). exact (Hf i s Hs').
Qed.
Print Assumptions C75_scenarios.

Lemma shows_same {Em M I} (c : common M I) (ctx : context Em M I) i j : available c ctx -> shows c ctx i -> shows c ctx j -> same_info i j.
Proof.
  intros [A1 A2] (I1 & I2 & I3 & I4 & I5 & I6) (J1 & J2 & J3 & J4 & J5 & J6).
  split; [congruence|]. split; [congruence|]. split; intros k.
  - destruct (in_dec string_dec k (map fst (pc_metrics c))) as [Hin|Hin].
    + apply in_map_iff in Hin. destruct Hin as ([k' m] & <- & Hin). destruct (A1 k' m Hin) as [v Hv]. simpl.
      rewrite (I3 k' m v Hin Hv), (J3 k' m v Hin Hv). reflexivity.
    + rewrite (I4 k Hin), (J4 k Hin). reflexivity.
  - destruct (in_dec string_dec k (map fst (pc_indices c))) as [Hin|Hin].
    + apply in_map_iff in Hin. destruct Hin as ([k' m] & <- & Hin). destruct (A2 k' m Hin) as [v Hv]. simpl.
      rewrite (I5 k' m v Hin Hv), (J5 k' m v Hin Hv). reflexivity.
    + rewrite (I6 k Hin), (J6 k Hin). reflexivity.
Qed.

(** So the results of a scenario do not depend on what is done in the others, nor
    on how many there are: two runs that make the same calls in a scenario make the
    same of the object of it. *)
Theorem C75_independent : forall W Obj Em M I St str_of (cls : pyclass W Obj) (c : common M I) t (start : St) step n n' i
    (calls calls' : list (nat * (pmethod * context Em M I))) w w' rs rs',
  keeps_to_itself cls start step -> distinct_keys c -> t <> RDict ->
  (forall j m ctx, In (j, (m, ctx)) calls -> available c ctx) ->
  of_scenario i calls = of_scenario i calls' -> i < n -> i < n' ->
  class_results str_of cls c t n calls w = Ok rs -> class_results str_of cls c t n' calls' w' = Ok rs' ->
  results_of i calls rs = results_of i calls' rs'.
Proof.
  intros W Obj Em M I St str_of cls c t start step n n' i calls calls' w w' rs rs' Hself Hk Ht Hav Heq Hi Hi' Hr Hr'.
  destruct (C75_scenarios W Obj Em M I St str_of cls c t start step n calls w Hself Hk) as (r1 & E1 & _ & F1).
  destruct (C75_scenarios W Obj Em M I St str_of cls c t start step n' calls' w' Hself Hk) as (r2 & E2 & _ & F2).
  rewrite Hr in E1. injection E1 as <-. rewrite Hr' in E2. injection E2 as <-.
  specialize (F1 i Hi). specialize (F2 i Hi'). rewrite <- Heq in F2.
  assert (Hav' : forall m ctx, In (m, ctx) (of_scenario i calls) -> available c ctx).
  { intros m ctx Hin. unfold of_scenario in Hin. apply in_map_iff in Hin. destruct Hin as ([j p] & Hp & Hin). simpl in Hp. subst p.
    apply filter_In in Hin. exact (Hav j m ctx (proj1 Hin)). }
  destruct Hself as (_ & _ & _ & _ & _ & Hsame).
  clear - F1 F2 Hav' Hsame Ht. revert F1 F2 Hav'. generalize (results_of i calls rs) (results_of i calls' rs') (of_scenario i calls).
  intros l1 l2 cs F1. revert l2. induction F1 as [s|s m ctx s1 r cs l1 H1 F1 IH]; intros l2 F2 Hav; inversion F2; subst; [reflexivity|].
  assert (Ha : available c ctx) by (apply (Hav m); left; reflexivity).
  match goal with H : one_call _ _ _ _ _ m ctx s _ _ |- _ => rename H into H2 end.
  assert (r = r0 /\ s1 = s') as [<- <-].
  { destruct H1 as [(N1 & -> & ->)|[(_ & N1 & _)|(N1 & _ & i1 & v1 & S1 & P1 & G1)]]; [|contradiction|];
      destruct H2 as [(N2 & -> & ->)|[(_ & N2 & _)|(N2 & _ & i2 & v2 & S2 & P2 & G2)]]; try contradiction; try congruence.
    - split; reflexivity.
    - rewrite (Hsame m i1 i2 s (shows_same c ctx i1 i2 Ha S1 S2)) in P1. rewrite P1 in P2. injection P2 as <- <-.
      split; [|reflexivity]. destruct v1 as [v|e|]; simpl in G1, G2; [|congruence|congruence].
      destruct t; [| |contradiction]; simpl in G1, G2.
      + destruct G1 as [G1 G1']. destruct G2 as [G2 G2'].
        assert (Hd : (exists q, number v q) \/ (forall q, ~ number v q)).
        { destruct v as [|[|]| | | | | |]; try (left; eexists; constructor; fail); right; intros q Hq; inversion Hq. }
        destruct Hd as [[q Hq]|Hq]; [rewrite (G1 q Hq), (G2 q Hq); reflexivity|rewrite (G1' Hq), (G2' Hq); reflexivity].
      + destruct G1 as (G1 & G1' & G1''). destruct G2 as (G2 & G2' & G2'').
        destruct (integer_cases v) as [(z & Hz & _)|Hz]; [|rewrite (G1'' Hz), (G2'' Hz); reflexivity].
        assert (Hd : in_u64 z \/ ~ in_u64 z) by (unfold in_u64; lia).
        destruct Hd as [Hd|Hd]; [rewrite (G1 z Hz Hd), (G2 z Hz Hd)|rewrite (G1' z Hz Hd), (G2' z Hz Hd)]; reflexivity. }
  f_equal. apply IH; [assumption|]. intros m' ctx' Hin. apply (Hav m'). right. exact Hin.
Qed.
Print Assumptions C75_independent.

(** A function that depends on the info object only: each call, whatever was
    called before, gives what the function makes of an info object that shows the
    values of that moment. *)
Theorem C75_function : forall W Em M I str_of (f : pyfunction W) g (c : common M I) t n (calls : list (nat * context Em M I)) w,
  only_info f g -> distinct_keys c -> (forall i ctx, In (i, ctx) calls -> i < n) ->
  Forall2 (fun call r =>
    (available c (snd call) -> exists i, shows c (snd call) i /\ gives str_of t (g i) r) /\
    (~ available c (snd call) -> metric_failure c (snd call) r)) calls (func_results str_of f c t n calls w).
Proof.
  intros W Em M I str_of f g c t n calls w [Hf _] Hk Hin. unfold func_results.
  pose proof (run_func_spec str_of f g c t Hf Hk calls (repeat func_setup n) w) as H.
  assert (H1 : forall i s, nth_error (repeat func_setup n) i = Some s -> tidy c w s).
  { intros i s Hs r Hr. apply nth_error_In in Hs. apply repeat_spec in Hs. subst s. discriminate Hr. }
  specialize (H H1). assert (H2 : forall i (ctx : context Em M I), In (i, ctx) calls -> i < length (repeat func_setup n))
    by (intros i ctx Hi; rewrite repeat_length; exact (Hin i ctx Hi)).
  specialize (H H2). clear - H. induction H as [|[i ctx] r calls' rs Ho H IH]; [apply Forall2_nil|]. apply Forall2_cons; [|exact IH].
  simpl in *. split.
  - intros Ha. destruct Ho as [(N & _)|[(_ & N & _)|(_ & _ & j & v & Hs & [= <-] & Hg)]]; [discriminate N|contradiction|].
    exists j. split; assumption.
  - intros Ha. destruct Ho as [(N & _)|[(_ & _ & N & _)|(_ & N & _)]]; [discriminate N|exact N|contradiction].
Qed.
Print Assumptions C75_function.

(** A class is computed in the phases it has a method for, before before after, and
    with none it is refused; so no call fails for want of a method.  A function is computed before
    the time-step only. *)
Theorem C75_phases : forall W Obj (cls : pyclass W Obj),
  (class_phase cls = None <-> class_has cls Before = false /\ class_has cls After = false) /\
  (forall p, class_phase cls = Some p -> calls_of p = filter (class_has cls) [Before; After]) /\
  calls_of func_phase = [Before] /\
  (forall Em M I St str_of (c : common M I) t (start : St) step n (calls : list (nat * (pmethod * context Em M I))) w p rs,
     keeps_to_itself cls start step -> distinct_keys c -> class_phase cls = Some p ->
     (forall i m ctx, In (i, (m, ctx)) calls -> In m (calls_of p) /\ i < n) ->
     class_results str_of cls c t n calls w = Ok rs -> forall m, ~ In (Err (PhaseNotEnabled m)) rs).
Proof.
  intros W Obj cls. assert (Hp : forall p, class_phase cls = Some p -> forall m, In m (calls_of p) <-> class_has cls m = true).
  { intros p. unfold class_phase. destruct (class_has cls Before) eqn:E1, (class_has cls After) eqn:E2; intros [= <-] m; simpl;
      destruct m; rewrite ?E1, ?E2; intuition discriminate. }
  split; [|split; [|split]].
  - unfold class_phase. destruct (class_has cls Before), (class_has cls After); intuition discriminate.
  - intros p. unfold class_phase. simpl. destruct (class_has cls Before), (class_has cls After); intros [= <-]; reflexivity.
  - reflexivity.
  - intros Em M I St str_of c t start step n calls w p rs Hself Hk Hcp Hcalls Hr m Hin.
    destruct (C75_scenarios W Obj Em M I St str_of cls c t start step n calls w Hself Hk) as (r1 & E1 & Hlen & F).
    rewrite Hr in E1. injection E1 as <-.
    destruct (In_nth_error _ _ Hin) as [k Hk'].
    destruct (nth_error_lt_Some calls k) as [[i [m' ctx]] Hc]; [rewrite <- Hlen; apply nth_error_Some; rewrite Hk'; discriminate|].
    destruct (Hcalls i m' ctx (nth_error_In _ _ Hc)) as [_ Hi].
    (* it is among the results of its scenario, whose history never says so *)
    assert (Hres : In (Err (PhaseNotEnabled m)) (results_of i calls rs)).
    { unfold results_of, of_scenario. apply in_map_iff. exists (i, Err (PhaseNotEnabled m)). split; [reflexivity|].
      apply filter_In. split; [|simpl; apply Nat.eqb_refl].
      clear - Hc Hk'. revert k rs Hc Hk'. induction calls as [|[i' x] calls IH]; intros k rs Hc Hk'; [destruct k; discriminate Hc|].
      destruct rs as [|r rs]; [destruct k; discriminate Hk'|]. destruct k as [|k]; simpl in *.
      - injection Hc as <- _. injection Hk' as ->. left. reflexivity.
      - right. exact (IH k rs Hc Hk'). }
    assert (Hm : forall m' ctx', In (m', ctx') (of_scenario i calls) -> class_has cls m' = true).
    { intros m1 ctx1 H1. unfold of_scenario in H1. apply in_map_iff in H1. destruct H1 as ([j q] & Hq & H1). simpl in Hq. subst q.
      apply filter_In in H1. apply (Hp p Hcp). exact (proj1 (Hcalls j m1 ctx1 (proj1 H1))). }
    specialize (F i Hi). clear - F Hres Hm. revert F Hres Hm. generalize (results_of i calls rs) (of_scenario i calls) start.
    intros l cs s F. induction F as [s|s m1 ctx1 s1 r cs l H1 F IH]; intros Hres Hm; [destruct Hres|].
    destruct Hres as [->|Hres]; [|apply IH; [exact Hres|]; intros m2 ctx2 H2; apply (Hm m2 ctx2); right; exact H2].
    destruct H1 as [(N & _)|[(_ & _ & N & _)|(_ & _ & j & v & _ & _ & G)]].
    + rewrite (Hm m1 ctx1 (or_introl eq_refl)) in N. discriminate N.
    + destruct N as [(k & mm & e & _ & _ & N)|[(k & mm & _ & _ & N)|[(k & mm & e & _ & _ & N)|(k & mm & _ & _ & N)]]]; discriminate N.
    + destruct v as [v|e|]; simpl in G; try discriminate G. destruct t; simpl in G.
      * destruct G as [G1 G2]. destruct v as [|[|]|z|q| | | |];
          first [discriminate (G2 ltac:(intros q0 Hq0; inversion Hq0)) | discriminate (G1 _ NumT) | discriminate (G1 _ NumB) |
                 discriminate (G1 _ (NumI _)) | discriminate (G1 _ (NumF _))].
      * destruct G as (G1 & G2 & G3). destruct v as [|[|]|z|q| | | |];
          try discriminate (G3 ltac:(intros q0 Hq0; inversion Hq0)).
        -- discriminate (G1 1%Z IntT ltac:(unfold in_u64; lia)).
        -- discriminate (G1 0%Z IntB ltac:(unfold in_u64; lia)).
        -- assert (Hd : in_u64 z \/ ~ in_u64 z) by (unfold in_u64; lia).
           destruct Hd as [Hd|Hd]; [discriminate (G1 z (IntI z) Hd)|discriminate (G2 z (IntI z) Hd)].
      * destruct G as (G1 & G2 & G3). destruct v as [|b|z|q|x|x|items|x]; try discriminate (G3 ltac:(intros items0 Hq0; discriminate Hq0)).
        set (good := fun kx : pyval * pyval => (exists q, is_float (snd kx) q) \/ exists z, integer (snd kx) z /\ in_u64 z).
        assert (Hdec : forall kx, {good kx} + {~ good kx}).
        { intros [k x]. unfold good. simpl. destruct x as [|b|z|q| | | |]; try (right; intros [[q H]|(z & H & _)]; inversion H; fail).
          - left. right. destruct b; [exists 1%Z|exists 0%Z]; split; try constructor; unfold in_u64; lia.
          - destruct (Z_le_dec 0 z) as [H0|H0]; [destruct (Z_lt_dec z (2 ^ 64)) as [H1|H1]|].
            + left. right. exists z. split; [constructor|]. unfold in_u64. lia.
            + right. intros [[q H]|(z' & H & H')]; inversion H; subst; unfold in_u64 in H'; lia.
            + right. intros [[q H]|(z' & H & H')]; inversion H; subst; unfold in_u64 in H'; lia.
          - left. left. exists q. reflexivity. }
        destruct (Forall_Exists_dec good Hdec items) as [Hall|Hex].
        -- rewrite Forall_forall in Hall. destruct (G1 items eq_refl) as (mv & Hmv & _); [|discriminate Hmv].
           intros k x Hkx. exact (Hall (k, x) Hkx).
        -- apply Exists_exists in Hex. destruct Hex as ([k x] & Hkx & Hbad). unfold good in Hbad. simpl in Hbad.
           destruct (G2 items k x eq_refl Hkx) as [e He]; [| |discriminate He].
           ++ intros q Hq. apply Hbad. left. exists q. exact Hq.
           ++ intros z Hz Hu. apply Hbad. right. exists z. split; assumption.
Qed.
Print Assumptions C75_phases.

(** ** A class that meets the hypotheses *)

(** It counts in each object; the interpreter holds the counts of all objects. *)
Definition counter_step (m : pmethod) (i : info) (s : Q) : res pyerr pyval * Q :=
  match get_metric i "flow" with
  | Ok q => (Ok (PyFloat (s + q)), (s + q)%Q)
  | Err e => (Err e, s)
  | Panic => (Panic, s)
  end.
Definition counter_class : pyclass (list Q) nat :=
  mkClass (fun m => match m with Before => true | After => true end)
    (fun w => (Ok (length w), w ++ [0%Q]))
    (fun _ _ _ => true)
    (fun w infos o m r =>
       match nth_error infos r with
       | Some i => let '(v, s) := counter_step m i (nth o w 0%Q) in (v, set_state w o s)
       | None => (Panic, w)
       end).
Definition flow_common : common nat nat := mkCommon [("flow", 0)] [].
Definition at_step (t i : nat) (q : Q) : context unit nat nat := mkCtx t i (fun m => match m with O => Ok q | _ => Err tt end) (fun _ => Err tt).

Lemma set_state_length {S} (l : list S) n s : length (set_state l n s) = length l.
Proof. revert n. induction l as [|x l IH]; intros [|n]; simpl; try reflexivity. rewrite IH. reflexivity. Qed.

Lemma set_state_nth {S} (l : list S) n s d i : n < length l -> nth i (set_state l n s) d = if i =? n then s else nth i l d.
Proof.
  revert n i. induction l as [|x l IH]; intros [|n] [|i] H; simpl in *; try lia; try reflexivity. apply IH. lia.
Qed.

Example C75_scenarios_example :
  keeps_to_itself counter_class 0%Q counter_step /\ distinct_keys flow_common /\
  class_results (fun _ => "") counter_class flow_common RFloat 2
    [(0, (Before, at_step 0 0 1)); (1, (Before, at_step 0 1 5)); (0, (After, at_step 0 0 2)); (1, (Before, at_step 1 1 7)); (0, (Before, at_step 1 0 4))]
    (mkWorld [] []) = Ok [Ok (VF (0 + 1)); Ok (VF (0 + 5)); Ok (VF (0 + 1 + 2)); Ok (VF (0 + 5 + 7)); Ok (VF (0 + 1 + 2 + 4))].
Proof.
  split; [|split; [|reflexivity]].
  - exists (fun w o => o < length w), (fun w o => nth o w 0%Q). split; [|split; [|split]].
    + intros w. exists (length w), (w ++ [0%Q]). split; [reflexivity|]. rewrite app_length. simpl. split; [lia|]. split; [lia|]. split.
      * rewrite app_nth2 by lia. rewrite Nat.sub_diag. reflexivity.
      * intros o' Ho. split; [lia|]. apply app_nth1. exact Ho.
    + intros w o [|] _; reflexivity.
    + intros w o m infos r i Ho Hi. simpl. rewrite Hi. unfold counter_step.
      destruct (get_metric i "flow") as [q|e|]; do 2 eexists; (split; [reflexivity|]); (split; [f_equal; rewrite set_state_nth by exact Ho; rewrite Nat.eqb_refl; reflexivity|]);
        rewrite set_state_length; (split; [exact Ho|]); intros o' Hn Ho'; (split; [exact Ho'|]); rewrite set_state_nth by exact Ho;
        (destruct (Nat.eqb_spec o' o); [contradiction|reflexivity]).
    + intros m i j s (_ & _ & H & _). unfold counter_step. rewrite (H "flow"). reflexivity.
  - split; simpl; repeat constructor; simpl; intuition.
Qed.

Example C75_function_example :
  let f : pyfunction unit := fun w infos r =>
    match nth_error infos r with
    | Some i => (match get_metric i "flow" with Ok q => Ok (PyFloat (q + inject_Z (Z.of_nat (in_timestep i)))) | Err e => Err e | Panic => Panic end, w)
    | None => (Panic, w)
    end in
  (exists g, only_info f g) /\
  func_results (fun _ => "") f flow_common RFloat 2 [(0, at_step 0 0 1); (1, at_step 0 1 5); (1, at_step 1 1 7)] (mkWorld tt []) =
    [Ok (VF (1 + 0)); Ok (VF (5 + 0)); Ok (VF (7 + 1))].
Proof.
  split; [|reflexivity].
  exists (fun i => match get_metric i "flow" with Ok q => Ok (PyFloat (q + inject_Z (Z.of_nat (in_timestep i)))) | Err e => Err e | Panic => Panic end).
  split.
  - intros w infos r i Hi. rewrite Hi. reflexivity.
  - intros i j (H1 & _ & H2 & _). rewrite H1, (H2 "flow"). reflexivity.
Qed.

(** ** Where it does not hold *)

(** A class that gets a list as its argument, keeps it and appends to it.  The
    interpreter's state are the lists it holds; the argument, and an object of the
    class, is the number of a list. *)
Definition append_alloc (w : list (list Z)) : nat * list (list Z) := (length w, w ++ [[]]).
Definition append_construct (a : nat) (w : list (list Z)) : res pyerr nat * list (list Z) := (Ok a, w).
Definition append_has (m : pmethod) : bool := match m with Before => true | After => false end.
Definition append_call (w : list (list Z)) (infos : list info) (o : nat) (m : pmethod) (r : nat) : res pyerr pyval * list (list Z) :=
  let l := nth o w [] ++ [0%Z] in (Ok (PyInt (Z.of_nat (length l))), set_state w o l).

(** If each object had an argument of its own, its objects would keep to
    themselves.  But the argument is made once and shared, so that a scenario's
    results depend on the others'. *)
Theorem C75_shared_arguments_refuted :
  exists W Obj Arg St has (alloc : W -> Arg * W) (construct : Arg -> W -> res pyerr Obj * W) has_m call (start : St) step w,
    keeps_to_itself (mkClass has (fun w => let '(a, w) := alloc w in construct a w) has_m call) start step /\
    exists (calls calls' : list (nat * (pmethod * context unit nat nat))) rs rs',
      let '(cls, w) := load_class has alloc construct has_m call w in
      of_scenario 1 calls = of_scenario 1 calls' /\
      class_results (fun _ => "") cls (mkCommon [] []) RFloat 2 calls (mkWorld w []) = Ok rs /\
      class_results (fun _ => "") cls (mkCommon [] []) RFloat 2 calls' (mkWorld w []) = Ok rs' /\
      results_of 1 calls rs <> results_of 1 calls' rs'.
Proof.
  exists (list (list Z)), nat, nat, (list Z), append_has, append_alloc, append_construct, (fun _ _ m => append_has m), append_call, [].
  exists (fun m i s => (Ok (PyInt (Z.of_nat (length (s ++ [0%Z])))), s ++ [0%Z])), []. split.
  - exists (fun w o => o < length w), (fun w o => nth o w []). split; [|split; [|split]].
    + intros w. exists (length w), (w ++ [[]]). split; [reflexivity|]. rewrite app_length. simpl. split; [lia|]. split; [lia|]. split.
      * rewrite app_nth2 by lia. rewrite Nat.sub_diag. reflexivity.
      * intros o' Ho. split; [lia|]. apply app_nth1. exact Ho.
    + reflexivity.
    + intros w o m infos r i Ho _. simpl. unfold append_call. do 2 eexists. split; [reflexivity|].
      split; [f_equal; rewrite set_state_nth by exact Ho; rewrite Nat.eqb_refl; reflexivity|].
      rewrite set_state_length. split; [exact Ho|]. intros o' Hn Ho'. split; [exact Ho'|]. rewrite set_state_nth by exact Ho.
      destruct (Nat.eqb_spec o' o); [contradiction|reflexivity].
    + reflexivity.
  - exists [(0, (Before, at_step 0 0 1)); (1, (Before, at_step 0 1 1))], [(1, (Before, at_step 0 1 1))].
    do 2 eexists. simpl. split; [reflexivity|]. split; [reflexivity|]. split; [reflexivity|]. discriminate.
Qed.
Print Assumptions C75_shared_arguments_refuted.

(** The info object is the same one in every call of a scenario: one that was kept
    from an earlier call shows the present one. *)
Theorem C75_kept_info_refuted :
  exists (cls : pyclass (list nat) nat),
    (* every call remembers the info object it was given and returns the time-step of the first *)
    (forall w infos o m r, call_method cls w infos o m r =
       (match nth_error infos (hd r w) with Some i => Ok (PyInt (Z.of_nat (in_timestep i))) | None => Err TypeError end, w ++ [r])) /\
    class_results (fun _ => "") cls (mkCommon [] []) RInt 1
      [(0, (Before, at_step 0 0 1)); (0, (Before, at_step 1 0 1)); (0, (Before, at_step 2 0 1))] (mkWorld [] []) =
    Ok [Ok (VI 0); Ok (VI 1); Ok (VI 2)].
Proof.
  exists (mkClass append_has (fun w => (Ok 0, w)) (fun _ _ m => append_has m)
    (fun w infos o m r => (match nth_error infos (hd r w) with Some i => Ok (PyInt (Z.of_nat (in_timestep i))) | None => Err TypeError end, w ++ [r]))).
  split; reflexivity.
Qed.
Print Assumptions C75_kept_info_refuted.
