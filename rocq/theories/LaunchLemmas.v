(** Lemmas for C80. *)
From Coq Require Import Ascii String ZArith.
From Verif Require Import Base Run RunSpec RunLemmas Launch LaunchSpec.
Local Open Scope string_scope.
Local Open Scope list_scope.
Local Open Scope Z_scope.

Lemma get_In k d v : NoDup (map fst d) -> get_item k d = Some v <-> In (k, v) d.
Proof.
  induction d as [|[k' v'] d IH]; cbn [get_item map fst In]; [intros _; split; [discriminate | tauto]|].
  intros H. inversion H as [|? ? Hn Hd]; subst. destruct (String.eqb_spec k k') as [<-|Hk].
  - split; [intros [= <-]; auto|]. intros [[= <-]|Hin]; [reflexivity|]. destruct Hn. apply (in_map fst) in Hin. exact Hin.
  - rewrite (IH Hd). split; [auto|]. intros [[= E _]|Hin]; [congruence | exact Hin].
Qed.
Lemma get_None k d : get_item k d = None <-> forall v, ~ In (k, v) d.
Proof.
  induction d as [|[k' v'] d IH]; cbn [get_item In]; [split; [auto | reflexivity]|].
  destruct (String.eqb_spec k k') as [<-|Hk].
  - split; [discriminate|]. intros H. destruct (H v'). auto.
  - rewrite IH. split; intros H v; [intros [[= E _]|Hin]; [congruence | exact (H v Hin)] | intros Hin; exact (H v (or_intror Hin))].
Qed.
Lemma del_In k d p : In p (del_item k d) <-> In p d /\ fst p <> k.
Proof.
  unfold del_item. rewrite filter_In. destruct (String.eqb_spec k (fst p)) as [E|E]; cbn [negb]; intuition congruence.
Qed.
Lemma del_NoDup k d : NoDup (map fst d) -> NoDup (map fst (del_item k d)).
Proof.
  unfold del_item. induction d as [|[k' v'] d IH]; cbn [map filter fst]; [auto|]. intros H. inversion H as [|? ? Hn Hd]; subst.
  destruct (negb (k =? k')%string); [|auto]. cbn [map fst]. constructor; [|auto]. intros Hin. apply Hn.
  apply in_map_iff in Hin. destruct Hin as (p & <- & Hp). apply filter_In in Hp. apply in_map. tauto.
Qed.
Lemma get_del k k' d v : NoDup (map fst d) -> k <> k' -> get_item k (del_item k' d) = Some v <-> In (k, v) d.
Proof. intros H Hk. rewrite (get_In _ _ _ (del_NoDup _ _ H)), del_In. cbn [fst]. tauto. Qed.
Lemma usize_number v n : extract_usize v = Some n <-> number v n.
Proof.
  destruct v as [z|b|]; cbn [extract_usize].
  - destruct ((0 <=? z) && (z <? 2 ^ 64))%bool eqn:E.
    + apply andb_true_iff in E. destruct E as [E1 E2]. apply Z.leb_le in E1. apply Z.ltb_lt in E2.
      split; [intros [= <-]; constructor; lia | intros H; inversion H; reflexivity].
    + split; [discriminate|]. intros H. inversion H; subst. apply andb_false_iff in E. destruct E as [E|E]; [apply Z.leb_gt in E | apply Z.ltb_ge in E]; lia.
  - split; [intros [= <-]; destruct b; constructor | intros H; inversion H; reflexivity].
  - split; [discriminate | intros H; inversion H].
Qed.

(** The settings a dictionary gives. *)
Definition says_on (k : string) (d : dict) : bool := match get_item k d with Some (PyBool true) => true | _ => false end.
Definition says_threads (d : dict) : Z := match get_item "threads" d with Some v => match extract_usize v with Some n => n | None => 0 end | None => 0 end.
Definition as_said (ignoring : bool) (d : dict) : settings :=
  mkSettings (says_on "parallel" d) (says_threads d) (ignoring && says_on "ignore_feature_requirements" d).
Definition build (ignoring : bool) (d : dict) : option dict * res py_error settings :=
  if ignoring then build_ipm_simd_settings_py (Some d) else build_settings_py (Some d).

Lemma empty_dict (d : dict) : (forall p, ~ In p d) -> d = [].
Proof. destruct d as [|p d]; [reflexivity|]. intros H. destruct (H p). left. reflexivity. Qed.
Lemma get_del_neq k k' d : k <> k' -> get_item k (del_item k' d) = get_item k d.
Proof.
  intros Hk. unfold del_item. induction d as [|[q v] d IH]; [reflexivity|]. cbn [filter fst get_item].
  destruct (String.eqb_spec k' q) as [<-|E]; cbn [negb].
  - rewrite IH. destruct (String.eqb_spec k k'); [contradiction | reflexivity].
  - cbn [get_item]. destruct (k =? q)%string; [reflexivity | exact IH].
Qed.
Lemma del_absent k d : get_item k d = None -> del_item k d = d.
Proof.
  unfold del_item. induction d as [|[q v] d IH]; [reflexivity|]. cbn [get_item filter fst].
  destruct (k =? q)%string; [discriminate|]. cbn [negb]. intros H. rewrite (IH H). reflexivity.
Qed.

Definition left_over (ignoring : bool) (d : dict) : dict :=
  let d := del_item "parallel" (del_item "threads" d) in
  if ignoring then del_item "ignore_feature_requirements" d else d.
Lemma left_over_In ignoring d k v : In (k, v) (left_over ignoring d) <->
  In (k, v) d /\ k <> "threads" /\ k <> "parallel" /\ (ignoring = true -> k <> "ignore_feature_requirements").
Proof. unfold left_over. destruct ignoring; rewrite !del_In; cbn [fst]; intuition congruence. Qed.

Definition typed (ignoring : bool) (d : dict) : Prop :=
  (forall v, get_item "threads" d = Some v -> extract_usize v <> None) /\
  (forall v, get_item "parallel" d = Some v -> extract_bool v <> None) /\
  (ignoring = true -> forall v, get_item "ignore_feature_requirements" d = Some v -> extract_bool v <> None).

Lemma take_threads_spec d s rest :
  (exists v, get_item "threads" d = Some v /\ extract_usize v = None /\ take_threads d s rest = (d, Err (WrongType "threads"))) \/
  ((forall v, get_item "threads" d = Some v -> extract_usize v <> None) /\
   exists n, (get_item "threads" d = None -> n = se_threads s) /\ (forall v m, get_item "threads" d = Some v -> extract_usize v = Some m -> n = m) /\
   take_threads d s rest = rest (del_item "threads" d) (with_threads n s)).
Proof.
  unfold take_threads. destruct (get_item "threads" d) as [v|] eqn:E.
  - destruct (extract_usize v) as [n|] eqn:En.
    + right. split; [intros v' [= <-]; congruence|]. exists n. repeat split; [discriminate | intros v' m [= <-] E2; congruence].
    + left. exists v. auto.
  - right. split; [discriminate|]. exists (se_threads s). repeat split; [discriminate|]. rewrite (del_absent _ _ E). destruct s; reflexivity.
Qed.
Lemma take_switch_spec key on d s rest :
  (exists v, get_item key d = Some v /\ extract_bool v = None /\ take_switch key on d s rest = (d, Err (WrongType key))) \/
  ((forall v, get_item key d = Some v -> extract_bool v <> None) /\
   take_switch key on d s rest = rest (del_item key d) (if says_on key d then on s else s)).
Proof.
  unfold take_switch, says_on. destruct (get_item key d) as [v|] eqn:E.
  - destruct v as [z|b|]; cbn [extract_bool]; [left; eauto | | left; eauto].
    right. split; [intros v' [= <-]; discriminate|]. destruct b; reflexivity.
  - right. split; [discriminate|]. rewrite (del_absent _ _ E). reflexivity.
Qed.
Lemma no_more_spec d s : (d = [] /\ no_more d s = ([], Ok s)) \/ (d <> [] /\ no_more d s = (d, Err (UnknownKeywords d))).
Proof. destruct d; [left | right]; split; try reflexivity; discriminate. Qed.

Lemma build_ok ignoring d d' s : build ignoring d = (d', Ok s) <->
  typed ignoring d /\ left_over ignoring d = [] /\ d' = Some [] /\ s = as_said ignoring d.
Proof.
  unfold build, build_settings_py, build_ipm_simd_settings_py, typed, left_over, as_said, says_threads.
  assert (Hpt : get_item "parallel" (del_item "threads" d) = get_item "parallel" d) by (apply get_del_neq; discriminate).
  assert (Hig : get_item "ignore_feature_requirements" (del_item "parallel" (del_item "threads" d)) = get_item "ignore_feature_requirements" d)
    by (rewrite !get_del_neq by discriminate; reflexivity).
  assert (Hon : forall k d1 d2, get_item k d1 = get_item k d2 -> says_on k d1 = says_on k d2) by (unfold says_on; intros k d1 d2 ->; reflexivity).
  destruct ignoring.
  - destruct (take_threads_spec d default_settings (fun d s => take_switch "parallel" with_parallel d s (fun d s =>
                take_switch "ignore_feature_requirements" with_ignore d s no_more))) as [(v & E1 & E2 & ->)|(Ht & n & En1 & En2 & ->)].
    { split; [discriminate|]. intros ((H & _) & _). destruct (H _ E1 E2). }
    destruct (take_switch_spec "parallel" with_parallel (del_item "threads" d) (with_threads n default_settings) (fun d s =>
                take_switch "ignore_feature_requirements" with_ignore d s no_more)) as [(v & E1 & E2 & ->)|(Hp & ->)].
    { split; [discriminate|]. intros ((_ & H & _) & _). rewrite Hpt in E1. destruct (H _ E1 E2). }
    match goal with |- context [take_switch ?k ?o ?dd ?ss no_more] => destruct (take_switch_spec k o dd ss no_more) as [(v & E1 & E2 & ->)|(Hi & ->)] end.
    { split; [discriminate|]. intros ((_ & _ & H) & _). rewrite Hig in E1. destruct (H eq_refl _ E1 E2). }
    match goal with |- context [no_more ?dd ?ss] => destruct (no_more_spec dd ss) as [[Hd ->]|[Hd ->]] end;
      [|split; [discriminate | intros (_ & H & _); contradiction]].
    assert (En : n = match get_item "threads" d with Some v => match extract_usize v with Some n0 => n0 | None => 0 end | None => 0 end).
    { destruct (get_item "threads" d) as [v|] eqn:Eg; [|exact (En1 eq_refl)]. destruct (extract_usize v) as [m|] eqn:Em; [exact (En2 _ _ eq_refl Em) | destruct (Ht _ eq_refl Em)]. }
    rewrite Hpt in Hp. rewrite Hig in Hi. rewrite (Hon "parallel" _ _ Hpt), (Hon _ _ _ Hig). cbn [andb]. rewrite <- En.
    split.
    + intros [= <- <-]. repeat split; [exact Ht | exact Hp | intros _; exact Hi | exact Hd |].
      destruct (says_on "parallel" d), (says_on "ignore_feature_requirements" d); reflexivity.
    + intros (_ & _ & -> & ->). destruct (says_on "parallel" d), (says_on "ignore_feature_requirements" d); reflexivity.
  - destruct (take_threads_spec d default_settings (fun d s => take_switch "parallel" with_parallel d s no_more)) as [(v & E1 & E2 & ->)|(Ht & n & En1 & En2 & ->)].
    { split; [discriminate|]. intros ((H & _) & _). destruct (H _ E1 E2). }
    match goal with |- context [take_switch ?k ?o ?dd ?ss no_more] => destruct (take_switch_spec k o dd ss no_more) as [(v & E1 & E2 & ->)|(Hp & ->)] end.
    { split; [discriminate|]. intros ((_ & H & _) & _). rewrite Hpt in E1. destruct (H _ E1 E2). }
    match goal with |- context [no_more ?dd ?ss] => destruct (no_more_spec dd ss) as [[Hd ->]|[Hd ->]] end;
      [|split; [discriminate | intros (_ & H & _); contradiction]].
    assert (En : n = match get_item "threads" d with Some v => match extract_usize v with Some n0 => n0 | None => 0 end | None => 0 end).
    { destruct (get_item "threads" d) as [v|] eqn:Eg; [|exact (En1 eq_refl)]. destruct (extract_usize v) as [m|] eqn:Em; [exact (En2 _ _ eq_refl Em) | destruct (Ht _ eq_refl Em)]. }
    rewrite Hpt in Hp. rewrite (Hon "parallel" _ _ Hpt). cbn [andb]. rewrite <- En.
    split.
    + intros [= <- <-]. repeat split; [exact Ht | exact Hp | discriminate | exact Hd |]. destruct (says_on "parallel" d); reflexivity.
    + intros (_ & _ & -> & ->). destruct (says_on "parallel" d); reflexivity.
Qed.

Lemma accepts_iff ignoring d : NoDup (map fst d) ->
  (typed ignoring d /\ left_over ignoring d = []) <-> forall k v, In (k, v) d -> understood ignoring k v.
Proof.
  intros Hn. split.
  - intros ((Ht & Hp & Hi) & Hl) k v Hin. pose proof (proj2 (get_In k d v Hn) Hin) as Hg.
    destruct (string_dec k "threads") as [->|N1].
    { destruct (extract_usize v) as [n|] eqn:E; [|destruct (Ht _ Hg E)]. econstructor. apply usize_number. exact E. }
    destruct (string_dec k "parallel") as [->|N2].
    { destruct v as [|b|]; [destruct (Hp _ Hg eq_refl) | constructor | destruct (Hp _ Hg eq_refl)]. }
    assert (H : ignoring = true /\ k = "ignore_feature_requirements").
    { destruct ignoring.
      - split; [reflexivity|]. destruct (string_dec k "ignore_feature_requirements") as [->|N3]; [reflexivity|].
        assert (H : In (k, v) (left_over true d)) by (apply left_over_In; auto). rewrite Hl in H. destruct H.
      - assert (H : In (k, v) (left_over false d)) by (apply left_over_In; repeat split; (assumption || discriminate)). rewrite Hl in H. destruct H. }
    destruct H as [-> ->]. destruct v as [|b|]; [destruct (Hi eq_refl _ Hg eq_refl) | constructor; reflexivity | destruct (Hi eq_refl _ Hg eq_refl)].
  - intros H. assert (Hg : forall k v, get_item k d = Some v -> understood ignoring k v) by (intros k v E; apply H, (proj1 (get_In k d v Hn)), E).
    repeat split.
    + intros v E. specialize (Hg _ _ E). inversion Hg as [v' n Hv| |]. apply usize_number in Hv. congruence.
    + intros v E. specialize (Hg _ _ E). inversion Hg; discriminate.
    + intros _ v E. specialize (Hg _ _ E). inversion Hg; discriminate.
    + apply empty_dict. intros [k v] Hin. apply left_over_In in Hin. destruct Hin as (Hin & N1 & N2 & N3).
      specialize (H _ _ Hin). inversion H; subst; [congruence | congruence | apply N3; auto].
Qed.
Lemma says_on_In k d : NoDup (map fst d) -> says_on k d = true <-> In (k, PyBool true) d.
Proof.
  intros Hn. rewrite <- (get_In _ _ _ Hn). unfold says_on. destruct (get_item k d) as [[|[]|]|]; split; congruence.
Qed.

Lemma run_py_build enabled name b ig d : py_solver name b ig -> enabled b = true ->
  run_py enabled name (Some d) =
    (fst (build ig d), rbind (snd (build ig d)) (fun s => Ok (mkLaunch b (if ig then AllScenarios else PerScenario) s))).
Proof. intros [] He; unfold run_py; cbn; rewrite He; reflexivity. Qed.

(** Extensions. *)
Lemma after_app s t : after_last_dot t <> None -> after_last_dot (s ++ t)%string = after_last_dot t.
Proof.
  intros H. induction s as [|c s IH]; [reflexivity|]. cbn [append after_last_dot]. rewrite IH. destruct (after_last_dot t); congruence.
Qed.
Lemma after_split s e : after_last_dot s = Some e -> exists p, s = (p ++ String "." e)%string.
Proof.
  revert e. induction s as [|c s IH]; cbn [after_last_dot]; [discriminate|]. intros e.
  destruct (after_last_dot s) as [e'|] eqn:E.
  - intros [= <-]. destruct (IH _ eq_refl) as (p & ->). exists (String c p). reflexivity.
  - destruct (Ascii.eqb_spec c "."%char) as [->|]; [|discriminate]. intros [= <-]. exists "". reflexivity.
Qed.
Lemma extension_json n : extension n = Some "json" <-> json_name n.
Proof.
  unfold extension, json_name. split.
  - destruct n as [|c n]; [discriminate|]. intros H. destruct (after_split _ _ H) as (p & ->). exists (String c p). split; [discriminate | reflexivity].
  - intros (stem & Hs & ->). destruct stem as [|c stem]; [congruence|]. cbn [append]. rewrite after_app; [reflexivity | discriminate].
Qed.

(** Paths. *)
Lemma path_eqb_eq p q : path_eqb p q = true <-> p = q.
Proof.
  unfold path_eqb. rewrite andb_true_iff, !String.eqb_eq. destruct p, q; cbn [fst snd]. split; [intros [-> ->]; reflexivity | intros [= -> ->]; auto].
Qed.
Lemma write_same {text} p (t : text) fs : write p t fs p = Some t.
Proof. unfold write. rewrite (proj2 (path_eqb_eq p p) eq_refl). reflexivity. Qed.
Lemma write_other {text} p (t : text) fs q : q <> p -> write p t fs q = fs q.
Proof. intros H. unfold write. destruct (path_eqb q p) eqn:E; [apply path_eqb_eq in E; contradiction | reflexivity]. Qed.
