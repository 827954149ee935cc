(** C03 for parameters with a value for each member of a scenario group, from how
    they are built to what they give in each scenario of a run. *)
From Coq Require Import String.
From Coq Require Import List Arith Lia.
From Verif Require Import Base Scenario ScenarioSpec ScenarioLemmas ScenarioConst Props_Scenario.
Import ListNotations.

Lemma position_some {A} (f : A -> bool) l : forall k, position f l = Some k ->
  exists x, nth_error l k = Some x /\ f x = true /\ forall j y, j < k -> nth_error l j = Some y -> f y = false.
Proof.
  induction l as [|a l IH]; intros k; cbn [position]; [discriminate|]. destruct (f a) eqn:E.
  - intros H. injection H as <-. exists a. split; [reflexivity|]. split; [exact E|]. intros j y H. lia.
  - destruct (position f l) as [k'|]; cbn [option_map]; [|discriminate]. intros H. injection H as <-. destruct (IH k' eq_refl) as (x & H1 & H2 & H3).
    exists x. split; [exact H1|]. split; [exact H2|]. intros [|j] y Hj Hy; [injection Hy as <-; exact E|]. apply (H3 j); [lia|exact Hy].
Qed.

Lemma position_none {A} (f : A -> bool) l : position f l = None -> forall x, In x l -> f x = false.
Proof.
  induction l as [|a l IH]; cbn [position]; [intros _ x []|]. destruct (f a) eqn:E; [discriminate|].
  destruct (position f l); [discriminate|]. intros _ x [<-|H]; [exact E|exact (IH eq_refl x H)].
Qed.

Lemma unique_place gs k j g h : NoDup (map g_name gs) -> nth_error gs k = Some g -> nth_error gs j = Some h -> g_name g = g_name h -> k = j.
Proof.
  intros N Hk Hj E. apply (proj1 (NoDup_nth_error (map g_name gs)) N); [rewrite map_length; apply nth_error_Some; congruence|].
  rewrite (map_nth_error _ _ _ Hk), (map_nth_error _ _ _ Hj), E. reflexivity.
Qed.

(** What building comes to: it succeeds for the name of a group with as many values
    as the group has members; the two errors say what is wrong. *)
Theorem C03_constant_built : forall (A : Type) d name (values : list A),
  NoDup (map g_name (dom_groups d)) ->
  match build_constant d name values with
  | Ok (k, vs) => vs = values /\ exists g, nth_error (dom_groups d) k = Some g /\ g_name g = name /\ g_size g = length values
  | Err (CGroupNotFound n) => n = name /\ ~ In name (map g_name (dom_groups d))
  | Err (CLengthMismatch n size group) => group = name /\ n = length values /\ size <> n /\
      exists g, In g (dom_groups d) /\ g_name g = name /\ g_size g = size
  | Panic => False
  end.
Proof.
  intros A d name values N. unfold build_constant, group_size. destruct (group_index d name) as [k|] eqn:E; unfold group_index in E.
  - destruct (position_some _ _ _ E) as (g & Hg & Hn & _). apply String.eqb_eq in Hn. rewrite Hg. cbn [option_map].
    destruct (Nat.eqb_spec (length values) (g_size g)) as [L|L].
    + split; [reflexivity|]. exists g. auto.
    + split; [reflexivity|]. split; [reflexivity|]. split; [auto|]. exists g. split; [exact (nth_error_In _ _ Hg)|auto].
  - split; [reflexivity|]. intros H. apply in_map_iff in H. destruct H as (g & Hn & Hg). pose proof (position_none _ _ E g Hg) as F.
    cbv beta in F. rewrite Hn, String.eqb_refl in F. discriminate.
Qed.
Print Assumptions C03_constant_built.

Lemma constant_runs {A} d gs s name (values : list A) p : aligned d gs -> dom_groups d = gs -> NoDup (map g_name gs) ->
  build_constant d name values = Ok p -> In s (dom_indices d) ->
  exists k g i v, nth_error gs k = Some g /\ g_name g = name /\ (forall j h, nth_error gs j = Some h -> g_name h = name -> j = k) /\
    nth_error (members s) k = Some i /\ nth_error values i = Some v /\ constant_lookup (fst p) (snd p) s = Ok v.
Proof.
  intros Al Eg N B I. subst gs. pose proof (C03_constant_built A d name values N) as H. rewrite B in H. destruct p as [k vs]. destruct H as (-> & g & Hg & Hn & L).
  destruct (aligned_lookup d _ s k g values Al I Hg (eq_sym L)) as (i & v & H1 & H2 & _ & H3). exists k, g, i, v.
  split; [exact Hg|]. split; [exact Hn|]. split; [|cbn [fst snd]; auto]. intros j h Hj Hh. apply (unique_place _ j k h g N Hj Hg). congruence.
Qed.

(** A parameter that was built for the group called [name] has in every scenario
    of a run, sliced or not, the value of that group's member in it. *)
Theorem C03_constant_in_subsets : forall (A : Type) gs d s name (values : list A) p,
  gs <> [] -> Forall built gs -> Forall subset_in_range gs -> NoDup (map g_name gs) ->
  build_domain (DomainBuilder gs None) = Ok d -> build_constant d name values = Ok p -> In s (dom_indices d) ->
  exists k g i v, nth_error gs k = Some g /\ g_name g = name /\ (forall j h, nth_error gs j = Some h -> g_name h = name -> j = k) /\
    nth_error (members s) k = Some i /\ nth_error values i = Some v /\ constant_lookup (fst p) (snd p) s = Ok v.
Proof.
  intros A gs d s name values p Hne Hb Hr N Hd. apply constant_runs; [exact (full_aligned gs d Hne Hb Hr Hd)| |exact N].
  destruct gs as [|g0 gs]; [congruence|]. cbn [build_domain d_groups d_combinations isSome] in Hd. rewrite Bool.andb_false_r in Hd.
  destruct (full_loop _ _ _ _) as [ix|e|]; cbn [rbind] in Hd; try discriminate. injection Hd as <-. reflexivity.
Qed.
Print Assumptions C03_constant_in_subsets.

(** The same in the runs of explicit combinations. *)
Theorem C03_constant_in_combinations : forall (A : Type) gs raw combs d s name (values : list A) p,
  gs <> [] -> Forall built gs -> Forall (fun g => g_subset g = None) gs -> raw <> [] ->
  Forall2 (fun r c => Forall2 (fun g p => denotes g (fst p) (snd p)) gs (combine r c) /\
                      length r = length gs /\ length c = length gs) raw combs -> NoDup (map g_name gs) ->
  build_domain (DomainBuilder gs (Some raw)) = Ok d -> build_constant d name values = Ok p -> In s (dom_indices d) ->
  exists k g i v, nth_error gs k = Some g /\ g_name g = name /\ (forall j h, nth_error gs j = Some h -> g_name h = name -> j = k) /\
    nth_error (members s) k = Some i /\ nth_error values i = Some v /\ constant_lookup (fst p) (snd p) s = Ok v.
Proof.
  intros A gs raw combs d s name values p Hne Hb Hns Hraw HF N Hd. apply constant_runs; [exact (combos_aligned gs raw combs d Hne Hb Hns Hraw HF Hd)| |exact N].
  destruct gs as [|g0 gs]; [congruence|]. unfold build_domain in Hd. cbn [d_groups d_combinations] in Hd.
  destruct (_ && _)%bool; [discriminate|].
  destruct (rmap _ raw) as [cs|e|]; cbn [rbind] in Hd; try discriminate.
  destruct (map_from_combinations _ cs) as [m|e|]; cbn [rbind] in Hd; try discriminate.
  destruct (combination_loop _ m 0 cs) as [ix|e|]; cbn [rbind] in Hd; try discriminate. injection Hd as <-. reflexivity.
Qed.
Print Assumptions C03_constant_in_combinations.

Example C03_constant_example :
  NoDup (map g_name [ex_as; ex_bs]) /\
  match build_domain (DomainBuilder [ex_as; ex_bs] None) with
  | Ok d => match build_constant d (g_name ex_bs) [10; 11; 12; 13] with
            | Ok p => fst p = 1 /\ map (constant_lookup (fst p) (snd p)) (dom_indices d) = [Ok 11; Ok 13; Ok 11; Ok 13]
            | _ => False
            end /\
            build_constant d (g_name ex_bs) [10; 11] = Err (CLengthMismatch 2 4 (g_name ex_bs)) /\
            build_constant d "nowhere"%string [10] = Err (CGroupNotFound "nowhere"%string)
  | _ => False
  end.
Proof. split; [repeat constructor; cbn; intuition discriminate|vm_compute; repeat split; reflexivity]. Qed.
