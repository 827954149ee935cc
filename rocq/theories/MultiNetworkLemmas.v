(** Proofs about models of several networks. *)
From Coq Require Import QArith.
From Verif Require Import Base Scenario Calendar Timestep Run RunLemmas MultiNetwork MultiNetworkSpec.
Local Open Scope nat_scope.

Lemma from_indices_before from to : from < to -> from_indices from to = Some (Before (to - from)).
Proof. intros H. unfold from_indices. now rewrite (proj2 (Nat.compare_lt_iff from to) H). Qed.
Lemma from_indices_after from to : to < from -> from_indices from to = Some (After (from - to)).
Proof. intros H. unfold from_indices. now rewrite (proj2 (Nat.compare_gt_iff from to) H). Qed.
Lemma from_indices_self k : from_indices k k = None.
Proof. unfold from_indices. now rewrite Nat.compare_refl. Qed.

Lemma lookup_app {A} name (m m' : list (string * A)) :
  lookup name (m ++ m') = match lookup name m with Some a => Some a | None => lookup name m' end.
Proof.
  induction m as [|[n a] m IH]; cbn; [reflexivity|]. destruct (String.eqb n name); [reflexivity | exact IH].
Qed.

Lemma lookup_None {A} name (m : list (string * A)) : lookup name m = None <-> ~ In name (map fst m).
Proof.
  induction m as [|[n a] m IH]; cbn; [tauto|].
  destruct (String.eqb_spec n name) as [->|Hne]; [split; [discriminate | tauto]|].
  rewrite IH. split; intros H; [intros [H1|H1]; tauto | tauto].
Qed.

Lemma skipn_nth {A} (l : list A) k x rest : skipn k l = x :: rest ->
  nth_error l k = Some x /\ rest = skipn (S k) l.
Proof.
  revert l. induction k as [|k IH]; intros [|a l] H; cbn in H; try discriminate.
  - injection H as -> ->. auto.
  - apply IH in H. exact H.
Qed.

Lemma nth_error_skipn' {A} (l : list A) k i : nth_error (skipn k l) i = nth_error l (k + i).
Proof. revert l. induction k as [|k IH]; intros [|a l]; cbn; try reflexivity; [destruct i; reflexivity | apply IH]. Qed.

Lemma nth_error_firstn' {A} (l : list A) k i : i < k -> nth_error (firstn k l) i = nth_error l i.
Proof.
  revert l i. induction k as [|k IH]; intros l i H; [lia|]. destruct l as [|a l]; [reflexivity|].
  destruct i as [|i]; [reflexivity|]. cbn. apply IH. lia.
Qed.

Lemma Forall2_weaken {A B} (P R : A -> B -> Prop) l l' :
  (forall x y, P x y -> R x y) -> Forall2 P l l' -> Forall2 R l l'.
Proof. intros H H1. induction H1; constructor; auto. Qed.

Section Lemmas.
Context {E Builder Net Maps Unresolved Metric X : Type}.
Variable build_network : Builder -> list (string * nat) -> res E (Net * Maps).
Variable resolve : Maps -> Unresolved -> res E Metric.
Variable get_value : Metric -> Net -> local (X := X) -> res E Q.
Variable operations : Net -> list (timestep -> scenario_index -> list Q -> X -> res E X).
Notation entry_builder := (entry_builder (Builder := Builder) (Unresolved := Unresolved)).
Notation transfer_builder := (transfer_builder (Unresolved := Unresolved)).
Notation entry := (entry (Net := Net) (Metric := Metric)).
Notation transfer := (transfer (Metric := Metric)).
Notation loc := (local (X := X)).
Notation merror := (multi_error (E := E)).

(** * Building *)

Lemma transfers_map_spec net i (ts : list transfer_builder) m m' :
  transfers_map (E := E) net i ts m = Ok m' ->
  m' = m ++ combine (map tb_name ts) (seq i (length ts)) /\
  NoDup (map tb_name ts) /\ (forall t, In t ts -> lookup (tb_name t) m = None).
Proof.
  revert i m. induction ts as [|t ts IH]; intros i m; cbn [transfers_map].
  - injection 1 as <-. cbn. rewrite app_nil_r. repeat split; [constructor | intros t []].
  - destruct (lookup (tb_name t) m) eqn:El; [discriminate|]. intros H. apply IH in H. destruct H as (-> & Hnd & Hno).
    cbn [map length seq combine]. rewrite <- app_assoc. split; [reflexivity|]. split.
    + constructor; [|exact Hnd]. intros Hin. apply in_map_iff in Hin. destruct Hin as [t' [Heq Hin]].
      specialize (Hno t' Hin). rewrite lookup_app in Hno. rewrite Heq, El in Hno. cbn in Hno.
      rewrite String.eqb_refl in Hno. discriminate.
    + intros t' [<-|Hin]; [exact El|]. specialize (Hno t' Hin). rewrite lookup_app in Hno.
      destruct (lookup (tb_name t') m); [discriminate | reflexivity].
Qed.

Lemma lookup_combine_seq (names : list string) i k name :
  NoDup names -> nth_error names k = Some name -> lookup name (combine names (seq i (length names))) = Some (i + k).
Proof.
  revert i k. induction names as [|n names IH]; intros i k Hnd Hk; [destruct k; discriminate|].
  inversion Hnd; subst. cbn [length seq combine lookup]. destruct k as [|k]; cbn in Hk.
  - injection Hk as ->. rewrite String.eqb_refl. f_equal. lia.
  - destruct (String.eqb_spec n name) as [->|]; [exfalso; apply nth_error_In in Hk; contradiction|].
    rewrite (IH (S i) k) by assumption. f_equal. lia.
Qed.

Lemma lookup_combine_seq_inv (names : list string) i name j :
  lookup name (combine names (seq i (length names))) = Some j -> i <= j /\ nth_error names (j - i) = Some name.
Proof.
  revert i. induction names as [|n names IH]; intros i; cbn [length seq combine lookup]; [discriminate|].
  destruct (String.eqb_spec n name) as [->|].
  - injection 1 as ->. rewrite Nat.sub_diag. split; [lia | reflexivity].
  - intros H. apply IH in H. destruct H as [H1 H2]. split; [lia|].
    replace (j - i) with (S (j - S i)) by lia. exact H2.
Qed.

(** One network of the first loop. *)
Definition net_built (b : entry_builder) (n : string * Net * list transfer_builder) (m : Maps) : Prop :=
  fst (fst n) = eb_name b /\ snd n = eb_transfers b /\
  exists numbers, build_network (eb_network b) numbers = Ok (snd (fst n), m) /\
    forall i t, nth_error (eb_transfers b) i = Some t -> lookup (tb_name t) numbers = Some i.

Lemma build_networks_spec i (bs : list entry_builder) m nets maps m' :
  build_networks build_network i bs m = Ok (nets, maps, m') ->
  m' = m ++ combine (map eb_name bs) (seq i (length bs)) /\
  NoDup (map eb_name bs) /\ (forall b, In b bs -> lookup (eb_name b) m = None) /\
  length nets = length bs /\ length maps = length bs /\
  forall k b n mp, nth_error bs k = Some b -> nth_error nets k = Some n -> nth_error maps k = Some mp -> net_built b n mp.
Proof.
  revert i m nets maps. induction bs as [|b bs IH]; intros i m nets maps; cbn [build_networks].
  - injection 1 as <- <- <-. cbn. rewrite app_nil_r. repeat split; try constructor; try (intros b []).
    all: destruct k; discriminate.
  - destruct (transfers_map (eb_name b) 0 (eb_transfers b) []) as [tm| |] eqn:Et; cbn [rbind]; try discriminate.
    destruct (build_network (eb_network b) tm) as [[net mp]| |] eqn:Eb; cbn [tag rbind]; try discriminate.
    destruct (lookup (eb_name b) m) eqn:El; [discriminate|].
    destruct (build_networks build_network (S i) bs (m ++ [(eb_name b, i)])) as [[[nets1 maps1] m1]| |] eqn:Er;
      cbn [rbind]; try discriminate.
    injection 1 as <- <- <-. apply IH in Er. destruct Er as (-> & Hnd & Hno & Hl1 & Hl2 & Hk).
    cbn [map length seq combine]. rewrite <- app_assoc. split; [reflexivity|]. split; [|split; [|split; [|split]]].
    + constructor; [|exact Hnd]. intros Hin. apply in_map_iff in Hin. destruct Hin as [t' [Heq Hin]].
      specialize (Hno t' Hin). rewrite lookup_app in Hno. rewrite Heq, El in Hno. cbn in Hno.
      rewrite String.eqb_refl in Hno. discriminate.
    + intros t' [<-|Hin]; [exact El|]. specialize (Hno t' Hin). rewrite lookup_app in Hno.
      destruct (lookup (eb_name t') m); [discriminate | reflexivity].
    + cbn. lia.
    + cbn. lia.
    + intros [|k] b0 n0 mp0 H1 H2 H3; cbn in H1, H2, H3.
      * injection H1 as <-. injection H2 as <-. injection H3 as <-. split; [reflexivity|]. split; [reflexivity|].
        exists tm. split; [exact Eb|]. intros n t Hn. apply transfers_map_spec in Et. destruct Et as (-> & Hnd' & _).
        cbn [app]. rewrite <- (map_length tb_name). rewrite (lookup_combine_seq _ 0 n); [reflexivity | exact Hnd' |].
        now apply map_nth_error.
      * exact (Hk k b0 n0 mp0 H1 H2 H3).
Qed.

Lemma build_entries_spec map maps me nets (es : list entry) :
  build_entries resolve map maps me nets = Ok es ->
  length es = length nets /\
  forall k n e, nth_error nets k = Some n -> nth_error es k = Some e ->
    en_name e = fst (fst n) /\ en_network e = snd (fst n) /\
    Forall2 (fun t tr => build_transfer (E := E) resolve map maps (me + k) (fst (fst n)) t = Ok tr) (snd n) (en_transfers e).
Proof.
  revert me es. induction nets as [|[[name net] ts] nets IH]; intros me es; cbn [build_entries].
  - injection 1 as <-. split; [reflexivity|]. intros [|k]; discriminate.
  - destruct (rmap (build_transfer resolve map maps me name) ts) as [trs| |] eqn:Er; cbn [rbind]; try discriminate.
    destruct (build_entries resolve map maps (S me) nets) as [rest| |] eqn:Ee; cbn [rbind]; try discriminate.
    injection 1 as <-. apply IH in Ee. destruct Ee as [Hl Hk]. split; [cbn; lia|].
    intros [|k] n e H1 H2; cbn in H1, H2.
    + injection H1 as <-. injection H2 as <-. cbn. split; [reflexivity|]. split; [reflexivity|].
      rewrite Nat.add_0_r. now apply rmap_Ok_Forall2.
    + replace (me + S k) with (S me + k) by lia. exact (Hk k n e H1 H2).
Qed.

(** What a transfer of network [k] refers to. *)
Definition refers (bs : list entry_builder) (es : list entry) (k : nat) (t : transfer_builder) (tr : transfer) : Prop :=
  tr_initial tr = tb_initial t /\
  exists m b e maps, nth_error bs m = Some b /\ eb_name b = tb_from t /\ m <> k /\ nth_error es m = Some e /\
    built_from build_network b e maps /\ resolve maps (tb_metric t) = Ok (tr_metric tr) /\
    tr_from tr = if m <? k then Before (k - m) else After (m - k).

Lemma build_multi_spec (bs : list entry_builder) (es : list entry) :
  build_multi build_network resolve bs = Ok es ->
  NoDup (map eb_name bs) /\ length es = length bs /\
  (forall k b e, nth_error bs k = Some b -> nth_error es k = Some e ->
     (exists maps, built_from build_network b e maps) /\
     Forall2 (refers bs es k) (eb_transfers b) (en_transfers e)).
Proof.
  unfold build_multi. destruct (build_networks build_network 0 bs []) as [[[nets maps] m]| |] eqn:En; cbn [rbind]; try discriminate.
  intros Ee. apply build_networks_spec in En. destruct En as (-> & Hnd & _ & Hl1 & Hl2 & Hn).
  apply build_entries_spec in Ee. destruct Ee as [Hl3 He]. cbn [app] in He.
  split; [exact Hnd|]. split; [lia|].
  assert (Hb : forall k b e, nth_error bs k = Some b -> nth_error es k = Some e ->
            exists mp, nth_error maps k = Some mp /\ built_from build_network b e mp).
  { intros k b e H1 H2. pose proof (nth_error_Some_lt _ _ _ H1) as Hlt.
    destruct (nth_error_lt_Some nets k ltac:(lia)) as [n H3].
    destruct (nth_error_lt_Some maps k ltac:(lia)) as [mp H4].
    destruct (Hn k b n mp H1 H3 H4) as (Ha & Hb & num & Hc & Hd).
    destruct (He k n e H3 H2) as (Hx & Hy & _).
    exists mp. split; [exact H4|]. split; [congruence|]. exists num. rewrite Hy. auto. }
  intros k b e H1 H2. split.
  - destruct (Hb k b e H1 H2) as (mp & _ & Hmp). eauto.
  - pose proof (nth_error_Some_lt _ _ _ H1) as Hlt.
    destruct (nth_error_lt_Some nets k ltac:(lia)) as [n H3].
    destruct (nth_error_lt_Some maps k ltac:(lia)) as [mp H4].
    destruct (Hn k b n mp H1 H3 H4) as (_ & Htr & _).
    destruct (He k n e H3 H2) as (_ & _ & Hf). rewrite Htr in Hf. cbn [Nat.add] in Hf.
    revert Hf. apply Forall2_weaken. intros t tr Hbt. unfold build_transfer in Hbt.
    destruct (lookup (tb_from t) (combine (map eb_name bs) (seq 0 (length bs)))) as [idx|] eqn:Elk; [|discriminate].
    assert (Hidx : nth_error (map eb_name bs) idx = Some (tb_from t)).
    { rewrite <- (map_length eb_name bs) in Elk. apply lookup_combine_seq_inv in Elk.
      destruct Elk as [_ Hi]. now rewrite Nat.sub_0_r in Hi. }
    rewrite nth_error_map in Hidx. destruct (nth_error bs idx) as [b'|] eqn:Eb'; [|discriminate].
    cbn in Hidx. injection Hidx as Hidx.
    unfold index_or_panic in Hbt. destruct (nth_error maps idx) as [mp'|] eqn:Emp; cbn [rbind] in Hbt; [|discriminate].
    destruct (resolve mp' (tb_metric t)) as [metric| |] eqn:Ers; cbn [tag rbind] in Hbt; try discriminate.
    destruct (nth_error_lt_Some es idx) as [e' He'].
    { pose proof (nth_error_Some_lt _ _ _ Eb'). lia. }
    destruct (Hb idx b' e' Eb' He') as (mp'' & Hmp & Hbf). rewrite Emp in Hmp. injection Hmp as <-.
    destruct (from_indices idx k) as [from|] eqn:Ef; [|discriminate]. injection Hbt as <-. cbn [tr_initial tr_metric tr_from].
    split; [reflexivity|]. exists idx, b', e', mp'. split; [exact Eb'|]. split; [exact Hidx|].
    assert (Hne : idx <> k) by (intros ->; rewrite from_indices_self in Ef; discriminate).
    split; [exact Hne|]. split; [exact He'|]. split; [exact Hbf|]. split; [exact Ers|].
    destruct (Nat.ltb_spec idx k).
    + rewrite from_indices_before in Ef by assumption. injection Ef as <-. reflexivity.
    + rewrite from_indices_after in Ef by lia. injection Ef as <-. reflexivity.
Qed.

(** * Delivering *)

Lemma set_value_spec idx v (l l' : loc) : set_value idx v l = Some l' ->
  lo_rest l' = lo_rest l /\ length (lo_values l') = length (lo_values l) /\
  forall n, nth_error (lo_values l') n = if n =? idx then Some v else nth_error (lo_values l) n.
Proof.
  unfold set_value. destruct (Nat.ltb_spec idx (length (lo_values l))); [|discriminate].
  intros H0. apply (f_equal (fun o => match o with Some x => x | None => l end)) in H0. subst l'. cbn [lo_rest lo_values].
  split; [reflexivity|]. split; [now apply set_nth_length|]. intros n. now apply set_nth_nth.
Qed.

(** What transfer [tr] fetches. *)
Definition fetched (t : timestep) (s : scenario_index) (to : string) (tr : transfer)
  (bm am : list entry) (b a : list (list loc)) (v : Q) : Prop :=
  exists nm, transfer_value (E := E) get_value t s to tr bm am b a = Ok (nm, v).

Lemma transfers_for_scenario_spec t s to idx (trs : list transfer) bm am b a (states states' : list loc) l :
  transfers_for_scenario get_value t s to idx trs bm am b a states = Ok states' ->
  nth_error states (simulation_id s) = Some l ->
  length states' = length states /\
  (forall j, j <> simulation_id s -> nth_error states' j = nth_error states j) /\
  exists l', nth_error states' (simulation_id s) = Some l' /\ lo_rest l' = lo_rest l /\
    length (lo_values l') = length (lo_values l) /\
    (forall n, n < idx -> nth_error (lo_values l') n = nth_error (lo_values l) n) /\
    forall n tr, nth_error trs n = Some tr ->
      exists v, nth_error (lo_values l') (idx + n) = Some v /\ fetched t s to tr bm am b a v.
Proof.
  revert idx states l. induction trs as [|tr trs IH]; intros idx states l; cbn [transfers_for_scenario].
  - intros H Hl. injection H as <-. split; [reflexivity|]. split; [reflexivity|]. exists l.
    split; [exact Hl|]. repeat (split; [reflexivity|]). intros [|n]; discriminate.
  - destruct (transfer_value get_value t s to tr bm am b a) as [[nm v]| |] eqn:Ev; cbn [rbind]; try discriminate.
    intros H Hl. pose proof (nth_error_Some_lt _ _ _ Hl) as Hlt.
    unfold index_or_panic in H. rewrite Hl in H. cbn [rbind snd fst] in H.
    destruct (set_value idx v l) as [l1|] eqn:Es; [|discriminate].
    apply set_value_spec in Es. destruct Es as (Hr & Hlen & Hn).
    apply (IH (S idx) _ l1) in H.
    + destruct H as (Hl1 & Hj & l' & Hl' & Hr' & Hlen' & Hlo & Htr).
      rewrite set_nth_length in Hl1 by exact Hlt. split; [exact Hl1|]. split.
      { intros j Hne. rewrite (Hj j Hne), set_nth_nth by exact Hlt.
        destruct (Nat.eqb_spec j (simulation_id s)); congruence. }
      exists l'. split; [exact Hl'|]. split; [congruence|]. split; [congruence|]. split.
      { intros n Hlt'. rewrite (Hlo n) by lia. rewrite Hn. destruct (Nat.eqb_spec n idx); [lia | reflexivity]. }
      intros [|n] tr0 H0; cbn in H0.
      * injection H0 as <-. exists v. split; [|exists nm; exact Ev].
        rewrite Nat.add_0_r, (Hlo idx) by lia. rewrite Hn, Nat.eqb_refl. reflexivity.
      * replace (idx + S n) with (S idx + n) by lia. exact (Htr n tr0 H0).
    + rewrite set_nth_nth by exact Hlt. now rewrite Nat.eqb_refl.
Qed.

Lemma transfers_for_scenarios_spec t scs to (trs : list transfer) bm am b a (states states' : list loc) :
  transfers_for_scenarios get_value t scs to trs bm am b a states = Ok states' ->
  NoDup (map simulation_id scs) -> (forall s, In s scs -> simulation_id s < length states) ->
  length states' = length states /\
  (forall j, ~ In j (map simulation_id scs) -> nth_error states' j = nth_error states j) /\
  forall s l, In s scs -> nth_error states (simulation_id s) = Some l ->
    exists l', nth_error states' (simulation_id s) = Some l' /\ lo_rest l' = lo_rest l /\
      length (lo_values l') = length (lo_values l) /\
      forall n tr, nth_error trs n = Some tr ->
        exists v, nth_error (lo_values l') n = Some v /\ fetched t s to tr bm am b a v.
Proof.
  revert states. induction scs as [|s scs IH]; intros states; cbn [transfers_for_scenarios map].
  - intros H _ _. injection H as <-. split; [reflexivity|]. split; [reflexivity|]. intros s l [].
  - destruct (transfers_for_scenario get_value t s to 0 trs bm am b a states) as [mid| |] eqn:Em; cbn [rbind]; try discriminate.
    intros H Hnd Hin. inversion Hnd as [|x xs Hx Hnd']; subst.
    destruct (nth_error_lt_Some states (simulation_id s) (Hin s (or_introl eq_refl))) as [l Hl].
    destruct (transfers_for_scenario_spec _ _ _ _ _ _ _ _ _ _ _ _ Em Hl) as (Hlen & Hoth & l' & Hl' & Hr & Hv & _ & Htr).
    apply IH in H; [|exact Hnd'|intros s' Hs'; rewrite Hlen; apply Hin; now right].
    destruct H as (Hlen2 & Hoth2 & Hall). split; [congruence|]. split.
    + intros j Hj. cbn in Hj. rewrite Hoth2 by tauto. apply Hoth. intros ->. tauto.
    + intros s0 l0 [<-|Hs0] Hl0.
      * assert (l0 = l) by congruence. subst l0. exists l'. rewrite (Hoth2 _ Hx). split; [exact Hl'|].
        split; [exact Hr|]. split; [exact Hv|]. exact Htr.
      * assert (Hne : simulation_id s0 <> simulation_id s).
        { intros Heq. apply Hx. rewrite <- Heq. now apply in_map. }
        apply (Hall s0 l0 Hs0). rewrite (Hoth _ Hne). exact Hl0.
Qed.

Lemma compute_transfers_spec k t (es : list entry) scs (states states' : list (list loc)) e mine :
  compute_transfers get_value k t es scs states = Ok states' ->
  nth_error es k = Some e -> nth_error states k = Some mine ->
  numbered scs -> length mine = length scs ->
  length states' = length states /\
  (forall j, j <> k -> nth_error states' j = nth_error states j) /\
  exists mine', nth_error states' k = Some mine' /\ length mine' = length scs /\
    forall j s l, nth_error scs j = Some s -> nth_error mine j = Some l ->
      exists l', nth_error mine' j = Some l' /\ lo_rest l' = lo_rest l /\
        length (lo_values l') = length (lo_values l) /\
        forall n tr, nth_error (en_transfers e) n = Some tr ->
          exists v, nth_error (lo_values l') n = Some v /\
            fetched t s (en_name e) tr (firstn k es) (skipn (S k) es) (firstn k states) (skipn (S k) states) v.
Proof.
  intros H He Hm Hnum Hlm. unfold compute_transfers in H.
  destruct (skipn k es) as [|this am] eqn:Ese; [discriminate|].
  destruct (skipn k states) as [|mine0 a] eqn:Ess; [discriminate|].
  apply skipn_nth in Ese, Ess. destruct Ese as [He' ->]. destruct Ess as [Hm' ->].
  assert (this = e) by congruence. subst this. assert (mine0 = mine) by congruence. subst mine0.
  destruct (transfers_for_scenarios get_value t scs (en_name e) (en_transfers e) (firstn k es) (skipn (S k) es)
    (firstn k states) (skipn (S k) states) mine) as [mine'| |] eqn:Et; cbn [rbind] in H; try discriminate.
  assert (Hst : firstn k states ++ mine' :: skipn (S k) states = states') by congruence. clear H. subst states'.
  pose proof (nth_error_Some_lt _ _ _ Hm) as Hlt.
  assert (Hid : forall j s, nth_error scs j = Some s -> simulation_id s = j).
  { intros j s Hj. unfold numbered in Hnum. apply (map_nth_error simulation_id) in Hj. rewrite Hnum in Hj.
    pose proof (nth_error_Some_lt _ _ _ Hj) as Hlt'. rewrite seq_length in Hlt'.
    rewrite (nth_error_nth' _ 0) in Hj by (rewrite seq_length; exact Hlt'). rewrite seq_nth in Hj by exact Hlt'.
    injection Hj as ->. reflexivity. }
  apply transfers_for_scenarios_spec in Et.
  - destruct Et as (Hlen & _ & Hall). split; [now apply set_nth_length|]. split.
    { intros j Hj. rewrite set_nth_nth by exact Hlt. destruct (Nat.eqb_spec j k); congruence. }
    exists mine'. rewrite set_nth_nth, Nat.eqb_refl by exact Hlt. split; [reflexivity|]. split; [congruence|].
    intros j s l Hj Hl. pose proof (Hid j s Hj) as Hsid.
    rewrite <- Hsid in Hl |- *. apply (Hall s l (nth_error_In _ _ Hj) Hl).
  - rewrite Hnum. apply seq_NoDup.
  - intros s Hs. apply In_nth_error in Hs. destruct Hs as [j Hj]. rewrite (Hid j s Hj), Hlm.
    exact (nth_error_Some_lt _ _ _ Hj).
Qed.

(** The source of a transfer of network [k], as places in the whole lists. *)
Lemma transfer_source_spec k m (tr : transfer) (es : list entry) (states : list (list loc)) e row :
  tr_from tr = (if m <? k then Before (k - m) else After (m - k)) -> m <> k ->
  k < length es -> length states = length es -> nth_error es m = Some e -> nth_error states m = Some row ->
  transfer_source (E := E) tr (firstn k es) (skipn (S k) es) (firstn k states) (skipn (S k) states) = Ok (e, row).
Proof.
  intros Hf Hne Hk Hl He Hr. unfold transfer_source. rewrite Hf. destruct (Nat.ltb_spec m k) as [Hlt|Hge].
  - rewrite firstn_length. replace (Nat.min k (length states)) with k by lia.
    destruct (Nat.ltb_spec k (k - m)); [lia|]. replace (k - (k - m)) with m by lia.
    unfold index_or_panic. rewrite !nth_error_firstn' by lia. rewrite He, Hr. reflexivity.
  - destruct (Nat.ltb_spec (m - k) 1); [lia|]. unfold index_or_panic. rewrite !nth_error_skipn'.
    replace (S k + (m - k - 1)) with m by lia. rewrite He, Hr. reflexivity.
Qed.

Lemma fetched_spec (bs : list entry_builder) k t s j to (tb : transfer_builder) (tr : transfer) (es : list entry) (states : list (list loc)) v :
  refers bs es k tb tr -> k < length es -> length states = length es -> simulation_id s = j ->
  fetched t s to tr (firstn k es) (skipn (S k) es) (firstn k states) (skipn (S k) states) v ->
  match tb_initial tb, is_first t with
  | Some x, true => v = x
  | _, _ => exists m b e maps metric source,
        nth_error bs m = Some b /\ eb_name b = tb_from tb /\ m <> k /\
        nth_error es m = Some e /\ built_from build_network b e maps /\ resolve maps (tb_metric tb) = Ok metric /\
        place states m j = Some source /\ get_value metric (en_network e) source = Ok v
  end.
Proof.
  intros [Hi (m & b & e & maps & H1 & H2 & H3 & H4 & H5 & H6 & H7)] Hk Hl Hs [nm Hv].
  unfold transfer_value in Hv.
  destruct (nth_error_lt_Some states m) as [row Hrow]; [rewrite Hl; exact (nth_error_Some_lt _ _ _ H4)|].
  rewrite (transfer_source_spec k m tr es states e row H7 H3 Hk Hl H4 Hrow) in Hv. cbn [rbind fst snd] in Hv.
  rewrite Hi in Hv.
  assert (Hget : rbind (index_or_panic row (simulation_id s)) (fun st =>
      rbind (tag (RetrievingTransferValue to (en_name e)) (get_value (tr_metric tr) (en_network e) st)) (fun v =>
      Ok (en_name e, v))) = Ok (nm, v) ->
    exists m b e maps metric source,
        nth_error bs m = Some b /\ eb_name b = tb_from tb /\ m <> k /\
        nth_error es m = Some e /\ built_from build_network b e maps /\ resolve maps (tb_metric tb) = Ok metric /\
        place states m j = Some source /\ get_value metric (en_network e) source = Ok v).
  { unfold index_or_panic. destruct (nth_error row (simulation_id s)) as [st|] eqn:Est; cbn [rbind]; [|discriminate].
    destruct (get_value (tr_metric tr) (en_network e) st) as [v0| |] eqn:Eg; cbn [tag rbind]; try discriminate.
    intros Heq. injection Heq as _ ->. exists m, b, e, maps, (tr_metric tr), st.
    repeat (split; [assumption|]). split; [|exact Eg]. unfold place. rewrite Hrow, <- Hs. exact Est. }
  destruct (tb_initial tb) as [x|], (is_first t); try (apply Hget; exact Hv).
  injection Hv as _ ->. reflexivity.
Qed.

(** * Stepping *)

Lemma operate_perform ops t s (l l' : loc) :
  perform (map on_local ops) t s l = Ok l' ->
  lo_values l' = lo_values l /\ operate (E := E) ops t s (lo_values l) (lo_rest l) = Ok (lo_rest l').
Proof.
  revert l. induction ops as [|op ops IH]; intros l; cbn [map perform operate].
  - injection 1 as <-. auto.
  - unfold on_local at 1. destruct (op t s (lo_values l) (lo_rest l)) as [x| |]; cbn [rbind]; try discriminate.
    intros H. apply IH in H. cbn in H. exact H.
Qed.

(** Network [k] has taken its step: its sources below [k] are read in [new], those
    above in [old]. *)
Definition network_stepped (bs : list entry_builder) (es : list entry) (scs : list scenario_index) (t : timestep)
  (k : nat) (old new : list (list loc)) : Prop :=
  forall b e j s l, nth_error bs k = Some b -> nth_error es k = Some e -> nth_error scs j = Some s ->
    place old k j = Some l ->
    exists l', place new k j = Some l' /\
      operate (operations (en_network e)) t s (lo_values l') (lo_rest l) = Ok (lo_rest l') /\
      length (lo_values l') = length (lo_values l) /\
      forall i tr, nth_error (eb_transfers b) i = Some tr ->
        exists v, nth_error (lo_values l') i = Some v /\
          delivers build_network resolve get_value bs es (is_first t) k j tr old new v.

Lemma step_networks_spec (bs : list entry_builder) (es : list entry) scs t n k (states states' : list (list loc)) :
  build_multi build_network resolve bs = Ok es -> numbered scs -> k + n = length es ->
  length states = length es -> Forall (fun row => length row = length scs) states ->
  step_networks get_value operations (seq k n) t es scs states = Ok states' ->
  length states' = length es /\ Forall (fun row => length row = length scs) states' /\
  (forall m, m < k -> nth_error states' m = nth_error states m) /\
  forall m, k <= m -> network_stepped bs es scs t m states states'.
Proof.
  intros Hb Hnum. revert k states. induction n as [|n IH]; intros k states Hkn Hlen Hrows; cbn [seq step_networks].
  - intros H. injection H as <-. split; [exact Hlen|]. split; [exact Hrows|]. split; [reflexivity|].
    intros m Hm b e j s l _ He. apply nth_error_Some_lt in He. lia.
  - destruct (compute_transfers get_value k t es scs states) as [st1| |] eqn:Ec; cbn [rbind]; try discriminate.
    destruct (nth_error_lt_Some es k ltac:(lia)) as [e He].
    destruct (nth_error_lt_Some states k ltac:(lia)) as [mine Hmine].
    assert (Hlm : length mine = length scs).
    { rewrite Forall_forall in Hrows. apply Hrows. exact (nth_error_In _ _ Hmine). }
    destruct (compute_transfers_spec k t es scs states st1 e mine Ec He Hmine Hnum Hlm)
      as (Hl1 & Hoth & mine1 & Hm1 & Hlm1 & Hdel).
    unfold index_or_panic at 1 2. rewrite He, Hm1. cbn [rbind].
    destruct (step (map on_local (operations (en_network e))) t scs mine1) as [mine2| |] eqn:Es; cbn [tag rbind]; try discriminate.
    apply (step_unzip _ t scs mine1 mine2) in Es; [|congruence]. destruct Es as [Hlm2 Hstep].
    set (st2 := firstn k st1 ++ mine2 :: skipn (S k) st1).
    assert (Hk1 : k < length st1) by lia.
    assert (Hst2 : forall m, nth_error st2 m = if m =? k then Some mine2 else nth_error states m).
    { intros m. unfold st2. rewrite set_nth_nth by exact Hk1. destruct (Nat.eqb_spec m k); [reflexivity | now apply Hoth]. }
    assert (Hl2 : length st2 = length es) by (unfold st2; rewrite set_nth_length by exact Hk1; lia).
    clearbody st2. intros H. apply (IH (S k)) in H; [|lia|exact Hl2|].
    2: { apply Forall_forall. intros row Hin. apply In_nth_error in Hin. destruct Hin as [m Hm]. rewrite Hst2 in Hm.
         destruct (m =? k); [injection Hm as <-; congruence|]. rewrite Forall_forall in Hrows. apply Hrows. exact (nth_error_In _ _ Hm). }
    destruct H as (Hl' & Hrows' & Hbelow & Habove). split; [exact Hl'|]. split; [exact Hrows'|]. split.
    { intros m Hm. rewrite (Hbelow m) by lia. rewrite Hst2. destruct (Nat.eqb_spec m k); [lia | reflexivity]. }
    intros m Hm. destruct (Nat.eq_dec m k) as [->|Hne].
    + intros b e0 j s l Hbk He0 Hj Hpl. assert (e0 = e) by congruence. subst e0.
      unfold place in Hpl. rewrite Hmine in Hpl.
      destruct (Hdel j s l Hj Hpl) as (l1 & Hl1' & Hr1 & Hv1 & Htr).
      destruct (Hstep j s l1 Hj Hl1') as (l2 & Hl2' & Hperf).
      apply operate_perform in Hperf. destruct Hperf as [Hv2 Hop].
      exists l2. split.
      { unfold place. rewrite (Hbelow k) by lia. rewrite Hst2, Nat.eqb_refl. exact Hl2'. }
      split; [rewrite Hv2, <- Hr1; exact Hop|]. split; [congruence|].
      intros i tb Htb. destruct (build_multi_spec _ _ Hb) as (_ & _ & Hrefs).
      destruct (Hrefs k b e Hbk He) as [_ Hf].
      destruct (nth_error_lt_Some (en_transfers e) i) as [tr Htr0].
      { rewrite <- (Forall2_length' _ _ _ Hf). exact (nth_error_Some_lt _ _ _ Htb). }
      pose proof (Forall2_nth_error _ _ _ _ _ _ Hf Htb Htr0) as Href.
      destruct (Htr i tr Htr0) as (v & Hv & Hfe). exists v. split; [rewrite Hv2; exact Hv|].
      assert (Hsid : simulation_id s = j).
      { unfold numbered in Hnum. apply (map_nth_error simulation_id) in Hj. rewrite Hnum in Hj.
        pose proof (nth_error_Some_lt _ _ _ Hj) as Hlt'. rewrite seq_length in Hlt'.
        rewrite (nth_error_nth' _ 0) in Hj by (rewrite seq_length; exact Hlt'). rewrite seq_nth in Hj by exact Hlt'.
        injection Hj as ->. reflexivity. }
      pose proof (fetched_spec bs k t s j (en_name e) tb tr es states v Href ltac:(lia) Hlen Hsid Hfe) as Hd.
      unfold delivers. destruct (tb_initial tb) as [x|], (is_first t); try exact Hd;
        (destruct Hd as (m' & b' & e' & maps & metric & src & D1 & D2 & D3 & D4 & D5 & D6 & D7 & D8);
         exists m', b', e', maps, metric, src; repeat (split; [assumption|]); split; [|split; [intros _; exact D7 | exact D8]];
         intros Hlt; unfold place in *; rewrite (Hbelow m') by lia; rewrite Hst2;
         destruct (Nat.eqb_spec m' k); [lia | exact D7]).
    + intros b e0 j s l Hbk He0 Hj Hpl.
      destruct (Habove m ltac:(lia) b e0 j s l Hbk He0 Hj) as (l' & P1 & P2 & P3 & P4).
      { unfold place in *. rewrite Hst2. destruct (Nat.eqb_spec m k); [contradiction | exact Hpl]. }
      exists l'. repeat (split; [assumption|]). intros i tr Hi. destruct (P4 i tr Hi) as (v & Hv & Hd).
      exists v. split; [exact Hv|]. unfold delivers in *.
      destruct (tb_initial tr) as [x|], (is_first t); try exact Hd;
        (destruct Hd as (m' & b' & e' & maps & metric & src & D1 & D2 & D3 & D4 & D5 & D6 & D7 & D8 & D9);
         exists m', b', e', maps, metric, src; repeat (split; [assumption|]); split; [|exact D9];
         intros Hlt; specialize (D8 Hlt); unfold place in *; rewrite Hst2 in D8;
         destruct (Nat.eqb_spec m' k); [lia | exact D8]).
Qed.

Lemma transfers_count (bs : list entry_builder) (es : list entry) k b e :
  build_multi build_network resolve bs = Ok es -> nth_error bs k = Some b -> nth_error es k = Some e ->
  length (en_transfers e) = length (eb_transfers b).
Proof.
  intros Hb H1 H2. destruct (build_multi_spec _ _ Hb) as (_ & _ & H). destruct (H k b e H1 H2) as [_ Hf].
  symmetry. exact (Forall2_length' _ _ _ Hf).
Qed.

Lemma shaped_rows (es : list entry) scs (states : list (list loc)) : shaped es scs states ->
  length states = length es /\ Forall (fun row => length row = length scs) states.
Proof.
  intros H. split; [symmetry; exact (Forall2_length' _ _ _ H)|].
  induction H as [|e row es states [H1 _] H IH]; constructor; assumption.
Qed.

Lemma step_multi_spec (bs : list entry_builder) (es : list entry) scs t (old new : list (list loc)) :
  build_multi build_network resolve bs = Ok es -> numbered scs -> shaped es scs old ->
  step_multi get_value operations t es scs old = Ok new ->
  shaped es scs new /\ right_step build_network resolve get_value operations bs es scs t old new.
Proof.
  intros Hb Hnum Hsh H. destruct (shaped_rows _ _ _ Hsh) as [Hlen Hrows]. unfold step_multi in H.
  apply (step_networks_spec bs) in H; try assumption; [|reflexivity].
  destruct H as (Hl & Hr & _ & Hst). destruct (build_multi_spec _ _ Hb) as (_ & Hbl & _).
  assert (Hvals : forall k j l e, nth_error es k = Some e -> place old k j = Some l -> length (lo_values l) = length (en_transfers e)).
  { intros k j l e He Hp. unfold place in Hp. destruct (nth_error old k) as [row|] eqn:Er; [|discriminate].
    destruct (Forall2_nth_error _ _ _ _ _ _ Hsh He Er) as [_ Hf]. rewrite Forall_forall in Hf. apply Hf. exact (nth_error_In _ _ Hp). }
  split.
  - apply Forall2_intro_nth; [congruence|]. intros k e row He Hrow.
    assert (Hlr : length row = length scs).
    { rewrite Forall_forall in Hr. apply Hr. exact (nth_error_In _ _ Hrow). }
    split; [exact Hlr|]. apply Forall_forall. intros l' Hin. apply In_nth_error in Hin. destruct Hin as [j Hj].
    pose proof (nth_error_Some_lt _ _ _ Hj) as Hjlt.
    destruct (nth_error_lt_Some scs j ltac:(lia)) as [s Hs].
    pose proof (nth_error_Some_lt _ _ _ He) as Hkl.
    destruct (nth_error_lt_Some bs k ltac:(lia)) as [b Hbk].
    destruct (nth_error_lt_Some old k ltac:(lia)) as [row0 Hrow0].
    destruct (nth_error_lt_Some row0 j) as [l Hl0].
    { rewrite Forall_forall in Hrows. rewrite (Hrows row0 (nth_error_In _ _ Hrow0)). lia. }
    assert (Hpl : place old k j = Some l) by (unfold place; rewrite Hrow0; exact Hl0).
    destruct (Hst k ltac:(lia) b e j s l Hbk He Hs Hpl) as (l2 & P1 & _ & P3 & _).
    unfold place in P1. rewrite Hrow in P1. assert (l2 = l') by congruence. subst l2.
    rewrite P3. exact (Hvals k j l e He Hpl).
  - intros k b e j s l Hbk He Hs Hpl.
    destruct (Hst k ltac:(lia) b e j s l Hbk He Hs Hpl) as (l2 & P1 & P2 & P3 & P4).
    exists l2. repeat (split; [assumption|]). split; [|exact P4].
    rewrite P3, (Hvals k j l e He Hpl). exact (transfers_count bs es k b e Hb Hbk He).
Qed.

Lemma run_multi_spec (bs : list entry_builder) (es : list entry) scs ts (start final : list (list loc)) :
  build_multi build_network resolve bs = Ok es -> numbered scs -> shaped es scs start ->
  run_multi get_value operations ts es scs start = Ok final ->
  exists history, length history = S (length ts) /\ nth_error history 0 = Some start /\
    nth_error history (length ts) = Some final /\
    forall i t old new, nth_error ts i = Some t -> nth_error history i = Some old -> nth_error history (S i) = Some new ->
      run_multi get_value operations (firstn i ts) es scs start = Ok old /\
      right_step build_network resolve get_value operations bs es scs t old new.
Proof.
  intros Hb Hnum. revert start. induction ts as [|t ts IH]; intros start Hsh; cbn [run_multi].
  - intros H. injection H as <-. exists [start]. repeat split; [intros; destruct i; discriminate .. ].
  - destruct (step_multi get_value operations t es scs start) as [mid| |] eqn:Es; cbn [rbind]; try discriminate.
    intros H. destruct (step_multi_spec bs es scs t start mid Hb Hnum Hsh Es) as [Hsh' Hright].
    destruct (IH mid Hsh' H) as (hist & Hl & H0 & Hn & Hi).
    exists (start :: hist). split; [cbn; lia|]. split; [reflexivity|]. split; [exact Hn|].
    intros [|i] t0 old new Ht Ho Hnw; cbn in Ht, Ho.
    + change (nth_error hist 0 = Some new) in Hnw. injection Ht as <-. injection Ho as <-. assert (new = mid) by congruence. subst new.
      split; [reflexivity | exact Hright].
    + destruct (Hi i t0 old new Ht Ho Hnw) as [Hrun Hstep]. split; [|exact Hstep].
      cbn [firstn run_multi]. rewrite Es. cbn [rbind]. exact Hrun.
Qed.

Lemma setup_shaped (initial : Net -> scenario_index -> res E X) (es : list entry) scs (states : list (list loc)) :
  setup_multi initial es scs = Ok states -> shaped es scs states.
Proof.
  unfold setup_multi, shaped. intros H. apply rmap_Ok_Forall2 in H. revert H. apply Forall2_weaken.
  intros e row H. destruct (rmap _ scs) as [ls| |] eqn:Er; cbn [tag] in H; try discriminate. injection H as <-.
  split; [symmetry; apply rmap_Ok_Forall2 in Er; exact (Forall2_length' _ _ _ Er)|].
  apply rmap_Ok_Forall2 in Er. induction Er as [|s l scs ls Hs Er IH]; constructor; [|exact IH].
  destruct (initial (en_network e) s); cbn [rbind] in Hs; try discriminate. injection Hs as <-. cbn. apply repeat_length.
Qed.

Lemma no_self_transfer (bs : list entry_builder) (es : list entry) k b t :
  build_multi build_network resolve bs = Ok es -> nth_error bs k = Some b -> In t (eb_transfers b) ->
  tb_from t <> eb_name b.
Proof.
  intros Hb Hk Hin Heq. destruct (build_multi_spec _ _ Hb) as (Hnd & Hl & H).
  destruct (nth_error_lt_Some es k) as [e He]; [rewrite Hl; exact (nth_error_Some_lt _ _ _ Hk)|].
  destruct (H k b e Hk He) as [_ Hf]. apply In_nth_error in Hin. destruct Hin as [i Hi].
  destruct (nth_error_lt_Some (en_transfers e) i) as [tr Htr].
  { rewrite <- (Forall2_length' _ _ _ Hf). exact (nth_error_Some_lt _ _ _ Hi). }
  destruct (Forall2_nth_error _ _ _ _ _ _ Hf Hi Htr) as [_ (m & b' & e' & maps & H1 & H2 & H3 & _)].
  apply H3. rewrite NoDup_nth_error in Hnd. apply Hnd.
  - rewrite map_length. exact (nth_error_Some_lt _ _ _ H1).
  - rewrite !nth_error_map, H1, Hk. cbn. congruence.
Qed.

(** * No panics *)

Section NoPanic.
Hypothesis get_value_total : forall m n l, get_value m n l <> Panic.
Hypothesis operations_total : forall n op t s vs x, In op (operations n) -> op t s vs x <> Panic.

Lemma transfer_value_total (bs : list entry_builder) k t s to tb (tr : transfer) (es : list entry) (states : list (list loc)) :
  refers bs es k tb tr -> k < length es -> length states = length es ->
  Forall (fun row => simulation_id s < length row) states ->
  transfer_value (E := E) get_value t s to tr (firstn k es) (skipn (S k) es) (firstn k states) (skipn (S k) states) <> Panic.
Proof.
  intros [Hi (m & b & e & maps & H1 & H2 & H3 & H4 & H5 & H6 & H7)] Hk Hl Hrows. unfold transfer_value.
  destruct (nth_error_lt_Some states m) as [row Hrow]; [rewrite Hl; exact (nth_error_Some_lt _ _ _ H4)|].
  rewrite (transfer_source_spec k m tr es states e row H7 H3 Hk Hl H4 Hrow). cbn [rbind fst snd].
  destruct (if is_first t then tr_initial tr else None); [discriminate|].
  rewrite Forall_forall in Hrows. specialize (Hrows row (nth_error_In _ _ Hrow)).
  destruct (nth_error_lt_Some row (simulation_id s) Hrows) as [l Hlo]. unfold index_or_panic. rewrite Hlo. cbn [rbind].
  destruct (get_value (tr_metric tr) (en_network e) l) eqn:Eg; cbn [tag rbind]; try discriminate.
  exfalso. exact (get_value_total _ _ _ Eg).
Qed.

Lemma transfers_for_scenario_total t s to idx (trs : list transfer) bm am b a (states : list loc) :
  (forall tr, In tr trs -> transfer_value (E := E) get_value t s to tr bm am b a <> Panic) ->
  simulation_id s < length states ->
  Forall (fun l => idx + length trs <= length (lo_values l)) states ->
  transfers_for_scenario get_value t s to idx trs bm am b a states <> Panic /\
  forall e, transfers_for_scenario get_value t s to idx trs bm am b a states = Err e ->
    exists tr, In tr trs /\ transfer_value (E := E) get_value t s to tr bm am b a = Err e.
Proof.
  revert idx states. induction trs as [|tr trs IH]; intros idx states Ht Hs Hv; cbn [transfers_for_scenario].
  - split; discriminate.
  - destruct (transfer_value get_value t s to tr bm am b a) as [[nm v]|e0|] eqn:Ev; cbn [rbind].
    + destruct (nth_error_lt_Some states _ Hs) as [l Hl]. unfold index_or_panic. rewrite Hl. cbn [rbind fst snd].
      pose proof Hv as Hv'. rewrite Forall_forall in Hv'. pose proof (Hv' l (nth_error_In _ _ Hl)) as Hlen. cbn [length] in Hlen.
      destruct (set_value idx v l) as [l1|] eqn:Es.
      * destruct (IH (S idx) (firstn (simulation_id s) states ++ l1 :: skipn (S (simulation_id s)) states)) as [H1 H2].
        -- intros tr' Hin. apply Ht. now right.
        -- now rewrite set_nth_length.
        -- apply Forall_forall. intros l' Hin. apply In_nth_error in Hin. destruct Hin as [j Hj].
           rewrite set_nth_nth in Hj by exact Hs. destruct (j =? simulation_id s).
           ++ injection Hj as <-. apply set_value_spec in Es. destruct Es as (_ & Hl1 & _). rewrite Hl1. lia.
           ++ specialize (Hv' l' (nth_error_In _ _ Hj)). cbn [length] in Hv'. lia.
        -- split; [exact H1|]. intros e He. destruct (H2 e He) as (tr' & Hin & Htr'). exists tr'. split; [now right | exact Htr'].
      * exfalso. unfold set_value in Es. destruct (Nat.ltb_spec idx (length (lo_values l))); [discriminate | lia].
    + split; [discriminate|]. intros e He. injection He as <-. exists tr. split; [now left | exact Ev].
    + exfalso. exact (Ht tr (or_introl eq_refl) Ev).
Qed.

Lemma transfers_for_scenarios_total t scs to (trs : list transfer) bm am b a (states : list loc) :
  (forall s tr, In s scs -> In tr trs -> transfer_value (E := E) get_value t s to tr bm am b a <> Panic) ->
  (forall s, In s scs -> simulation_id s < length states) -> NoDup (map simulation_id scs) ->
  Forall (fun l => length trs <= length (lo_values l)) states ->
  transfers_for_scenarios get_value t scs to trs bm am b a states <> Panic.
Proof.
  revert states. induction scs as [|s scs IH]; intros states Ht Hs Hnd Hv; cbn [transfers_for_scenarios]; [discriminate|].
  inversion Hnd; subst.
  destruct (transfers_for_scenario_total t s to 0 trs bm am b a states) as [H3 _];
    [intros tr Htr; apply Ht; [now left | exact Htr] | apply Hs; now left | exact Hv |].
  destruct (transfers_for_scenario get_value t s to 0 trs bm am b a states) as [mid|e|] eqn:Em; cbn [rbind];
    [|discriminate|contradiction].
  destruct (nth_error_lt_Some states (simulation_id s) (Hs s (or_introl eq_refl))) as [l Hl].
  destruct (transfers_for_scenario_spec _ _ _ _ _ _ _ _ _ _ _ _ Em Hl) as (Hlen & Hoth & l' & Hl' & _ & Hvl & _ & _).
  apply IH.
  - intros s0 tr Hs0 Htr. apply Ht; [now right | exact Htr].
  - intros s0 Hs0. rewrite Hlen. apply Hs. now right.
  - assumption.
  - apply Forall_forall. intros l0 Hin. apply In_nth_error in Hin. destruct Hin as [j Hj].
    rewrite Forall_forall in Hv. destruct (Nat.eq_dec j (simulation_id s)) as [->|Hne].
    + assert (l0 = l') by congruence. subst l0. rewrite Hvl. apply Hv. exact (nth_error_In _ _ Hl).
    + rewrite (Hoth j Hne) in Hj. apply Hv. exact (nth_error_In _ _ Hj).
Qed.

Lemma perform_total (n : Net) ops t s (l : loc) : (forall op, In op ops -> In op (operations n)) ->
  perform (E := E) (map on_local ops) t s l <> Panic.
Proof.
  revert l. induction ops as [|op ops IH]; intros l Hin; cbn [map perform]; [discriminate|].
  unfold on_local at 1. destruct (op t s (lo_values l) (lo_rest l)) eqn:Eo; cbn [rbind].
  - apply IH. intros o Ho. apply Hin. now right.
  - discriminate.
  - exfalso. exact (operations_total n op _ _ _ _ (Hin op (or_introl eq_refl)) Eo).
Qed.

Lemma step_total (n : Net) t scs (ls : list loc) :
  step (E := E) (map on_local (operations n)) t scs ls <> Panic.
Proof.
  revert ls. induction scs as [|s scs IH]; intros [|l ls]; cbn [step]; try discriminate.
  pose proof (perform_total n (operations n) t s l (fun _ H => H)) as Hp.
  destruct (perform (map on_local (operations n)) t s l); cbn [rbind]; [|discriminate|contradiction].
  specialize (IH ls). destruct (step (map on_local (operations n)) t scs ls); cbn [rbind]; [discriminate|discriminate|contradiction].
Qed.

Lemma shaped_set (es : list entry) scs (states : list (list loc)) k e row :
  shaped es scs states -> nth_error es k = Some e -> length row = length scs ->
  Forall (fun l => length (lo_values l) = length (en_transfers e)) row ->
  shaped es scs (firstn k states ++ row :: skipn (S k) states).
Proof.
  intros Hsh He Hl Hv. pose proof (Forall2_length' _ _ _ Hsh) as Hlen. pose proof (nth_error_Some_lt _ _ _ He) as Hk.
  apply Forall2_intro_nth; [rewrite set_nth_length; lia|]. intros i x y Hx Hy. rewrite set_nth_nth in Hy by lia.
  destruct (Nat.eqb_spec i k) as [->|Hne].
  - injection Hy as <-. assert (x = e) by congruence. subst. auto.
  - exact (Forall2_nth_error _ _ _ _ _ _ Hsh Hx Hy).
Qed.

Lemma step_networks_total (bs : list entry_builder) (es : list entry) scs t n k (states : list (list loc)) :
  build_multi build_network resolve bs = Ok es -> numbered scs -> k + n = length es -> shaped es scs states ->
  step_networks get_value operations (seq k n) t es scs states <> Panic.
Proof.
  intros Hb Hnum. revert k states. induction n as [|n IH]; intros k states Hkn Hsh; cbn [seq step_networks]; [discriminate|].
  destruct (shaped_rows _ _ _ Hsh) as [Hlen Hrows].
  destruct (nth_error_lt_Some es k ltac:(lia)) as [e He].
  destruct (nth_error_lt_Some states k ltac:(lia)) as [mine Hmine].
  destruct (Forall2_nth_error _ _ _ _ _ _ Hsh He Hmine) as [Hlm Hvm].
  assert (Hids : forall s, In s scs -> simulation_id s < length scs).
  { intros s Hs. apply (in_map simulation_id) in Hs. rewrite Hnum in Hs. apply in_seq in Hs. lia. }
  destruct (build_multi_spec _ _ Hb) as (_ & Hbl & Hrefs).
  destruct (nth_error_lt_Some bs k ltac:(lia)) as [b Hbk].
  destruct (Hrefs k b e Hbk He) as [_ Hf].
  assert (Hct : compute_transfers get_value k t es scs states <> Panic).
  { unfold compute_transfers.
    destruct (skipn k es) as [|this am] eqn:Ese.
    { exfalso. apply (f_equal (@length entry)) in Ese. rewrite skipn_length in Ese. cbn in Ese. lia. }
    destruct (skipn k states) as [|mine0 a] eqn:Ess.
    { exfalso. apply (f_equal (@length (list loc))) in Ess. rewrite skipn_length in Ess. cbn in Ess. lia. }
    apply skipn_nth in Ese, Ess. destruct Ese as [He' ->]. destruct Ess as [Hm' ->].
    assert (this = e) by congruence. subst this. assert (mine0 = mine) by congruence. subst mine0.
    pose proof (transfers_for_scenarios_total t scs (en_name e) (en_transfers e) (firstn k es) (skipn (S k) es)
      (firstn k states) (skipn (S k) states) mine) as Hnp.
    destruct (transfers_for_scenarios get_value t scs (en_name e) (en_transfers e) (firstn k es) (skipn (S k) es)
      (firstn k states) (skipn (S k) states) mine); cbn [rbind]; [discriminate|discriminate|].
    exfalso. apply Hnp; [ | | | |reflexivity].
    - intros s tr Hs Htr. apply In_nth_error in Htr. destruct Htr as [i Hi].
      destruct (nth_error_lt_Some (eb_transfers b) i) as [tb Htb].
      { rewrite (Forall2_length' _ _ _ Hf). exact (nth_error_Some_lt _ _ _ Hi). }
      pose proof (Forall2_nth_error _ _ _ _ _ _ Hf Htb Hi) as Href.
      apply (transfer_value_total bs k t s (en_name e) tb tr es states Href); [lia | exact Hlen |].
      apply Forall_forall. intros row Hrow. rewrite Forall_forall in Hrows. rewrite (Hrows row Hrow). now apply Hids.
    - intros s Hs. rewrite Hlm. now apply Hids.
    - rewrite Hnum. apply seq_NoDup.
    - revert Hvm. apply Forall_impl. intros l ->. lia. }
  destruct (compute_transfers get_value k t es scs states) as [st1|e0|] eqn:Ec; cbn [rbind]; [|discriminate|contradiction].
  destruct (compute_transfers_spec k t es scs states st1 e mine Ec He Hmine Hnum Hlm)
      as (Hl1 & Hoth & mine1 & Hm1 & Hlm1 & Hdel).
  unfold index_or_panic at 1 2. rewrite He, Hm1. cbn [rbind].
  pose proof (step_total (en_network e) t scs mine1) as Hstp.
  destruct (step (map on_local (operations (en_network e))) t scs mine1) as [mine2| |] eqn:Es; cbn [tag rbind]; [|discriminate|contradiction].
  apply (step_unzip _ t scs mine1 mine2) in Es; [|congruence]. destruct Es as [Hlm2 Hstep].
  apply IH; [lia|].
  assert (Hsh1 : shaped es scs st1).
  { apply Forall2_intro_nth; [lia|]. intros i x y Hx Hy. destruct (Nat.eq_dec i k) as [->|Hne].
    - assert (x = e) by congruence. assert (y = mine1) by congruence. subst. split; [congruence|].
      apply Forall_forall. intros l1 Hin. apply In_nth_error in Hin. destruct Hin as [j Hj].
      pose proof (nth_error_Some_lt _ _ _ Hj) as Hjl.
      destruct (nth_error_lt_Some scs j ltac:(lia)) as [s Hs].
      destruct (nth_error_lt_Some mine j ltac:(lia)) as [l Hl].
      destruct (Hdel j s l Hs Hl) as (l1' & Hl1' & _ & Hv1 & _). assert (l1' = l1) by congruence. subst l1'.
      rewrite Hv1. rewrite Forall_forall in Hvm. apply Hvm. exact (nth_error_In _ _ Hl).
    - rewrite (Hoth i Hne) in Hy. exact (Forall2_nth_error _ _ _ _ _ _ Hsh Hx Hy). }
  apply (shaped_set es scs st1 k e mine2 Hsh1 He); [congruence|].
  apply Forall_forall. intros l2 Hin. apply In_nth_error in Hin. destruct Hin as [j Hj].
  pose proof (nth_error_Some_lt _ _ _ Hj) as Hjl.
  destruct (nth_error_lt_Some scs j ltac:(lia)) as [s Hs].
  destruct (nth_error_lt_Some mine1 j ltac:(lia)) as [l1 Hl1'].
  destruct (Hstep j s l1 Hs Hl1') as (l2' & Hl2' & Hp). assert (l2' = l2) by congruence. subst l2'.
  apply operate_perform in Hp. destruct Hp as [-> _].
  destruct (Forall2_nth_error _ _ _ _ _ _ Hsh1 He Hm1) as [_ Hv1]. rewrite Forall_forall in Hv1.
  apply Hv1. exact (nth_error_In _ _ Hl1').
Qed.

Lemma run_multi_total (bs : list entry_builder) (es : list entry) scs ts (states : list (list loc)) :
  build_multi build_network resolve bs = Ok es -> numbered scs -> shaped es scs states ->
  run_multi get_value operations ts es scs states <> Panic.
Proof.
  intros Hb Hnum. revert states. induction ts as [|t ts IH]; intros states Hsh; cbn [run_multi]; [discriminate|].
  pose proof (step_networks_total bs es scs t (length es) 0 states Hb Hnum eq_refl Hsh) as Hp.
  fold (step_multi get_value operations t es scs states) in Hp.
  destruct (step_multi get_value operations t es scs states) as [mid| |] eqn:Es; cbn [rbind]; [|discriminate|contradiction].
  apply IH. exact (proj1 (step_multi_spec bs es scs t states mid Hb Hnum Hsh Es)).
Qed.
End NoPanic.
End Lemmas.
