(** Proofs about the scenario model. *)
From Verif Require Import Base Scenario ScenarioSpec.
From Coq Require Import Sorted.

(* ---------- builder facts ---------- *)

Lemma built_labels g ls : built g -> g_labels g = Some ls -> length ls = g_size g.
Proof.
  intros [b Hb] Hl. unfold build_group in Hb.
  destruct (build_subset b) as [s| |]; try discriminate.
  destruct (b_labels b) as [labels|] eqn:Hbl.
  - destruct (Nat.eqb_spec (length labels) (b_size b)); [|discriminate].
    injection Hb as <-. cbn in *. congruence.
  - injection Hb as <-. cbn in *. congruence.
Qed.

Lemma built_slice g a b : built g -> g_subset g = Some (Slice a b) -> a < b /\ b <= g_size g.
Proof.
  intros [bb Hb] Hs. unfold build_group in Hb.
  destruct (build_subset bb) as [s| |] eqn:Hsub; try discriminate.
  assert (Hs' : s = Some (Slice a b) /\ g_size g = b_size bb).
  { destruct (b_labels bb) as [labels|].
    - destruct (length labels =? b_size bb); [|discriminate]. injection Hb as <-. cbn in *. auto.
    - injection Hb as <-. cbn in *. auto. }
  destruct Hs' as [-> ->]. unfold build_subset in Hsub.
  destruct (b_subset bb) as [[x y|l|l]|]; try discriminate.
  - destruct ((y <=? x) || (b_size bb <? y)) eqn:Hc; [discriminate|].
    injection Hsub as -> ->. lia.
  - destruct (b_labels bb); [|discriminate]. destruct (rmap _ _); discriminate.
Qed.

Lemma member_label_ok g i : built g -> i < g_size g ->
  exists l, member_label g i = Ok l /\ shows_label g i l.
Proof.
  intros Hb Hi. unfold member_label, shows_label. destruct (g_labels g) as [ls|] eqn:Hl.
  - pose proof (built_labels g ls Hb Hl) as Hlen.
    destruct (nth_error_lt_Some ls i) as [x Hx]; [lia|].
    exists x. unfold index_or_panic. rewrite Hx. auto.
  - exists (nat_to_string i). auto.
Qed.

Lemma member_labels_ok gs c : Forall built gs -> picks gs c ->
  exists ls, zip_with_res member_label gs c = Ok ls /\
             length ls = length gs /\
             (forall k g i l, nth_error gs k = Some g -> nth_error c k = Some i ->
                              nth_error ls k = Some l -> shows_label g i l).
Proof.
  intros Hb Hp. induction Hp as [|g i gs c Hi Hp IH].
  - exists []. cbn. repeat split. intros [|k]; cbn; discriminate.
  - inversion Hb as [|? ? Hg Hgs]; subst.
    destruct (IH Hgs) as (ls & Hls & Hlen & Hsh).
    destruct (member_label_ok g i Hg Hi) as (l & Hl & Hs).
    exists (l :: ls). cbn. rewrite Hl, Hls. split; [reflexivity|]. split; [cbn; congruence|].
    intros [|k] g' i' l' Hg' Hi' Hl'; cbn in *.
    + congruence.
    + eapply Hsh; eassumption.
Qed.

(* ---------- mixed radix ---------- *)

Fixpoint prodr (gs : list group) : nat :=
  match gs with [] => 1 | g :: gs' => g_size g * prodr gs' end.

Lemma product_acc l a : fold_left Nat.mul l a = a * fold_left Nat.mul l 1.
Proof.
  revert a; induction l as [|x l IH]; intros a; cbn [fold_left]; [lia|].
  rewrite (IH (a * x)), (IH (1 * x)). lia.
Qed.

Lemma product_prodr gs : product (map g_size gs) = prodr gs.
Proof.
  unfold product. induction gs as [|g gs IH]; cbn [map fold_left prodr]; [reflexivity|].
  rewrite product_acc, IH. lia.
Qed.

Lemma prodr_app a b : prodr (a ++ b) = prodr a * prodr b.
Proof. induction a as [|g a IH]; cbn [app prodr]; [lia|]. rewrite IH. lia. Qed.

Lemma prodr_rev a : prodr (rev a) = prodr a.
Proof.
  induction a as [|g a IH]; cbn [rev prodr]; [reflexivity|].
  rewrite prodr_app, IH. cbn. lia.
Qed.

Lemma decode_rev_app l g r :
  prodr l <> 0 ->
  decode_rev (l ++ [g]) r = decode_rev l r ++ [(r / prodr l) mod g_size g].
Proof.
  revert r; induction l as [|x l IH]; intros r Hl; cbn [app decode_rev prodr] in *.
  - rewrite Nat.div_1_r. reflexivity.
  - rewrite IH by lia. rewrite Nat.div_div by lia. reflexivity.
Qed.

Lemma decode_cons g gs r :
  prodr gs <> 0 -> decode (g :: gs) r = ((r / prodr gs) mod g_size g) :: decode gs r.
Proof.
  intros H. unfold decode. cbn [rev]. rewrite decode_rev_app by (rewrite prodr_rev; exact H).
  rewrite rev_app_distr. cbn [rev app]. rewrite prodr_rev. reflexivity.
Qed.

Fixpoint encode (gs : list group) (c : list nat) : nat :=
  match gs, c with
  | g :: gs', i :: c' => i * prodr gs' + encode gs' c'
  | _, _ => 0
  end.

Lemma encode_lt gs c : picks gs c -> encode gs c < prodr gs.
Proof.
  induction 1 as [|g i gs c Hi Hp IH]; cbn [encode prodr]; [lia|].
  enough (i * prodr gs + prodr gs <= g_size g * prodr gs) by lia.
  replace (i * prodr gs + prodr gs) with ((i + 1) * prodr gs) by lia.
  apply Nat.mul_le_mono_r. lia.
Qed.

Lemma decode_rev_shift l a r : decode_rev l (a * prodr l + r) = decode_rev l r.
Proof.
  revert a r; induction l as [|g l IH]; intros a r; cbn [decode_rev prodr]; [reflexivity|].
  destruct (Nat.eq_dec (g_size g) 0) as [Hz|Hz].
  - rewrite Hz. replace (a * (0 * prodr l) + r) with r by lia. reflexivity.
  - replace (a * (g_size g * prodr l) + r) with (r + (a * prodr l) * g_size g) by lia.
    rewrite Nat.mod_add by exact Hz. rewrite Nat.div_add by exact Hz.
    rewrite (Nat.add_comm (r / _)). rewrite IH. reflexivity.
Qed.

Lemma decode_shift gs a r : decode gs (a * prodr gs + r) = decode gs r.
Proof. unfold decode. f_equal. rewrite <- (prodr_rev gs). apply decode_rev_shift. Qed.

Lemma picks_nz gs c : picks gs c -> prodr gs <> 0.
Proof.
  induction 1 as [|g i gs c Hi Hp IH]; cbn [prodr]; [lia|].
  intros Hz. apply Nat.mul_eq_0 in Hz. lia.
Qed.

Lemma decode_encode gs c : picks gs c -> decode gs (encode gs c) = c.
Proof.
  induction 1 as [|g i gs c Hi Hp IH]; [reflexivity|].
  pose proof (picks_nz gs c Hp) as Hnz. pose proof (encode_lt gs c Hp) as Hlt.
  rewrite decode_cons by exact Hnz. cbn [encode]. f_equal.
  - rewrite Nat.div_add_l by exact Hnz. rewrite (Nat.div_small (encode gs c)) by exact Hlt.
    rewrite Nat.add_0_r. apply Nat.mod_small. exact Hi.
  - rewrite decode_shift. exact IH.
Qed.

Lemma encode_decode gs r :
  r < prodr gs -> picks gs (decode gs r) /\ encode gs (decode gs r) = r.
Proof.
  revert r; induction gs as [|g gs IH]; intros r Hr.
  - cbn in Hr. unfold decode; cbn. split; [constructor|lia].
  - cbn [prodr] in Hr.
    assert (Hnz : prodr gs <> 0) by (intros Hz; rewrite Hz in Hr; lia).
    assert (Hg : g_size g <> 0) by (intros Hz; rewrite Hz in Hr; lia).
    rewrite decode_cons by exact Hnz.
    set (q := r / prodr gs). set (m := r mod prodr gs).
    assert (Hrq : r = q * prodr gs + m).
    { unfold q, m. rewrite Nat.mul_comm. apply Nat.div_mod_eq. }
    assert (Hm : m < prodr gs) by (apply Nat.mod_upper_bound; exact Hnz).
    assert (Hq : q < g_size g).
    { unfold q. apply Nat.div_lt_upper_bound; [exact Hnz|]. lia. }
    rewrite (Nat.mod_small q) by exact Hq.
    rewrite Hrq, decode_shift.
    destruct (IH m Hm) as [Hp He]. split; [constructor; assumption|].
    cbn [encode]. rewrite He. reflexivity.
Qed.

Lemma encode_lex gs c c' :
  picks gs c -> picks gs c' -> encode gs c < encode gs c' -> lex_lt c c'.
Proof.
  intros Hc; revert c'; induction Hc as [|g i gs c Hi Hp IH]; intros c' Hc' Hlt.
  - inversion Hc'; subst. cbn in Hlt. lia.
  - inversion Hc' as [|? j ? c2 Hj Hp2]; subst. cbn [encode] in Hlt.
    pose proof (encode_lt gs c Hp). pose proof (encode_lt gs c2 Hp2).
    destruct (Nat.lt_trichotomy i j) as [Hij|[->|Hij]].
    + apply lex_here; [exact Hij|].
      apply Forall2_length' in Hp. apply Forall2_length' in Hp2. lia.
    + apply lex_later. apply IH; [exact Hp2|lia].
    + exfalso. assert ((j + 1) * prodr gs <= i * prodr gs) by (apply Nat.mul_le_mono_r; lia). lia.
Qed.

(* ---------- subsets ---------- *)

Lemma existsb_eqb_In x l : existsb (Nat.eqb x) l = true <-> In x l.
Proof.
  rewrite existsb_exists. split.
  - intros (y & Hy & He). apply Nat.eqb_eq in He. congruence.
  - intros H. exists x. split; [exact H | apply Nat.eqb_refl].
Qed.

Lemma position_eqb_In x l : In x l -> exists k, position (Nat.eqb x) l = Some k /\ nth_error l k = Some x.
Proof.
  intros H. destruct (position (Nat.eqb x) l) as [k|] eqn:E.
  - exists k. split; [reflexivity|]. apply position_Some in E.
    destruct E as (y & Hy & He & _). apply Nat.eqb_eq in He. congruence.
  - exfalso. rewrite position_None in E. specialize (E x H). rewrite Nat.eqb_refl in E. discriminate.
Qed.

Lemma subset_sim_iff g i : (exists k, subset_sim (g_subset g) i = Some k) <-> requested g i.
Proof.
  unfold subset_sim, requested. destruct (g_subset g) as [[a b|l]|].
  - destruct ((i <? a) || (b <=? i)) eqn:Hc.
    + split; [intros [k Hk]; discriminate|lia].
    + split; [lia|eauto].
  - split.
    + intros [k Hk]. destruct (existsb (Nat.eqb i) l) eqn:E; [|discriminate].
      apply existsb_eqb_In. exact E.
    + intros H. pose proof H as H'. apply existsb_eqb_In in H'. rewrite H'.
      destruct (position_eqb_In i l H) as (k & Hk & _). exists k. exact Hk.
  - split; eauto.
Qed.

Lemma subset_sim_lookup g i k :
  built g -> subset_sim (g_subset g) i = Some k ->
  match option_map subset_members (g_subset g) with
  | Some l => nth_error l k = Some i
  | None => k = i
  end.
Proof.
  intros Hb. unfold subset_sim. destruct (g_subset g) as [[a b|l]|] eqn:Hs; cbn [option_map subset_members].
  - destruct ((i <? a) || (b <=? i)) eqn:Hc; [discriminate|].
    intros Hk. injection Hk as <-.
    rewrite nth_error_nth' with (d := 0) by (rewrite seq_length; lia).
    rewrite seq_nth by lia. f_equal. lia.
  - destruct (existsb (Nat.eqb i) l) eqn:E; [|discriminate]. intros Hk.
    apply existsb_eqb_In in E. destruct (position_eqb_In i l E) as (k' & Hk' & Hn). congruence.
  - intros Hk. congruence.
Qed.

Lemma sim_indices_iff gs c :
  length gs = length c ->
  ((exists k, sim_indices gs c = Some k) <-> Forall2 requested gs c).
Proof.
  revert c; induction gs as [|g gs IH]; intros [|i c] Hlen; cbn in Hlen; try discriminate.
  - cbn. split; [constructor | exists []; reflexivity].
  - cbn [sim_indices]. assert (Hlen' : length gs = length c) by lia. split.
    + intros [k Hk]. destruct (subset_sim (g_subset g) i) as [k0|] eqn:E; [|discriminate].
      destruct (sim_indices gs c) as [ks|] eqn:E2; [|discriminate].
      constructor; [apply subset_sim_iff; eauto | apply IH; eauto].
    + intros H. inversion H as [|? ? ? ? Hr Hrs]; subst.
      apply subset_sim_iff in Hr. destruct Hr as [k0 Hk0]. rewrite Hk0.
      apply (IH c Hlen') in Hrs. destruct Hrs as [ks Hks]. rewrite Hks. eauto.
Qed.

Lemma sim_indices_lookup gs c sim :
  Forall built gs -> length gs = length c -> sim_indices gs c = Some sim ->
  length sim = length gs /\
  forall k m i j, nth_error (map_from_subsets gs) k = Some m ->
     nth_error sim k = Some i -> nth_error c k = Some j ->
     match m with Some l => nth_error l i = Some j | None => i = j end.
Proof.
  intros Hb; revert c sim; induction Hb as [|g gs Hg Hgs IH]; intros [|x c] sim Hlen Hsim;
    cbn in Hlen; try discriminate.
  - cbn in Hsim. injection Hsim as <-. split; [reflexivity|]. intros [|k] m i j Hm; discriminate Hm.
  - cbn [sim_indices] in Hsim. destruct (subset_sim (g_subset g) x) as [k0|] eqn:E; [|discriminate].
    destruct (sim_indices gs c) as [ks|] eqn:E2; [|discriminate]. injection Hsim as <-.
    destruct (IH c ks) as [Hl Hlk]; [lia | exact E2 |].
    split; [cbn; congruence|].
    intros [|k] m i j Hm Hi Hj; cbn in Hm, Hi, Hj.
    + injection Hm as <-. injection Hi as <-. injection Hj as <-.
      apply (subset_sim_lookup g x k0 Hg E).
    + eapply Hlk; eassumption.
Qed.

Lemma sim_indices_unsubset gs c :
  existsb (fun g => isSome (g_subset g)) gs = false -> length gs = length c ->
  sim_indices gs c = Some c.
Proof.
  revert c; induction gs as [|g gs IH]; intros [|i c] H Hlen; cbn in Hlen; try discriminate; cbn; [reflexivity|].
  cbn in H. apply orb_false_iff in H. destruct H as [Hg Hgs].
  destruct (g_subset g); [discriminate|]. cbn. rewrite IH by (assumption || lia). reflexivity.
Qed.

Lemma existsb_map_isSome gs :
  existsb isSome (map_from_subsets gs) = existsb (fun g => isSome (g_subset g)) gs.
Proof.
  unfold map_from_subsets. induction gs as [|g gs IH]; cbn; [reflexivity|].
  rewrite IH. destruct (g_subset g); reflexivity.
Qed.

(* ---------- the full loop ---------- *)

Definition scen_of (gs : list group) (sl : bool) (sid : nat) (s : scenario_index) : Prop :=
  sim_indices gs (decode gs sid) = Some (simulation_indices s) /\
  sx_schema s = (if sl then Some (SI sid (decode gs sid)) else None) /\
  zip_with_res member_label gs (decode gs sid) = Ok (sx_labels s).

Definition keep (gs : list group) (sid : nat) : bool := isSome (sim_indices gs (decode gs sid)).

Lemma full_loop_ok gs sl n ids :
  Forall built gs -> Forall (fun sid => sid < prodr gs) ids ->
  exists ix, full_loop gs sl n ids = Ok ix /\
    Forall2 (scen_of gs sl) (filter (keep gs) ids) ix /\
    map simulation_id ix = seq n (length ix).
Proof.
  intros Hb Hids; revert n; induction Hids as [|sid ids Hsid Hids IH]; intros n.
  - exists []. cbn. repeat constructor.
  - cbn [full_loop filter]. destruct (encode_decode gs sid Hsid) as [Hp _].
    destruct (member_labels_ok gs _ Hb Hp) as (ls & Hls & _ & _). rewrite Hls. cbn [rbind].
    unfold keep at 1. destruct (sim_indices gs (decode gs sid)) as [sim|] eqn:Hsim; cbn [isSome].
    + destruct (IH (S n)) as (ix & Hix & HF & Hseq). rewrite Hix. cbn [rbind].
      eexists. split; [reflexivity|]. split.
      * constructor; [|exact HF]. unfold scen_of. cbn. auto.
      * cbn [map length seq]. f_equal. exact Hseq.
    + destruct (IH n) as (ix & Hix & HF & Hseq). exists ix. auto.
Qed.

Lemma seq_Forall_lt m : Forall (fun sid => sid < m) (seq 0 m).
Proof. apply Forall_forall. intros x Hx. apply in_seq in Hx. lia. Qed.

Lemma build_full_ok gs :
  gs <> [] -> Forall built gs ->
  exists d, build_domain (DomainBuilder gs None) = Ok d /\
    dom_groups d = gs /\ dom_map d = map_from_subsets gs /\
    Forall2 (scen_of gs (existsb (fun g => isSome (g_subset g)) gs))
            (filter (keep gs) (seq 0 (prodr gs))) (dom_indices d) /\
    map simulation_id (dom_indices d) = seq 0 (length (dom_indices d)).
Proof.
  intros Hne Hb.
  destruct (full_loop_ok gs (existsb (fun g => isSome (g_subset g)) gs) 0 (seq 0 (prodr gs)) Hb
              (seq_Forall_lt _)) as (ix & Hix & HF & Hseq).
  exists (Domain ix gs (map_from_subsets gs)).
  unfold build_domain. cbn [d_groups d_combinations isSome]. rewrite andb_false_r.
  destruct gs as [|g gs']; [congruence|].
  rewrite existsb_map_isSome, product_prodr, Hix. cbn [rbind]. cbn. auto.
Qed.

Lemma scen_members gs sl sid s :
  sid < prodr gs -> (sl = false -> existsb (fun g => isSome (g_subset g)) gs = false) ->
  scen_of gs sl sid s -> members s = decode gs sid.
Proof.
  intros Hlt Hsl (Hsim & Hsch & _). unfold members. rewrite Hsch. destruct sl; [reflexivity|].
  destruct (encode_decode gs sid Hlt) as [Hp _]. apply Forall2_length' in Hp.
  rewrite sim_indices_unsubset in Hsim by auto. unfold simulation_indices in Hsim. congruence.
Qed.

Lemma Forall2_map_eq {A B C} (f : A -> C) (g : B -> C) (R : A -> B -> Prop) l1 l2 :
  (forall a b, In a l1 -> R a b -> f a = g b) -> Forall2 R l1 l2 -> map f l1 = map g l2.
Proof.
  intros H HF. induction HF as [|a b l1 l2 Hab HF IH]; cbn; [reflexivity|].
  f_equal; [apply H; [left; reflexivity|exact Hab]|]. apply IH. intros; apply H; [right|]; assumption.
Qed.

Lemma build_full_members gs d :
  gs <> [] -> Forall built gs -> build_domain (DomainBuilder gs None) = Ok d ->
  map members (dom_indices d) = map (decode gs) (filter (keep gs) (seq 0 (prodr gs))).
Proof.
  intros Hne Hb Hd. destruct (build_full_ok gs Hne Hb) as (d' & Hd' & _ & _ & HF & _).
  assert (d' = d) by congruence. subst d'. symmetry.
  eapply Forall2_map_eq; [|exact HF]. intros sid s Hin Hs. symmetry.
  apply (scen_members gs _ sid s) in Hs; [exact Hs| |].
  - apply filter_In in Hin. destruct Hin as [Hin _]. apply in_seq in Hin. lia.
  - auto.
Qed.

Lemma StronglySorted_filter_seq f n m : StronglySorted lt (filter f (seq n m)).
Proof.
  revert n; induction m as [|m IH]; intros n; cbn; [constructor|].
  destruct (f n); [|apply IH]. constructor; [apply IH|].
  apply Forall_forall. intros x Hx. apply filter_In in Hx. destruct Hx as [Hx _].
  apply in_seq in Hx. lia.
Qed.

Lemma StronglySorted_map {A B} (R : A -> A -> Prop) (R' : B -> B -> Prop) (f : A -> B) l :
  (forall x y, In x l -> In y l -> R x y -> R' (f x) (f y)) ->
  StronglySorted R l -> StronglySorted R' (map f l).
Proof.
  intros H HS. induction HS as [|a l HS IH HF]; cbn; [constructor|].
  constructor.
  - apply IH. intros; apply H; try (right; assumption); assumption.
  - apply Forall_forall. intros y Hy. apply in_map_iff in Hy. destruct Hy as (x & <- & Hx).
    apply H; [left; reflexivity | right; exact Hx |]. rewrite Forall_forall in HF. apply HF. exact Hx.
Qed.

Lemma forallb_filter_id {A} (f : A -> bool) l : forallb f l = true -> filter f l = l.
Proof.
  induction l as [|x l IH]; cbn; [reflexivity|]. intros H. apply andb_true_iff in H.
  destruct H as [Hx Hl]. rewrite Hx, (IH Hl). reflexivity.
Qed.

(** Everything about the enumeration of a full or subset run. *)
Lemma full_enumeration gs :
  gs <> [] -> Forall built gs ->
  exists d, build_domain (DomainBuilder gs None) = Ok d /\
    StronglySorted lex_lt (map members (dom_indices d)) /\
    (forall c, In c (map members (dom_indices d)) <-> picks gs c /\ Forall2 requested gs c) /\
    map simulation_id (dom_indices d) = seq 0 (length (dom_indices d)).
Proof.
  intros Hne Hb. destruct (build_full_ok gs Hne Hb) as (d & Hd & Hg & Hm & HF & Hseq).
  exists d. split; [exact Hd|].
  rewrite (build_full_members gs d Hne Hb Hd). split; [|split; [intros c; split; [intros H; split|]|exact Hseq]].
  - eapply StronglySorted_map; [|apply StronglySorted_filter_seq].
    intros x y Hx Hy Hxy. apply filter_In in Hx. apply filter_In in Hy.
    destruct Hx as [Hx _], Hy as [Hy _]. apply in_seq in Hx. apply in_seq in Hy.
    destruct (encode_decode gs x) as [Px Ex]; [lia|]. destruct (encode_decode gs y) as [Py Ey]; [lia|].
    apply (encode_lex gs); try assumption. lia.
  - apply in_map_iff in H. destruct H as (sid & <- & Hin). apply filter_In in Hin.
    destruct Hin as [Hin _]. apply in_seq in Hin. apply encode_decode. lia.
  - apply in_map_iff in H. destruct H as (sid & <- & Hin). apply filter_In in Hin.
    destruct Hin as [Hin Hk]. apply in_seq in Hin. destruct (encode_decode gs sid) as [Hp _]; [lia|].
    apply sim_indices_iff; [eapply Forall2_length'; exact Hp|].
    unfold keep in Hk. destruct (sim_indices gs (decode gs sid)) as [k|]; [eauto|discriminate].
  - intros [Hp Hr]. apply in_map_iff. exists (encode gs c).
    split; [apply decode_encode; exact Hp|]. apply filter_In. split.
    + apply in_seq. pose proof (encode_lt gs c Hp). lia.
    + unfold keep. rewrite decode_encode by exact Hp.
      apply sim_indices_iff in Hr; [|eapply Forall2_length'; exact Hp].
      destruct Hr as [k Hk]. rewrite Hk. reflexivity.
Qed.

Lemma lex_irrefl c : ~ lex_lt c c.
Proof. induction c as [|x c IH]; intros H; inversion H; subst; [lia|auto]. Qed.

Lemma sorted_lex_NoDup l : StronglySorted lex_lt l -> NoDup l.
Proof.
  induction 1 as [|a l HS IH HF]; constructor; [|exact IH].
  intros Hin. rewrite Forall_forall in HF. apply (lex_irrefl a). apply HF. exact Hin.
Qed.

Lemma all_requested gs c :
  Forall (fun g => g_subset g = None) gs -> length gs = length c -> Forall2 requested gs c.
Proof.
  intros H; revert c; induction H as [|g gs Hg H IH]; intros [|i c] Hlen; cbn in Hlen; try discriminate;
    constructor; [|apply IH; lia]. unfold requested. rewrite Hg. exact I.
Qed.

Lemma no_subset_existsb gs :
  Forall (fun g => g_subset g = None) gs -> existsb (fun g => isSome (g_subset g)) gs = false.
Proof. induction 1 as [|g gs Hg H IH]; cbn; [reflexivity|]. rewrite Hg, IH. reflexivity. Qed.

Lemma full_run_lemma gs :
  gs <> [] -> Forall built gs -> Forall (fun g => g_subset g = None) gs ->
  exists d, build_domain (DomainBuilder gs None) = Ok d /\
    StronglySorted lex_lt (map simulation_indices (dom_indices d)) /\
    NoDup (map simulation_indices (dom_indices d)) /\
    (forall c, In c (map simulation_indices (dom_indices d)) <-> picks gs c) /\
    map simulation_id (dom_indices d) = seq 0 (length (dom_indices d)) /\
    (forall s g, In s (dom_indices d) -> schema_index_for_group s g = simulation_index_for_group s g).
Proof.
  intros Hne Hb Hns. destruct (full_enumeration gs Hne Hb) as (d & Hd & HS & Hin & Hseq).
  exists d. split; [exact Hd|].
  assert (Hnos : forall s, In s (dom_indices d) -> sx_schema s = None).
  { intros s Hs. destruct (build_full_ok gs Hne Hb) as (d' & Hd' & _ & _ & HF & _).
    assert (d' = d) by congruence. subst d'. rewrite no_subset_existsb in HF by exact Hns.
    clear - HF Hs. induction HF as [|a b l l' Hab HF IH]; [destruct Hs|].
    destruct Hs as [<-|Hs]; [apply Hab | apply IH; exact Hs]. }
  assert (Heq : map simulation_indices (dom_indices d) = map members (dom_indices d)).
  { apply map_ext_in. intros s Hs. unfold members. rewrite Hnos by exact Hs. reflexivity. }
  rewrite Heq. split; [exact HS|]. split; [apply sorted_lex_NoDup; exact HS|]. split; [|split; [exact Hseq|]].
  - intros c. rewrite Hin. split; [tauto|]. intros Hp. split; [exact Hp|].
    apply all_requested; [exact Hns|]. eapply Forall2_length'; exact Hp.
  - intros s g Hs. unfold schema_index_for_group, simulation_index_for_group.
    rewrite Hnos by exact Hs. reflexivity.
Qed.

Lemma full_run_count gs d :
  gs <> [] -> Forall built gs -> Forall (fun g => g_subset g = None) gs ->
  build_domain (DomainBuilder gs None) = Ok d ->
  length (dom_indices d) = fold_right Nat.mul 1 (map g_size gs).
Proof.
  intros Hne Hb Hns Hd.
  rewrite <- (map_length members), (build_full_members gs d Hne Hb Hd), map_length.
  assert (Hk : filter (keep gs) (seq 0 (prodr gs)) = seq 0 (prodr gs)).
  { apply forallb_filter_id. apply forallb_forall. intros x Hx. apply in_seq in Hx.
    unfold keep. destruct (encode_decode gs x) as [Hp _]; [lia|].
    rewrite sim_indices_unsubset; [reflexivity| |eapply Forall2_length'; exact Hp].
    apply no_subset_existsb. exact Hns. }
  rewrite Hk, seq_length. clear. induction gs as [|g gs IH]; cbn; [reflexivity|]. rewrite IH. reflexivity.
Qed.

Lemma subset_run_lemma gs :
  gs <> [] -> Forall built gs ->
  exists d, build_domain (DomainBuilder gs None) = Ok d /\
    StronglySorted lex_lt (map members (dom_indices d)) /\
    NoDup (map members (dom_indices d)) /\
    (forall c, In c (map members (dom_indices d)) <-> picks gs c /\ Forall2 requested gs c) /\
    map simulation_id (dom_indices d) = seq 0 (length (dom_indices d)).
Proof.
  intros Hne Hb. destruct (full_enumeration gs Hne Hb) as (d & Hd & HS & Hin & Hseq).
  exists d. split; [exact Hd|]. split; [exact HS|]. split; [apply sorted_lex_NoDup; exact HS|]. auto.
Qed.

(** Label subsets select exactly the named members. *)
Lemma find_label_ok grp labels l i :
  find_label grp labels l = Ok i <->
  nth_error labels i = Some l /\ (forall j, j < i -> nth_error labels j <> Some l).
Proof.
  unfold find_label. destruct (position (String.eqb l) labels) as [k|] eqn:E.
  - apply position_Some in E. destruct E as (x & Hx & He & Hlt). apply String.eqb_eq in He. subst x.
    split.
    + intros H. injection H as <-. split; [exact Hx|]. intros j Hj Hn. specialize (Hlt j l Hj Hn).
      rewrite String.eqb_refl in Hlt. discriminate.
    + intros [Hi Hfi]. destruct (Nat.lt_trichotomy k i) as [H|[H|H]].
      * exfalso. apply (Hfi k H Hx).
      * congruence.
      * exfalso. specialize (Hlt i l H Hi). rewrite String.eqb_refl in Hlt. discriminate.
  - split; [discriminate|]. intros [Hi _]. rewrite position_None in E.
    specialize (E l). rewrite String.eqb_refl in E. apply nth_error_In in Hi. specialize (E Hi). discriminate.
Qed.

(* ---------- labels ---------- *)

Lemma full_labels gs d s k g i l :
  gs <> [] -> Forall built gs -> build_domain (DomainBuilder gs None) = Ok d ->
  In s (dom_indices d) -> nth_error gs k = Some g -> nth_error (members s) k = Some i ->
  nth_error (sx_labels s) k = Some l -> shows_label g i l.
Proof.
  intros Hne Hb Hd Hs Hg Hi Hl.
  destruct (build_full_ok gs Hne Hb) as (d' & Hd' & _ & _ & HF & _).
  assert (d' = d) by congruence. subst d'.
  assert (Hex : exists sid, In sid (filter (keep gs) (seq 0 (prodr gs))) /\
                 scen_of gs (existsb (fun g => isSome (g_subset g)) gs) sid s).
  { clear - HF Hs. induction HF as [|a b l l' Hab HF IH]; [destruct Hs|].
    destruct Hs as [<-|Hs]; [exists a; split; [left; reflexivity|exact Hab]|].
    destruct (IH Hs) as (x & Hx & Hx'). exists x. split; [right; exact Hx|exact Hx']. }
  destruct Hex as (sid & Hin & Hsc). apply filter_In in Hin. destruct Hin as [Hin _]. apply in_seq in Hin.
  assert (Hlt : sid < prodr gs) by lia.
  pose proof (scen_members gs _ sid s Hlt (fun H => H) Hsc) as Hmem.
  destruct Hsc as (_ & _ & Hlab). destruct (encode_decode gs sid Hlt) as [Hp _].
  destruct (member_labels_ok gs _ Hb Hp) as (ls & Hls & _ & Hsh).
  assert (ls = sx_labels s) by congruence. subst ls. rewrite Hmem in Hi. eapply Hsh; eassumption.
Qed.

(* ---------- schema ids of sliced runs ---------- *)

Lemma built_unsliced g : built g -> built (unsliced g).
Proof.
  intros Hb. exists (GroupBuilder (g_name g) (g_size g) None (g_labels g)).
  unfold build_group, unsliced. cbn. destruct (g_labels g) as [ls|] eqn:Hl; [|reflexivity].
  rewrite (built_labels g ls Hb Hl), Nat.eqb_refl. reflexivity.
Qed.

Lemma prodr_unsliced gs : prodr (map unsliced gs) = prodr gs.
Proof. induction gs as [|g gs IH]; cbn; congruence. Qed.

Lemma decode_rev_unsliced gs r : decode_rev (map unsliced gs) r = decode_rev gs r.
Proof. revert r; induction gs as [|g gs IH]; intros r; cbn; [reflexivity|]. rewrite IH. reflexivity. Qed.

Lemma decode_unsliced gs r : decode (map unsliced gs) r = decode gs r.
Proof. unfold decode. rewrite <- map_rev, decode_rev_unsliced. reflexivity. Qed.

Lemma unsliced_no_subset gs : Forall (fun g => g_subset g = None) (map unsliced gs).
Proof. induction gs; cbn; constructor; auto. Qed.

Lemma full_run_nth gs d sid :
  gs <> [] -> Forall built gs -> Forall (fun g => g_subset g = None) gs ->
  build_domain (DomainBuilder gs None) = Ok d -> sid < prodr gs ->
  exists s, nth_error (dom_indices d) sid = Some s /\ simulation_id s = sid /\
            simulation_indices s = decode gs sid.
Proof.
  intros Hne Hb Hns Hd Hlt.
  pose proof (full_run_count gs d Hne Hb Hns Hd) as Hcnt.
  assert (Hp : prodr gs = fold_right Nat.mul 1 (map g_size gs)).
  { clear. induction gs as [|g gs IH]; cbn; [reflexivity|]. rewrite IH. reflexivity. }
  destruct (nth_error_lt_Some (dom_indices d) sid) as [s Hs]; [lia|].
  exists s. split; [exact Hs|].
  destruct (full_run_lemma gs Hne Hb Hns) as (d' & Hd' & _ & _ & _ & Hseq & _).
  assert (d' = d) by congruence. subst d'. split.
  - assert (H : nth_error (map simulation_id (dom_indices d)) sid = Some (simulation_id s))
      by (apply map_nth_error; exact Hs).
    rewrite Hseq in H. rewrite nth_error_nth' with (d := 0) in H by (rewrite seq_length; lia).
    rewrite seq_nth in H by lia. cbn in H. congruence.
  - destruct (build_full_ok gs Hne Hb) as (d' & Hd'' & _ & _ & HF & _).
    assert (d' = d) by congruence. subst d'. rewrite no_subset_existsb in HF by exact Hns.
    assert (Hk : filter (keep gs) (seq 0 (prodr gs)) = seq 0 (prodr gs)).
    { apply forallb_filter_id. apply forallb_forall. intros x Hx. apply in_seq in Hx.
      unfold keep. destruct (encode_decode gs x) as [Hpx _]; [lia|].
      rewrite sim_indices_unsubset; [reflexivity| |eapply Forall2_length'; exact Hpx].
      apply no_subset_existsb. exact Hns. }
    rewrite Hk in HF.
    assert (Hn : nth_error (seq 0 (prodr gs)) sid = Some sid).
    { rewrite nth_error_nth' with (d := 0) by (rewrite seq_length; lia). rewrite seq_nth by lia. reflexivity. }
    pose proof (Forall2_nth_error _ _ _ _ _ _ HF Hn Hs) as (Hsim & _ & _).
    destruct (encode_decode gs sid Hlt) as [Hpx _].
    rewrite sim_indices_unsubset in Hsim; [congruence| |eapply Forall2_length'; exact Hpx].
    apply no_subset_existsb. exact Hns.
Qed.

Lemma sliced_schema_id gs d dfull s :
  gs <> [] -> Forall built gs -> existsb (fun g => isSome (g_subset g)) gs = true ->
  build_domain (DomainBuilder gs None) = Ok d ->
  build_domain (DomainBuilder (map unsliced gs) None) = Ok dfull ->
  In s (dom_indices d) ->
  exists s', In s' (dom_indices dfull) /\ simulation_indices s' = members s /\
             schema_id_of s = Some (simulation_id s').
Proof.
  intros Hne Hb Hsl Hd Hdf Hs.
  destruct (build_full_ok gs Hne Hb) as (d' & Hd' & _ & _ & HF & _).
  assert (d' = d) by congruence. subst d'. rewrite Hsl in HF.
  assert (Hex : exists sid, In sid (filter (keep gs) (seq 0 (prodr gs))) /\ scen_of gs true sid s).
  { clear - HF Hs. induction HF as [|a b l l' Hab HF IH]; [destruct Hs|].
    destruct Hs as [<-|Hs]; [exists a; split; [left; reflexivity|exact Hab]|].
    destruct (IH Hs) as (x & Hx & Hx'). exists x. split; [right; exact Hx|exact Hx']. }
  destruct Hex as (sid & Hin & (_ & Hsch & _)). apply filter_In in Hin. destruct Hin as [Hin _].
  apply in_seq in Hin.
  destruct (full_run_nth (map unsliced gs) dfull sid) as (s' & Hn & Hid & Hi).
  - destruct gs; [congruence|discriminate].
  - apply Forall_map. eapply Forall_impl; [|exact Hb]. intros g. apply built_unsliced.
  - apply unsliced_no_subset.
  - exact Hdf.
  - rewrite prodr_unsliced. lia.
  - exists s'. split; [eapply nth_error_In; exact Hn|]. rewrite decode_unsliced in Hi.
    unfold members, schema_id_of. rewrite Hsch. cbn. split; [exact Hi|congruence].
Qed.

(* ---------- lookup of per-scenario data ---------- *)

Lemma rmap_total {E A B} (f : A -> res E B) l :
  (forall x, In x l -> exists y, f x = Ok y) -> exists ys, rmap f l = Ok ys.
Proof.
  induction l as [|x l IH]; intros H; cbn; [eauto|].
  destruct (H x) as [y Hy]; [left; reflexivity|]. rewrite Hy.
  destruct IH as [ys Hys]; [intros; apply H; right; assumption|]. rewrite Hys. eauto.
Qed.

Lemma subset_row_nth {A} (row : list A) cols k c v :
  Forall (fun i => i < length row) cols ->
  nth_error cols k = Some c -> nth_error row c = Some v ->
  exists r, subset_row row cols = Ok r /\ nth_error r k = Some v.
Proof.
  intros HF Hk Hv. unfold subset_row.
  destruct (rmap_total (index_or_panic (E := scenario_error) row) cols) as [r Hr].
  { intros x Hx. rewrite Forall_forall in HF. specialize (HF x Hx).
    destruct (nth_error_lt_Some row x HF) as [y Hy]. exists y. unfold index_or_panic. rewrite Hy. reflexivity. }
  exists r. split; [exact Hr|]. pose proof Hr as HF2. apply rmap_Ok_Forall2 in HF2.
  assert (Hlen : k < length r).
  { rewrite (rmap_Ok_length _ _ _ Hr). eapply nth_error_Some_lt; exact Hk. }
  destruct (nth_error_lt_Some r k Hlen) as [y Hy].
  pose proof (Forall2_nth_error _ _ _ _ _ _ HF2 Hk Hy) as H. unfold index_or_panic in H.
  rewrite Hv in H. congruence.
Qed.

(** Alignment of one domain: simulation index against the map gives the member. *)
Definition aligned (d : scenario_domain) (gs : list group) : Prop :=
  length (dom_map d) = length gs /\
  (forall k l, nth_error (dom_map d) k = Some (Some l) ->
     forall g, nth_error gs k = Some g -> Forall (fun i => i < g_size g) l) /\
  forall s, In s (dom_indices d) ->
    picks gs (members s) /\ length (simulation_indices s) = length gs /\
    forall k m i j, nth_error (dom_map d) k = Some m -> nth_error (simulation_indices s) k = Some i ->
      nth_error (members s) k = Some j ->
      match m with Some l => nth_error l i = Some j | None => i = j end.

Lemma aligned_lookup {A} d gs s k g (row : list A) :
  aligned d gs -> In s (dom_indices d) -> nth_error gs k = Some g -> length row = g_size g ->
  exists i v, nth_error (members s) k = Some i /\ nth_error row i = Some v /\
    array_lookup d k row s = Ok v /\ constant_lookup k row s = Ok v.
Proof.
  intros (Hlm & Hrange & Hal) Hs Hg Hrow. destruct (Hal s Hs) as (Hp & Hls & Hlk).
  assert (Hkg : k < length gs) by (eapply nth_error_Some_lt; exact Hg).
  pose proof (Forall2_length' _ _ _ Hp) as Hlmem.
  destruct (nth_error_lt_Some (members s) k) as [i Hi]; [lia|].
  destruct (nth_error_lt_Some (simulation_indices s) k) as [j Hj]; [lia|].
  destruct (nth_error_lt_Some (dom_map d) k) as [m Hm]; [lia|].
  pose proof (Forall2_nth_error _ _ _ _ _ _ Hp Hg Hi) as Hlt. cbn in Hlt.
  destruct (nth_error_lt_Some row i) as [v Hv]; [lia|].
  exists i, v. split; [exact Hi|]. split; [exact Hv|]. split.
  - unfold array_lookup, group_row. unfold index_or_panic at 1. rewrite Hm. cbn [rbind].
    specialize (Hlk k m j i Hm Hj Hi).
    unfold simulation_index_for_group, index_or_panic. unfold simulation_indices in Hj. rewrite Hj.
    destruct m as [l|].
    + destruct (subset_row_nth row l j i v) as (r & Hr & Hn); [|exact Hlk|exact Hv|].
      * rewrite Hrow. apply (Hrange k l Hm g Hg).
      * rewrite Hr. cbn [rbind]. rewrite Hn. reflexivity.
    + cbn [rbind]. subst j. rewrite Hv. reflexivity.
  - unfold constant_lookup, schema_index_for_group, index_or_panic.
    unfold members in Hi. destruct (sx_schema s) as [x|]; rewrite Hi; cbn [rbind]; rewrite Hv; reflexivity.
Qed.

Lemma full_aligned gs d :
  gs <> [] -> Forall built gs -> Forall subset_in_range gs ->
  build_domain (DomainBuilder gs None) = Ok d -> aligned d gs.
Proof.
  intros Hne Hb Hr Hd. destruct (build_full_ok gs Hne Hb) as (d' & Hd' & _ & Hm & HF & _).
  assert (d' = d) by congruence. subst d'. unfold aligned. rewrite Hm. repeat split.
  - unfold map_from_subsets. apply map_length.
  - intros k l Hk g Hg. unfold map_from_subsets in Hk.
    rewrite (map_nth_error _ _ _ Hg) in Hk. injection Hk as Hk.
    rewrite Forall_forall in Hb, Hr. specialize (Hb g (nth_error_In _ _ Hg)).
    specialize (Hr g (nth_error_In _ _ Hg)). unfold subset_in_range in Hr.
    destruct (g_subset g) as [[a b|l']|] eqn:Hs; cbn in Hk; try discriminate.
    + injection Hk as <-. destruct (built_slice g a b Hb Hs). apply Forall_forall.
      intros x Hx. apply in_seq in Hx. lia.
    + injection Hk as <-. exact Hr.
  - rename H into Hs.
    assert (Hin : In (members s) (map members (dom_indices d))) by (apply in_map; exact Hs).
    destruct (full_enumeration gs Hne Hb) as (d' & Hd2 & _ & Hin' & _).
    assert (d' = d) by congruence. subst d'. apply Hin' in Hin. apply Hin.
  - rename H into Hs.
    assert (Hex : exists sid, In sid (filter (keep gs) (seq 0 (prodr gs))) /\
        scen_of gs (existsb (fun g => isSome (g_subset g)) gs) sid s).
    { clear - HF Hs. induction HF as [|a b l l' Hab HF IH]; [destruct Hs|].
      destruct Hs as [<-|Hs]; [exists a; split; [left; reflexivity|exact Hab]|].
      destruct (IH Hs) as (x & Hx & Hx'). exists x. split; [right; exact Hx|exact Hx']. }
    destruct Hex as (sid & Hin & Hsc). apply filter_In in Hin. destruct Hin as [Hin _].
    apply in_seq in Hin. destruct (encode_decode gs sid) as [Hp _]; [lia|].
    destruct Hsc as (Hsim & _ & _).
    apply (sim_indices_lookup gs _ _ Hb (Forall2_length' _ _ _ Hp) Hsim).
  - intros k m i j Hk Hi Hj. rename H into Hs.
    assert (Hex : exists sid, In sid (filter (keep gs) (seq 0 (prodr gs))) /\
        scen_of gs (existsb (fun g => isSome (g_subset g)) gs) sid s).
    { clear - HF Hs. induction HF as [|a b l l' Hab HF IH]; [destruct Hs|].
      destruct Hs as [<-|Hs]; [exists a; split; [left; reflexivity|exact Hab]|].
      destruct (IH Hs) as (x & Hx & Hx'). exists x. split; [right; exact Hx|exact Hx']. }
    destruct Hex as (sid & Hin & Hsc). apply filter_In in Hin. destruct Hin as [Hin _].
    apply in_seq in Hin. destruct (encode_decode gs sid) as [Hp _]; [lia|].
    assert (Hlt : sid < prodr gs) by lia.
    rewrite (scen_members gs _ sid s Hlt (fun H => H) Hsc) in Hj.
    destruct Hsc as (Hsim & _ & _).
    eapply (sim_indices_lookup gs _ _ Hb (Forall2_length' _ _ _ Hp) Hsim); eassumption.
Qed.

(* ---------- combinations ---------- *)

Lemma bt_insert_In x y l : In y (bt_insert x l) <-> y = x \/ In y l.
Proof.
  induction l as [|z l IH]; cbn [bt_insert].
  - cbn. intuition.
  - destruct (x <? z); [cbn; intuition|]. destruct (Nat.eqb_spec x z).
    + subst. cbn. intuition.
    + cbn [In]. rewrite IH. intuition.
Qed.

Lemma bt_insert_sorted x l : StronglySorted lt l -> StronglySorted lt (bt_insert x l).
Proof.
  induction 1 as [|z l HS IH HF]; cbn [bt_insert]; [repeat constructor|].
  destruct (Nat.ltb_spec x z).
  - constructor; [constructor; assumption|]. constructor; [assumption|].
    eapply Forall_impl; [|exact HF]. intros; cbn in *; lia.
  - destruct (Nat.eqb_spec x z); [constructor; assumption|].
    constructor; [exact IH|]. apply Forall_forall. intros y Hy. apply bt_insert_In in Hy.
    destruct Hy as [->|Hy]; [lia|]. rewrite Forall_forall in HF. apply HF. exact Hy.
Qed.

(** Set [k] after inserting a list of combinations. *)
Lemma insert_combination_ok sets comb :
  length comb = length sets ->
  exists r, insert_combination sets comb = Ok r /\ length r = length sets /\
    (Forall (StronglySorted lt) sets -> Forall (StronglySorted lt) r) /\
    forall k s' x, nth_error r k = Some s' ->
      (In x s' <-> (nth_error comb k = Some x \/ exists s, nth_error sets k = Some s /\ In x s)).
Proof.
  revert comb; induction sets as [|s sets IH]; intros [|c comb] Hlen; cbn in Hlen; try discriminate.
  - exists []. cbn. repeat split; auto. destruct k; discriminate. destruct k; discriminate.
  - destruct (IH comb) as (r & Hr & Hl & Hss & Hin); [lia|].
    exists (bt_insert c s :: r). cbn. rewrite Hr. split; [reflexivity|]. split; [cbn; lia|]. split.
    + intros HF. inversion HF; subst. constructor; [apply bt_insert_sorted; assumption|auto].
    + intros [|k] s' x Hk; cbn in Hk |- *.
      * injection Hk as <-. rewrite bt_insert_In. split.
        -- intros [->|H]; [left; reflexivity|right; eauto].
        -- intros [H|(s0 & H & Hx)]; [left; congruence|right; congruence].
      * apply (Hin k s' x Hk).
Qed.

Lemma insert_combinations_ok sets combs :
  Forall (fun c => length c = length sets) combs ->
  exists r, insert_combinations sets combs = Ok r /\ length r = length sets /\
    (Forall (StronglySorted lt) sets -> Forall (StronglySorted lt) r) /\
    forall k s' x, nth_error r k = Some s' ->
      (In x s' <-> ((exists c, In c combs /\ nth_error c k = Some x) \/
                    exists s, nth_error sets k = Some s /\ In x s)).
Proof.
  revert sets; induction combs as [|c combs IH]; intros sets HF; cbn [insert_combinations].
  - exists sets. repeat split; auto.
    + intros Hx. right. eauto.
    + intros [(c & [] & _)|(s & Hs & Hx)]. congruence.
  - inversion HF as [|? ? Hc Hcs]; subst.
    destruct (insert_combination_ok sets c Hc) as (r & Hr & Hl & Hss & Hin). rewrite Hr. cbn [rbind].
    destruct (IH r) as (r2 & Hr2 & Hl2 & Hss2 & Hin2).
    { eapply Forall_impl; [|exact Hcs]. cbn. intros; congruence. }
    exists r2. split; [exact Hr2|]. split; [congruence|]. split; [auto|].
    intros k s' x Hk. rewrite (Hin2 k s' x Hk). split.
    + intros [(c' & Hc' & Hx)|(s & Hs & Hx)].
      * left. exists c'. split; [right; exact Hc'|exact Hx].
      * apply (Hin k s x Hs) in Hx. destruct Hx as [Hx|Hx]; [|right; exact Hx].
        left. exists c. split; [left; reflexivity|exact Hx].
    + assert (Hkr : k < length r) by (pose proof (nth_error_Some_lt _ _ _ Hk); lia).
      destruct (nth_error_lt_Some r k Hkr) as [s Hs].
      intros [(c' & [<-|Hc'] & Hx)|Hx].
      * right. exists s. split; [exact Hs|]. apply (Hin k s x Hs). left; exact Hx.
      * left. eauto.
      * right. exists s. split; [exact Hs|]. apply (Hin k s x Hs). right; exact Hx.
Qed.

Lemma map_const_nth {A B} (gs : list A) (b : B) k s :
  nth_error (map (fun _ => b) gs) k = Some s -> s = b.
Proof.
  revert k; induction gs as [|g gs IH]; intros [|k] H; cbn in H; try discriminate; [congruence|eauto].
Qed.

Lemma map_from_combinations_ok gs combs :
  combs <> [] -> Forall (fun c => length c = length gs) combs ->
  exists m, map_from_combinations gs combs = Ok m /\ length m = length gs /\
    forall k o, nth_error m k = Some o ->
      exists l, o = Some l /\ StronglySorted lt l /\
        forall x, In x l <-> exists c, In c combs /\ nth_error c k = Some x.
Proof.
  intros Hne HF. unfold map_from_combinations.
  destruct (insert_combinations_ok (map (fun _ => []) gs) combs) as (r & Hr & Hl & Hss & Hin).
  { rewrite map_length. exact HF. }
  rewrite Hr. cbn [rbind]. eexists. split; [reflexivity|]. rewrite map_length in *. split; [exact Hl|].
  intros k o Hk. rewrite nth_error_map in Hk. destruct (nth_error r k) as [s|] eqn:Hs; [|discriminate].
  cbn in Hk. injection Hk as <-.
  assert (Hx : forall x, In x s <-> exists c, In c combs /\ nth_error c k = Some x).
  { intros x. rewrite (Hin k s x Hs). split; [|intros; left; assumption].
    intros [H|(s0 & H0 & H1)]; [exact H|]. apply map_const_nth in H0. subst. destruct H1. }
  assert (HS : StronglySorted lt s).
  { assert (HFs : Forall (StronglySorted lt) r).
    { apply Hss. apply Forall_forall. intros y Hy. apply in_map_iff in Hy. destruct Hy as (? & <- & _). constructor. }
    rewrite Forall_forall in HFs. apply HFs. eapply nth_error_In; exact Hs. }
  destruct s as [|a s'].
  - exfalso. destruct combs as [|c0 combs]; [congruence|].
    assert (Hk : k < length c0).
    { inversion HF; subst. pose proof (nth_error_Some_lt _ _ _ Hs). lia. }
    destruct (nth_error_lt_Some c0 k Hk) as [x Hc0].
    assert (In x []) by (apply Hx; exists c0; split; [left; reflexivity|exact Hc0]). contradiction.
  - exists (a :: s'). auto.
Qed.

Lemma schema_id_ok gs comb id mult :
  length comb = length gs -> exists r, schema_id_loop gs comb id mult = Ok r.
Proof.
  revert comb id mult; induction gs as [|g gs IH]; intros [|c comb] id mult Hlen; cbn in Hlen; try discriminate;
    cbn; [eauto|]. apply IH. lia.
Qed.

Lemma sim_members_ok m comb :
  length m = length comb ->
  (forall k o x, nth_error m k = Some o -> nth_error comb k = Some x ->
     exists l, o = Some l /\ In x l) ->
  exists sim, zip_with_res sim_member m comb = Ok sim /\ length sim = length comb /\
    forall k o i x, nth_error m k = Some o -> nth_error sim k = Some i -> nth_error comb k = Some x ->
      exists l, o = Some l /\ nth_error l i = Some x.
Proof.
  revert comb; induction m as [|o m IH]; intros [|c comb] Hlen H; cbn in Hlen; try discriminate.
  - exists []. cbn. repeat split. intros [|k]; discriminate.
  - destruct (IH comb) as (sim & Hsim & Hl & Hlk); [lia| |].
    { intros k o' x Ho Hx. apply (H (S k) o' x Ho Hx). }
    destruct (H 0 o c eq_refl eq_refl) as (l & -> & Hin).
    destruct (position_eqb_In c l Hin) as (i & Hi & Hn).
    exists (i :: sim). cbn. rewrite Hi, Hsim. split; [reflexivity|]. split; [cbn; congruence|].
    intros [|k] o' i' x Ho Hi' Hx; cbn in Ho, Hi', Hx.
    + injection Ho as <-. injection Hi' as <-. injection Hx as <-. eauto.
    + eapply Hlk; eassumption.
Qed.

Lemma combination_loop_ok gs m n combs all :
  Forall built gs -> length m = length gs ->
  (forall k o, nth_error m k = Some o ->
      exists l, o = Some l /\ forall x, In x l <-> exists c, In c all /\ nth_error c k = Some x) ->
  Forall (picks gs) combs -> incl combs all ->
  exists ix, combination_loop gs m n combs = Ok ix /\
    Forall2 (fun c s => members s = c /\ length (simulation_indices s) = length gs /\
               (exists sid, schema_id gs c = Ok sid /\ schema_id_of s = Some sid) /\
               zip_with_res member_label gs c = Ok (sx_labels s) /\
               forall k o i x, nth_error m k = Some o -> nth_error (simulation_indices s) k = Some i ->
                 nth_error c k = Some x -> exists l, o = Some l /\ nth_error l i = Some x) combs ix /\
    map simulation_id ix = seq n (length ix).
Proof.
  intros Hb Hlm Hm HF. revert n. induction HF as [|c combs Hc HF IH]; intros n Hincl.
  - exists []. cbn. repeat constructor.
  - cbn [combination_loop]. unfold combination_scenario.
    pose proof (Forall2_length' _ _ _ Hc) as Hlc.
    destruct (sim_members_ok m c) as (sim & Hsim & Hls & Hlk); [lia| |].
    { intros k o x Ho Hx. destruct (Hm k o Ho) as (l & -> & Hl). exists l. split; [reflexivity|].
      apply Hl. exists c. split; [apply Hincl; left; reflexivity|exact Hx]. }
    rewrite Hsim. cbn [rbind].
    destruct (member_labels_ok gs c Hb Hc) as (ls & Hlab & _ & _). rewrite Hlab. cbn [rbind].
    destruct (schema_id_ok gs c 0 1) as [sid Hsid]; [lia|].
    assert (Hsid' : schema_id gs c = Ok sid) by exact Hsid. rewrite Hsid'. cbn [rbind].
    destruct (IH (S n)) as (ix & Hix & HF2 & Hseq).
    { intros x Hx. apply Hincl. right; exact Hx. }
    rewrite Hix. cbn [rbind]. eexists. split; [reflexivity|]. split.
    + constructor; [|exact HF2]. cbn. repeat split; [lia|eauto|exact Hlab|exact Hlk].
    + cbn. f_equal. exact Hseq.
Qed.

Lemma resolve_ok gs raw combs :
  Forall2 (fun r c => Forall2 (fun g p => denotes g (fst p) (snd p)) gs (combine r c) /\
                      length r = length gs /\ length c = length gs) raw combs ->
  rmap (resolve_combination gs) raw = Ok combs.
Proof.
  intros H. apply rmap_Ok_Forall2. induction H as [|r c raw combs (HF & Hlr & Hlc) H IH]; constructor; [|exact IH].
  clear H IH. unfold resolve_combination. revert r c HF Hlr Hlc.
  induction gs as [|g gs IH]; intros [|x r] [|i c] HF Hlr Hlc; cbn in Hlr, Hlc; try discriminate; [reflexivity|].
  cbn [combine] in HF. inversion HF as [|? ? ? ? [Hlt Hd] HF']; subst. cbn [fst snd] in *.
  cbn [zip_with_res].
  assert (Hres : resolve_member x g = Ok i).
  { destruct x as [l|j]; cbn [resolve_member]; [|congruence].
    destruct Hd as (ls & Hls & Hn & Hfirst). unfold label_position. rewrite Hls.
    apply find_label_ok. auto. }
  rewrite Hres, (IH r c) by (assumption || lia). reflexivity.
Qed.

Lemma combos_picks gs raw combs :
  Forall2 (fun r c => Forall2 (fun g p => denotes g (fst p) (snd p)) gs (combine r c) /\
                      length r = length gs /\ length c = length gs) raw combs ->
  Forall (picks gs) combs.
Proof.
  induction 1 as [|r c raw combs (HF & Hlr & Hlc) H IH]; constructor; [|exact IH].
  clear H IH. revert r c HF Hlr Hlc. induction gs as [|g gs IH]; intros [|x r] [|i c] HF Hlr Hlc;
    cbn in Hlr, Hlc; try discriminate; [constructor|].
  cbn [combine] in HF. inversion HF as [|? ? ? ? [Hlt _] HF']; subst. cbn [fst snd] in *.
  constructor; [exact Hlt|]. apply (IH r c); (assumption || lia).
Qed.

Lemma combos_domain gs raw combs :
  gs <> [] -> Forall built gs -> Forall (fun g => g_subset g = None) gs -> raw <> [] ->
  Forall2 (fun r c => Forall2 (fun g p => denotes g (fst p) (snd p)) gs (combine r c) /\
                      length r = length gs /\ length c = length gs) raw combs ->
  exists d, build_domain (DomainBuilder gs (Some raw)) = Ok d /\
    length (dom_map d) = length gs /\
    (forall k o, nth_error (dom_map d) k = Some o ->
      exists l, o = Some l /\ StronglySorted lt l /\
        forall x, In x l <-> exists c, In c combs /\ nth_error c k = Some x) /\
    Forall2 (fun c s => members s = c /\ length (simulation_indices s) = length gs /\
               (exists sid, schema_id gs c = Ok sid /\ schema_id_of s = Some sid) /\
               zip_with_res member_label gs c = Ok (sx_labels s) /\
               forall k o i x, nth_error (dom_map d) k = Some o -> nth_error (simulation_indices s) k = Some i ->
                 nth_error c k = Some x -> exists l, o = Some l /\ nth_error l i = Some x)
            combs (dom_indices d) /\
    map simulation_id (dom_indices d) = seq 0 (length (dom_indices d)).
Proof.
  intros Hne Hb Hns Hraw HF.
  pose proof (resolve_ok gs raw combs HF) as Hres. pose proof (combos_picks gs raw combs HF) as Hp.
  assert (Hcne : combs <> []) by (intros ->; inversion HF; subst; congruence).
  destruct (map_from_combinations_ok gs combs Hcne) as (m & Hm & Hlm & Hset).
  { eapply Forall_impl; [|exact Hp]. intros c Hc. symmetry. eapply Forall2_length'; exact Hc. }
  destruct (combination_loop_ok gs m 0 combs combs Hb Hlm) as (ix & Hix & HF2 & Hseq).
  { intros k o Ho. destruct (Hset k o Ho) as (l & -> & _ & Hl). eauto. }
  { exact Hp. } { apply incl_refl. }
  exists (Domain ix gs m). split.
  - unfold build_domain. cbn [d_groups d_combinations]. destruct gs as [|g gs']; [congruence|].
    rewrite no_subset_existsb by exact Hns. cbn [andb]. rewrite Hres. cbn [rbind].
    rewrite Hm. cbn [rbind]. rewrite Hix. reflexivity.
  - cbn. auto.
Qed.

Lemma combos_run gs raw combs :
  gs <> [] -> Forall built gs -> Forall (fun g => g_subset g = None) gs -> raw <> [] ->
  Forall2 (fun r c => Forall2 (fun g p => denotes g (fst p) (snd p)) gs (combine r c) /\
                      length r = length gs /\ length c = length gs) raw combs ->
  exists d, build_domain (DomainBuilder gs (Some raw)) = Ok d /\
    map members (dom_indices d) = combs /\
    map simulation_id (dom_indices d) = seq 0 (length combs) /\
    forall k g, nth_error gs k = Some g ->
      exists used, nth_error (dom_map d) k = Some (Some used) /\
        StronglySorted lt used /\
        (forall x, In x used <-> exists c, In c combs /\ nth_error c k = Some x) /\
        forall s, In s (dom_indices d) ->
          exists i x, simulation_index_for_group s k = Ok i /\ nth_error used i = Some x /\
                      schema_index_for_group s k = Ok x /\ nth_error (members s) k = Some x.
Proof.
  intros Hne Hb Hns Hraw HF. destruct (combos_domain gs raw combs Hne Hb Hns Hraw HF) as
    (d & Hd & Hlm & Hset & HF2 & Hseq).
  pose proof (combos_picks gs raw combs HF) as Hp.
  exists d. split; [exact Hd|].
  assert (Hmem : map members (dom_indices d) = combs).
  { clear - HF2. induction HF2 as [|c s l l' (H & _) HF IH]; cbn; congruence. }
  split; [exact Hmem|]. split.
  - rewrite Hseq, <- Hmem, map_length. reflexivity.
  - intros k g Hg. assert (Hk : k < length gs) by (eapply nth_error_Some_lt; exact Hg).
    destruct (nth_error_lt_Some (dom_map d) k) as [o Ho]; [lia|].
    destruct (Hset k o Ho) as (used & -> & HS & Hin). exists used. split; [exact Ho|].
    split; [exact HS|]. split; [exact Hin|].
    intros s Hs.
    assert (Hex : exists c, In c combs /\ members s = c /\ length (simulation_indices s) = length gs /\
       exists sid, schema_id_of s = Some sid /\
       forall k o i x, nth_error (dom_map d) k = Some o -> nth_error (simulation_indices s) k = Some i ->
                 nth_error c k = Some x -> exists l, o = Some l /\ nth_error l i = Some x).
    { clear - HF2 Hs. induction HF2 as [|c s0 l l' Hc HF IH]; [destruct Hs|].
      destruct Hs as [<-|Hs].
      - destruct Hc as (H1 & H2 & (sid & _ & H3) & _ & H4). exists c. split; [left; reflexivity|]. eauto 8.
      - destruct (IH Hs) as (c' & Hc' & Hr). exists c'. split; [right; exact Hc'|exact Hr]. }
    destruct Hex as (c & Hc & Hmc & Hls & sid & Hsid & Hlk).
    rewrite Forall_forall in Hp. specialize (Hp c Hc). pose proof (Forall2_length' _ _ _ Hp) as Hlc.
    destruct (nth_error_lt_Some (simulation_indices s) k) as [i Hi]; [lia|].
    destruct (nth_error_lt_Some c k) as [x Hx]; [lia|].
    destruct (Hlk k (Some used) i x Ho Hi Hx) as (l & Hl & Hn). injection Hl as <-.
    exists i, x. unfold simulation_index_for_group, schema_index_for_group, index_or_panic.
    unfold simulation_indices in Hi. rewrite Hi. split; [reflexivity|]. split; [exact Hn|].
    rewrite Hmc. split; [|exact Hx].
    unfold members in Hmc. unfold schema_id_of in Hsid.
    destruct (sx_schema s) as [xx|]; [|discriminate]. rewrite Hmc, Hx. reflexivity.
Qed.

Lemma combos_aligned gs raw combs d :
  gs <> [] -> Forall built gs -> Forall (fun g => g_subset g = None) gs -> raw <> [] ->
  Forall2 (fun r c => Forall2 (fun g p => denotes g (fst p) (snd p)) gs (combine r c) /\
                      length r = length gs /\ length c = length gs) raw combs ->
  build_domain (DomainBuilder gs (Some raw)) = Ok d -> aligned d gs.
Proof.
  intros Hne Hb Hns Hraw HF Hd. destruct (combos_domain gs raw combs Hne Hb Hns Hraw HF) as
    (d' & Hd' & Hlm & Hset & HF2 & Hseq). assert (d' = d) by congruence. subst d'.
  pose proof (combos_picks gs raw combs HF) as Hp.
  split; [exact Hlm|]. split.
  - intros k l Hk g Hg. destruct (Hset k _ Hk) as (l' & Hl & _ & Hin). injection Hl as <-.
    apply Forall_forall. intros x Hx. apply Hin in Hx. destruct Hx as (c & Hc & Hcx).
    rewrite Forall_forall in Hp. specialize (Hp c Hc).
    exact (Forall2_nth_error _ _ _ _ _ _ Hp Hg Hcx).
  - intros s Hs.
    assert (Hex : exists c, In c combs /\ members s = c /\ length (simulation_indices s) = length gs /\
       forall k o i x, nth_error (dom_map d) k = Some o -> nth_error (simulation_indices s) k = Some i ->
                 nth_error c k = Some x -> exists l, o = Some l /\ nth_error l i = Some x).
    { clear - HF2 Hs. induction HF2 as [|c s0 l l' Hc HF IH]; [destruct Hs|].
      destruct Hs as [<-|Hs].
      - destruct Hc as (H1 & H2 & _ & _ & H4). exists c. split; [left; reflexivity|]. eauto 8.
      - destruct (IH Hs) as (c' & Hc' & Hr). exists c'. split; [right; exact Hc'|exact Hr]. }
    destruct Hex as (c & Hc & Hmc & Hls & Hlk). rewrite Forall_forall in Hp. specialize (Hp c Hc).
    rewrite Hmc. split; [exact Hp|]. split; [exact Hls|].
    intros k m i j Hm Hi Hj. destruct (Hlk k m i j Hm Hi Hj) as (l & -> & Hn). exact Hn.
Qed.

(** The combination branch numbers with the first group fastest: its schema id
    is the full-run id of the reversed group list. *)
Lemma schema_id_loop_val gs comb id mult :
  length comb = length gs ->
  schema_id_loop gs comb id mult = Ok (id + mult * encode (rev gs) (rev comb)).
Proof.
  revert comb id mult; induction gs as [|g gs IH]; intros [|c comb] id mult Hlen; cbn in Hlen; try discriminate.
  - cbn. f_equal. lia.
  - cbn [schema_id_loop rev]. rewrite IH by lia. f_equal.
    assert (He : encode (rev gs ++ [g]) (rev comb ++ [c]) = encode (rev gs) (rev comb) * g_size g + c).
    { assert (Hl : length (rev comb) = length (rev gs)) by (rewrite !rev_length; lia).
      clear - Hl. revert Hl. generalize (rev comb). generalize (rev gs). clear.
      induction l as [|x l IH]; intros [|y l0] Hl; cbn in Hl; try discriminate; cbn [app encode prodr].
      - lia.
      - rewrite IH by lia. rewrite prodr_app. cbn. lia. }
    rewrite He. lia.
Qed.

(* ---------- what the group builder accepts ---------- *)

Lemma find_labels_In grp labels names idx i :
  rmap (find_label grp labels) names = Ok idx ->
  (In i idx <-> exists l, In l names /\ first_with_label labels l i).
Proof.
  intros H. apply rmap_Ok_Forall2 in H. induction H as [|l j names idx Hl H IH]; cbn.
  - split; [intros []|]. intros (l & [] & _).
  - rewrite IH. split.
    + intros [->|(l' & Hin & Hf)]; [exists l; split; [left; reflexivity|apply find_label_ok in Hl; exact Hl]|].
      exists l'. auto.
    + intros (l' & [<-|Hin] & Hf); [left|right; eauto].
      assert (Ok (E := scenario_error) j = Ok i) by (rewrite <- Hl; apply find_label_ok; exact Hf). congruence.
Qed.

Lemma group_builder_meaning b g :
  build_group b = Ok g ->
  g_name g = b_name b /\ g_size g = b_size b /\ g_labels g = b_labels b /\
  forall i, requested g i <-> asked_for b i.
Proof.
  intros Hb. unfold build_group in Hb. destruct (build_subset b) as [s| |] eqn:Hs; try discriminate.
  assert (Hg : g = Group (b_name b) (b_size b) s (b_labels b)).
  { destruct (b_labels b) as [ls|]; [destruct (length ls =? b_size b)|]; congruence. }
  subst g. cbn. repeat split; unfold requested, asked_for; cbn; unfold build_subset in Hs;
    destruct (b_subset b) as [[a e|l|l]|]; try (injection Hs as <-; tauto).
  - destruct ((e <=? a) || (b_size b <? e)); [discriminate|]. injection Hs as <-. tauto.
  - destruct (b_labels b) as [ls|] eqn:Hl; [|discriminate].
    destruct (rmap _ l) as [idx| |] eqn:Hr; try discriminate. injection Hs as <-.
    intros Hi. apply (find_labels_In _ _ _ _ _ Hr) in Hi. destruct Hi as (x & Hx & Hf). eauto.
  - destruct ((e <=? a) || (b_size b <? e)); [discriminate|]. injection Hs as <-. tauto.
  - destruct (b_labels b) as [ls|] eqn:Hl; [|discriminate].
    destruct (rmap _ l) as [idx| |] eqn:Hr; try discriminate. injection Hs as <-.
    intros (ls' & x & Hls' & Hx & Hf). apply (find_labels_In _ _ _ _ _ Hr). injection Hls' as <-. eauto.
Qed.

Lemma find_labels_total grp labels names :
  (exists idx, rmap (find_label grp labels) names = Ok idx) <-> incl names labels.
Proof.
  split.
  - intros [idx H] l Hl. apply rmap_Ok_Forall2 in H.
    induction H as [|x j names idx Hx H IH]; [destruct Hl|]. destruct Hl as [<-|Hl]; [|auto].
    apply find_label_ok in Hx. destruct Hx as [Hx _]. eapply nth_error_In; exact Hx.
  - intros H. apply rmap_total. intros l Hl. specialize (H l Hl). unfold find_label.
    destruct (position (String.eqb l) labels) as [i|] eqn:E; [eauto|].
    exfalso. rewrite position_None in E. specialize (E l H). rewrite String.eqb_refl in E. discriminate.
Qed.

Lemma group_builder_accepts b : (exists g, build_group b = Ok g) <-> acceptable b.
Proof.
  unfold build_group, acceptable, build_subset.
  destruct (b_labels b) as [ls|] eqn:Hl.
  - destruct (length ls =? b_size b) eqn:Hlen; [apply Nat.eqb_eq in Hlen|apply Nat.eqb_neq in Hlen].
    + destruct (b_subset b) as [[a e|l|l]|].
      * destruct ((e <=? a) || (b_size b <? e)) eqn:Hc; split;
          [intros [g Hg]; discriminate | lia | intros _; split; [exact Hlen|lia] | eauto].
      * split; eauto.
      * pose proof (find_labels_total (b_name b) ls l) as Ht.
        destruct (rmap (find_label (b_name b) ls) l) as [idx|e|] eqn:Hr.
        -- split; [|eauto]. intros _. split; [exact Hlen|]. exists ls. split; [reflexivity|].
           apply Ht. eauto.
        -- split; [intros [g Hg]; discriminate|]. intros (_ & ls' & Hls' & Hi). injection Hls' as <-.
           apply Ht in Hi. destruct Hi as [? Hi]. discriminate.
        -- split; [intros [g Hg]; discriminate|]. intros (_ & ls' & Hls' & Hi). injection Hls' as <-.
           apply Ht in Hi. destruct Hi as [? Hi]. discriminate.
      * split; eauto.
    + split; [|intros [H _]; congruence]. intros [g Hg]. exfalso.
      destruct (b_subset b) as [[a e|l|l]|]; try discriminate.
      * destruct ((e <=? a) || (b_size b <? e)); discriminate.
      * destruct (rmap _ l); discriminate.
  - destruct (b_subset b) as [[a e|l|l]|].
    + destruct ((e <=? a) || (b_size b <? e)) eqn:Hc; split;
        [intros [g Hg]; discriminate | lia | intros _; split; [exact I|lia] | eauto].
    + split; eauto.
    + split; [intros [g Hg]; discriminate|]. intros (_ & ls' & Hls' & _). discriminate.
    + split; eauto.
Qed.

Lemma subset_run_builders bs gs :
  bs <> [] -> Forall2 (fun b g => build_group b = Ok g) bs gs ->
  exists d, build_domain (DomainBuilder gs None) = Ok d /\
    StronglySorted lex_lt (map members (dom_indices d)) /\
    NoDup (map members (dom_indices d)) /\
    (forall c, In c (map members (dom_indices d)) <->
               Forall2 (fun b i => i < b_size b /\ asked_for b i) bs c) /\
    map simulation_id (dom_indices d) = seq 0 (length (dom_indices d)).
Proof.
  intros Hne HF. destruct (subset_run_lemma gs) as (d & Hd & HS & HN & Hin & Hseq).
  { intros ->. inversion HF; subst; congruence. }
  { clear Hne. induction HF; constructor; [eexists; eassumption|assumption]. }
  exists d. split; [exact Hd|]. split; [exact HS|]. split; [exact HN|]. split; [|exact Hseq].
  intros c. rewrite Hin. clear - HF. revert c. induction HF as [|b g bs gs Hbg HF IH]; intros c.
  - split; [intros [H _]|intros H]; inversion H; subst; [constructor|split; constructor].
  - destruct (group_builder_meaning b g Hbg) as (_ & Hsz & _ & Hreq). split.
    + intros [Hp Hr]. inversion Hp as [|? i ? c' Hi Hp']; subst. inversion Hr as [|? ? ? ? Hri Hr']; subst.
      constructor; [split; [congruence|apply Hreq; exact Hri]|]. apply IH. auto.
    + intros H. inversion H as [|? i ? c' [Hi Ha] H']; subst. apply IH in H'. destruct H' as [Hp Hr].
      split; constructor; try assumption; [congruence|apply Hreq; exact Ha].
Qed.
