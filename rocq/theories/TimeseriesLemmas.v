From Coq Require Import QArith Permutation Sorted.
From Verif Require Import Base Calendar Timestep TimestepLemmas Timeseries TimeseriesSpec.
Local Open Scope list_scope.
Local Open Scope Z_scope.

(** * Durations as text *)
Lemma duration_round ms : 0 <= ms -> parse_duration (duration_string ms) = ms.
Proof.
  intros H. unfold duration_string, unit_ms.
  assert (Happ : forall a b, parse_duration (a ++ b) = parse_duration a + parse_duration b).
  { intros a b. unfold parse_duration. rewrite fold_right_app. induction a as [|x a IH]; cbn [fold_right]; lia. }
  assert (Hpart : forall n u, 0 <= n -> parse_duration (if 0 <? n then [(n, u)] else []) = n * unit_ms u).
  { intros n u Hn. destruct (0 <? n) eqn:E; unfold parse_duration; cbn [fold_right fst snd]; [lia|]. assert (n = 0) by lia. subst. reflexivity. }
  rewrite !Happ, !Hpart by (Z.div_mod_to_equations; lia). unfold unit_ms. Z.div_mod_to_equations. lia.
Qed.

(** * Sorting *)
Lemma insert_perm r l : Permutation (r :: l) (insert_row r l).
Proof. induction l as [|x l IH]; cbn [insert_row]; [reflexivity|]. destruct (fst r <=? fst x); [reflexivity|]. rewrite perm_swap, IH. reflexivity. Qed.
Lemma sort_perm l : Permutation l (sort_rows l).
Proof. induction l as [|x l IH]; cbn [sort_rows fold_right]; [reflexivity|]. fold (sort_rows l). rewrite <- insert_perm, <- IH. reflexivity. Qed.
Definition sorted (l : list ts_row) : Prop := StronglySorted (fun a b : ts_row => fst a <= fst b) l.
Lemma insert_sorted r l : sorted l -> sorted (insert_row r l).
Proof.
  unfold sorted. induction 1 as [|x l Hs IH Hx]; cbn [insert_row]; [repeat constructor|]. destruct (fst r <=? fst x) eqn:E.
  - constructor; [constructor; assumption|]. constructor; [lia|]. eapply Forall_impl; [|exact Hx]. cbn. lia.
  - constructor; [exact IH|]. eapply Permutation_Forall; [apply insert_perm|]. constructor; [lia | exact Hx].
Qed.
Lemma sort_sorted l : sorted (sort_rows l).
Proof. induction l as [|x l IH]; cbn [sort_rows fold_right]; [constructor|]. apply insert_sorted, IH. Qed.
Lemma filter_sorted (g : ts_row -> bool) l : sorted l -> sorted (filter g l).
Proof.
  unfold sorted. induction 1 as [|x l Hs IH Hx]; cbn [filter]; [constructor|]. destruct (g x); [|exact IH]. constructor; [exact IH|].
  apply Forall_forall. intros y Hy. apply filter_In in Hy. rewrite Forall_forall in Hx. apply Hx, Hy.
Qed.
Lemma filter_perm {A} (g : A -> bool) l l' : Permutation l l' -> Permutation (filter g l) (filter g l').
Proof.
  induction 1 as [|x l l' _ IH|x y l|l l' l'' _ IH1 _ IH2]; cbn [filter]; [reflexivity| | |etransitivity; eassumption].
  - destruct (g x); [constructor|]; exact IH.
  - destruct (g x), (g y); try reflexivity. apply perm_swap.
Qed.

(** * Evenly spaced rows *)
Definition arith (l : list ts_row) (t0 p : Z) : Prop := forall i r, nth_error l i = Some r -> fst r = t0 + Z.of_nat i * p.
Lemma diffs_arith d : forall l x, (forall y, In y (diffs (x :: l)) -> y = d) -> arith (x :: l) (fst x) d.
Proof.
  induction l as [|y l IH]; intros x H i r Hi.
  - destruct i as [|[|]]; try discriminate. injection Hi as <-. lia.
  - destruct i as [|i]; [injection Hi as <-; lia|]. cbn [nth_error] in Hi. assert (E : fst y - fst x = d) by (apply H; left; reflexivity).
    rewrite (IH y (fun z Hz => H z (or_intror Hz)) i r Hi). lia.
Qed.
Lemma durations_arith l d : durations l = [d] -> exists x y l', l = x :: y :: l' /\ arith l (fst x) d.
Proof.
  unfold durations. intros H. destruct l as [|x [|y l]]; try discriminate. exists x, y, l. split; [reflexivity|]. apply diffs_arith.
  intros z Hz. apply (nodup_In Z.eq_dec) in Hz. rewrite H in Hz. destruct Hz as [Hz|[]]. lia.
Qed.
Lemma arith_durations l t0 d : arith l t0 d -> (2 <= length l)%nat -> durations l = [d].
Proof.
  intros Ha Hl. assert (H : forall l t0, arith l t0 d -> forall y, In y (diffs l) -> y = d).
  { clear. induction l as [|x [|y l] IH]; intros t0 Ha z Hz; try contradiction. destruct Hz as [<-|Hz].
    - rewrite (Ha 0%nat x eq_refl), (Ha 1%nat y eq_refl). lia.
    - apply (IH (t0 + d)); [|exact Hz]. intros i r Hi. rewrite (Ha (S i) r Hi). lia. }
  specialize (H l t0 Ha). unfold durations. destruct l as [|x [|y l]]; try (cbn in Hl; lia). remember (diffs (x :: y :: l)) as ds. 
  assert (Hne : ds <> []) by (subst; discriminate). clear - H Hne. induction ds as [|z ds IH]; [congruence|]. cbn [nodup].
  pose proof (H z (or_introl eq_refl)). subst z. destruct (in_dec Z.eq_dec d ds) as [Hin|Hin].
  - apply IH; [intros y Hy; apply H; right; exact Hy | intros ->; destruct Hin].
  - destruct ds as [|w ds]; [reflexivity|]. exfalso. apply Hin. left. apply H. right. left. reflexivity.
Qed.
Lemma arith_tail x l t0 p : arith (x :: l) t0 p -> arith l (t0 + p) p.
Proof. intros H i r Hi. rewrite (H (S i) r Hi). lia. Qed.
Lemma arith_gt e l t0 p : 0 <= p -> arith l t0 p -> e < t0 -> slice_end e l = [].
Proof.
  intros Hp. revert t0. induction l as [|x l IH]; intros t0 Ha He; [reflexivity|]. unfold slice_end. cbn [filter].
  pose proof (Ha 0%nat x eq_refl). destruct (fst x <=? e) eqn:E; [lia|]. apply (IH (t0 + p)); [apply arith_tail in Ha; exact Ha | lia].
Qed.
Lemma slice_end_arith e p : 0 < p -> forall N l t0, arith l t0 p -> length (slice_end e l) = S N -> e - Z.of_nat N * p <= t0 ->
  t0 = e - Z.of_nat N * p /\ forall i, (i <= N)%nat -> nth_error (slice_end e l) i = nth_error l i.
Proof.
  intros Hp. induction N as [|N IH]; intros l t0 Ha Hl Ht; (destruct l as [|x l]; [discriminate|]); pose proof (Ha 0%nat x eq_refl) as Hx;
    unfold slice_end in Hl |- *; cbn [filter] in Hl |- *; (destruct (fst x <=? e) eqn:E; [|fold (slice_end e l) in Hl; rewrite (arith_gt e l (t0 + p) p ltac:(lia) (arith_tail _ _ _ _ Ha) ltac:(lia)) in Hl; discriminate]).
  - split; [lia|]. intros i Hi. assert (i = 0%nat) by lia. subst. reflexivity.
  - cbn [length] in Hl. injection Hl as Hl. destruct (IH l (t0 + p) (arith_tail _ _ _ _ Ha) Hl ltac:(lia)) as (E1 & E2). split; [lia|].
    intros [|i] Hi; [reflexivity|]. apply E2. lia.
Qed.
Lemma slice_end_covers e p : 0 < p -> forall N l t0, arith l t0 p -> (N < length l)%nat -> e = t0 + Z.of_nat N * p -> length (slice_end e l) = S N.
Proof.
  intros Hp. induction N as [|N IH]; intros l t0 Ha Hl He; (destruct l as [|x l]; [cbn in Hl; lia|]); pose proof (Ha 0%nat x eq_refl) as Hx;
    unfold slice_end; cbn [filter]; (destruct (fst x <=? e) eqn:E; [|lia]); fold (slice_end e l); cbn [length]; f_equal.
  - rewrite (arith_gt e l (t0 + p) p); [reflexivity | lia | apply arith_tail in Ha; exact Ha | lia].
  - apply (IH l (t0 + p)); [apply arith_tail in Ha; exact Ha | cbn in Hl; lia | lia].
Qed.
Lemma last_arith l t0 p : arith l t0 p -> l <> [] -> forall z, last_time l z = t0 + (Z.of_nat (length l) - 1) * p.
Proof.
  intros Ha Hne z. unfold last_time. revert t0 Ha. induction l as [|x [|y l] IH]; intros t0 Ha; [congruence| |].
  - cbn. rewrite (Ha 0%nat x eq_refl). lia.
  - change (last (map fst (y :: l)) z = t0 + (Z.of_nat (length (x :: y :: l)) - 1) * p). rewrite (IH ltac:(discriminate) (t0 + p) (arith_tail _ _ _ _ Ha)). cbn [length]. lia.
Qed.

(** * Means *)
Lemma mean_is vs : is_mean vs (mean_of vs).
Proof.
  unfold is_mean, mean_of. destruct vs as [|q vs]; [reflexivity|]. split; [discriminate|]. field.
  change (~ inject_Z (Z.of_nat (length (q :: vs))) == inject_Z 0)%Q. rewrite inject_Z_injective. cbn [length]. lia.
Qed.
Lemma qsum_perm' l l' : Permutation l l' -> (fold_right Qplus 0 l == fold_right Qplus 0 l')%Q.
Proof.
  induction 1; cbn [fold_right]; [reflexivity | rewrite IHPermutation; reflexivity | ring | etransitivity; eassumption].
Qed.
Lemma is_mean_perm vs vs' o : Permutation vs vs' -> is_mean vs o -> is_mean vs' o.
Proof.
  intros Hp. destruct o as [q|]; cbn [is_mean].
  - intros (Hne & E). split.
    + intros ->. apply Permutation_sym, Permutation_nil in Hp. contradiction.
    + rewrite <- (Permutation_length Hp), <- (qsum_perm' _ _ Hp). exact E.
  - intros ->. apply Permutation_nil, Hp.
Qed.

(** * Coarser time-steps *)
Lemma flat_map_single {A B} (f : A -> list B) (g : A -> B) l : (forall x, In x l -> f x = [g x]) -> flat_map f l = map g l.
Proof. induction l as [|x l IH]; intros H; [reflexivity|]. cbn [flat_map map]. rewrite (H x (or_introl eq_refl)), IH; [reflexivity|]. intros; apply H; right; assumption. Qed.
Lemma downsample_map every w l t0 d : l <> [] -> arith l t0 d -> 0 <= d < every ->
  downsample every w l = map (fun i => (t0 + Z.of_nat i * every, map (fun j => mean_of (known_values j (within (t0 + Z.of_nat i * every) (t0 + Z.of_nat i * every + every) l))) (seq 0 w)))
    (seq 0 (S (Z.to_nat ((Z.of_nat (length l) - 1) * d / every)))).
Proof.
  intros Hne Ha Hd. destruct l as [|[x c] l0] eqn:El; [congruence|]. rewrite <- El in *. unfold downsample. rewrite El at 1.
  assert (Ex : x = t0) by (pose proof (Ha 0%nat (x, c) ltac:(rewrite El; reflexivity)) as E; cbn [fst] in E; lia). subst x.
  rewrite (last_arith l t0 d Ha Hne). replace (t0 + (Z.of_nat (length l) - 1) * d - t0) with ((Z.of_nat (length l) - 1) * d) by lia.
  apply flat_map_single. intros i Hi. apply in_seq in Hi. unfold within.
  destruct (filter _ l) as [|r rs] eqn:Ef; [exfalso|reflexivity].
  set (n := Z.of_nat (length l)) in *. assert (Hn : 1 <= n) by (subst n; rewrite El; cbn [length]; lia).
  assert (Hi' : Z.of_nat i * every <= (n - 1) * d).
  { assert (0 <= (n - 1) * d / every) by (apply Z.div_pos; nia). assert (Z.of_nat i <= (n - 1) * d / every) by lia. pose proof (Z.mul_div_le ((n - 1) * d) every ltac:(lia)). nia. }
  (* the first row not before the window *)
  set (m := if d =? 0 then 0 else (Z.of_nat i * every + (d - 1)) / d).
  assert (Hm : 0 <= m <= n - 1 /\ Z.of_nat i * every <= m * d < Z.of_nat i * every + every).
  { subst m. destruct (d =? 0) eqn:E0.
    - assert (d = 0) by lia. subst d. assert (Z.of_nat i * every <= 0) by lia. assert (E1 : Z.of_nat i = 0) by nia. rewrite E1. lia.
    - pose proof (Z.div_mod (Z.of_nat i * every + (d - 1)) d ltac:(lia)) as D1. pose proof (Z.mod_pos_bound (Z.of_nat i * every + (d - 1)) d ltac:(lia)) as D2.
      set (q := (Z.of_nat i * every + (d - 1)) / d) in *. assert (0 <= q) by (apply Z.div_pos; nia). split; [|nia]. split; [lia|].
      assert (q * d < n * d) by nia. nia. }
  destruct (nth_error_lt_Some l (Z.to_nat m) ltac:(lia)) as (r & Er).
  pose proof (Ha _ _ Er) as Et. assert (Hin : In r (filter (fun r : ts_row => (t0 + Z.of_nat i * every <=? fst r) && (fst r <? t0 + Z.of_nat i * every + every)) l)).
  { apply filter_In. split; [eapply nth_error_In; exact Er | lia]. }
  rewrite Ef in Hin. destruct Hin.
Qed.
Lemma nth_map_seq {A} (g : nat -> A) n i r : nth_error (map g (seq 0 n)) i = Some r -> (i < n)%nat /\ r = g i.
Proof.
  intros H. assert (Hi : (i < n)%nat) by (rewrite <- (seq_length n 0), <- (map_length g); apply nth_error_Some; congruence). split; [exact Hi|].
  rewrite (map_nth_error g i (seq 0 n) (d := i)) in H; [congruence|]. rewrite (nth_error_nth' _ 0%nat) by (rewrite seq_length; exact Hi). f_equal. rewrite seq_nth; lia.
Qed.

(** * Finer time-steps *)
Definition carried (l : list ts_row) (before : list (option Q)) (i j : nat) (o : option Q) : Prop :=
  (exists i' ri q, (i' <= i)%nat /\ nth_error l i' = Some ri /\ nth_error (snd ri) j = Some (Some q) /\ o = Some q /\
     forall k rk, (i' < k <= i)%nat -> nth_error l k = Some rk -> nth_error (snd rk) j = Some None) \/
  (forall k rk, (k <= i)%nat -> nth_error l k = Some rk -> nth_error (snd rk) j = Some None) /\ nth_error before j = Some o.
Lemma nth_fill cells before j : nth_error (map (fun p : option Q * option Q => match fst p with Some q => Some q | None => snd p end) (combine cells before)) j =
  match nth_error cells j, nth_error before j with Some (Some q), Some _ => Some (Some q) | Some None, Some o => Some o | _, _ => None end.
Proof.
  revert before j. induction cells as [|c cells IH]; intros before j; [destruct j; reflexivity|]. destruct before as [|b before].
  - cbn [combine map]. rewrite (proj2 (nth_error_None (@nil (option Q)) j) ltac:(cbn; lia)). destruct (nth_error (c :: cells) j) as [[?|]|]; reflexivity.
  - destruct j as [|j]; cbn [combine map nth_error]; [destruct c; reflexivity | apply IH].
Qed.
Lemma fill_spec w : forall l before, length before = w -> (forall r, In r l -> length (snd r) = w) ->
  length (fill_forward before l) = length l /\
  forall i r', nth_error (fill_forward before l) i = Some r' -> exists r, nth_error l i = Some r /\ fst r' = fst r /\ length (snd r') = w /\
    forall j o, nth_error (snd r') j = Some o -> carried l before i j o.
Proof.
  induction l as [|[t cells] l IH]; intros before Hb Hw; [split; [reflexivity | intros [|] ? H; discriminate]|]. cbn [fill_forward].
  set (filled := map _ (combine cells before)). assert (Hc : length cells = w) by (apply (Hw (t, cells)); left; reflexivity).
  assert (Hf : length filled = w) by (unfold filled; rewrite map_length, combine_length; lia).
  destruct (IH filled Hf (fun r Hr => Hw r (or_intror Hr))) as (Hlen & Hs). split; [cbn [length]; lia|]. intros [|i] r' Hi; cbn [nth_error] in Hi.
  - injection Hi as <-. exists (t, cells). split; [reflexivity|]. split; [reflexivity|]. split; [exact Hf|]. intros j o Ho. cbn [snd] in Ho. unfold filled in Ho.
    rewrite nth_fill in Ho. destruct (nth_error cells j) as [[q|]|] eqn:Ec; [| |discriminate].
    + destruct (nth_error before j); [|discriminate]. injection Ho as <-. left. exists 0%nat, (t, cells), q. repeat split; [lia | exact Ec | intros k rk Hk; lia].
    + right. split; [|destruct (nth_error before j); [exact Ho | discriminate]]. intros k rk Hk Ek. assert (k = 0%nat) by lia. subst k. injection Ek as <-. exact Ec.
  - destruct (Hs i r' Hi) as (r & Er & Et & El & Hj). exists r. split; [exact Er|]. split; [exact Et|]. split; [exact El|]. intros j o Ho.
    destruct (Hj j o Ho) as [(i' & ri & q & H1 & H2 & H3 & H4 & H5)|(H1 & H2)].
    + left. exists (S i'), ri, q. repeat split; try assumption; [lia|]. intros [|k] rk Hk Ek; [lia|]. apply (H5 k rk); [lia | exact Ek].
    + unfold filled in H2. rewrite nth_fill in H2. destruct (nth_error cells j) as [[q|]|] eqn:Ec; [| |discriminate].
      * destruct (nth_error before j); [|discriminate]. injection H2 as <-. left. exists 0%nat, (t, cells), q. repeat split; [lia | exact Ec|].
        intros [|k] rk Hk Ek; [lia|]. apply (H1 k rk); [lia | exact Ek].
      * right. split; [|destruct (nth_error before j); [exact H2 | discriminate]]. intros [|k] rk Hk Ek; [injection Ek as <-; exact Ec|]. apply (H1 k rk); [lia | exact Ek].
Qed.

(** The rows made by [upsample], with spacing [c] times the step. *)
Lemma find_time l t0 p k r : arith l t0 p -> 0 < p -> nth_error l k = Some r -> find (fun x : ts_row => fst x =? t0 + Z.of_nat k * p) l = Some r.
Proof.
  intros Ha Hp Hk. destruct (find _ l) as [x|] eqn:Ef.
  - apply find_some in Ef. destruct Ef as (Hx & Ex). apply In_nth_error in Hx. destruct Hx as (m & Em). rewrite (Ha m x Em) in Ex.
    assert (m = k) by nia. subst. congruence.
  - apply find_none with (x := r) in Ef; [|eapply nth_error_In; exact Hk]. rewrite (Ha k r Hk) in Ef. lia.
Qed.
Definition base_rows (every t0 : Z) (w : nat) (l : list ts_row) (n : nat) : list ts_row :=
  map (fun i => let t := t0 + Z.of_nat i * every in
    match find (fun r : ts_row => fst r =? t) l with Some r => (t, snd r) | None => (t, repeat None w) end) (seq 0 n).
Lemma upsample_base every w l t0 d : l <> [] -> arith l t0 d ->
  upsample every w l = fill_forward (repeat None w) (base_rows every t0 w l (S (Z.to_nat ((Z.of_nat (length l) - 1) * d / every)))).
Proof.
  intros Hne Ha. destruct l as [|[x c] l0] eqn:El; [congruence|]. rewrite <- El in *. unfold upsample. rewrite El at 1.
  assert (Ex : x = t0) by (pose proof (Ha 0%nat (x, c) ltac:(rewrite El; reflexivity)) as E; cbn [fst] in E; lia). subst x.
  rewrite (last_arith l t0 d Ha Hne). replace (t0 + (Z.of_nat (length l) - 1) * d - t0) with ((Z.of_nat (length l) - 1) * d) by lia. reflexivity.
Qed.
Lemma base_row every t0 w l n i r : nth_error (base_rows every t0 w l n) i = Some r -> (i < n)%nat /\ fst r = t0 + Z.of_nat i * every /\
  ((exists d, In d l /\ fst d = fst r /\ snd d = snd r) \/ (forall d, In d l -> fst d <> fst r) /\ snd r = repeat None w).
Proof.
  intros H. apply nth_map_seq in H. destruct H as (Hi & ->). split; [exact Hi|]. cbv zeta. destruct (find _ l) as [d|] eqn:Ef; cbn [fst snd].
  - split; [reflexivity|]. left. apply find_some in Ef. exists d. destruct Ef as (Hd & E). repeat split; [exact Hd | lia].
  - split; [reflexivity|]. right. split; [|reflexivity]. intros d Hd E. apply find_none with (x := d) in Ef; [lia | exact Hd].
Qed.
