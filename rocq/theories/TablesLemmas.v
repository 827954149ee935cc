(** Proofs about data tables. *)
From Coq Require Import QArith.
From Verif Require Import Base Tables TablesSpec.
Local Open Scope string_scope.
Local Open Scope list_scope.
Local Open Scope nat_scope.

Lemma keys_eqb_eq k k' : keys_eqb k k' = true <-> k = k'.
Proof. unfold keys_eqb. destruct (list_eq_dec string_dec k k'); split; congruence. Qed.

Section Map.
Context {V : Type}.
Implicit Types (m l : list (list string * V)).

Lemma hm_get_insert m p k : hm_get k (hm_insert m p) = if keys_eqb (fst p) k then Some (snd p) else hm_get k m.
Proof.
  unfold hm_get, hm_insert. cbn [find]. destruct (keys_eqb (fst p) k) eqn:E; [reflexivity|]. f_equal.
  induction m as [|q m IH]; [reflexivity|]. cbn [filter find]. destruct (keys_eqb (fst q) (fst p)) eqn:Eq; cbn [negb find].
  - apply keys_eqb_eq in Eq. rewrite Eq, E. exact IH.
  - destruct (keys_eqb (fst q) k); [reflexivity | exact IH].
Qed.
Lemma hm_collect_snoc l p : hm_collect (l ++ [p]) = hm_insert (hm_collect l) p.
Proof. unfold hm_collect. rewrite fold_left_app. reflexivity. Qed.
(** The value found is that of the last pair with the key. *)
Lemma hm_get_collect l k : hm_get k (hm_collect l) = option_map snd (find (fun q => keys_eqb (fst q) k) (rev l)).
Proof.
  induction l as [|p l IH] using rev_ind; [reflexivity|]. rewrite hm_collect_snoc, hm_get_insert, rev_app_distr. cbn [rev app find].
  destruct (keys_eqb (fst p) k); [reflexivity | exact IH].
Qed.
Lemma hm_get_In l k v : hm_get k (hm_collect l) = Some v -> In (k, v) l.
Proof.
  rewrite hm_get_collect. destruct (find _ _) as [q|] eqn:E; [|discriminate]. intros H. injection H as <-.
  apply find_some in E. destruct E as [E1 E2]. apply keys_eqb_eq in E2. subst k. destruct q. apply in_rev in E1. exact E1.
Qed.
Lemma hm_get_None l k : hm_get k (hm_collect l) = None -> forall v, ~ In (k, v) l.
Proof.
  rewrite hm_get_collect. destruct (find _ _) as [q|] eqn:E; [discriminate|]. intros _ v Hin. apply in_rev in Hin.
  pose proof (find_none _ _ E _ Hin) as Hn. cbn in Hn. assert (keys_eqb k k = true) by (apply keys_eqb_eq; reflexivity). congruence.
Qed.
Lemma hm_get_iff l k v : unambiguous (fun k v => In (k, v) l) -> (hm_get k (hm_collect l) = Some v <-> In (k, v) l).
Proof.
  intros Hu. split; [apply hm_get_In|]. intros Hin. destruct (hm_get k (hm_collect l)) as [w|] eqn:E.
  - f_equal. apply (Hu k); [apply hm_get_In, E | exact Hin].
  - destruct (hm_get_None l k E v Hin).
Qed.
Lemma hm_collect_NoDup l : NoDup (map fst (hm_collect l)).
Proof.
  induction l as [|p l IH] using rev_ind; [constructor|]. rewrite hm_collect_snoc. unfold hm_insert. cbn [map]. constructor.
  - intros Hin. apply in_map_iff in Hin. destruct Hin as (q & E & Hq). apply filter_In in Hq. destruct Hq as [_ Hq]. rewrite E in Hq.
    assert (keys_eqb (fst p) (fst p) = true) by (apply keys_eqb_eq; reflexivity). rewrite H in Hq. discriminate.
  - revert IH. generalize (hm_collect l). intros m. induction m as [|q m IHm]; intros Hnd; [constructor|]. inversion Hnd as [|? ? H1 H2]; subst.
    cbn [filter]. destruct (negb _); [|apply IHm, H2]. cbn [map]. constructor; [|apply IHm, H2]. intros Hin. apply H1.
    apply in_map_iff in Hin. destruct Hin as (q' & E & Hq). apply filter_In in Hq. rewrite <- E. apply in_map, Hq.
Qed.
End Map.

Lemma hm_get_with_value {V} (m : list (list string * option V)) k : NoDup (map fst m) ->
  hm_get k (with_value m) = match hm_get k m with Some (Some v) => Some v | _ => None end.
Proof.
  unfold hm_get, with_value. induction m as [|p m IH]; intros Hnd; [reflexivity|]. inversion Hnd as [|? ? H1 H2]; subst.
  destruct p as [k' [v|]]; cbn [flat_map snd fst app find].
  - destruct (keys_eqb k' k); [reflexivity | apply IH, H2].
  - destruct (keys_eqb k' k) eqn:E; [|apply IH, H2]. apply keys_eqb_eq in E. subst k'. cbn [option_map snd].
    destruct (find _ (flat_map _ m)) as [q|] eqn:Ef; [|reflexivity]. exfalso. apply find_some in Ef. destruct Ef as [E1 E2]. apply keys_eqb_eq in E2.
    apply H1. apply in_flat_map in E1. destruct E1 as (p & Hp & Hq). destruct p as [pk [pv|]]; cbn in Hq; [|contradiction]. destruct Hq as [<-|[]].
    cbn in E2. subst pk. apply (in_map fst _ _ Hp).
Qed.
Lemma in_with_value {V} (l : list (list string * option V)) k v : In (k, v) (with_value l) <-> In (k, Some v) l.
Proof.
  unfold with_value. rewrite in_flat_map. split.
  - intros ([k' [v'|]] & Hp & Hq); cbn in Hq; [|contradiction]. destruct Hq as [E|[]]. injection E as -> ->. exact Hp.
  - intros H. exists (k, Some v). split; [exact H | left; reflexivity].
Qed.

Lemma nth_error_skipn {A} n (l : list A) j : nth_error (skipn n l) j = nth_error l (n + j).
Proof. revert l. induction n as [|n IH]; intros [|x l]; cbn; try reflexivity; [destruct j; reflexivity | apply IH]. Qed.

(** *** Reading the file *)
Lemma rmap_all {E A B} (g : A -> res E B) l ys : rmap g l = Ok ys -> Forall2 (fun x y => g x = Ok y) l ys.
Proof. apply rmap_Ok_Forall2. Qed.

Lemma csv_rectangular f : (forall x, In x (csv_records f) -> exists r, x = Ok r) -> csv_records f = map Ok (tl f) /\ rectangular f.
Proof.
  destruct f as [|h rs]; [split; [reflexivity | intros r []]|]. cbn [csv_records tl]. intros H.
  assert (Hl : forall r, In r rs -> length r = length h).
  { intros r Hr. destruct (H _ (in_map _ _ _ Hr)) as (r' & E). destruct (length r =? length h) eqn:El; [|discriminate]. apply Nat.eqb_eq, El. }
  split.
  - apply map_ext_in. intros r Hr. rewrite (proj2 (Nat.eqb_eq _ _) (Hl r Hr)). reflexivity.
  - intros r [<-|Hr]; cbn [hd]; [reflexivity | apply Hl, Hr].
Qed.
Lemma rectangular_records f : rectangular f -> csv_records f = map Ok (tl f).
Proof.
  intros H. destruct f as [|h rs]; [reflexivity|]. cbn [csv_records tl]. apply map_ext_in. intros r Hr.
  assert (El : length r = length h) by exact (H r (or_intror Hr)). rewrite (proj2 (Nat.eqb_eq _ _) El). reflexivity.
Qed.

Lemma record_key_ok n r : n <= length r -> record_key n r = Ok (firstn n r).
Proof.
  unfold record_key. revert n. enough (G : forall r0 n o, n <= length r0 -> (forall i, nth_error r (o + i) = nth_error r0 i) ->
    rmap (fun i => match nth_error r i with Some s => Ok s | None => Err KeyParse end) (seq o n) = Ok (firstn n r0)).
  { intros n Hn. apply (G r n 0 Hn). reflexivity. }
  induction r0 as [|x r0 IH]; intros [|n] o Hn Hi; try reflexivity; [cbn in Hn; lia|]. cbn [seq rmap firstn].
  pose proof (Hi 0) as H0. rewrite Nat.add_0_r in H0. rewrite H0. cbn [nth_error]. rewrite (IH n (S o)); [reflexivity | cbn in Hn; lia|].
  intros i. replace (S o + i) with (o + S i) by lia. rewrite Hi. reflexivity.
Qed.
Lemma record_key_inv n r k : record_key n r = Ok k -> n <= length r /\ k = firstn n r.
Proof.
  intros H. assert (Hn : n <= length r).
  { unfold record_key in H. apply rmap_all in H. destruct n as [|n]; [lia|]. assert (Hin : nth_error (seq 0 (S n)) n = Some n).
    { rewrite (nth_error_nth' _ 0) by (rewrite seq_length; lia). rewrite seq_nth by lia. reflexivity. }
    destruct (nth_error_lt_Some k n) as (y & Ey); [rewrite <- (Forall2_length' _ _ _ H), seq_length; lia|].
    pose proof (Forall2_nth_error _ _ _ n n y H Hin Ey) as Hc. cbn beta in Hc. destruct (nth_error r n) eqn:E; [|discriminate].
    apply nth_error_Some_lt in E. lia. }
  split; [exact Hn|]. rewrite (record_key_ok n r Hn) in H. injection H as <-. reflexivity.
Qed.

(** Header rows. *)
Lemma push_headers_spec hs : forall cols, length hs = length cols -> exists cols', push_headers hs cols = Ok cols' /\ length cols' = length cols /\
  forall j c h, nth_error cols j = Some c -> nth_error hs j = Some h -> nth_error cols' j = Some (c ++ [h]).
Proof.
  induction hs as [|h hs IH]; intros [|c cols] Hl; try discriminate.
  - exists []. split; [reflexivity|]. split; [reflexivity|]. intros [|j]; discriminate.
  - injection Hl as Hl. destruct (IH cols Hl) as (cols' & E & El & Hj). exists ((c ++ [h]) :: cols'). cbn [push_headers]. rewrite E. cbn [rbind].
    split; [reflexivity|]. split; [cbn; rewrite El; reflexivity|]. intros [|j] c0 h0 E1 E2; cbn [nth_error] in *; [injection E1 as <-; injection E2 as <-; reflexivity|].
    apply Hj; assumption.
Qed.
Definition headed_from (skip : nat) (hs : list csv_record) (cols : list (list string)) : Prop :=
  forall j c, nth_error cols j = Some c -> headed hs (skip + j) c.
Lemma next_headers_spec skip n : forall recs cols hs w cols' recs',
  (forall r, In (Ok r) recs -> length r = w) -> length cols = w - skip -> headed_from skip hs cols ->
  next_headers n skip recs cols = Ok (cols', recs') ->
  exists rs, recs = map Ok rs ++ recs' /\ length rs = n /\ length cols' = w - skip /\ headed_from skip (hs ++ rs) cols'.
Proof.
  induction n as [|n IH]; intros recs cols hs w cols' recs' Hw Hl Hh H; cbn [next_headers] in H.
  - injection H as <- <-. exists []. cbn [map app]. rewrite app_nil_r. auto.
  - destruct recs as [|[r| |] recs]; try discriminate. assert (Hr : length r = w) by (apply Hw; left; reflexivity).
    destruct (push_headers_spec (skipn skip r) cols) as (c1 & E & El & Hj); [rewrite skipn_length; lia|]. rewrite E in H. cbn [rbind] in H.
    destruct (IH recs c1 (hs ++ [r]) w cols' recs') as (rs & E1 & E2 & E3 & E4); [intros r' Hr'; apply Hw; right; exact Hr' | lia | | exact H|].
    + intros j c Ec. destruct (nth_error_lt_Some cols j) as (c0 & E0); [rewrite <- El; apply (nth_error_Some_lt _ _ _ Ec)|].
      destruct (nth_error_lt_Some (skipn skip r) j) as (h & Eh); [rewrite skipn_length, Hr, <- Hl, <- El; apply (nth_error_Some_lt _ _ _ Ec)|].
      rewrite (Hj j c0 h E0 Eh) in Ec. injection Ec as <-. unfold headed. apply Forall2_app; [apply Hh, E0|]. constructor; [|constructor].
      rewrite <- Eh. rewrite nth_error_skipn. reflexivity.
    + exists (r :: rs). cbn [map app length]. rewrite E1, E2. split; [reflexivity|]. split; [reflexivity|]. split; [exact E3|].
      rewrite <- app_assoc in E4. exact E4.
Qed.
Lemma first_headed skip f : f <> [] -> headed_from skip [csv_headers f] (first_headers skip f).
Proof.
  intros Hne j c Ec. unfold first_headers in Ec. rewrite nth_error_map in Ec. destruct (nth_error (skipn skip (csv_headers f)) j) as [s|] eqn:E; [|discriminate].
  injection Ec as <-. rewrite nth_error_skipn in E. constructor; [exact E | constructor].
Qed.
Lemma csv_record_length f r : In (Ok r) (csv_records f) -> length r = length (csv_headers f).
Proof.
  destruct f as [|h rs]; [intros []|]. cbn [csv_records csv_headers]. intros H. apply in_map_iff in H. destruct H as (r' & E & _).
  destruct (length r' =? length h) eqn:El; [|discriminate]. injection E as <-. apply Nat.eqb_eq, El.
Qed.
(** All header rows together: the records that are left are those after the
    first [n], and every column has its key. *)
Lemma headers_spec skip n f cols recs : 0 < n -> next_headers (n - 1) skip (csv_records f) (first_headers skip f) = Ok (cols, recs) ->
  (forall x, In x recs -> exists r, x = Ok r) ->
  f = [] /\ n = 1 /\ cols = [] /\ recs = [] \/
  rectangular f /\ n <= length f /\ recs = map Ok (skipn n f) /\ length cols = length (hd [] f) - skip /\ headed_from skip (firstn n f) cols.
Proof.
  intros Hn H Hok. destruct f as [|h rs0]; [left|right].
  - cbn in H. destruct (n - 1) eqn:E; [|discriminate]. unfold first_headers in H. cbn in H. rewrite skipn_nil in H. injection H as <- <-. repeat split. lia.
  - destruct (next_headers_spec skip (n - 1) (csv_records (h :: rs0)) (first_headers skip (h :: rs0)) [h] (length h) cols recs (csv_record_length (h :: rs0))) as (rs & E1 & E2 & E3 & E4).
    + unfold first_headers. rewrite map_length, skipn_length. reflexivity.
    + apply (first_headed skip (h :: rs0)). discriminate.
    + exact H.
    + destruct (csv_rectangular (h :: rs0)) as (E & Hrect).
      { intros x Hx. rewrite E1 in Hx. apply in_app_iff in Hx. destruct Hx as [Hx|Hx]; [|apply Hok, Hx]. apply in_map_iff in Hx. destruct Hx as (r & <- & _). eauto. }
      rewrite E in E1. cbn [tl] in E1.
      assert (Hrecs : recs = map Ok (skipn (n - 1) rs0) /\ rs = firstn (n - 1) rs0).
      { assert (G : forall (l rs : list csv_record) recs, map Ok l = map (@Ok table_error _) rs ++ recs -> recs = map Ok (skipn (length rs) l) /\ rs = firstn (length rs) l).
        { clear. induction l as [|x l IH]; intros [|y rs] recs G; cbn in *; try discriminate; auto. injection G as <- G. destruct (IH rs recs G) as [-> E].
          split; [reflexivity | f_equal; exact E]. }
        destruct (G _ _ _ E1) as [G1 G2]. rewrite E2 in G1, G2. auto. }
      destruct Hrecs as [-> ->]. split; [exact Hrect|]. split; [rewrite firstn_length in E2; cbn [length]; lia|].
      destruct n as [|n]; [lia|]. replace (S n - 1) with n in * by lia. cbn [skipn firstn hd]. split; [reflexivity|]. split; [exact E3 | exact E4].
Qed.

Lemma Forall2_impl {A B} (P P' : A -> B -> Prop) l l' : (forall x y, P x y -> P' x y) -> Forall2 P l l' -> Forall2 P' l l'.
Proof. intros H. induction 1; constructor; auto. Qed.
Lemma in_left {A B} (P : A -> B -> Prop) l1 l2 x : Forall2 P l1 l2 -> In x l1 -> exists y, In y l2 /\ P x y.
Proof. induction 1 as [|a b l1 l2 Hab HF IH]; intros Hx; [destruct Hx|]. destruct Hx as [<-|Hx]; [exists b; cbn; auto|]. destruct (IH Hx) as (y & H1 & H2). exists y. cbn. auto. Qed.
Lemma in_right {A B} (P : A -> B -> Prop) l1 l2 y : Forall2 P l1 l2 -> In y l2 -> exists x, In x l1 /\ P x y.
Proof. induction 1 as [|a b l1 l2 Hab HF IH]; intros Hx; [destruct Hx|]. destruct Hx as [<-|Hx]; [exists a; cbn; auto|]. destruct (IH Hx) as (x & H1 & H2). exists x. cbn. auto. Qed.
Lemma in_combine_nth {A B} (a : list A) (b : list B) x y : In (x, y) (combine a b) <-> exists j, nth_error a j = Some x /\ nth_error b j = Some y.
Proof.
  revert b. induction a as [|p a IH]; intros [|q b]; cbn [combine].
  - split; [intros [] | intros ([|j] & E & _); discriminate].
  - split; [intros [] | intros ([|j] & E & _); discriminate].
  - split; [intros [] | intros ([|j] & _ & E); discriminate].
  - cbn [In]. rewrite IH. split.
    + intros [E|(j & E1 & E2)]; [injection E as -> ->; exists 0; auto | exists (S j); auto].
    + intros ([|j] & E1 & E2); cbn in E1, E2; [left; congruence | right; exists j; auto].
Qed.
Lemma headed_fun hs j k k' : headed hs j k -> headed hs j k' -> k = k'.
Proof.
  unfold headed. intros H. revert k'. induction H as [|r s hs k E _ IH]; intros k' H'; inversion H' as [|? s' ? k1 E' H1]; subst; [reflexivity|].
  f_equal; [congruence | apply IH, H1].
Qed.
Lemma headed_width hs j k : hs <> [] -> headed hs j k -> j < length (hd [] hs).
Proof. intros Hne H. inversion H as [|r s hs' k' E]; subst; [destruct (Hne eq_refl)|]. apply (nth_error_Some_lt _ _ _ E). Qed.
Lemma firstn_hd {A} (d : A) n l : 0 < n -> hd d (firstn n l) = hd d l.
Proof. intros H. destruct n; [lia|]. destruct l; reflexivity. Qed.

Lemma next_headers_ok skip n : forall rs cols w, n <= length rs -> (forall r, In r rs -> length r = w) -> length cols = w - skip ->
  exists cols', next_headers n skip (map Ok rs) cols = Ok (cols', map Ok (skipn n rs)) /\ length cols' = w - skip.
Proof.
  induction n as [|n IH]; intros rs cols w Hn Hw Hl; [exists cols; auto|]. destruct rs as [|r rs]; [cbn in Hn; lia|]. cbn [map next_headers skipn].
  destruct (push_headers_spec (skipn skip r) cols) as (c1 & E & El & _); [rewrite skipn_length, (Hw r (or_introl eq_refl)); lia|]. rewrite E. cbn [rbind].
  apply (IH rs c1 w); [cbn in Hn; lia | intros; apply Hw; right; assumption | lia].
Qed.
Lemma headers_ok skip n f : 0 < n -> n <= length f -> rectangular f -> exists cols,
  next_headers (n - 1) skip (csv_records f) (first_headers skip f) = Ok (cols, map Ok (skipn n f)) /\ length cols = length (hd [] f) - skip.
Proof.
  intros Hn Hl Hrect. destruct f as [|h rs]; [cbn in Hl; lia|]. rewrite (rectangular_records _ Hrect). cbn [tl hd]. destruct n as [|n]; [lia|].
  replace (S n - 1) with n by lia. cbn [skipn]. apply next_headers_ok.
  - cbn in Hl. lia.
  - intros r Hr. apply (Hrect r (or_intror Hr)).
  - unfold first_headers. rewrite map_length, skipn_length. reflexivity.
Qed.
Lemma rmap_map {E A B C} (g : B -> res E C) (h : A -> B) l : rmap g (map h l) = rmap (fun x => g (h x)) l.
Proof. induction l as [|x l IH]; [reflexivity|]. cbn [map rmap]. rewrite IH. reflexivity. Qed.
Lemma rmap_succeeds {E A B} (g : A -> res E B) l : (forall x, In x l -> exists y, g x = Ok y) -> exists ys, rmap g l = Ok ys.
Proof.
  induction l as [|x l IH]; intros H; [exists []; reflexivity|]. destruct (H x (or_introl eq_refl)) as (y & Ey). destruct IH as (ys & Eys); [intros; apply H; right; assumption|].
  exists (y :: ys). cbn [rmap]. rewrite Ey, Eys. reflexivity.
Qed.

Section Load.
Variables (parse_f64 : string -> option Q) (parse_i64 : string -> option Z).
Local Notation parse_scalar := (parse_scalar parse_f64 parse_i64).

Lemma Forall2_map_l {A B C} (P : B -> C -> Prop) (g : A -> B) l l' : Forall2 P (map g l) l' <-> Forall2 (fun x y => P (g x) y) l l'.
Proof.
  revert l'. induction l as [|x l IH]; intros l'; cbn [map]; split; intros H; inversion H; subst; constructor; try assumption; apply IH; assumption.
Qed.
Lemma Forall2_in_map {A B} (g : A -> B) (P : A -> Prop) l l' : Forall2 (fun x y => P x /\ y = g x) l l' -> l' = map g l /\ Forall P l.
Proof. induction 1 as [|x y l l' [H1 ->] _ [-> IH]]; cbn; auto. Qed.

(** By row. *)
Lemma rows_scalar_spec n f t : load_csv_rows_scalar parse_f64 parse_i64 n f = Ok t ->
  tb_keys t = n /\ rectangular f /\ (tl f = [] \/ length (hd [] f) = S n) /\
  exists l, tb_values t = with_value (hm_collect l) /\ l = map (fun r => (firstn n r, parse_scalar (nth n r ""))) (tl f) /\
    forall k o, In (k, o) l <-> exists s, cell (LookupRow n) f k s /\ o = parse_scalar s.
Proof.
  unfold load_csv_rows_scalar. intros H. destruct (rmap _ (csv_records f)) as [l| |] eqn:E; try discriminate. cbn [rbind] in H. injection H as <-.
  cbn [tb_keys tb_values]. split; [reflexivity|]. apply rmap_all in E.
  destruct (csv_rectangular f) as (Ec & Hrect).
  { intros x Hx. destruct (in_left _ _ _ _ E Hx) as (y & _ & Hy). destruct x as [r| |]; try discriminate. eauto. }
  split; [exact Hrect|]. rewrite Ec in E. rewrite Forall2_map_l in E.
  assert (Hr : Forall2 (fun r y => length r = S n /\ y = (firstn n r, parse_scalar (nth n r ""))) (tl f) l).
  { eapply Forall2_impl; [|exact E]. intros r y Hy. cbn [rbind] in Hy. destruct (record_key n r) as [k| |] eqn:Ek; try discriminate.
    destruct (record_key_inv _ _ _ Ek) as (Hn & ->). cbn [rbind] in Hy. rewrite map_length, skipn_length in Hy.
    destruct (1 <? length r - n) eqn:El; [discriminate|]. apply Nat.ltb_ge in El.
    destruct (skipn n r) as [|s rest] eqn:Es; [discriminate|]. cbn [map] in Hy. injection Hy as <-.
    assert (Hlen := skipn_length n r). rewrite Es in Hlen. cbn [length] in Hlen. split; [lia|]. f_equal. f_equal.
    assert (En : nth_error r n = Some s) by (rewrite <- (Nat.add_0_r n), <- nth_error_skipn, Es; reflexivity). symmetry. apply (nth_error_nth _ _ _ En). }
  split.
  { destruct f as [|h [|r rs]]; [left; reflexivity | left; reflexivity | right]. cbn [tl hd] in *. inversion Hr as [|? ? ? ? [H1 _] _]; subst.
    rewrite <- H1. symmetry. apply (Hrect r). right. left. reflexivity. }
  exists l. split; [reflexivity|]. apply Forall2_in_map in Hr. destruct Hr as [-> Hlen]. split; [reflexivity|]. rewrite Forall_forall in Hlen. intros k o. rewrite in_map_iff. split.
  - intros (r & Ep & Hin). injection Ep as <- <-. exists (nth n r ""). split; [|reflexivity]. exists r. split; [exact Hin|]. split; [reflexivity|].
    apply nth_error_nth'. rewrite (Hlen r Hin). lia.
  - intros (s & (r & Hin & <- & Es) & ->). exists r. split; [|exact Hin]. rewrite (nth_error_nth _ _ _ Es). reflexivity.
Qed.

(** By column. *)
Lemma cols_scalar_spec n f t : 0 < n -> load_csv_cols_scalar parse_f64 parse_i64 n f = Ok t ->
  tb_keys t = n /\ rectangular f /\ length f = S n /\
  exists l, tb_values t = hm_collect l /\
    forall k v, In (k, v) l <-> exists s, cell (LookupCol n) f k s /\ parse_scalar s = Some v.
Proof.
  intros Hn0. unfold load_csv_cols_scalar. intros H. destruct (next_headers _ _ _ _) as [[cols recs]| |] eqn:Eh; try discriminate. cbn [rbind] in H.
  destruct (rmap _ recs) as [rows| |] eqn:E; try discriminate. cbn [rbind] in H. apply rmap_all in E.
  destruct (headers_spec 0 n f cols recs Hn0 Eh) as [(-> & _ & -> & ->)|(Hrect & Hlen & -> & Hcl & Hh)].
  { intros x Hx. destruct (in_left _ _ _ _ E Hx) as (y & _ & Hy). destruct x as [r| |]; try discriminate. eauto. }
  { inversion E; subst. discriminate. }
  rewrite Forall2_map_l in E. assert (Er : rows = map (map parse_scalar) (skipn n f)).
  { clear - E. induction E as [|r y l l' Hy _ IH]; [reflexivity|]. cbn in Hy. injection Hy as <-. cbn. rewrite IH. reflexivity. }
  clear E. subst rows. destruct (1 <? _) eqn:E1; [discriminate|]. apply Nat.ltb_ge in E1. rewrite map_length, skipn_length in E1.
  destruct (skipn n f) as [|r rest] eqn:Es; [discriminate|]. cbn [map] in H. injection H as <-. cbn [tb_keys tb_values].
  assert (Hl := skipn_length n f). rewrite Es in Hl. cbn [length] in Hl. assert (Hr : nth_error f n = Some r) by (rewrite <- (Nat.add_0_r n), <- nth_error_skipn, Es; reflexivity).
  split; [reflexivity|]. split; [exact Hrect|]. split; [lia|]. eexists. split; [reflexivity|]. intros k v. rewrite in_with_value, in_combine_nth. split.
  - intros (j & Ek & Ev). rewrite nth_error_map in Ev. destruct (nth_error r j) as [s|] eqn:Ej; [|discriminate]. injection Ev as Ev.
    exists s. split; [|exact Ev]. exists j, r. split; [apply (Hh j k Ek)|]. auto.
  - intros (s & (j & r' & Hk & Hr' & Ej) & Ev). rewrite Hr in Hr'. injection Hr' as <-.
    assert (Hj : j < length cols).
    { rewrite Hcl, Nat.sub_0_r, <- (firstn_hd [] n f Hn0). apply (headed_width _ _ k); [|exact Hk]. destruct n; [lia|]. destruct f; [cbn in Hlen; lia | discriminate]. }
    destruct (nth_error_lt_Some cols j Hj) as (k' & Ek). exists j. rewrite (headed_fun _ _ _ _ Hk (Hh j k' Ek)). split; [exact Ek|].
    rewrite nth_error_map, Ej. cbn. rewrite Ev. reflexivity.
Qed.

(** By both. *)
Lemma row_col_scalar_spec rows cols f t : 0 < rows -> load_csv_row_col_scalar parse_f64 parse_i64 rows cols f = Ok t ->
  tb_keys t = rows + cols /\ rectangular f /\
  exists l, tb_values t = hm_collect l /\
    forall k v, In (k, v) l <-> exists s, cell (LookupBoth rows cols) f k s /\ parse_scalar s = Some v.
Proof.
  intros Hn0. unfold load_csv_row_col_scalar. intros H. destruct (next_headers _ _ _ _) as [[hs recs]| |] eqn:Eh; try discriminate. cbn [rbind] in H.
  destruct (rmap _ recs) as [rws| |] eqn:E; try discriminate. cbn [rbind] in H. injection H as <-. cbn [tb_keys tb_values]. apply rmap_all in E.
  split; [reflexivity|].
  destruct (headers_spec cols rows f hs recs Hn0 Eh) as [(-> & -> & -> & ->)|(Hrect & Hlen & -> & Hcl & Hh)].
  { intros x Hx. destruct (in_left _ _ _ _ E Hx) as (y & _ & Hy). destruct x as [r| |]; try discriminate. eauto. }
  { inversion E; subst. split; [intros r []|]. eexists. split; [reflexivity|]. intros k v. split; [intros []|]. intros (s & (r & j & k' & [] & _) & _). }
  split; [exact Hrect|]. eexists. split; [reflexivity|]. rewrite Forall2_map_l in E.
  assert (Er : Forall2 (fun r y => cols <= length r /\ y = (firstn cols r, map parse_scalar (skipn cols r))) (skipn rows f) rws).
  { eapply Forall2_impl; [|exact E]. intros r y Hy. cbn [rbind] in Hy. destruct (record_key cols r) as [k| |] eqn:Ek; try discriminate.
    destruct (record_key_inv _ _ _ Ek) as (Hc & ->). cbn [rbind] in Hy. injection Hy as <-. auto. }
  clear E. apply Forall2_in_map in Er. destruct Er as [-> Hc]. rewrite Forall_forall in Hc. intros k v. rewrite in_flat_map. split.
  - intros (row & Hrow & Hin). apply in_map_iff in Hrow. destruct Hrow as (r & <- & Hr). rewrite in_with_value in Hin. apply in_map_iff in Hin.
    destruct Hin as ([ck o] & Ep & Hp). cbn [fst snd] in *. injection Ep as <- ->. apply in_combine_nth in Hp. destruct Hp as (j & Ek & Ev).
    rewrite nth_error_map, nth_error_skipn in Ev. destruct (nth_error r (cols + j)) as [s|] eqn:Ej; [|discriminate]. injection Ev as Ev.
    exists s. split; [|exact Ev]. exists r, (cols + j), ck. split; [exact Hr|]. split; [lia|]. split; [apply (Hh j ck Ek)|]. auto.
  - intros (s & (r & j & ck & Hr & Hcj & Hk & -> & Ej) & Ev). exists (firstn cols r, map parse_scalar (skipn cols r)). split; [apply (in_map (fun r => (firstn cols r, map parse_scalar (skipn cols r))) _ _ Hr)|].
    rewrite in_with_value. apply in_map_iff. exists (ck, Some v). split; [reflexivity|]. apply in_combine_nth. exists (j - cols). cbn [snd].
    assert (Hj : j < length (hd [] f)).
    { rewrite <- (firstn_hd [] rows f Hn0). apply (headed_width _ _ ck); [|exact Hk]. destruct rows; [lia|]. destruct f; [cbn in Hlen; lia | discriminate]. }
    destruct (nth_error_lt_Some hs (j - cols)) as (k' & Ek); [lia|]. pose proof (Hh _ _ Ek) as Hk'. replace (cols + (j - cols)) with j in Hk' by lia.
    rewrite (headed_fun _ _ _ _ Hk Hk'). split; [exact Ek|]. rewrite nth_error_map, nth_error_skipn. replace (cols + (j - cols)) with j by lia. rewrite Ej. cbn. rewrite Ev. reflexivity.
Qed.

(** Vectors. *)
Definition reads (s : string) (q : Q) : Prop := parse_f64 s = Some q.
Lemma parse_all ss qs : rmap (parse_or_error parse_f64) ss = Ok qs <-> Forall2 reads ss qs.
Proof.
  split.
  - intros H. apply rmap_all in H. eapply Forall2_impl; [|exact H]. intros s q Hq. unfold parse_or_error in Hq. unfold reads.
    destruct (parse_f64 s); [injection Hq as ->; reflexivity | discriminate].
  - induction 1 as [|s q ss qs E _ IH]; [reflexivity|]. cbn [rmap]. unfold parse_or_error at 1. rewrite E, IH. reflexivity.
Qed.
Lemma reads_fun ss qs qs' : Forall2 reads ss qs -> Forall2 reads ss qs' -> qs = qs'.
Proof.
  intros H. revert qs'. induction H as [|s q ss qs E _ IH]; intros qs' H'; inversion H' as [|? q' ? qs1 E' H1]; subst; [reflexivity|].
  unfold reads in *. f_equal; [congruence | apply IH, H1].
Qed.
Lemma rows_vec_spec n f t : load_csv_rows_vec parse_f64 n f = Ok t ->
  tb_keys t = n /\ rectangular f /\
  exists l, tb_values t = hm_collect l /\
    forall k qs, In (k, qs) l <-> exists ss, vector (LookupRow n) f k ss /\ Forall2 reads ss qs.
Proof.
  unfold load_csv_rows_vec. intros H. destruct (rmap _ (csv_records f)) as [l| |] eqn:E; try discriminate. cbn [rbind] in H. injection H as <-.
  cbn [tb_keys tb_values]. split; [reflexivity|]. apply rmap_all in E.
  destruct (csv_rectangular f) as (Ec & Hrect).
  { intros x Hx. destruct (in_left _ _ _ _ E Hx) as (y & _ & Hy). destruct x as [r| |]; try discriminate. eauto. }
  split; [exact Hrect|]. rewrite Ec in E. rewrite Forall2_map_l in E.
  assert (Hr : Forall2 (fun r y => n <= length r /\ fst y = firstn n r /\ Forall2 reads (skipn n r) (snd y)) (tl f) l).
  { eapply Forall2_impl; [|exact E]. intros r y Hy. cbn [rbind] in Hy. destruct (record_key n r) as [k| |] eqn:Ek; try discriminate.
    destruct (record_key_inv _ _ _ Ek) as (Hn & ->). cbn [rbind] in Hy. destruct (rmap _ (skipn n r)) as [qs| |] eqn:Eq; try discriminate.
    injection Hy as <-. cbn [fst snd]. split; [exact Hn|]. split; [reflexivity | apply parse_all, Eq]. }
  exists l. split; [reflexivity|]. intros k qs. split.
  - intros Hin. destruct (in_right _ _ _ _ Hr Hin) as (r & Hrin & Hn & Ek & Hq). cbn [fst snd] in *. exists (skipn n r). split; [|exact Hq]. exists r. auto.
  - intros (ss & (r & Hrin & Hn & <- & <-) & Hq). destruct (in_left _ _ _ _ Hr Hrin) as ([k y] & Hy & _ & Ek & Hq'). cbn [fst snd] in *. subst k.
    rewrite (reads_fun _ _ _ Hq Hq'). exact Hy.
Qed.
Lemma cols_vec_spec n f t : 0 < n -> load_csv_cols_vec parse_f64 n f = Ok t ->
  tb_keys t = n /\ rectangular f /\
  exists l, tb_values t = hm_collect l /\
    forall k qs, In (k, qs) l <-> exists ss, vector (LookupCol n) f k ss /\ f <> [] /\ Forall2 reads ss qs.
Proof.
  intros Hn0. unfold load_csv_cols_vec. intros H. destruct (next_headers _ _ _ _) as [[cols recs]| |] eqn:Eh; try discriminate. cbn [rbind] in H.
  destruct (rmap _ recs) as [rows| |] eqn:E; try discriminate. cbn [rbind] in H. apply rmap_all in E.
  destruct (rmap _ (combine _ cols)) as [l| |] eqn:El; try discriminate. cbn [rbind] in H. injection H as <-. cbn [tb_keys tb_values]. split; [reflexivity|].
  destruct (headers_spec 0 n f cols recs Hn0 Eh) as [(-> & _ & -> & ->)|(Hrect & Hlen & -> & Hcl & Hh)].
  { intros x Hx. destruct (in_left _ _ _ _ E Hx) as (y & _ & Hy). destruct x as [r| |]; try discriminate. eauto. }
  { injection El as <-. split; [intros r []|]. exists []. split; [reflexivity|]. intros k qs. split; [intros []|]. intros (ss & _ & Hne & _). congruence. }
  split; [exact Hrect|]. rewrite Forall2_map_l in E.
  assert (Er : Forall2 (Forall2 reads) (skipn n f) rows).
  { eapply Forall2_impl; [|exact E]. intros r y Hy. cbn [rbind] in Hy. destruct (rmap _ r) as [qs| |] eqn:Eq; try discriminate. cbn [rbind] in Hy.
    destruct (_ =? _); [|discriminate]. injection Hy as <-. apply parse_all, Eq. }
  clear E. apply rmap_all in El. assert (Hne : f <> []) by (intros ->; cbn in Hlen; lia).
  assert (Hcol : forall j vs ss, rmap (fun row => index_or_panic (E := table_error) row j) rows = Ok vs ->
    Forall2 (fun r s => nth_error r j = Some s) (skipn n f) ss -> Forall2 reads ss vs).
  { clear - Er. induction Er as [|r y l l' Hy _ IH]; intros j vs ss Hv Hs; inversion Hs as [|? s ? ss' E1 E2]; subst; cbn [rmap] in Hv.
    - injection Hv as <-. constructor.
    - unfold index_or_panic at 1 in Hv. destruct (nth_error y j) as [q|] eqn:Eq; [|discriminate]. destruct (rmap _ l') as [vs'| |] eqn:Ev; try discriminate.
      injection Hv as <-. constructor; [apply (Forall2_nth_error _ _ _ j s q Hy E1 Eq) | apply (IH j vs' ss' Ev E2)]. }
  assert (Hex : forall j, j < length (hd [] f) -> exists ss, Forall2 (fun r s => nth_error r j = Some s) (skipn n f) ss).
  { intros j Hj. assert (Hw : forall r, In r (skipn n f) -> length r = length (hd [] f)).
    { intros r Hr. apply Hrect. rewrite <- (firstn_skipn n f). apply in_or_app. right. exact Hr. }
    clear - Hw Hj. induction (skipn n f) as [|r l IH]; [exists []; constructor|]. destruct IH as (ss & Hs); [intros; apply Hw; right; assumption|].
    destruct (nth_error_lt_Some r j) as (s & Es); [rewrite (Hw r (or_introl eq_refl)); exact Hj|]. exists (s :: ss). constructor; assumption. }
  assert (Hix : forall j k, In (j, k) (combine (seq 0 (length cols)) cols) <-> nth_error cols j = Some k).
  { intros j k. rewrite in_combine_nth. split.
    - intros (i & Ei & Ek). assert (Hi := nth_error_Some_lt _ _ _ Ei). rewrite seq_length in Hi. rewrite (nth_error_nth' _ 0) in Ei by (rewrite seq_length; lia).
      rewrite seq_nth in Ei by lia. cbn in Ei. injection Ei as <-. exact Ek.
    - intros Ek. exists j. split; [|exact Ek]. assert (Hi := nth_error_Some_lt _ _ _ Ek). rewrite (nth_error_nth' _ 0) by (rewrite seq_length; lia).
      rewrite seq_nth by lia. reflexivity. }
  exists l. split; [reflexivity|]. intros k qs. split.
  - intros Hin. destruct (in_right _ _ _ _ El Hin) as ([j k'] & Hj & Hv). cbn [fst snd] in Hv. destruct (rmap _ rows) as [vs| |] eqn:Ev; try discriminate.
    injection Hv as <- <-. apply Hix in Hj. assert (Hjl := nth_error_Some_lt _ _ _ Hj). destruct (Hex j ltac:(lia)) as (ss & Hss). exists ss.
    split; [exists j; split; [apply (Hh j k' Hj) | exact Hss]|]. split; [exact Hne | apply (Hcol j vs ss Ev Hss)].
  - intros (ss & (j & Hk & Hss) & _ & Hq).
    assert (Hj : j < length (hd [] f)).
    { rewrite <- (firstn_hd [] n f Hn0). apply (headed_width _ _ k); [|exact Hk]. destruct n; [lia|]. destruct f; [congruence | discriminate]. }
    destruct (nth_error_lt_Some cols j ltac:(lia)) as (k' & Ek). rewrite (headed_fun _ _ _ _ Hk (Hh j k' Ek)) in *.
    destruct (in_left _ _ _ _ El (proj2 (Hix j k') Ek)) as ([k1 vs] & Hin & Hv). cbn [fst snd] in Hv. destruct (rmap _ rows) as [vs'| |] eqn:Ev; try discriminate.
    injection Hv as <- <-. rewrite (reads_fun _ _ _ Hq (Hcol j vs' ss Ev Hss)). exact Hin.
Qed.
End Load.
