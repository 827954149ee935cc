(** Lemmas about files: hexadecimal numbers, extensions and loading. *)
From Coq Require Import Ascii String QArith Lia.
From Verif Require Import Base Calendar Timestep Scenario Lookups LookupsSpec LookupsLemmas Tables Timeseries SchemaOutputs DataFiles DataFilesSpec.
From Verif Require Launch LaunchLemmas PyParams.
Local Open Scope string_scope.
Local Open Scope list_scope.
Local Open Scope nat_scope.

(** *** Hexadecimal digits *)
Lemma below_16 n : n < 16 -> n = 0 \/ n = 1 \/ n = 2 \/ n = 3 \/ n = 4 \/ n = 5 \/ n = 6 \/ n = 7 \/ n = 8 \/ n = 9 \/ n = 10 \/ n = 11 \/ n = 12 \/ n = 13 \/ n = 14 \/ n = 15.
Proof. lia. Qed.
Lemma digit_hex n : n < 16 -> digit_value (hex_digit n) = Some n.
Proof. intros H. apply below_16 in H. repeat destruct H as [-> | H]; try reflexivity. subst; reflexivity. Qed.
Lemma any_digit_lower c n : digit_value c = Some n -> any_digit_value c = Some n.
Proof.
  unfold any_digit_value. intros H. destruct ((65 <=? nat_of_ascii c) && (nat_of_ascii c <=? 70)) eqn:E; [|exact H].
  exfalso. apply andb_true_iff in E. destruct E as [E1 E2]. apply Nat.leb_le in E1, E2. unfold digit_value in H.
  destruct ((48 <=? nat_of_ascii c) && (nat_of_ascii c <=? 57)) eqn:E3.
  { apply andb_true_iff in E3. destruct E3 as [_ E3]. apply Nat.leb_le in E3. lia. }
  destruct ((97 <=? nat_of_ascii c) && (nat_of_ascii c <=? 102)) eqn:E4; [|discriminate].
  apply andb_true_iff in E4. destruct E4 as [E4 _]. apply Nat.leb_le in E4. lia.
Qed.
Lemma digit_inj a n : digit_value a = Some n -> a = hex_digit n /\ n < 16.
Proof.
  intros H. assert (L : nat_of_ascii a < 256) by apply nat_ascii_bounded.
  assert (A : a = ascii_of_nat (nat_of_ascii a)) by (symmetry; apply ascii_nat_embedding).
  unfold digit_value in H. destruct ((48 <=? nat_of_ascii a) && (nat_of_ascii a <=? 57)) eqn:E.
  - apply andb_true_iff in E. destruct E as [E1 E2]. apply Nat.leb_le in E1, E2. injection H as H.
    assert (N : nat_of_ascii a = 48 + n) by lia. rewrite N in A. split; [|lia]. assert (n < 16) as K by lia.
    assert (n < 10) as K' by lia. rewrite A. apply below_16 in K. repeat destruct K as [-> | K]; try reflexivity; try lia.
  - destruct ((97 <=? nat_of_ascii a) && (nat_of_ascii a <=? 102)) eqn:E'; [|discriminate].
    apply andb_true_iff in E'. destruct E' as [E1 E2]. apply Nat.leb_le in E1, E2. injection H as H.
    assert (N : nat_of_ascii a = 87 + n) by lia. rewrite N in A. split; [|lia]. assert (n < 16) as K by lia.
    assert (10 <= n) as K' by lia. rewrite A. clear N A E E1 E2 L H. apply below_16 in K. repeat destruct K as [-> | K]; [lia..|reflexivity|reflexivity|reflexivity|reflexivity|reflexivity|subst n; reflexivity].
Qed.

Lemma spells_encode bytes : forall h, spells h bytes <-> h = hex_encode bytes.
Proof.
  induction bytes as [|c bytes IH]; intros h; unfold spells in *.
  - destruct h as [|a [|b h]]; cbn [writes hex_encode]; split; intros H; try reflexivity; try discriminate; try destruct H; auto.
  - destruct h as [|a [|b h]]; cbn [writes hex_encode]; [split; intros H; [destruct H | discriminate] | split; intros H; [destruct H | discriminate] |].
    split.
    + intros ((x & y & Ha & Hb & Hc) & Hr). destruct (digit_inj _ _ Ha) as [-> Lx], (digit_inj _ _ Hb) as [-> Ly].
      rewrite (proj1 (IH h) Hr), Hc.
      replace ((16 * x + y) / 16) with x by (apply (Nat.div_unique _ 16 x y); lia).
      replace ((16 * x + y) mod 16) with y by (apply (Nat.mod_unique _ 16 x y); lia). reflexivity.
    + intros H. injection H as -> -> ->. split; [|apply IH; reflexivity].
      assert (L : nat_of_ascii c < 256) by apply nat_ascii_bounded.
      exists (nat_of_ascii c / 16), (nat_of_ascii c mod 16). split; [|split].
      * apply digit_hex. apply Nat.div_lt_upper_bound; lia.
      * apply digit_hex. apply Nat.mod_upper_bound. lia.
      * apply Nat.div_mod. lia.
Qed.
Lemma hex_not_capital n : n < 16 -> ~ (65 <= nat_of_ascii (hex_digit n) <= 70).
Proof. intros H. apply below_16 in H. repeat destruct H as [-> | H]; [..| subst]; intros [H1 H2]; vm_compute in H1, H2; lia. Qed.
Lemma encode_no_capital bytes : ~ has_capital (hex_encode bytes).
Proof.
  induction bytes as [|c bytes IH]; cbn [hex_encode has_capital]; [auto|].
  assert (L : nat_of_ascii c < 256) by apply nat_ascii_bounded.
  intros [H | [H | H]]; [revert H; apply hex_not_capital; apply Nat.div_lt_upper_bound; lia | revert H; apply hex_not_capital; apply Nat.mod_upper_bound; lia | exact (IH H)].
Qed.

Lemma validate_ok digest content p h : validate_hex_digest digest content p h = Ok tt <-> exists s, content = Some s /\ spells h (digest s).
Proof.
  unfold validate_hex_digest. destruct content as [s|]; [|split; [discriminate | intros (s & H & _); discriminate]].
  destruct (String.eqb_spec (hex_encode (digest s)) h) as [E|E].
  - split; [|reflexivity]. intros _. exists s. split; [reflexivity|]. apply spells_encode. symmetry. exact E.
  - split; [discriminate|]. intros (s' & H & Hs). injection H as <-. apply spells_encode in Hs. congruence.
Qed.
Lemma validate_not_panic digest content p h : validate_hex_digest digest content p h <> Panic.
Proof. unfold validate_hex_digest. destruct content; [|discriminate]. destruct (String.eqb _ _); discriminate. Qed.

(** *** Maps *)
Lemma has_key_mentions {A} k (m : list (string * A)) : has_key k m = true <-> mentions k m.
Proof.
  unfold has_key, mentions. rewrite existsb_exists. split.
  - intros ([k' v] & Hin & E). apply String.eqb_eq in E. cbn [fst] in E. subst. eauto.
  - intros (v & Hin). exists (k, v). split; [exact Hin | apply String.eqb_refl].
Qed.
Lemma lookup_Some {A} k (m : list (string * A)) v : lookup k m = Some v -> In (k, v) m.
Proof.
  unfold lookup. destruct (find _ m) as [[k' v']|] eqn:E; [|discriminate]. intros [= <-]. apply find_some in E. destruct E as [Hin E].
  apply String.eqb_eq in E. cbn [fst] in E. subst. exact Hin.
Qed.
Lemma lookup_None {A} k (m : list (string * A)) : lookup k m = None <-> ~ mentions k m.
Proof.
  unfold lookup, mentions. destruct (find _ m) as [[k' v']|] eqn:E; cbn [option_map].
  - split; [discriminate|]. intros H. exfalso. apply H. apply find_some in E. destruct E as [Hin E]. apply String.eqb_eq in E. cbn [fst] in E. subst. eauto.
  - split; [|reflexivity]. intros _ (v & Hin). pose proof (find_none _ _ E _ Hin) as F. cbn [fst] in F. rewrite String.eqb_refl in F. discriminate.
Qed.
Lemma lookup_In {A} k (m : list (string * A)) v : NoDup (map fst m) -> In (k, v) m -> lookup k m = Some v.
Proof.
  intros ND Hin. destruct (lookup k m) as [v'|] eqn:E.
  - apply lookup_Some in E. f_equal. clear -ND Hin E. induction m as [|x m IH]; [destruct Hin|]. cbn [map] in ND. inversion ND as [|? ? Hx ND']; subst.
    destruct Hin as [-> |Hin], E as [E|E]; [congruence | | | exact (IH ND' Hin E)].
    + exfalso. apply Hx. apply in_map_iff. exists (k, v'). auto.
    + exfalso. apply Hx. subst x. apply in_map_iff. exists (k, v). auto.
  - apply lookup_None in E. exfalso. apply E. exists v. exact Hin.
Qed.
Lemma has_key_remove {A} k k' (m : list (string * A)) : has_key k (remove k' m) = negb (String.eqb k k') && has_key k m.
Proof.
  unfold has_key, remove. induction m as [|[x v] m IH]; cbn [filter existsb fst]; [rewrite andb_false_r; reflexivity|].
  destruct (String.eqb_spec x k') as [-> |N]; cbn [negb].
  - rewrite IH. destruct (String.eqb_spec k' k) as [-> |N']; [rewrite String.eqb_refl; reflexivity | reflexivity].
  - cbn [existsb fst]. rewrite IH. destruct (String.eqb_spec x k) as [-> |N']; [|reflexivity]. cbn [orb].
    destruct (String.eqb_spec k k'); [congruence | reflexivity].
Qed.
Lemma has_key_py k m : has_key k (PyParams.load_kwargs_py (Some m)) = has_key k m.
Proof. unfold PyParams.load_kwargs_py, has_key. induction m as [|x m IH]; [reflexivity|]. cbn [map existsb fst]. rewrite IH. reflexivity. Qed.

(** *** Extensions *)
Lemma after_no_dot s e : Launch.after_last_dot s = Some e -> no_dot e.
Proof.
  revert e. induction s as [|c s IH]; cbn [Launch.after_last_dot]; [discriminate|]. intros e.
  destruct (Launch.after_last_dot s) as [e'|] eqn:E; [intros [= <-]; exact (IH _ eq_refl)|].
  destruct (Ascii.eqb_spec c "."%char) as [-> |N]; [|discriminate]. intros [= <-]. clear IH.
  induction s as [|c s IH]; cbn [no_dot]; [exact I|]. cbn [Launch.after_last_dot] in E.
  destruct (Launch.after_last_dot s) as [e'|]; [discriminate|]. destruct (Ascii.eqb_spec c "."%char) as [-> |N]; [discriminate|]. split; [exact N | exact (IH E)].
Qed.
Lemma no_dot_after e : no_dot e -> Launch.after_last_dot e = None.
Proof.
  induction e as [|c e IH]; cbn [no_dot Launch.after_last_dot]; [reflexivity|]. intros [N H]. rewrite (IH H).
  destruct (Ascii.eqb_spec c "."%char); [contradiction | reflexivity].
Qed.
Lemma extension_ends p e : e <> "" -> path_extension p = Some e <-> ends_in e p.
Proof.
  intros He. unfold path_extension, ends_in. split.
  - destruct (rev (pa_parts p)) as [|name l] eqn:R; [discriminate|]. destruct (String.eqb name ".."); [discriminate|].
    unfold Launch.extension. destruct name as [|c name]; [discriminate|]. intros H.
    destruct (LaunchLemmas.after_split _ _ H) as (q & ->). exists (rev l), (String c q). split; [discriminate|]. split; [exact (after_no_dot _ _ H)|].
    rewrite <- (rev_involutive (pa_parts p)), R. cbn [rev append]. reflexivity.
  - intros (dirs & stem & Hs & Hd & ->). rewrite rev_app_distr. cbn [rev app].
    destruct stem as [|c stem]; [congruence|]. cbn [append].
    destruct (String.eqb_spec (String c (stem ++ String "." e)) "..") as [E|N].
    + exfalso. injection E as -> E. destruct stem as [|c' stem]; cbn [append] in E; [injection E as E; contradiction|]. injection E as -> E. destruct stem; discriminate.
    + unfold Launch.extension. rewrite LaunchLemmas.after_app.
      * cbn [Launch.after_last_dot]. rewrite (no_dot_after _ Hd). reflexivity.
      * cbn [Launch.after_last_dot]. rewrite (no_dot_after _ Hd). discriminate.
Qed.

(** Words in small letters. *)
Fixpoint small (w : string) : Prop := match w with EmptyString => True | String c w => (97 <= nat_of_ascii c <= 122 \/ 48 <= nat_of_ascii c <= 57) /\ small w end.
Lemma lower_char_cases a b : 97 <= nat_of_ascii a <= 122 \/ 48 <= nat_of_ascii a <= 57 ->
  lower_char b = a <-> b = a \/ 65 <= nat_of_ascii b <= 90 /\ nat_of_ascii b + 32 = nat_of_ascii a.
Proof.
  intros Ha. unfold lower_char. destruct ((65 <=? nat_of_ascii b) && (nat_of_ascii b <=? 90)) eqn:E.
  - apply andb_true_iff in E. destruct E as [E1 E2]. apply Nat.leb_le in E1, E2. split.
    + intros <-. right. rewrite nat_ascii_embedding by lia. lia.
    + intros [-> |[_ H]]; [exfalso; lia|]. rewrite H. apply ascii_nat_embedding.
  - apply andb_false_iff in E. split; [intros ->; left; reflexivity|]. intros [H|[[H1 H2] _]]; [exact H|].
    destruct E as [E|E]; apply Nat.leb_gt in E; lia.
Qed.
Lemma any_case_lower w : forall e, small w -> any_case w e <-> lower e = w.
Proof.
  induction w as [|a w IH]; intros [|b e] Hs; cbn [any_case lower]; try (split; [intros [] | discriminate]); [split; auto|].
  cbn [small] in Hs. destruct Hs as [Ha Hs]. rewrite (IH e Hs). split.
  - intros [Hb ->]. f_equal. apply lower_char_cases; assumption.
  - intros H. injection H as H1 H2. split; [|exact H2]. apply lower_char_cases in H1; assumption.
Qed.
Lemma small_words : small "csv" /\ small "parquet" /\ small "xlsx" /\ small "h5".
Proof. repeat split; ((left; split; vm_compute; lia) || (right; split; vm_compute; lia)). Qed.
Lemma format_lower w p : small w -> w <> "" -> format_of w p <-> exists e, path_extension p = Some e /\ lower e = w.
Proof.
  intros Hw Hn. unfold format_of. split; intros (e & H1 & H2); exists e.
  - apply any_case_lower in H2; [|exact Hw]. split; [|exact H2]. apply extension_ends; [|exact H1]. intros ->. cbn in H2. congruence.
  - assert (e <> "") as He by (intros ->; cbn in H2; congruence). split; [apply extension_ends; assumption | apply any_case_lower; assumption].
Qed.

(** *** Paths *)
Lemma make_path_place url dp : make_path url dp = place dp url.
Proof. unfold make_path, place, is_relative, path_join. destruct url as [[] l], dp; reflexivity. Qed.
Lemma series_path_place url dp : series_path url dp = place dp url.
Proof. unfold series_path, place, path_join. destruct url as [[] l], dp; reflexivity. Qed.
Lemma array_path_place url dp : array_path url dp = place dp url.
Proof. unfold array_path, place, is_relative, path_join. destruct url as [[] l], dp; reflexivity. Qed.

(** *** Checks *)
Lemma check_iff md5 sha256 c content p : check md5 sha256 c content p = Ok tt <-> exists s, content = Some s /\ is_for md5 sha256 c s.
Proof. destruct c; cbn [check is_for]; apply validate_ok. Qed.
Lemma check_not_panic md5 sha256 c content p : check md5 sha256 c content p <> Panic.
Proof. destruct c; cbn [check]; apply validate_not_panic. Qed.
Lemma check_opt_iff md5 sha256 c content p :
  check_opt md5 sha256 c content p = Ok tt <-> forall c', c = Some c' -> exists s, content = Some s /\ is_for md5 sha256 c' s.
Proof.
  destruct c as [c|]; cbn [check_opt]; [|split; [intros _ c' H; discriminate | reflexivity]].
  rewrite check_iff. split; [intros H c' [= <-]; exact H | intros H; exact (H c eq_refl)].
Qed.
Lemma check_opt_not_panic md5 sha256 c content p : check_opt md5 sha256 c content p <> Panic.
Proof. destruct c; cbn [check_opt]; [apply check_not_panic | discriminate]. Qed.

(** *** Tables *)
Lemma load_table_no_file pf pi name ty l t : load_table pf pi (mkTableDef name ty l None) <> Ok t.
Proof.
  unfold load_table. cbn [td_type td_lookup td_file]. destruct ty, l as [n|n|r c]; try discriminate;
  repeat (match goal with |- context [match ?n with O => _ | S _ => _ end] => destruct n end; try discriminate).
Qed.
Lemma load_file_table_iff md5 sha256 pf pi csv dp fs k d t :
  load_file_table md5 sha256 pf pi csv dp fs k d = Ok t <->
  (exists s, fs (S k) (place dp (ft_url d)) = Some s /\ load_table pf pi (mkTableDef (ft_name d) (ft_type d) (ft_lookup d) (Some (csv s))) = Ok t) /\
  (forall c, ft_checksum d = Some c -> exists s, fs k (place dp (ft_url d)) = Some s /\ is_for md5 sha256 c s).
Proof.
  unfold load_file_table, table_def_of. cbv zeta. rewrite make_path_place.
  destruct (check_opt md5 sha256 (ft_checksum d) (fs k (place dp (ft_url d))) (place dp (ft_url d))) as [[]|e|] eqn:E.
  - rewrite check_opt_iff in E. destruct (fs (S k) (place dp (ft_url d))) as [s|]; cbn [option_map].
    + split.
      * intros H. split; [|exact E]. exists s. split; [reflexivity|]. destruct (load_table _ _ _); [injection H as <-; reflexivity | discriminate | discriminate].
      * intros ((s' & [= <-] & H) & _). rewrite H. reflexivity.
    + split.
      * intros H. exfalso. pose proof (load_table_no_file pf pi (ft_name d) (ft_type d) (ft_lookup d)) as N.
        destruct (load_table _ _ _) as [t'| |]; [exact (N t' eq_refl) | discriminate | discriminate].
      * intros ((s' & H & _) & _). discriminate.
  - split; [discriminate|]. intros (_ & H). rewrite <- check_opt_iff in H. rewrite E in H. discriminate.
  - exfalso. exact (check_opt_not_panic _ _ _ _ _ E).
Qed.

(** *** Collections of named things loaded one after the other *)
Section Collect.
Context {D T Er : Type}.
Variable name : D -> string.
Variable load : nat -> D -> res Er T.
Variable dup : string -> Er.
Fixpoint collect (k : nat) (defs : list D) (acc : list (string * T)) : res Er (list (string * T)) :=
  match defs with
  | [] => Ok acc
  | d :: ds =>
      match load k d with
      | Ok t => if existsb (fun p => String.eqb (fst p) (name d)) acc then Err (dup (name d)) else collect (k + 2) ds ((name d, t) :: acc)
      | Err e => Err e
      | Panic => Panic
      end
  end.
Lemma existsb_name (acc : list (string * T)) n : existsb (fun p => String.eqb (fst p) n) acc = true <-> In n (map fst acc).
Proof.
  rewrite existsb_exists, in_map_iff. split; intros (p & H1 & H2); exists p.
  - apply String.eqb_eq in H2. auto.
  - split; [exact H2|]. apply String.eqb_eq. exact H1.
Qed.
Lemma collect_spec defs : forall k acc ts, NoDup (map fst acc) ->
  collect k defs acc = Ok ts <->
  exists l, ts = rev l ++ acc /\ map fst l = map name defs /\ NoDup (map name defs ++ map fst acc) /\
    forall i d, nth_error defs i = Some d -> exists t, load (k + 2 * i) d = Ok t /\ nth_error l i = Some (name d, t).
Proof.
  induction defs as [|d ds IH]; intros k acc ts ND; cbn [collect].
  - split.
    + intros [= <-]. exists []. split; [reflexivity|]. split; [reflexivity|]. split; [exact ND|]. intros [|i] d H; discriminate H.
    + intros (l & -> & Hl & _). destruct l; [reflexivity | discriminate].
  - destruct (load k d) as [t|e|] eqn:E.
    + destruct (existsb _ acc) eqn:Ex.
      * apply existsb_name in Ex. split; [discriminate|]. intros (l & _ & _ & H & _). cbn [map app] in H. inversion H as [|? ? N _]; subst. exfalso. apply N. apply in_or_app. right. exact Ex.
      * assert (~ In (name d) (map fst acc)) as Nin by (rewrite <- existsb_name; congruence).
        rewrite IH by (cbn [map fst]; constructor; assumption). cbn [map fst]. split.
        -- intros (l & -> & Hl & Hn & Hi). exists ((name d, t) :: l). split; [cbn [rev]; rewrite <- app_assoc; reflexivity|]. cbn [map fst]. split; [f_equal; exact Hl|]. split.
           ++ cbn [app]. apply NoDup_remove in Hn. destruct Hn as [Hn1 Hn2]. constructor; assumption.
           ++ intros [|i] d' H; cbn [nth_error] in H |- *.
              ** injection H as <-. exists t. rewrite Nat.add_0_r. auto.
              ** destruct (Hi i d' H) as (t' & Ht & Hx). exists t'. split; [|exact Hx]. replace (k + 2 * S i) with (k + 2 + 2 * i) by lia. exact Ht.
        -- intros (l & -> & Hl & Hn & Hi). destruct l as [|x l]; [discriminate|]. cbn [map fst] in Hl. injection Hl as Hx Hl.
           destruct (Hi 0 d eq_refl) as (t' & Ht & Hx'). rewrite Nat.add_0_r in Ht. rewrite E in Ht. injection Ht as <-. cbn [nth_error] in Hx'. injection Hx' as ->.
           exists l. split; [cbn [rev]; rewrite <- app_assoc; reflexivity|]. split; [exact Hl|]. split.
           ++ cbn [app] in Hn. inversion Hn as [|? ? N1 N2]; subst. apply (NoDup_Add (a := name d) (l := map name ds ++ map fst acc)); [apply Add_app | split; assumption].
           ++ intros i d' H. destruct (Hi (S i) d' H) as (t' & Ht & Hx''). exists t'. split; [|exact Hx'']. replace (k + 2 + 2 * i) with (k + 2 * S i) by lia. exact Ht.
    + split; [discriminate|]. intros (l & _ & _ & _ & Hi). destruct (Hi 0 d eq_refl) as (t & Ht & _). rewrite Nat.add_0_r in Ht. congruence.
    + split; [discriminate|]. intros (l & _ & _ & _ & Hi). destruct (Hi 0 d eq_refl) as (t & Ht & _). rewrite Nat.add_0_r in Ht. congruence.
Qed.
Lemma collect_all defs ts : collect 0 defs [] = Ok ts ->
  NoDup (map name defs) /\ NoDup (map fst ts) /\
  (forall i d, nth_error defs i = Some d -> exists t, load (2 * i) d = Ok t /\ In (name d, t) ts) /\
  (forall n t, In (n, t) ts -> exists i d, nth_error defs i = Some d /\ name d = n /\ load (2 * i) d = Ok t).
Proof.
  intros H. apply collect_spec in H; [|constructor]. destruct H as (l & -> & Hl & Hn & Hi). cbn [map] in Hn. rewrite app_nil_r in *.
  split; [exact Hn|]. split; [rewrite map_rev; apply NoDup_rev; rewrite Hl; exact Hn|]. split.
  - intros i d Hd. destruct (Hi i d Hd) as (t & Ht & Hx). exists t. split; [exact Ht|]. apply -> in_rev. apply (nth_error_In _ _ Hx).
  - intros n t Hin. apply in_rev in Hin. apply In_nth_error in Hin. destruct Hin as (i & Hx).
    assert (exists d, nth_error defs i = Some d) as (d & Hd).
    { destruct (nth_error defs i) as [d|] eqn:E; [eauto|]. apply nth_error_None in E. assert (length l = length defs) as L by (rewrite <- (map_length fst l), Hl, map_length; reflexivity).
      pose proof (nth_error_Some_lt _ _ _ Hx). lia. }
    destruct (Hi i d Hd) as (t' & Ht & Hx'). rewrite Hx in Hx'. injection Hx' as -> ->. exists i, d. auto.
Qed.
Lemma collect_ok defs : NoDup (map name defs) -> (forall i d, nth_error defs i = Some d -> exists t, load (2 * i) d = Ok t) -> exists ts, collect 0 defs [] = Ok ts.
Proof.
  intros ND H.
  assert (forall k ds, (forall i d, nth_error ds i = Some d -> exists t, load (k + 2 * i) d = Ok t) ->
    exists l, map fst l = map name ds /\ forall i d, nth_error ds i = Some d -> exists t, load (k + 2 * i) d = Ok t /\ nth_error l i = Some (name d, t)) as A.
  { intros k ds. revert k. induction ds as [|d ds IH]; intros k Hd.
    - exists []. split; [reflexivity|]. intros [|i] d E; discriminate E.
    - destruct (IH (k + 2)) as (l & Hl & Hi).
      { intros i d' E. destruct (Hd (S i) d' E) as (t & Ht). exists t. replace (k + 2 + 2 * i) with (k + 2 * S i) by lia. exact Ht. }
      destruct (Hd 0 d eq_refl) as (t & Ht). exists ((name d, t) :: l). split; [cbn [map fst]; f_equal; exact Hl|].
      intros [|i] d' E; cbn [nth_error] in *.
      + injection E as <-. exists t. auto.
      + destruct (Hi i d' E) as (t' & Ht' & Hx). exists t'. split; [|exact Hx]. replace (k + 2 * S i) with (k + 2 + 2 * i) by lia. exact Ht'. }
  destruct (A 0 defs H) as (l & Hl & Hi). exists (rev l ++ []). apply collect_spec; [constructor|]. exists l. split; [reflexivity|]. split; [exact Hl|]. split; [cbn [map]; rewrite app_nil_r; exact ND|]. exact Hi.
Qed.
End Collect.
Lemma load_file_tables_collect md5 sha256 pf pi csv dp fs defs : forall k acc,
  load_file_tables md5 sha256 pf pi csv dp fs k defs acc =
  collect ft_name (fun k d => match load_file_table md5 sha256 pf pi csv dp fs k d with Ok t => Ok t | Err e => Err (InFileTable (ft_name d) e) | Panic => Panic end) DuplicateFileTable k defs acc.
Proof.
  induction defs as [|d ds IH]; intros k acc; [reflexivity|]. cbn [load_file_tables collect].
  destruct (load_file_table _ _ _ _ _ _ _ _ _); [|reflexivity|reflexivity]. destruct (existsb _ acc); [reflexivity | apply IH].
Qed.
Section Series.
Context {raw : Type}.
Variables (md5 sha256 : string -> string) (cols : raw -> list string) (wt : raw -> string -> sres frame) (pc : option nat -> string -> option raw)
  (pr : pandas_format -> option index_col -> list (string * PyParams.pyval) -> string -> option raw).
Notation loads := (load_series md5 sha256 cols wt pc pr).
Lemma load_all_series_collect python steps dp fs defs : forall k acc,
  load_all_series md5 sha256 cols wt pc pr python steps dp fs k defs acc =
  collect se_name (fun k d => match loads python steps dp fs k d with Ok t => Ok t | Err e => Err (InFileSeries (se_name d) e) | Panic => Panic end) DuplicateFileSeries k defs acc.
Proof.
  induction defs as [|d ds IH]; intros k acc; [reflexivity|]. cbn [load_all_series collect].
  destruct (loads python steps dp fs k d); [|reflexivity|reflexivity]. destruct (existsb _ acc); [reflexivity | apply IH].
Qed.

Notation shaped := (shaped cols wt).
Lemma shaped_iff steps s df f :
  rbind (time_column cols s df) (fun c => frame_error (rbind (wt df c) (align_and_resample steps))) = Ok f <-> shaped steps s df f.
Proof.
  unfold DataFilesSpec.shaped, time_column. split.
  - intros H. assert (exists c, (match se_time_col s with Some c' => c = c' | None => exists rest, cols df = c :: rest end) /\ frame_error (rbind (wt df c) (align_and_resample steps)) = Ok f) as (c & Hc & H').
    { destruct (se_time_col s) as [c|]; [exists c; auto|]. destruct (cols df) as [|c rest] eqn:Ec; [discriminate|]. exists c. split; [eauto | exact H]. }
    exists c. destruct (wt df c) as [f0| |]; try discriminate. exists f0. split; [exact Hc|]. split; [reflexivity|].
    cbn [rbind] in H'. destruct (align_and_resample steps f0); try discriminate. injection H' as <-. reflexivity.
  - intros (c & f0 & Hc & Hw & Ha). replace (match se_time_col s with Some c0 => Ok c0 | None => match cols df with [] => Panic | c0 :: _ => Ok c0 end end) with (@Ok series_error string c).
    + cbn [rbind]. rewrite Hw. cbn [rbind]. rewrite Ha. reflexivity.
    + destruct (se_time_col s); [congruence|]. destruct Hc as (rest & ->). reflexivity.
Qed.
Lemma checked_iff python steps dp fs k s f read :
  (forall r, loads python steps dp fs k s = r -> r =
     match check_opt md5 sha256 (se_checksum s) (fs k (place dp (se_url s))) (place dp (se_url s)) with
     | Ok _ => rbind read (fun df => rbind (time_column cols s df) (fun c => frame_error (rbind (wt df c) (align_and_resample steps))))
     | Err e => Err (SeriesChecksum e)
     | Panic => Panic
     end) ->
  loads python steps dp fs k s = Ok f <->
  (forall c, se_checksum s = Some c -> exists b, fs k (place dp (se_url s)) = Some b /\ is_for md5 sha256 c b) /\
  exists df, read = Ok df /\ shaped steps s df f.
Proof.
  intros H. rewrite (H _ eq_refl). destruct (check_opt _ _ _ _ _) as [[]|e|] eqn:E.
  - rewrite check_opt_iff in E. split.
    + intros Hr. split; [exact E|]. destruct read as [df| |]; try discriminate. exists df. split; [reflexivity|]. apply shaped_iff. exact Hr.
    + intros (_ & df & -> & Hs). cbn [rbind]. apply shaped_iff. exact Hs.
  - split; [discriminate|]. intros (Hc & _). rewrite <- check_opt_iff in Hc. rewrite E in Hc. discriminate.
  - exfalso. exact (check_opt_not_panic _ _ _ _ _ E).
Qed.
End Series.

Lemma polars_read_iff {raw} (pc : option nat -> string -> option raw) infer fp content df :
  polars_read pc infer fp content = Ok df <-> format_of "csv" fp /\ exists b, content = Some b /\ pc infer b = Some df.
Proof.
  rewrite format_lower by (apply small_words || discriminate). unfold polars_read. destruct (path_extension fp) as [e|].
  - destruct (String.eqb_spec (lower e) "csv") as [E|E].
    + split.
      * intros H. split; [eauto|]. destruct content as [b|]; [|discriminate]. exists b. split; [reflexivity|]. destruct (pc infer b); [injection H as <-; reflexivity | discriminate].
      * intros (_ & b & -> & ->). reflexivity.
    + split; [destruct (String.eqb (lower e) "parquet"); discriminate|]. intros ((e' & [= <-] & H) & _). contradiction.
  - split; [discriminate|]. intros ((e' & H & _) & _). discriminate.
Qed.

Lemma not_has_key {A} k (m : list (string * A)) : has_key k m = false <-> ~ mentions k m.
Proof. rewrite <- has_key_mentions. destruct (has_key k m); split; congruence. Qed.
Lemma pandas_call_iff {raw} (pr : pandas_format -> option index_col -> list (string * PyParams.pyval) -> string -> option raw) fp content tc kwargs df :
  pandas_call pr fp content (match tc with Some c => ByName c | None => ByPosition 0 end) kwargs = Ok df <->
  exists f b, format_of (suffix_word f) fp /\ (forall k, In k (taken f) -> ~ mentions k kwargs) /\ content = Some b /\ pr f (index_for f tc) kwargs b = Some df.
Proof.
  set (idx := match tc with Some c => ByName c | None => ByPosition 0 end).
  assert (R : forall f own, taken f = ["path"; "index_col"] ++ own -> has_key "path" kwargs || has_key "index_col" kwargs = false ->
    (if existsb (fun k => has_key k kwargs) own then Err SeriesPython
     else match content with None => Err SeriesPython | Some s => match pr f (index_for f tc) kwargs s with Some df => Ok df | None => Err SeriesPython end end) = Ok df <->
    exists b, (forall k, In k (taken f) -> ~ mentions k kwargs) /\ content = Some b /\ pr f (index_for f tc) kwargs b = Some df).
  { intros f own Ht Hp. apply orb_false_iff in Hp. destruct Hp as [Hp Hi]. destruct (existsb _ own) eqn:Ex.
    - split; [discriminate|]. intros (b & Hk & _). exfalso. apply existsb_exists in Ex. destruct Ex as (k & Hin & Hk'). apply has_key_mentions in Hk'.
      apply (Hk k); [rewrite Ht; apply in_or_app; right; exact Hin | exact Hk'].
    - assert (forall k, In k (taken f) -> ~ mentions k kwargs) as Hk.
      { rewrite Ht. intros k [<- | [<- | Hin]]; [apply not_has_key; exact Hp | apply not_has_key; exact Hi|]. apply not_has_key. destruct (has_key k kwargs) eqn:Eh; [|reflexivity].
        rewrite <- Ex. symmetry. apply existsb_exists. eauto. }
      destruct content as [b|]; [|split; [discriminate | intros (b & _ & H & _); discriminate]].
      split.
      + intros H. exists b. split; [exact Hk|]. split; [reflexivity|]. destruct (pr _ _ _ _); [injection H as <-; reflexivity | discriminate].
      + intros (b' & _ & [= <-] & ->). reflexivity. }
  assert (W : forall f, format_of (suffix_word f) fp <-> exists e, path_extension fp = Some e /\ lower e = suffix_word f).
  { intros f. apply format_lower; [destruct f; apply small_words | destruct f; discriminate]. }
  assert (W' : forall f, format_of (suffix_word f) fp -> lower (python_suffix fp) = suffix_word f).
  { intros f Hf. apply W in Hf. destruct Hf as (e & He & Hl). unfold python_suffix. rewrite He. exact Hl. }
  assert (W'' : forall f, lower (python_suffix fp) = suffix_word f -> format_of (suffix_word f) fp).
  { intros f Hf. apply W. unfold python_suffix in Hf. destruct (path_extension fp) as [e|]; [eauto|]. destruct f; discriminate Hf. }
  unfold pandas_call. cbv zeta. destruct (has_key "path" kwargs || has_key "index_col" kwargs) eqn:Hp.
  { split; [discriminate|]. intros (f & b & _ & Hk & _). exfalso. apply orb_true_iff in Hp.
    destruct Hp as [Hp|Hp]; apply has_key_mentions in Hp; [apply (Hk "path") | apply (Hk "index_col")]; try exact Hp; destruct f; cbn; auto. }
  destruct (String.eqb_spec (lower (python_suffix fp)) "csv") as [E1|E1]; [|destruct (String.eqb_spec (lower (python_suffix fp)) "xlsx") as [E2|E2]; [|destruct (String.eqb_spec (lower (python_suffix fp)) "h5") as [E3|E3]]].
  - refine (iff_trans (R PfCsv _ eq_refl eq_refl) _). split.
    + intros (b & H). exists PfCsv, b. split; [apply W''; exact E1 | exact H].
    + intros (f & b & Hf & H). apply W' in Hf. rewrite E1 in Hf. destruct f; try discriminate Hf. exists b. exact H.
  - refine (iff_trans (R PfExcel _ eq_refl eq_refl) _). split.
    + intros (b & H). exists PfExcel, b. split; [apply W''; exact E2 | exact H].
    + intros (f & b & Hf & H). apply W' in Hf. rewrite E2 in Hf. destruct f; try discriminate Hf. exists b. exact H.
  - refine (iff_trans (R PfHdf _ eq_refl eq_refl) _). split.
    + intros (b & H). exists PfHdf, b. split; [apply W''; exact E3 | exact H].
    + intros (f & b & Hf & H). apply W' in Hf. rewrite E3 in Hf. destruct f; try discriminate Hf. exists b. exact H.
  - split; [discriminate|]. intros (f & b & Hf & _). apply W' in Hf. destruct f; contradiction.
Qed.

(** *** Arrays without an offset *)
Lemma array2_no_offset {A} d k s i (rows : list (list A)) c t :
  (forall row, In row rows -> exists v, nth_error row i = Some v /\ array_lookup d k row s = Ok v) -> rows <> [] -> (0 <= t)%Z ->
  exists built m, array2_build d k rows = Ok built /\ simulation_index_for_group s k = Ok m /\ length built = length rows /\
    forall row w, nth_error rows (Z.to_nat t) = Some row -> exists v, nth_error row i = Some v /\ array2_compute c built w None (Z.of_nat m) t = Ok v.
Proof.
  intros H Hne Ht. destruct (build_rows d k s i rows H Hne) as (built & m & Hb & Hm & Hf). exists built, m. split; [exact Hb|]. split; [exact Hm|].
  split; [symmetry; exact (Forall2_length' _ _ _ Hf)|]. intros row w Hrow.
  assert (exists r, nth_error built (Z.to_nat t) = Some r) as (r & Hr).
  { apply nth_error_lt_Some. rewrite <- (Forall2_length' _ _ _ Hf). exact (nth_error_Some_lt _ _ _ Hrow). }
  destruct (Forall2_nth_error _ _ _ _ _ _ Hf Hrow Hr) as (_ & v & Hv & Hvi). exists v. split; [exact Hvi|].
  unfold array2_compute. cbn [timestep_index rbind]. unfold get_row.
  pose proof (nth_error_Some_lt _ _ _ Hr) as L1. pose proof (nth_error_Some_lt _ _ _ Hv) as L2.
  replace (t <? Z.of_nat (length built))%Z with true by (symmetry; apply Z.ltb_lt; lia). rewrite Hr.
  replace (Z.of_nat m <? Z.of_nat (length r))%Z with true by (symmetry; apply Z.ltb_lt; lia). rewrite Nat2Z.id, Hv. reflexivity.
Qed.
