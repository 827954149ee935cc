(** The structure of the triangular factor that the index arrays describe. *)
From Coq Require Import Reals Lra Sorted.
From Verif Require Import Base IpmCholesky IpmSpec IpmDense.
Local Open Scope list_scope.
Local Open Scope nat_scope.

(** The value a list of columns gives column [k], its values being in [f] from
    the position [p] on. *)
Fixpoint at_col (f : nat -> R) (p : nat) (cols : list nat) (k : nat) : R :=
  match cols with [] => 0%R | c :: cs => if c =? k then f p else at_col f (S p) cs k end.
Lemma at_col_out f cols k : forall p, ~ In k cols -> at_col f p cols k = 0%R.
Proof. induction cols as [|c cs IH]; intros p H; cbn [at_col]; [reflexivity|]. destruct (Nat.eqb_spec c k) as [->|]; [exfalso; apply H; left; reflexivity | apply IH; intros Hc; apply H; right; exact Hc]. Qed.
Lemma at_col_nth f cols k : forall p i, NoDup cols -> nth_error cols i = Some k -> at_col f p cols k = f (p + i).
Proof.
  induction cols as [|c cs IH]; intros p [|i] Hnd H; try discriminate; cbn [at_col nth_error] in *.
  - injection H as ->. rewrite Nat.eqb_refl, Nat.add_0_r. reflexivity.
  - inversion Hnd; subst. destruct (Nat.eqb_spec c k) as [->|]; [exfalso; apply nth_error_In in H; contradiction|]. rewrite (IH (S p) i) by assumption. f_equal. lia.
Qed.
Lemma at_col_ext f g cols k : forall p, (forall q, p <= q < p + length cols -> f q = g q) -> at_col f p cols k = at_col g p cols k.
Proof.
  induction cols as [|c cs IH]; intros p H; cbn [at_col]; [reflexivity|]. cbn [length] in H. rewrite (H p) by lia. rewrite (IH (S p)); [reflexivity|]. intros q Hq. apply H. lia.
Qed.

Lemma sorted_NoDup l : StronglySorted lt l -> NoDup l.
Proof. induction 1 as [|x l Hl IH Hx]; constructor; [|exact IH]. intros Hin. rewrite Forall_forall in Hx. apply Hx in Hin. lia. Qed.

(** Equations of [common]. *)
Lemma common_nil_l p q m : common p [] q m = [].
Proof. destruct m; reflexivity. Qed.
Lemma common_nil_r p l q : common p l q [] = [].
Proof. destruct l; reflexivity. Qed.
Lemma common_cons p x l q y m : common p (x :: l) q (y :: m) =
  match x ?= y with Eq => (p, q, x) :: common (S p) l (S q) m | Lt => common (S p) l q (y :: m) | Gt => common p (x :: l) (S q) m end.
Proof. reflexivity. Qed.

Definition lsum (l : list R) : R := fold_right Rplus 0%R l.
Lemma fold_plus {A} (f : A -> R) l : forall v, fold_left (fun v t => (v + f t)%R) l v = (v + lsum (map f l))%R.
Proof. induction l as [|x l IH]; intros v; cbn [fold_left map lsum fold_right]; [lra|]. rewrite IH. fold (lsum (map f l)). lra. Qed.
Lemma fold_minus {A} (f : A -> R) l : forall v, fold_left (fun v t => (v - f t)%R) l v = (v - lsum (map f l))%R.
Proof. induction l as [|x l IH]; intros v; cbn [fold_left map lsum fold_right]; [lra|]. rewrite IH. fold (lsum (map f l)). lra. Qed.

(** A sum over the common columns is a sum over all columns. *)
Lemma common_sum (f g h : nat -> R) n : forall l m p q, StronglySorted lt l -> StronglySorted lt m -> Forall (fun k => k < n) l ->
  lsum (map (fun t => (f (fst (fst t)) * g (snd (fst t)) * h (snd t))%R) (common p l q m)) = rsum n (fun k => (at_col f p l k * at_col g q m k * h k)%R).
Proof.
  induction l as [|x l IHl]; intros m p q Sl Sm Hn.
  - rewrite common_nil_l. cbn [map lsum fold_right]. symmetry. apply rsum_0. intros k _. cbn [at_col]. lra.
  - inversion Sl as [|? ? Sl' Hx]; subst. inversion Hn as [|? ? Hxn Hn']; subst. rewrite Forall_forall in Hx.
    revert q Sm. induction m as [|y m IHm]; intros q Sm.
    + rewrite common_nil_r. cbn [map lsum fold_right]. symmetry. apply rsum_0. intros k _. cbn [at_col]. lra.
    + inversion Sm as [|? ? Sm' Hy]; subst. rewrite Forall_forall in Hy. rewrite common_cons. destruct (Nat.compare_spec x y) as [E|E|E].
      * subst y. cbn [map lsum fold_right fst snd]. fold (lsum (map (fun t => (f (fst (fst t)) * g (snd (fst t)) * h (snd t))%R) (common (S p) l (S q) m))). rewrite IHl by assumption.
        rewrite <- (rsum_one n x (f p * g q * h x)%R Hxn), <- rsum_plus. apply rsum_ext. intros k _. cbn [at_col]. rewrite (Nat.eqb_sym x k). destruct (Nat.eqb_spec k x) as [->|]; [|lra].
        rewrite (at_col_out f l x); [lra|]. intros Hin. apply Hx in Hin. lia.
      * rewrite IHl by (assumption || (constructor; [exact Sm' | apply Forall_forall; exact Hy])). apply rsum_ext. intros k _. cbn [at_col]. destruct (Nat.eqb_spec x k) as [->|]; [|reflexivity].
        destruct (Nat.eqb_spec y k) as [->|]; [lia|]. rewrite (at_col_out g m k); [lra|]. intros Hin. apply Hy in Hin. lia.
      * rewrite IHm by exact Sm'. apply rsum_ext. intros k _. cbn [at_col]. destruct (Nat.eqb_spec y k) as [->|]; [|reflexivity].
        destruct (Nat.eqb_spec x k) as [->|]; [lia|]. rewrite (at_col_out f l k); [lra|]. intros Hin. apply Hx in Hin. lia.
Qed.
(** Where the positions are. *)
Lemma common_in : forall l m p q t, In t (common p l q m) ->
  exists i j, fst (fst t) = p + i /\ snd (fst t) = q + j /\ nth_error l i = Some (snd t) /\ nth_error m j = Some (snd t).
Proof.
  induction l as [|x l IHl]; intros m p q t H; [rewrite common_nil_l in H; destruct H|].
  revert q H. induction m as [|y m IHm]; intros q H; [rewrite common_nil_r in H; destruct H|]. rewrite common_cons in H. destruct (Nat.compare_spec x y) as [E|E|E].
  - destruct H as [<-|H]; [exists 0, 0; cbn; subst; repeat split; lia|]. destruct (IHl _ _ _ _ H) as (i & j & H1 & H2 & H3 & H4). exists (S i), (S j). repeat split; [lia | lia | exact H3 | exact H4].
  - destruct (IHl _ _ _ _ H) as (i & j & H1 & H2 & H3 & H4). exists (S i), j. repeat split; [lia | lia | exact H3 | exact H4].
  - destruct (IHm _ H) as (i & j & H1 & H2 & H3 & H4). exists i, (S j). repeat split; [lia | lia | exact H3 | exact H4].
Qed.
Lemma common_self p q l : l <> [] -> common p l q l <> [].
Proof. destruct l as [|x l]; intros H; [contradiction|]. rewrite common_cons, Nat.compare_refl. discriminate. Qed.

(** Positions in concatenated lists. *)
Lemma row_offset_S {A} (rows : list (list A)) i : row_offset rows (S i) = row_offset rows i + length (row_of rows i).
Proof.
  unfold row_offset, row_of. revert rows. induction i as [|i IH]; intros [|r rows]; cbn [firstn concat nth length]; try reflexivity.
  - rewrite app_nil_r. reflexivity.
  - rewrite !app_length. cbn [firstn] in IH. rewrite IH. lia.
Qed.
Lemma row_offset_mono {A} (rows : list (list A)) i j : i <= j -> row_offset rows i <= row_offset rows j.
Proof. induction 1; [lia|]. rewrite row_offset_S. lia. Qed.
Lemma concat_nth {A} (rows : list (list A)) i k x : nth_error (row_of rows i) k = Some x -> nth_error (concat rows) (row_offset rows i + k) = Some x.
Proof.
  unfold row_offset, row_of. revert rows. induction i as [|i IH]; intros [|r rows] H; cbn [nth firstn concat length] in *; try (destruct k; discriminate).
  - cbn [Nat.add]. rewrite nth_error_app1; [exact H|]. apply nth_error_Some. congruence.
  - rewrite app_length, nth_error_app2 by lia. replace (length r + length (concat (firstn i rows)) + k - length r) with (length (concat (firstn i rows)) + k) by lia. apply IH, H.
Qed.
Lemma concat_slice {A} (rows : list (list A)) i : i < length rows -> slice (row_offset rows i) (row_offset rows (S i)) (concat rows) = row_of rows i.
Proof.
  unfold slice. rewrite row_offset_S. replace (row_offset rows i + length (row_of rows i) - row_offset rows i) with (length (row_of rows i)) by lia.
  unfold row_offset, row_of. revert rows. induction i as [|i IH]; intros [|r rows] H; cbn [length] in H; try lia; cbn [nth firstn concat length skipn].
  - rewrite firstn_app, Nat.sub_diag, firstn_all. cbn. apply app_nil_r.
  - rewrite app_length, skipn_app, skipn_all2 by lia. cbn [app]. replace (length r + length (concat (firstn i rows)) - length r) with (length (concat (firstn i rows))) by lia. apply IH. lia.
Qed.
Lemma row_offset_full {A} (rows : list (list A)) i : length rows <= i -> row_offset rows i = length (concat rows).
Proof. intros H. unfold row_offset. rewrite firstn_all2 by exact H. reflexivity. Qed.
Lemma row_offset_app {A} (rows : list (list A)) r i : i <= length rows -> row_offset (rows ++ r) i = row_offset rows i.
Proof. intros H. unfold row_offset. rewrite firstn_app. replace (i - length rows) with 0 by lia. cbn. rewrite app_nil_r. reflexivity. Qed.

Definition before (c : nat) (l : list nat) : list nat := filter (fun k => k <? c) l.
Lemma before_all c l : Forall (fun k => k < c) l -> before c l = l.
Proof. induction 1 as [|x l Hx Hl IH]; [reflexivity|]. cbn [before filter]. destruct (Nat.ltb_spec x c); [|lia]. unfold before in IH. rewrite IH. reflexivity. Qed.
Lemma before_app_ge c l m : Forall (fun k => c <= k) m -> before c (l ++ m) = before c l.
Proof.
  intros H. unfold before. rewrite filter_app. replace (filter (fun k => k <? c) m) with (@nil nat); [apply app_nil_r|].
  induction H as [|x m Hx Hm IH]; [reflexivity|]. cbn [filter]. destruct (Nat.ltb_spec x c); [lia | exact IH].
Qed.

(** The structure: [lrows] lists the columns of each row of the factor.  An
    entry is left out only if nothing contributes to it. *)
Section Structure.
Variable a : list (list (nat * R)).
Definition a_common (r c : nat) := common (row_offset a r) (row_cols a r) (row_offset a c) (row_cols a c).
Definition l_common (lrows : list (list nat)) (r c : nat) :=
  common (row_offset lrows r) (before c (row_of lrows r)) (row_offset lrows c) (if r =? c then before c (row_of lrows r) else row_of lrows c).

(** Rows before [i] are complete and row [i] up to column [j]. *)
Record partly (i j : nat) (lrows : list (list nat)) (ents : list l_entry) : Prop := {
  pa_len : length lrows = S i;
  pa_ents : length ents = length (concat lrows);
  pa_sorted : forall r, StronglySorted lt (row_of lrows r);
  pa_le : forall r c, In c (row_of lrows r) -> if r <? i then c <= r else c < j;
  pa_entry : forall r k c, nth_error (row_of lrows r) k = Some c -> nth (row_offset lrows r + k) ents (mkLEntry [] []) = mkLEntry (a_common r c) (l_common lrows r c);
  pa_missing : forall r c, r <= i -> (if r <? i then c <= r else c < j) -> ~ In c (row_of lrows r) -> a_common r c = [] /\ l_common lrows r c = [] }.

Lemma row_of_app (lrows : list (list nat)) cur r : row_of (lrows ++ [cur]) r = if r <? length lrows then row_of lrows r else if r =? length lrows then cur else [].
Proof.
  unfold row_of. destruct (Nat.ltb_spec r (length lrows)); [apply app_nth1; assumption|]. rewrite app_nth2 by assumption. destruct (Nat.eqb_spec r (length lrows)) as [->|].
  - rewrite Nat.sub_diag. reflexivity.
  - apply nth_overflow. cbn. lia.
Qed.
Lemma sorted_snoc l x : StronglySorted lt l -> Forall (fun k => k < x) l -> StronglySorted lt (l ++ [x]).
Proof.
  induction 1 as [|y l Hl IH Hy]; intros H; cbn [app]; [constructor; constructor|]. inversion H; subst. constructor; [apply IH; assumption|].
  apply Forall_app. split; [exact Hy | constructor; [assumption | constructor]].
Qed.

Definition state_of (i : nat) (rows : list (list nat)) (cur : list nat) (ents : list l_entry) (diag : list nat) : chol_indices :=
  mkChol ents (map (row_offset rows) (seq 0 (S i))) diag (concat rows ++ cur).
Lemma indptr_nth rows i r : r <= i -> nth r (map (row_offset (A := nat) rows) (seq 0 (S i))) 0 = row_offset rows r.
Proof. intros H. rewrite nth_indep with (d' := row_offset rows 0) by (rewrite map_length, seq_length; lia). rewrite map_nth, seq_nth by lia. reflexivity. Qed.

(** The two lists compared for an entry. *)
Lemma compared rows cur ents diag i j : length rows = i -> j <= i -> partly i j (rows ++ [cur]) ents ->
  let st := state_of i rows cur ents diag in
  common (nth i (ch_lindptr st) 0) (slice (nth i (ch_lindptr st) 0) (length (ch_lindices st)) (ch_lindices st))
         (nth j (ch_lindptr st) 0) (slice (nth j (ch_lindptr st) 0) (if i =? j then length (ch_lindices st) else nth (j + 1) (ch_lindptr st) 0) (ch_lindices st))
  = l_common (rows ++ [cur]) i j.
Proof.
  intros Hl Hj H. cbn [state_of ch_lindptr ch_lindices]. rewrite !indptr_nth by lia. unfold l_common.
  assert (Hi : slice (row_offset rows i) (length (concat rows ++ cur)) (concat rows ++ cur) = cur).
  { unfold slice. rewrite row_offset_full by lia. rewrite app_length, skipn_app, skipn_all, Nat.sub_diag. cbn [app skipn]. apply firstn_all2. lia. }
  assert (Hb : before j (row_of (rows ++ [cur]) i) = cur).
  { rewrite row_of_app, Hl, Nat.ltb_irrefl, Nat.eqb_refl. apply before_all. apply Forall_forall. intros c Hc.
    pose proof (pa_le _ _ _ _ H i c) as P. rewrite row_of_app, Hl, Nat.ltb_irrefl, Nat.eqb_refl in P. apply P, Hc. }
  rewrite Hi, Hb. rewrite !row_offset_app by lia. destruct (Nat.eqb_spec i j) as [->|Hn]; [rewrite Hi; reflexivity|]. rewrite indptr_nth by lia. f_equal.
  rewrite Nat.add_1_r. rewrite row_of_app. destruct (Nat.ltb_spec j (length rows)); [|lia].
  rewrite <- (concat_slice rows j) by assumption. unfold slice. rewrite skipn_app, firstn_app.
  replace (row_offset rows (S j) - row_offset rows j - length (skipn (row_offset rows j) (concat rows))) with 0; [cbn [firstn]; apply app_nil_r|].
  rewrite skipn_length. pose proof (row_offset_mono rows (S j) (length rows) ltac:(lia)) as Hm. rewrite (row_offset_full rows (length rows)) in Hm by lia. lia.
Qed.

Lemma l_common_app rows cur x i r c : length rows = i -> r <= i -> c <= r -> (r = i -> Forall (fun k => c <= k) x) -> l_common (rows ++ [cur ++ x]) r c = l_common (rows ++ [cur]) r c.
Proof.
  intros Hl Hr Hc Hx. unfold l_common. rewrite !row_offset_app by lia. rewrite !row_of_app, Hl. destruct (Nat.ltb_spec r i) as [Hri|Hri].
  - destruct (Nat.ltb_spec c i); [reflexivity | lia].
  - assert (r = i) by lia. subst r. rewrite Nat.eqb_refl. rewrite (before_app_ge c cur x (Hx eq_refl)). destruct (Nat.eqb_spec i c) as [->|]; [reflexivity|].
    destruct (Nat.ltb_spec c i); [reflexivity | lia].
Qed.

(** One entry. *)
Definition non_empty (r c : nat) (lrows : list (list nat)) : bool := match a_common r c, l_common lrows r c with [], [] => false | _, _ => true end.
Lemma step_partly i j rows cur ents diag : length rows = i -> j <= i -> partly i j (rows ++ [cur]) ents ->
  exists cur' ents', partly i (S j) (rows ++ [cur']) ents' /\
    chol_entry a i (state_of i rows cur ents diag) j = state_of i rows cur' ents' (if i =? j then diag ++ [length (concat rows ++ cur') - 1] else diag) /\
    (j = i -> row_cols a i <> [] -> exists p, cur' = p ++ [i]).
Proof.
  intros Hl Hj H. pose proof (compared rows cur ents diag i j Hl Hj H) as Hc. unfold chol_entry. cbv zeta in Hc |- *. rewrite Hc. fold (a_common i j). clear Hc.
  assert (Hcur : Forall (fun k => k < j) cur).
  { apply Forall_forall. intros c Hc. pose proof (pa_le _ _ _ _ H i c) as P. rewrite row_of_app, Hl, Nat.ltb_irrefl, Nat.eqb_refl in P. apply P, Hc. }
  destruct (match a_common i j, l_common (rows ++ [cur]) i j with [], [] => false | _, _ => true end) eqn:Enz.
  - exists (cur ++ [j]), (ents ++ [mkLEntry (a_common i j) (l_common (rows ++ [cur]) i j)]). split; [|split].
    + assert (Hoff : forall r, r <= i -> row_offset (rows ++ [cur ++ [j]]) r = row_offset (rows ++ [cur]) r) by (intros r Hr; rewrite !row_offset_app by lia; reflexivity).
      assert (Hlen : length (concat (rows ++ [cur])) = row_offset rows i + length cur).
      { rewrite concat_app. cbn [concat]. rewrite app_nil_r, app_length, row_offset_full by lia. reflexivity. }
      constructor.
      * rewrite app_length. cbn. lia.
      * rewrite app_length, (pa_ents _ _ _ _ H), !concat_app, !app_length. cbn [concat length]. rewrite !app_nil_r, app_length. cbn. lia.
      * intros r. pose proof (pa_sorted _ _ _ _ H r) as P. rewrite row_of_app in *. destruct (r <? length rows); [exact P|]. destruct (r =? length rows); [|exact P]. apply sorted_snoc; assumption.
      * intros r c Hin. pose proof (pa_le _ _ _ _ H r c) as P. rewrite row_of_app in *. rewrite Hl in *. destruct (Nat.ltb_spec r i); [apply P, Hin|]. destruct (r =? i); [|destruct Hin].
        apply in_app_or in Hin. destruct Hin as [Hin|[<-|[]]]; [specialize (P Hin); lia | lia].
      * intros r k c Hk. destruct (Nat.ltb_spec r i) as [Hr|Hr].
        -- rewrite row_of_app, Hl in Hk. destruct (Nat.ltb_spec r i) as [_|]; [|lia]. pose proof (pa_entry _ _ _ _ H r k c) as P. rewrite row_of_app, Hl in P. destruct (Nat.ltb_spec r i) as [_|]; [|lia]. specialize (P Hk).
           rewrite Hoff by lia. rewrite app_nth1. 2:{ rewrite (pa_ents _ _ _ _ H), Hlen. assert (k < length (row_of rows r)) by (apply nth_error_Some; congruence).
             rewrite row_offset_app by lia. pose proof (row_offset_mono rows (S r) i ltac:(lia)) as M. rewrite row_offset_S in M. lia. }
           rewrite P. f_equal. symmetry. apply l_common_app with (i := i); [exact Hl | lia | | intros; lia].
           pose proof (pa_le _ _ _ _ H r c) as Q. rewrite row_of_app, Hl in Q. destruct (Nat.ltb_spec r i) as [_|]; [|lia]. apply Q. eapply nth_error_In, Hk.
        -- rewrite row_of_app, Hl in Hk. destruct (Nat.ltb_spec r i) as [|_]; [lia|]. destruct (Nat.eqb_spec r i) as [->|]; [|destruct k; discriminate].
           rewrite Hoff by lia. rewrite row_offset_app by lia. destruct (Nat.lt_ge_cases k (length cur)) as [Hk'|Hk'].
           ++ rewrite nth_error_app1 in Hk by exact Hk'. pose proof (pa_entry _ _ _ _ H i k c) as P. rewrite row_of_app, Hl, Nat.ltb_irrefl, Nat.eqb_refl in P. specialize (P Hk). rewrite row_offset_app in P by lia.
              rewrite app_nth1 by (rewrite (pa_ents _ _ _ _ H), Hlen; lia). rewrite P. f_equal. symmetry.
              assert (c < j) by (rewrite Forall_forall in Hcur; apply Hcur; eapply nth_error_In, Hk).
              apply l_common_app with (i := i); [exact Hl | lia | lia | intros; constructor; [lia | constructor]].
           ++ rewrite nth_error_app2 in Hk by exact Hk'. destruct (k - length cur) as [|k'] eqn:Ek; [|destruct k'; discriminate]. cbn in Hk. injection Hk as <-.
              replace (row_offset rows i + k) with (length ents) by (rewrite (pa_ents _ _ _ _ H), Hlen; lia). rewrite app_nth2, Nat.sub_diag by lia. cbn [nth]. f_equal. symmetry.
              apply l_common_app with (i := i); [exact Hl | lia | lia | intros; constructor; [lia | constructor]].
      * intros r c Hr Hc Hni. rewrite row_of_app, Hl in Hni. pose proof (pa_missing _ _ _ _ H r c Hr) as P. rewrite row_of_app, Hl in P. destruct (Nat.ltb_spec r i) as [Hri|Hri].
        -- destruct (P Hc Hni) as (P1 & P2). split; [exact P1|]. rewrite <- P2. apply l_common_app with (i := i); [exact Hl | lia | lia | intros; lia].
        -- assert (r = i) by lia. subst r. rewrite Nat.eqb_refl in *. destruct (Nat.eq_dec c j) as [->|Hcj]; [exfalso; apply Hni, in_or_app; right; left; reflexivity|].
           destruct (P ltac:(lia) ltac:(intros Hin; apply Hni, in_or_app; left; exact Hin)) as (P1 & P2). split; [exact P1|]. rewrite <- P2.
           apply l_common_app with (i := i); [exact Hl | lia | lia | intros; constructor; [lia | constructor]].
    + cbn [state_of ch_entries ch_lindptr ch_ldiag ch_lindices]. unfold state_of. destruct (i =? j); rewrite app_assoc; reflexivity.
    + intros -> _. exists cur. reflexivity.
  - assert (Hz : a_common i j = [] /\ l_common (rows ++ [cur]) i j = []) by (destruct (a_common i j), (l_common (rows ++ [cur]) i j); try discriminate; auto).
    exists cur, ents. split; [|split].
    + constructor; try apply H.
      * intros r c Hin. pose proof (pa_le _ _ _ _ H r c Hin) as P. destruct (r <? i); lia.
      * intros r c Hr Hc Hni. pose proof (pa_missing _ _ _ _ H r c Hr) as P. destruct (Nat.ltb_spec r i) as [Hri|Hri]; [apply P; [lia | exact Hni]|].
        assert (r = i) by lia. subst r. destruct (Nat.eq_dec c j) as [->|Hcj]; [exact Hz|]. apply P; [lia | exact Hni].
    + cbn [state_of ch_entries ch_lindptr ch_ldiag ch_lindices]. unfold state_of. destruct (i =? j); reflexivity.
    + intros -> Hne. exfalso. destruct Hz as (Hz & _). unfold a_common in Hz. exact (common_self _ _ _ Hne Hz).
Qed.

(** The completed structure. *)
Record structure (n : nat) (ch : chol_indices) (lrows : list (list nat)) : Prop := {
  st_len : length lrows = n;
  st_indices : ch_lindices ch = concat lrows;
  st_indptr : forall i, i <= n -> nth i (ch_lindptr ch) 0 = row_offset lrows i;
  st_diag : forall i, i < n -> nth i (ch_ldiag ch) 0 = row_offset lrows (S i) - 1;
  st_sorted : forall r, StronglySorted lt (row_of lrows r);
  st_le : forall r c, In c (row_of lrows r) -> c <= r;
  st_last : forall r, r < n -> exists p, row_of lrows r = p ++ [r];
  st_entry : forall r k c, nth_error (row_of lrows r) k = Some c -> nth (row_offset lrows r + k) (ch_entries ch) (mkLEntry [] []) = mkLEntry (a_common r c) (l_common lrows r c);
  st_missing : forall r c, r < n -> c <= r -> ~ In c (row_of lrows r) -> a_common r c = [] /\ l_common lrows r c = [] }.

Lemma row_partly i rows cur ents diag : length rows = i -> forall d, d <= S i -> partly i 0 (rows ++ [cur]) ents ->
  exists cur' ents', partly i d (rows ++ [cur']) ents' /\
    fold_left (chol_entry a i) (seq 0 d) (state_of i rows cur ents diag) = state_of i rows cur' ents' (if i <? d then diag ++ [length (concat rows ++ cur') - 1] else diag) /\
    (d = S i -> row_cols a i <> [] -> exists p, cur' = p ++ [i]).
Proof.
  intros Hl d Hd H. induction d as [|d IH]; [exists cur, ents; split; [exact H|]; split; [reflexivity | intros; lia]|].
  destruct (IH ltac:(lia)) as (c1 & e1 & P1 & E1 & _). destruct (step_partly i d rows c1 e1 (if i <? d then diag ++ [length (concat rows ++ c1) - 1] else diag) Hl ltac:(lia) P1) as (c2 & e2 & P2 & E2 & L2).
  exists c2, e2. split; [exact P2|]. split; [|intros Hd'; apply L2; lia]. rewrite seq_S, fold_left_app, E1. cbn [fold_left Nat.add]. rewrite E2. f_equal.
  destruct (Nat.ltb_spec i d); [lia|]. destruct (Nat.eqb_spec i d), (Nat.ltb_spec i (S d)); try lia; reflexivity.
Qed.

Lemma matrix_structure : no_empty_row a -> exists lrows, structure (length a) (chol_from_matrix a) lrows.
Proof.
  intros Hne. unfold chol_from_matrix.
  assert (G : forall n, n <= length a -> exists lrows, structure n (fold_left (chol_row a) (seq 0 n) (mkChol [] [0] [] [])) lrows /\
    let ch := fold_left (chol_row a) (seq 0 n) (mkChol [] [0] [] []) in
    ch_lindptr ch = map (row_offset lrows) (seq 0 (S n)) /\ length (ch_ldiag ch) = n /\ length (ch_entries ch) = length (concat lrows)).
  { induction n as [|n IH]; intros Hn.
    - exists []. split; [constructor; cbn; try (intros; lia); try reflexivity|repeat split].
      + intros i Hi. replace i with 0 by lia. reflexivity.
      + intros r. unfold row_of. destruct r; constructor.
      + intros r c. unfold row_of. destruct r; intros [].
      + intros r k c. unfold row_of. destruct r, k; discriminate.
    - destruct (IH ltac:(lia)) as (rows & S0 & Ep & Hd & He). set (ch0 := fold_left (chol_row a) (seq 0 n) (mkChol [] [0] [] [])) in *. cbv zeta in Ep, Hd, He.
      assert (P0 : partly n 0 (rows ++ [[]]) (ch_entries ch0)).
      { pose proof (st_len _ _ _ S0) as Hl. assert (Ho : forall r, r <= n -> row_offset (rows ++ [[]]) r = row_offset rows r) by (intros; apply row_offset_app; lia).
        assert (Hlc : forall r c, r < n -> c <= r -> l_common (rows ++ [[]]) r c = l_common rows r c).
        { intros r c Hr Hc. unfold l_common. rewrite !Ho by lia. rewrite !row_of_app, Hl. destruct (Nat.ltb_spec r n), (Nat.ltb_spec c n); try lia. reflexivity. }
        constructor.
        - rewrite app_length. cbn. lia.
        - rewrite concat_app. cbn. rewrite app_nil_r. exact He.
        - intros r. rewrite row_of_app. destruct (r <? length rows); [apply S0|]. destruct (r =? length rows); constructor.
        - intros r c. rewrite row_of_app, Hl. destruct (Nat.ltb_spec r n); [apply S0|]. destruct (r =? n); intros [].
        - intros r k c. rewrite row_of_app, Hl. destruct (Nat.ltb_spec r n); [|destruct (r =? n), k; discriminate]. intros Hk. rewrite Ho by lia. rewrite (st_entry _ _ _ S0 r k c Hk). f_equal. symmetry.
          apply Hlc; [assumption|]. apply (st_le _ _ _ S0). eapply nth_error_In, Hk.
        - intros r c Hr Hc. rewrite row_of_app, Hl. destruct (Nat.ltb_spec r n) as [Hrn|]; [|lia]. intros Hni. rewrite Hlc by assumption. apply (st_missing _ _ _ S0); assumption. }
      assert (E0 : ch0 = state_of n rows [] (ch_entries ch0) (ch_ldiag ch0)).
      { unfold state_of. rewrite app_nil_r, <- Ep, <- (st_indices _ _ _ S0). destruct ch0; reflexivity. }
      destruct (row_partly n rows [] (ch_entries ch0) (ch_ldiag ch0) (st_len _ _ _ S0) (S n) (le_n _) P0) as (cur & ents & P & E & Hlast).
      specialize (Hlast eq_refl). assert (Hrow : row_cols a n <> []).
      { unfold row_cols, row_of. intros Hz. apply map_eq_nil in Hz. apply (Hne (nth n a [])); [apply nth_In; lia | exact Hz]. }
      destruct (Hlast Hrow) as (pre & Epre). rewrite <- E0 in E. replace (n <? S n) with true in E by (symmetry; apply Nat.ltb_lt; lia).
      exists (rows ++ [cur]). rewrite seq_S, fold_left_app. cbn [Nat.add]. fold ch0. cbn [fold_left]. cbv zeta. unfold chol_row. rewrite E. cbn [state_of ch_entries ch_lindptr ch_ldiag ch_lindices].
      pose proof (st_len _ _ _ S0) as Hl. assert (Ho : forall r, r <= n -> row_offset (rows ++ [cur]) r = row_offset rows r) by (intros; apply row_offset_app; lia).
      assert (Hol : row_offset (rows ++ [cur]) (S n) = length (concat rows ++ cur)).
      { rewrite row_offset_full by (rewrite app_length; cbn; lia). rewrite concat_app. cbn. rewrite app_nil_r. reflexivity. }
      assert (Eptr : map (row_offset rows) (seq 0 (S n)) ++ [length (concat rows ++ cur)] = map (row_offset (rows ++ [cur])) (seq 0 (S (S n)))).
      { rewrite (seq_S (S n) 0), map_app. cbn [map Nat.add]. rewrite Hol. f_equal. apply map_ext_in. intros r Hr. apply in_seq in Hr. symmetry. apply Ho. lia. }
      split; [|split; [exact Eptr|split; [rewrite app_length; cbn; lia | rewrite (pa_ents _ _ _ _ P); reflexivity]]]. constructor; cbn [ch_entries ch_lindptr ch_ldiag ch_lindices].
      + rewrite app_length. cbn. lia.
      + rewrite concat_app. cbn. rewrite app_nil_r. reflexivity.
      + intros i Hi. rewrite Eptr. apply indptr_nth. exact Hi.
      + intros i Hi. destruct (Nat.eq_dec i n) as [->|Hin].
        * rewrite Hol. rewrite app_nth2 by lia. rewrite Hd, Nat.sub_diag. reflexivity.
        * rewrite app_nth1 by lia. rewrite Ho by lia. apply (st_diag _ _ _ S0). lia.
      + apply P.
      + intros r c Hin. pose proof (pa_le _ _ _ _ P r c Hin) as Q. destruct (Nat.ltb_spec r n); [exact Q|]. rewrite row_of_app, Hl in Hin. destruct (Nat.ltb_spec r n); [lia|]. destruct (Nat.eqb_spec r n); [lia | destruct Hin].
      + intros r Hr. rewrite row_of_app, Hl. destruct (Nat.ltb_spec r n) as [Hrn|]; [apply (st_last _ _ _ S0), Hrn|]. assert (r = n) by lia. subst r. rewrite Nat.eqb_refl. exists pre. exact Epre.
      + apply P.
      + intros r c Hr Hc Hni. apply (pa_missing _ _ _ _ P r c); [lia | destruct (Nat.ltb_spec r n); lia | exact Hni]. }
  destruct (G (length a) (le_n _)) as (lrows & S0 & _). exists lrows. exact S0.
Qed.
End Structure.
