(** Proofs about the simulated state. *)
From Verif Require Import Base Calendar Timestep Network NetworkBuild NetworkSpec NetworkBuildLemmas Lp LpSpec
  LpRowLemmas LpUpdateLemmas NetState NetStateSpec.
Open Scope nat_scope.

(** ** Loops over components *)
Section Each.
Context {A B : Type} (missing : nat -> state_error) (f : B -> A -> sres A).

Lemma each_Ok : forall items k l l', each missing f k items l = Ok l' ->
  length l' = length l /\
  (forall j b, nth_error items j = Some b -> exists a a', nth_error l (k + j) = Some a /\ nth_error l' (k + j) = Some a' /\ f b a = Ok a') /\
  (forall i, i < k \/ k + length items <= i -> nth_error l' i = nth_error l i).
Proof.
  induction items as [|b items IH]; intros k l l' H; cbn [each] in H.
  - injection H as <-. split; [reflexivity|]. split; [intros [|j] b Hb; discriminate | reflexivity].
  - destruct (nth_error l k) as [a|] eqn:Ea; [|discriminate]. apply rbind_Ok in H. destruct H as (a' & Ha' & H).
    apply IH in H. destruct H as (H1 & H2 & H3). rewrite upd_length in H1. split; [exact H1|]. split.
    + intros [|j] b' Hb; cbn in Hb.
      * injection Hb as <-. rewrite Nat.add_0_r. exists a, a'. split; [exact Ea|]. split; [|exact Ha'].
        rewrite H3 by lia. rewrite nth_error_upd, Nat.eqb_refl, Ea. reflexivity.
      * destruct (H2 j b' Hb) as (a1 & a2 & N1 & N2 & N3). exists a1, a2.
        replace (k + S j) with (S k + j) by lia. split; [|split; assumption].
        rewrite nth_error_upd in N1. destruct (S k + j =? k) eqn:E; [apply Nat.eqb_eq in E; lia | exact N1].
    + intros i Hi. cbn [length] in Hi. rewrite H3 by lia. rewrite nth_error_upd. destruct (i =? k) eqn:E; [apply Nat.eqb_eq in E; lia | reflexivity].
Qed.

Lemma each_succeeds : forall items k l, k + length items <= length l ->
  (forall j b a, nth_error items j = Some b -> nth_error l (k + j) = Some a -> exists a', f b a = Ok a') ->
  exists l', each missing f k items l = Ok l'.
Proof.
  induction items as [|b items IH]; intros k l Hl Hf; cbn [each length] in *; [eexists; reflexivity|].
  destruct (nth_error l k) as [a|] eqn:Ea; [|apply nth_error_None in Ea; lia].
  destruct (Hf 0 b a eq_refl) as (a' & Ha'); [rewrite Nat.add_0_r; exact Ea|]. rewrite Ha'. cbn [rbind].
  apply IH; [rewrite upd_length; lia|]. intros j b' a1 Hb Ha. apply (Hf (S j) b' a1); [exact Hb|].
  replace (k + S j) with (S k + j) by lia. rewrite nth_error_upd in Ha.
  destruct (S k + j =? k) eqn:E; [apply Nat.eqb_eq in E; lia | exact Ha].
Qed.

Lemma each_Ok0 items l l' i b : each missing f 0 items l = Ok l' -> nth_error items i = Some b ->
  exists a a', nth_error l i = Some a /\ nth_error l' i = Some a' /\ f b a = Ok a'.
Proof. intros H Hb. destruct (each_Ok _ _ _ _ H) as (_ & H2 & _). exact (H2 i b Hb). Qed.
End Each.

Lemma Forall2_nth_intro {A B} (P : A -> B -> Prop) l : forall l', length l = length l' ->
  (forall i a b, nth_error l i = Some a -> nth_error l' i = Some b -> P a b) -> Forall2 P l l'.
Proof.
  induction l as [|a l IH]; intros [|b l'] Hl H; cbn in Hl; try lia; constructor.
  - exact (H 0 a b eq_refl eq_refl).
  - apply IH; [lia|]. intros i. exact (H (S i)).
Qed.

(** ** Finalising a volume *)
Lemma finalise_within mn mx s : (mn <= s_volume s <= mx)%Q ->
  storage_finalise mn mx s = Ok (mkStorage (s_volume s) mx (s_flows s)).
Proof.
  intros [H1 H2]. unfold storage_finalise, TOLERANCE.
  assert (E1 : Qle_bool (- (1 # 1000000)) (s_volume s - mn) = true) by (apply Qle_bool_iff; lra).
  assert (E2 : Qle_bool (s_volume s - mx) (1 # 1000000) = true) by (apply Qle_bool_iff; lra).
  assert (E3 : Qle_bool mn mx = true) by (apply Qle_bool_iff; lra).
  assert (E4 : Qle_bool mn (s_volume s) = true) by (apply Qle_bool_iff; lra).
  assert (E5 : Qle_bool (s_volume s) mx = true) by (apply Qle_bool_iff; lra).
  rewrite E1, E2, E3, E4, E5. reflexivity.
Qed.

Lemma finalise_Ok mn mx s s' : storage_finalise mn mx s = Ok s' ->
  (mn <= s_volume s' <= mx)%Q /\ s_max s' = mx /\ s_flows s' = s_flows s /\
  (Qabs (s_volume s' - s_volume s) <= TOLERANCE)%Q /\ ((mn <= s_volume s <= mx)%Q -> s_volume s' = s_volume s).
Proof.
  unfold storage_finalise, TOLERANCE.
  destruct (Qle_bool (- (1 # 1000000)) (s_volume s - mn)) eqn:E1; cbn [negb]; [|discriminate].
  destruct (Qle_bool (s_volume s - mx) (1 # 1000000)) eqn:E2; cbn [negb]; [|discriminate].
  destruct (Qle_bool mn mx) eqn:E3; cbn [negb]; [|discriminate].
  apply Qle_bool_iff in E1, E2, E3.
  destruct (Qle_bool mn (s_volume s)) eqn:E4; cbn [negb].
  - destruct (Qle_bool (s_volume s) mx) eqn:E5; cbn [negb]; intros H; injection H as <-; cbn [s_volume s_max s_flows].
    + apply Qle_bool_iff in E4, E5. split; [lra|]. split; [reflexivity|]. split; [reflexivity|]. split; [|reflexivity].
      apply Qabs_Qle_condition. lra.
    + assert (~ (s_volume s <= mx)%Q) by (rewrite <- Qle_bool_iff; congruence).
      split; [lra|]. split; [reflexivity|]. split; [reflexivity|]. split; [|lra]. apply Qabs_Qle_condition. lra.
  - intros H; injection H as <-; cbn [s_volume s_max s_flows].
    assert (~ (mn <= s_volume s)%Q) by (rewrite <- Qle_bool_iff; congruence).
    split; [lra|]. split; [reflexivity|]. split; [reflexivity|]. split; [|lra]. apply Qabs_Qle_condition. lra.
Qed.

(** ** Sums over the edges that end or start at a node *)
Fixpoint sum_to (f : nat -> Q) (k : nat) (eds : list edge) (i : nat) : Q :=
  match eds with
  | [] => 0
  | ed :: r => (if e_to ed =? i then f k else 0) + sum_to f (S k) r i
  end%Q.
Fixpoint sum_from (f : nat -> Q) (k : nat) (eds : list edge) (i : nat) : Q :=
  match eds with
  | [] => 0
  | ed :: r => (if e_from ed =? i then f k else 0) + sum_from f (S k) r i
  end%Q.

Lemma sum_filter (p : nat -> edge -> bool) f net (q : nat -> bool) (g : nat -> list edge -> Q) :
  (forall k, g k [] = 0%Q) ->
  (forall k ed r, g k (ed :: r) = ((if p k ed then f k else 0) + g (S k) r)%Q) ->
  (forall k ed, nth_error (net_edges net) k = Some ed -> q k = p k ed) ->
  (qsum (map f (filter q (seq 0 (length (net_edges net))))) == g 0%nat (net_edges net))%Q.
Proof.
  intros H0 HS Hq. assert (Hgen : forall eds pre, net_edges net = pre ++ eds ->
    (qsum (map f (filter q (seq (length pre) (length eds)))) == g (length pre) eds)%Q).
  { induction eds as [|ed eds IH]; intros pre Hpre; cbn [length seq filter map].
    - rewrite H0. reflexivity.
    - rewrite HS. specialize (IH (pre ++ [ed])). rewrite app_length in IH. cbn [length] in IH.
      replace (length pre + 1) with (S (length pre)) in IH by lia.
      rewrite <- IH by (rewrite <- app_assoc; exact Hpre).
      rewrite (Hq (length pre) ed) by (rewrite Hpre, nth_error_app2, Nat.sub_diag by lia; reflexivity).
      destruct (p (length pre) ed); cbn [map]; unfold qsum; cbn [fold_right]; ring. }
  exact (Hgen (net_edges net) [] eq_refl).
Qed.

Lemma inflow_sum net f i : (inflow net f i == sum_to f 0%nat (net_edges net) i)%Q.
Proof.
  apply (sum_filter (fun _ ed => e_to ed =? i) f net (ends_at net i) (fun k eds => sum_to f k eds i)); [reflexivity | reflexivity|].
  intros k ed Hk. unfold ends_at. rewrite Hk. reflexivity.
Qed.
Lemma outflow_sum net f i : (outflow net f i == sum_from f 0%nat (net_edges net) i)%Q.
Proof.
  apply (sum_filter (fun _ ed => e_from ed =? i) f net (starts_at net i) (fun k eds => sum_from f k eds i)); [reflexivity | reflexivity|].
  intros k ed Hk. unfold starts_at. rewrite Hk. reflexivity.
Qed.

(** ** Adding flows *)
(** [s'] is [s] after [qi] came in and [qo] went out. *)
Definition moved (days qi qo : Q) (s s' : node_state) : Prop :=
  match s, s' with
  | NsFlow a, NsFlow b => (fl_in b == fl_in a + qi /\ fl_out b == fl_out a + qo)%Q
  | NsStorage a, NsStorage b =>
      (fl_in (s_flows b) == fl_in (s_flows a) + qi /\ fl_out (s_flows b) == fl_out (s_flows a) + qo /\
       s_volume b == s_volume a + days * (qi - qo))%Q /\ s_max b = s_max a
  | _, _ => False
  end.

Lemma moved_refl days s : moved days 0 0 s s.
Proof. destruct s; cbn; [split; ring|]. split; [split; [ring|]; split; ring | reflexivity]. Qed.
Lemma moved_trans days a b c d s1 s2 s3 : moved days a b s1 s2 -> moved days c d s2 s3 -> moved days (a + c) (b + d) s1 s3.
Proof.
  destruct s1, s2, s3; cbn; try tauto.
  - intros [H1 H2] [H3 H4]. rewrite H3, H4, H1, H2. split; ring.
  - intros ((H1 & H2 & H3) & H4) ((G1 & G2 & G3) & G4). split; [|congruence]. rewrite G1, G2, G3, H1, H2, H3. split; [ring|]. split; ring.
Qed.
Lemma moved_ext days a b c d s1 s2 : (a == c)%Q -> (b == d)%Q -> moved days a b s1 s2 -> moved days c d s1 s2.
Proof. destruct s1, s2; cbn; try tauto; intros E1 E2; rewrite E1, E2; tauto. Qed.
Lemma moved_in days q s : moved days q 0 s (ns_add_in q days s).
Proof. destruct s; cbn; [split; ring|]. split; [split; [ring|]; split; ring | reflexivity]. Qed.
Lemma moved_out days q s : moved days 0 q s (ns_add_out q days s).
Proof. destruct s; cbn; [split; ring|]. split; [split; [ring|]; split; ring | reflexivity]. Qed.

Lemma add_flow_Ok days k ed q st st' : add_flow days k ed q st = Ok st' ->
  ns_vss st' = ns_vss st /\ length (ns_nodes st') = length (ns_nodes st) /\
  ns_edges st' = upd k (fun f => f + q)%Q (ns_edges st) /\
  (forall i s, nth_error (ns_nodes st) i = Some s -> exists s', nth_error (ns_nodes st') i = Some s' /\
     moved days (if e_to ed =? i then q else 0) (if e_from ed =? i then q else 0) s s').
Proof.
  unfold add_flow. destruct (nth_error (ns_nodes st) (e_from ed)) as [sf|] eqn:Ef; [|discriminate].
  destruct (nth_error (upd (e_from ed) (ns_add_out q days) (ns_nodes st)) (e_to ed)) as [sto|] eqn:Et; [|discriminate].
  destruct (nth_error (ns_edges st) k) as [fe|] eqn:Ee; [|discriminate].
  intros H. injection H as <-. cbn [ns_vss ns_nodes ns_edges]. split; [reflexivity|]. split; [rewrite !upd_length; reflexivity|].
  split; [reflexivity|]. intros i s Hs. rewrite !nth_error_upd, Hs, (Nat.eqb_sym (e_to ed) i), (Nat.eqb_sym (e_from ed) i).
  destruct (i =? e_to ed), (i =? e_from ed); cbn [option_map]; (eexists; split; [reflexivity|]).
  - apply (moved_ext days (0 + q) (q + 0)); [ring | ring|].
    apply (moved_trans _ _ _ _ _ s (ns_add_out q days s)); [apply moved_out | apply moved_in].
  - apply moved_in.
  - apply moved_out.
  - apply moved_refl.
Qed.

Lemma add_flows_Ok days f : forall eds k st st', add_flows days f k eds st = Ok st' ->
  ns_vss st' = ns_vss st /\ length (ns_nodes st') = length (ns_nodes st) /\ length (ns_edges st') = length (ns_edges st) /\
  (forall j a, nth_error (ns_edges st) j = Some a -> exists b, nth_error (ns_edges st') j = Some b /\
     (b == a + if (k <=? j) && (j <? k + length eds) then f j else 0)%Q) /\
  (forall i s, nth_error (ns_nodes st) i = Some s -> exists s', nth_error (ns_nodes st') i = Some s' /\
     moved days (sum_to f k eds i) (sum_from f k eds i) s s').
Proof.
  induction eds as [|ed eds IH]; intros k st st' H; cbn [add_flows] in H.
  - injection H as <-. split; [reflexivity|]. split; [reflexivity|]. split; [reflexivity|]. split.
    + intros j a Ha. exists a. split; [exact Ha|]. cbn [length]. replace ((k <=? j) && (j <? k + 0)) with false by lia. ring.
    + intros i s Hs. exists s. split; [exact Hs | apply moved_refl].
  - apply rbind_Ok in H. destruct H as (st1 & H1 & H). apply add_flow_Ok in H1. destruct H1 as (A1 & A2 & A3 & A4).
    apply IH in H. destruct H as (B1 & B2 & B3 & B4 & B5).
    split; [congruence|]. split; [congruence|]. split; [rewrite B3, A3, upd_length; reflexivity|]. split.
    + intros j a Ha. assert (N1 : nth_error (ns_edges st1) j = Some (if j =? k then (a + f k)%Q else a)).
      { rewrite A3, nth_error_upd, Ha. destruct (j =? k); reflexivity. }
      destruct (B4 j _ N1) as (b & Hb & Eb). exists b. split; [exact Hb|]. rewrite Eb. cbn [length].
      destruct (j =? k) eqn:E.
      * apply Nat.eqb_eq in E. subst j. replace ((S k <=? k) && (k <? S k + length eds)) with false by lia.
        replace ((k <=? k) && (k <? k + S (length eds))) with true by lia. ring.
      * apply Nat.eqb_neq in E. replace ((S k <=? j) && (j <? S k + length eds)) with ((k <=? j) && (j <? k + S (length eds))) by lia. reflexivity.
    + intros i s Hs. destruct (A4 i s Hs) as (s1 & Hs1 & M1). destruct (B5 i s1 Hs1) as (s2 & Hs2 & M2).
      exists s2. split; [exact Hs2|]. cbn [sum_to sum_from]. exact (moved_trans _ _ _ _ _ _ _ _ M1 M2).
Qed.

Lemma add_flow_succeeds days k ed q st : e_from ed < length (ns_nodes st) -> e_to ed < length (ns_nodes st) ->
  k < length (ns_edges st) -> exists st', add_flow days k ed q st = Ok st'.
Proof.
  intros H1 H2 H3. unfold add_flow. destruct (nth_error (ns_nodes st) (e_from ed)) eqn:E1; [|apply nth_error_None in E1; lia].
  destruct (nth_error (upd (e_from ed) (ns_add_out q days) (ns_nodes st)) (e_to ed)) eqn:E2;
    [|apply nth_error_None in E2; rewrite upd_length in E2; lia].
  destruct (nth_error (ns_edges st) k) eqn:E3; [|apply nth_error_None in E3; lia]. eexists. reflexivity.
Qed.
Lemma add_flows_succeeds days f : forall eds k st,
  (forall ed, In ed eds -> e_from ed < length (ns_nodes st) /\ e_to ed < length (ns_nodes st)) ->
  k + length eds <= length (ns_edges st) -> exists st', add_flows days f k eds st = Ok st'.
Proof.
  induction eds as [|ed eds IH]; intros k st He Hk; cbn [add_flows length] in *; [eexists; reflexivity|].
  destruct (add_flow_succeeds days k ed (f k) st) as (st1 & H1); [apply He; left; reflexivity | apply He; left; reflexivity | lia|].
  rewrite H1. cbn [rbind]. destruct (add_flow_Ok _ _ _ _ _ _ H1) as (_ & L1 & L2 & _). apply IH.
  - intros ed' Hin. rewrite L1. apply He. right. exact Hin.
  - rewrite L2, upd_length. lia.
Qed.
