(** Proofs about resets and rolling windows of virtual storages, the balance of
    the whole network and aggregated storages. *)
From Verif Require Import Base Calendar Timestep Network NetworkBuild NetworkSpec NetworkBuildLemmas Lp LpSpec
  LpRowLemmas LpUpdateLemmas NetState NetStateSpec NetStateLemmas NetRunLemmas NetHistLemmas LpRelLemmas Props_Lp.
Open Scope nat_scope.

(** ** Resets *)
Section Resets.
Context (net : network) (wf : wf_network net) (fm : Q) (order : list (list nat)) (steps : list sim_step).
Context (Hr : run net fm order steps) (Hnum : numbered steps) (k : nat) (v : vs_node) (Hk : nth_error (net_vss net) k = Some v).

Lemma vs_states j p : nth_error steps j = Some p -> exists s s2,
  nth_error (ns_vss (end_state net (firstn j steps))) k = Some s /\
  nth_error (ns_vss (sim_start p)) k = Some (vs_before (sim_env p) (sim_t p) v s) /\
  nth_error (ns_vss (sim_end p)) k = Some s2 /\ vss_last s2 = vss_last (vs_before (sim_env p) (sim_t p) v s).
Proof.
  intros Hj. destruct (run_nth net fm order steps Hr j p Hj) as (Hb & Hs & Ha & Hrj).
  destruct (run_states net fm order _ Hrj) as (Hst & _). destruct (vss_lookup net _ k v Hst Hk) as (s & Hs0).
  destruct (before_phase_Ok net (sim_env p) (sim_t p) _ Hst) as (st1 & Hb' & Hst1 & _ & _ & Hvs). rewrite Hb in Hb'. injection Hb' as <-.
  destruct (after_solve_vs net (sim_env p) (sim_t p) (sim_flows net p) (sim_start p) (sim_end p) k v Hst1 (C09_link_mass_balance net fm order _ _ _ wf Hs) Ha Hk)
    as (s1 & s2 & raw & q & E1 & E2 & _ & _ & E3 & _). rewrite (Hvs k v s Hk Hs0) in E1. injection E1 as <-.
  exists s, s2. split; [exact Hs0|]. split; [exact (Hvs k v s Hk Hs0)|]. split; [exact E2 | exact E3].
Qed.

Lemma recover_last q s : vss_last (vss_recover q s) = vss_last s.
Proof. destruct s as [l st [h|]]; unfold vss_recover; cbn [vss_history]; [|reflexivity]. destruct (history_pop h). reflexivity. Qed.
Lemma before_last e t s : vss_last (vs_before e t v s) = if vs_do_reset t v s then Some (ts_day t) else vss_last s.
Proof.
  unfold vs_before. destruct (vs_do_reset t v s), (v_window v); rewrite ?recover_last; reflexivity.
Qed.

Context (R : nat -> Prop) (HR : reset_rule v steps R).

(** Where the last reset before step [j] was. *)
Definition last_reset_is (j : nat) (last : option date) : Prop :=
  exists i p, i < j /\ nth_error steps i = Some p /\ R i /\ last = Some (ts_day (sim_t p)) /\ forall l, i < l < j -> ~ R l.

Lemma do_reset_iff j p s : nth_error steps j = Some p -> (0 < j -> last_reset_is j (vss_last s)) ->
  (vs_do_reset (sim_t p) v s = true <-> R j).
Proof.
  intros Hj Hlast. destruct (Hnum j p Hj) as (Hidx & _). rewrite (HR j p Hj). unfold vs_do_reset. rewrite (is_first_iff _ _ Hidx).
  destruct (j =? 0) eqn:E0; [apply Nat.eqb_eq in E0; subst j; tauto|]. apply Nat.eqb_neq in E0.
  destruct (vs_is_active (v_period v) (ts_day (sim_t p))) eqn:Ea; cbn [negb]; [|tauto].
  destruct (v_reset v) as [|dd mm|n].
  - split; [discriminate|]. intros [H|[H|[]]]; [lia | discriminate].
  - rewrite andb_true_iff, !Z.eqb_eq. split; [tauto|]. intros [H|[H|H]]; [lia | discriminate | exact H].
  - destruct (Hlast ltac:(lia)) as (i & pi & Hi & Hpi & Ri & El & Hbetween). rewrite El. unfold months_since. rewrite Z.leb_le. split.
    + intros H. right. right. exists i, pi. split; [exact Hi|]. split; [exact Hpi|]. split; [exact Ri|]. split; [exact Hbetween|]. cbn zeta. lia.
    + intros [H|[H|(i' & pi' & Hi' & Hpi' & Ri' & Hb' & H)]]; [lia | discriminate|]. cbn zeta in H.
      assert (i' = i). { destruct (Nat.lt_trichotomy i' i) as [L|[L|L]]; [|exact L|]; exfalso; [apply (Hb' i); [lia | exact Ri] | apply (Hbetween i'); [lia | exact Ri']]. }
      subst i'. rewrite Hpi in Hpi'. injection Hpi' as <-. lia.
Qed.

Lemma last_reset_invariant j s : 0 < j -> j <= length steps -> nth_error (ns_vss (end_state net (firstn j steps))) k = Some s ->
  last_reset_is j (vss_last s).
Proof.
  revert s. induction j as [|j IH]; intros s H0 Hj Hs; [lia|].
  destruct (nth_error steps j) as [p|] eqn:Ep; [|apply nth_error_None in Ep; lia].
  rewrite (end_state_firstn net steps j p Ep) in Hs. destruct (vs_states j p Ep) as (s0 & s2 & E0 & E1 & E2 & E3).
  rewrite Hs in E2. injection E2 as ->. rewrite E3, before_last.
  assert (Hiff : vs_do_reset (sim_t p) v s0 = true <-> R j).
  { apply (do_reset_iff j p s0 Ep). intros Hpos. apply IH; [exact Hpos | lia | exact E0]. }
  destruct (vs_do_reset (sim_t p) v s0) eqn:Ed.
  - exists j, p. split; [lia|]. split; [exact Ep|]. split; [apply Hiff; reflexivity|]. split; [reflexivity|]. intros l Hl. lia.
  - assert (Hnr : ~ R j) by (intros H; apply Hiff in H; discriminate).
    assert (Hj0 : 0 < j). { destruct j; [|lia]. exfalso. apply Hnr. apply (HR 0 p Ep). left. reflexivity. }
    destruct (IH s0 Hj0 ltac:(lia) E0) as (i & pi & Hi & Hpi & Ri & El & Hb). exists i, pi.
    split; [lia|]. split; [exact Hpi|]. split; [exact Ri|]. split; [exact El|]. intros l Hl.
    destruct (Nat.eq_dec l j) as [->|]; [exact Hnr | apply Hb; lia].
Qed.

Lemma resets_follow_rule j p s : nth_error steps j = Some p -> nth_error (ns_vss (end_state net (firstn j steps))) k = Some s ->
  (vs_do_reset (sim_t p) v s = true <-> R j).
Proof.
  intros Hj Hs. apply (do_reset_iff j p s Hj). intros H0. apply last_reset_invariant; [exact H0 | | exact Hs].
  apply nth_error_Some_lt in Hj. lia.
Qed.

Lemma reset_volumes j p : nth_error steps j = Some p -> v_window v = None ->
  exists q1, get_vs_volume (sim_start p) k = Ok q1 /\ (R j -> (q1 == reset_target (sim_env p) v)%Q) /\
    (~ R j -> get_vs_volume (end_state net (firstn j steps)) k = Ok q1).
Proof.
  intros Hj Hw. destruct (vs_states j p Hj) as (s & s2 & E0 & E1 & _ & _). pose proof (resets_follow_rule j p s Hj E0) as Hiff.
  unfold get_vs_volume. rewrite E0, E1. eexists. split; [reflexivity|]. unfold vs_before. rewrite Hw.
  destruct (vs_do_reset (sim_t p) v s) eqn:Ed.
  - split; [|intros H; exfalso; apply H, Hiff; reflexivity]. intros _. cbn [vss_reset_volume vss_storage storage_set_volume s_volume].
    unfold reset_target. destruct (v_reset_volume v); [apply initial_volume_spec | reflexivity].
  - split; [intros H; apply Hiff in H; discriminate | reflexivity].
Qed.
End Resets.

Lemma reset_rule_exists v steps : exists R, reset_rule v steps R.
Proof.
  induction steps as [|p steps [R IH]] using rev_ind.
  - exists (fun _ => False). intros k p Hk. destruct k; discriminate.
  - set (n := length steps). set (d := ts_day (sim_t p)).
    set (C := n = 0 \/ vs_is_active (v_period v) d = false \/
     match v_reset v with
     | ResetNever => False
     | ResetDayOfYear day month => d_day d = day /\ d_month d = month
     | ResetMonths mo =>
         exists j pj, j < n /\ nth_error steps j = Some pj /\ R j /\ (forall i, j < i < n -> ~ R i) /\
           let dj := ts_day (sim_t pj) in
           (mo <= 12 * d_year d + d_month d - (12 * d_year dj + d_month dj))%Z
     end).
    exists (fun j => (j < n /\ R j) \/ (j = n /\ C)). intros k q Hk d'.
    assert (Hmonths : forall mo k0 dk, k0 <= n ->
      ((exists j pj, j < k0 /\ nth_error (steps ++ [p]) j = Some pj /\ ((j < n /\ R j) \/ (j = n /\ C)) /\
         (forall i, j < i < k0 -> ~ ((i < n /\ R i) \/ (i = n /\ C))) /\
         let dj := ts_day (sim_t pj) in (mo <= 12 * d_year dk + d_month dk - (12 * d_year dj + d_month dj))%Z) <->
       (exists j pj, j < k0 /\ nth_error steps j = Some pj /\ R j /\ (forall i, j < i < k0 -> ~ R i) /\
         let dj := ts_day (sim_t pj) in (mo <= 12 * d_year dk + d_month dk - (12 * d_year dj + d_month dj))%Z))).
    { intros mo k0 dk Hk0. split; intros (j & pj & Hj & Hpj & HRj & Hb & H); exists j, pj; split; try exact Hj.
      - rewrite nth_error_app1 in Hpj by (fold n; lia). split; [exact Hpj|]. split; [destruct HRj as [[_ ?]|[? _]]; [assumption | lia]|]. split; [|exact H].
        intros i Hi Ri. apply (Hb i Hi). left. split; [lia | exact Ri].
      - rewrite nth_error_app1 by (fold n; lia). split; [exact Hpj|]. split; [left; split; [lia | exact HRj]|]. split; [|exact H].
        intros i Hi [[_ Ri]|[Hin _]]; [exact (Hb i Hi Ri) | lia]. }
    destruct (Nat.lt_trichotomy k n) as [L|[L|L]].
    + rewrite nth_error_app1 in Hk by (fold n; exact L). pose proof (IH k q Hk) as E. cbn zeta in E. fold d' in E.
      assert (E1 : (k < n /\ R k) \/ (k = n /\ C) <-> R k) by (split; [intros [[_ ?]|[? _]]; [assumption | lia] | tauto]).
      rewrite E1, E. destruct (v_reset v) as [|dd mm|mo]; [tauto | tauto|]. rewrite (Hmonths mo k d' ltac:(lia)). tauto.
    + subst k. unfold n in Hk. rewrite nth_error_app2, Nat.sub_diag in Hk by lia. injection Hk as <-. fold d in d'. subst d'.
      assert (E1 : (n < n /\ R n) \/ (n = n /\ C) <-> C) by (split; [intros [[? _]|[_ ?]]; [lia | assumption] | tauto]).
      rewrite E1. unfold C at 1. destruct (v_reset v) as [|dd mm|mo]; [tauto | tauto|]. rewrite (Hmonths mo n d ltac:(lia)). tauto.
    + apply nth_error_Some_lt in Hk. rewrite app_length in Hk. cbn in Hk. fold n in Hk. lia.
Qed.

(** ** Rolling windows *)
Lemma qsum_repeat q n : (qsum (repeat q n) == inject_Z (Z.of_nat n) * q)%Q.
Proof.
  induction n as [|n IH]; [cbn; ring|]. cbn [repeat]. rewrite qsum_cons, IH, Nat2Z.inj_succ. unfold Z.succ. rewrite inject_Z_plus. ring.
Qed.
Lemma qsum_Forall2 l l' : Forall2 Qeq l l' -> (qsum l == qsum l')%Q.
Proof. induction 1 as [|a b l l' H _ IH]; [reflexivity|]. rewrite !qsum_cons, H, IH. reflexivity. Qed.

(** After [m] time-steps since a reset: what the queue holds and what the volume is. *)
Definition rolled (n m : nat) (f0 rv d : Q) (uses : list Q) (vol : Q) (flows : list Q) : Prop :=
  exists qs, Forall2 Qeq qs uses /\ length qs = m /\ flows = skipn m (repeat f0 n ++ qs) /\
    (vol == rv + d * qsum (firstn m (repeat f0 n ++ qs)) - d * qsum qs)%Q.

Lemma rolled_step n m f0 rv d uses vol flows q u vol2 :
  0 < n -> rolled n m f0 rv d uses vol flows -> (q == u)%Q ->
  exists r, flows = r :: tl flows /\ length flows = n /\
    ((vol2 == vol + r * d - d * u)%Q -> rolled n (S m) f0 rv d (uses ++ [u]) vol2 (tl flows ++ [q])).
Proof.
  intros Hn (qs & HF & Hl & Hflows & Hvol) Hq. set (L := repeat f0 n ++ qs) in *.
  assert (HL : length L = n + m) by (unfold L; rewrite app_length, repeat_length; lia).
  assert (Hsk : skipn m L = nth m L 0%Q :: skipn (S m) L).
  { clear - HL Hn. assert (Hm : m < length L) by lia. clear HL. revert m Hm. induction L as [|a L IH]; intros m Hm; cbn in Hm; [lia|].
    destruct m as [|m]; [reflexivity|]. cbn [nth]. change (skipn (S m) (a :: L)) with (skipn m L). rewrite (IH m) by lia. reflexivity. }
  exists (nth m L 0%Q). rewrite Hflows, Hsk. cbn [tl]. split; [reflexivity|].
  split; [rewrite <- Hsk, skipn_length; lia|].
  intros Hv2. exists (qs ++ [q]). split; [apply Forall2_app; [exact HF | constructor; [exact Hq | constructor]]|].
  split; [rewrite app_length; cbn; lia|]. rewrite app_assoc. fold L. split.
  - rewrite skipn_app. replace (S m - length L) with 0 by lia. reflexivity.
  - assert (Hfst : firstn (S m) (L ++ [q]) = firstn m L ++ [nth m L 0%Q]).
    { rewrite firstn_app. replace (S m - length L) with 0 by lia. rewrite app_nil_r. clear - HL Hn. assert (Hm : m < length L) by lia. clear HL.
      revert m Hm. induction L as [|a L IH]; intros m Hm; cbn in Hm; [lia|]. destruct m as [|m]; [reflexivity|].
      change (firstn (S (S m)) (a :: L)) with (a :: firstn (S m) L). rewrite (IH m) by lia. reflexivity. }
    rewrite Hfst, !qsum_app, Hv2, Hvol, <- Hq.
    assert (E : forall z, (qsum [z] == z)%Q) by (intros z; unfold qsum; cbn [fold_right]; ring). rewrite !E. ring.
Qed.

Lemma rolled_closed n m f0 rv d uses vol flows : rolled n m f0 rv d uses vol flows -> length uses = m ->
  (vol == rv + d * inject_Z (Z.of_nat (Nat.min m n)) * f0 - d * qsum (skipn (m - n) uses))%Q.
Proof.
  intros (qs & HF & Hl & _ & Hvol) Hu. rewrite Hvol. rewrite firstn_app, repeat_length, qsum_app.
  assert (E1 : firstn m (repeat f0 n) = repeat f0 (Nat.min m n)).
  { clear. revert m. induction n as [|n IH]; intros [|m]; try reflexivity. cbn [repeat firstn Nat.min]. f_equal. apply IH. }
  rewrite E1, qsum_repeat. assert (E2 : (qsum (skipn (m - n) uses) == qsum qs - qsum (firstn (m - n) qs))%Q).
  { assert (H : (qsum (skipn (m - n) uses) == qsum (skipn (m - n) qs))%Q).
    { apply qsum_Forall2. clear - HF. generalize (m - n). induction HF as [|a b qs uses H HF IH]; intros [|x]; cbn; try constructor; try (symmetry; exact H).
      - clear - HF. induction HF; constructor; [symmetry|]; assumption.
      - apply IH. }
    rewrite H. rewrite <- (firstn_skipn (m - n) qs) at 2. rewrite qsum_app. ring. }
  rewrite E2. ring.
Qed.

Section Rolling.
Context (net : network) (wf : wf_network net) (fm : Q) (order : list (list nat)) (steps : list sim_step).
Context (Hr : run net fm order steps) (Hnum : numbered steps) (k : nat) (v : vs_node) (Hk : nth_error (net_vss net) k = Some v).
Context (n : nat) (Hn : 0 < n) (Hw : v_window v = Some n) (R : nat -> Prop) (HR : reset_rule v steps R).
Context (d : Q) (r : nat) (pr : sim_step) (Hpr : nth_error steps r = Some pr) (HRr : R r).

Definition settled (j : nat) : Prop := forall i p, r <= i <= j -> nth_error steps i = Some p ->
  vs_is_active (v_period v) (ts_day (sim_t p)) = true /\ (ts_days (sim_t p) == d)%Q /\ vss_within net (sim_env p) (sim_start p).

Definition share : Q :=
  ((get_max (sim_env pr) (v_maxv v) - absolute_initial_volume (sim_env pr) (get_max (sim_env pr) (v_maxv v)) (v_init v)) / inject_Z (Z.of_nat n))%Q.
Definition reset_to : Q :=
  match v_reset_volume v with
  | ResetMax => get_max (sim_env pr) (v_maxv v)
  | ResetInitial => absolute_initial_volume (sim_env pr) (get_max (sim_env pr) (v_maxv v)) (v_init v)
  end.
Definition use_of (p : sim_step) : Q := vs_use net (sim_flows net p) v.

Lemma rolling_invariant j : r <= j -> j < length steps -> settled j -> (forall i, r < i <= j -> ~ R i) ->
  exists s h, nth_error (ns_vss (end_state net (firstn (S j) steps))) k = Some s /\ vss_history s = Some h /\ h_size h = n /\
    rolled n (S j - r) share reset_to d (map use_of (skipn r (firstn (S j) steps))) (s_volume (vss_storage s)) (h_flows h).
Proof.
  intros Hrj. induction Hrj as [|j Hrj IH]; intros Hj Hset Hno.
  - clear Hno. replace (S r - r) with 1 by lia.
    destruct (run_nth net fm order steps Hr r pr Hpr) as (Hb & Hs & Ha & Hrr). destruct (run_states net fm order _ Hrr) as (Hst & _).
    destruct (before_phase_Ok net (sim_env pr) (sim_t pr) _ Hst) as (st1 & Hb' & Hst1 & _ & _ & Hvs). rewrite Hb in Hb'. injection Hb' as <-.
    destruct (vss_lookup net _ k v Hst Hk) as (s0 & Hs0). pose proof (Hvs k v s0 Hk Hs0) as Hs1.
    pose proof (proj2 (resets_follow_rule net wf fm order steps Hr Hnum k v Hk R HR r pr s0 Hpr Hs0) HRr) as Hdo.
    pose proof (Forall2_nth_error _ _ _ k v s0 (so_vss net _ Hst) Hk Hs0) as Hh. cbn in Hh. rewrite Hw in Hh.
    destruct (vss_history s0) as [h0|] eqn:Eh0; [|discriminate]. cbn in Hh. injection Hh as Hh.
    destruct (Hset r pr ltac:(lia) Hpr) as (Hact & Hday & Hwithin).
    assert (Hsb : vs_before (sim_env pr) (sim_t pr) v s0 =
      mkVss (Some (ts_day (sim_t pr))) (storage_add_in share (ts_days (sim_t pr)) (storage_set_volume reset_to (get_max (sim_env pr) (v_maxv v)) (vss_storage s0)))
        (Some (mkHist (repeat share (n - 1)) n))).
    { unfold vs_before. rewrite Hdo, Hw. fold reset_to. fold share. unfold vss_reset_history, vss_reset_volume, vss_recover. cbn [vss_history vss_last vss_storage].
      rewrite Eh0. cbn [option_map]. unfold history_reset, history_pop. cbn [h_size h_flows]. rewrite Hh, repeat_length, Nat.leb_refl.
      destruct n as [|n']; [lia|]. cbn [repeat]. replace (S n' - 1) with n' by lia. reflexivity. }
    destruct (after_solve_vs net (sim_env pr) (sim_t pr) (sim_flows net pr) (sim_start pr) (sim_end pr) k v Hst1 (C09_link_mass_balance net fm order _ _ _ wf Hs) Ha Hk)
      as (s1 & s2 & raw & q & E1 & E2 & Eq & Hraw & _ & _ & _ & _ & Heq). rewrite Hs1 in E1. injection E1 as <-. rewrite Hact in Hraw. destruct Hraw as [Hraw Hhist].
    rewrite Hsb in Hhist. cbn [vss_history option_map] in Hhist.
    exists s2, (mkHist (repeat share (n - 1) ++ [q]) n). rewrite (end_state_firstn net steps r pr Hpr). split; [exact E2|]. split; [exact Hhist|]. split; [reflexivity|].
    rewrite (firstn_snoc steps r pr Hpr), skipn_app, firstn_length_le by (apply nth_error_Some_lt in Hpr; lia).
    rewrite skipn_all2, Nat.sub_diag by (rewrite firstn_length; lia). cbn [app skipn map].
    assert (H0 : rolled n 0 share reset_to d [] reset_to (repeat share n)).
    { exists []. split; [constructor|]. split; [reflexivity|]. split; [rewrite app_nil_r; reflexivity|]. cbn [firstn]. unfold qsum. cbn [fold_right]. ring. }
    destruct (rolled_step n 0 share reset_to d [] reset_to (repeat share n) q (use_of pr) (s_volume (vss_storage s2)) Hn H0 Eq) as (z & Hz & _ & Hnext).
    assert (Ez : z = share) by (destruct n as [|n']; [lia|]; cbn [repeat] in Hz; injection Hz as Hz; symmetry; exact Hz). subst z.
    cbn [h_flows]. assert (Et : tl (repeat share n) = repeat share (n - 1)) by (destruct n as [|n']; [lia|]; cbn; rewrite Nat.sub_0_r; reflexivity).
    rewrite Et in Hnext. apply Hnext. destruct (Hwithin k v Hk) as (q1 & Hq1 & B). unfold get_vs_volume in Hq1. rewrite Hs1 in Hq1. injection Hq1 as Hq1.
    assert (Hv1 : s_volume (vss_storage (vs_before (sim_env pr) (sim_t pr) v s0)) = (reset_to + share * ts_days (sim_t pr))%Q) by (rewrite Hsb; reflexivity).
    rewrite Heq.
    + rewrite Hraw, Hv1, Eq, Hday. unfold use_of. ring.
    + rewrite Hraw, Eq, (Qmult_comm (vs_use net (sim_flows net pr) v)).
      apply (solved_vs_volume net wf fm order _ (sim_env pr) (sim_t pr) (sim_start pr) (sim_x pr) Hs (proj2 (Hnum r pr Hpr)) k v _ Hk); [|exact Hact|].
      * unfold get_vs_volume. rewrite Hs1. reflexivity.
      * rewrite Hq1. exact B.
  - destruct (nth_error steps (S j)) as [p|] eqn:Ep; [|apply nth_error_None in Ep; lia].
    destruct IH as (s0 & h0 & Hs0 & Hh0 & Hsz & Hroll).
    { lia. } { intros i q Hi. apply Hset. lia. } { intros i Hi. apply Hno. lia. }
    destruct (run_nth net fm order steps Hr (S j) p Ep) as (Hb & Hs & Ha & Hrr). destruct (run_states net fm order _ Hrr) as (Hst & _).
    destruct (before_phase_Ok net (sim_env p) (sim_t p) _ Hst) as (st1 & Hb' & Hst1 & _ & _ & Hvs). rewrite Hb in Hb'. injection Hb' as <-.
    pose proof (Hvs k v s0 Hk Hs0) as Hs1.
    assert (Hdo : vs_do_reset (sim_t p) v s0 = false).
    { destruct (vs_do_reset (sim_t p) v s0) eqn:E; [|reflexivity]. exfalso. apply (Hno (S j)); [lia|].
      apply (resets_follow_rule net wf fm order steps Hr Hnum k v Hk R HR (S j) p s0 Ep Hs0). exact E. }
    destruct (Hset (S j) p ltac:(lia) Ep) as (Hact & Hday & Hwithin).
    destruct (after_solve_vs net (sim_env p) (sim_t p) (sim_flows net p) (sim_start p) (sim_end p) k v Hst1 (C09_link_mass_balance net fm order _ _ _ wf Hs) Ha Hk)
      as (s1 & s2 & raw & q & E1 & E2 & Eq & Hraw & _ & _ & _ & _ & Heq). rewrite Hs1 in E1. injection E1 as <-. rewrite Hact in Hraw. destruct Hraw as [Hraw Hhist].
    destruct (rolled_step n (S j - r) share reset_to d _ _ (h_flows h0) q (use_of p) (s_volume (vss_storage s2)) Hn Hroll Eq) as (z & Hz & Hlen & Hnext).
    assert (Hsb : vs_before (sim_env p) (sim_t p) v s0 =
      mkVss (vss_last s0) (storage_add_in z (ts_days (sim_t p)) (vss_storage s0)) (Some (mkHist (tl (h_flows h0)) n))).
    { unfold vs_before. rewrite Hdo, Hw. unfold vss_recover. rewrite Hh0. unfold history_pop. rewrite Hsz, Hlen, Nat.leb_refl.
      destruct (h_flows h0) as [|z' l] eqn:El; [cbn in Hlen; lia|]. injection Hz as ->. cbn [tl]. reflexivity. }
    rewrite Hsb in Hhist. cbn [vss_history option_map] in Hhist.
    exists s2, (mkHist (tl (h_flows h0) ++ [q]) n). rewrite (end_state_firstn net steps (S j) p Ep). split; [exact E2|]. split; [exact Hhist|]. split; [reflexivity|].
    rewrite (firstn_snoc steps (S j) p Ep), skipn_app, firstn_length_le by lia. replace (r - S j) with 0 by lia. cbn [skipn]. rewrite map_app. cbn [map h_flows].
    replace (S (S j) - r) with (S (S j - r)) by lia. apply Hnext.
    destruct (Hwithin k v Hk) as (q1 & Hq1 & B). unfold get_vs_volume in Hq1. rewrite Hs1 in Hq1. injection Hq1 as Hq1.
    assert (Hv1 : s_volume (vss_storage (vs_before (sim_env p) (sim_t p) v s0)) = (s_volume (vss_storage s0) + z * ts_days (sim_t p))%Q) by (rewrite Hsb; reflexivity).
    rewrite Heq.
    + rewrite Hraw, Hv1, Eq, Hday. unfold use_of. ring.
    + rewrite Hraw, Eq, (Qmult_comm (vs_use net (sim_flows net p) v)).
      apply (solved_vs_volume net wf fm order _ (sim_env p) (sim_t p) (sim_start p) (sim_x p) Hs (proj2 (Hnum (S j) p Ep)) k v _ Hk); [|exact Hact|].
      * unfold get_vs_volume. rewrite Hs1. reflexivity.
      * rewrite Hq1. exact B.
Qed.

Lemma rolling_volume j : r <= j -> j < length steps -> settled j -> (forall i, r < i <= j -> ~ R i) ->
  let m := S j - r in
  exists q, get_vs_volume (end_state net (firstn (S j) steps)) k = Ok q /\
    (q == reset_target (sim_env pr) v
          + d * (inject_Z (Z.of_nat (Nat.min m n)) / inject_Z (Z.of_nat n))
              * (upper_volume (sim_env pr) (v_maxv v) - starting_volume (sim_env pr) (v_maxv v) (v_init v))
          - d * charges net v (skipn (S j - Nat.min m n) (firstn (S j) steps)))%Q.
Proof.
  intros Hrj Hj Hset Hno m. destruct (rolling_invariant j Hrj Hj Hset Hno) as (s & h & Hs & _ & _ & Hroll).
  exists (s_volume (vss_storage s)). unfold get_vs_volume. rewrite Hs. split; [reflexivity|].
  rewrite (rolled_closed n (S j - r) share reset_to d _ _ _ Hroll).
  - fold m. assert (E1 : (reset_to == reset_target (sim_env pr) v)%Q).
    { unfold reset_to, reset_target. destruct (v_reset_volume v); [apply initial_volume_spec | reflexivity]. }
    assert (E2 : (share == (upper_volume (sim_env pr) (v_maxv v) - starting_volume (sim_env pr) (v_maxv v) (v_init v)) / inject_Z (Z.of_nat n))%Q).
    { unfold share. rewrite initial_volume_spec. reflexivity. }
    rewrite E1, E2. unfold charges.
    assert (E3 : skipn (m - n) (map use_of (skipn r (firstn (S j) steps))) = map (fun p => vs_use net (sim_flows net p) v) (skipn (S j - Nat.min m n) (firstn (S j) steps))).
    { rewrite skipn_map. unfold use_of. f_equal. assert (Hsk : forall (l : list sim_step) a b, skipn a (skipn b l) = skipn (b + a) l).
      { clear. intros l a b. revert l. induction b as [|b IH]; intros l; [reflexivity|]. destruct l as [|x l]; [destruct a; reflexivity|]. cbn. apply IH. }
      rewrite Hsk. f_equal. unfold m. lia. }
    rewrite E3. field. intros H. assert (Hz : inject_Z (Z.of_nat n) = 0%Q -> False) by (intros E; apply (f_equal Qnum) in E; cbn in E; lia).
    unfold Qeq in H. cbn in H. lia.
  - rewrite map_length, skipn_length, firstn_length_le by lia. lia.
Qed.
End Rolling.

(** ** The balance of the whole network *)
Lemma qsum_indices {A} (g : A -> Q) (l : list A) :
  (qsum (map g l) == qsum (map (fun i => match nth_error l i with Some a => g a | None => 0 end) (seq 0 (length l))))%Q.
Proof.
  induction l as [|a l IH]; [reflexivity|]. cbn [map length seq]. rewrite !qsum_cons, IH, <- seq_shift, map_map. reflexivity.
Qed.
Lemma qsum_plus {A} (g h : A -> Q) l : (qsum (map (fun a => g a + h a) l) == qsum (map g l) + qsum (map h l))%Q.
Proof. induction l as [|a l IH]; [reflexivity|]. cbn [map]. rewrite !qsum_cons, IH. ring. Qed.
Lemma qsum_minus {A} (g h : A -> Q) l : (qsum (map (fun a => g a - h a) l) == qsum (map g l) - qsum (map h l))%Q.
Proof. induction l as [|a l IH]; [reflexivity|]. cbn [map]. rewrite !qsum_cons, IH. ring. Qed.
Lemma qsum_zero {A} (l : list A) : (qsum (map (fun _ => 0) l) == 0)%Q.
Proof. induction l as [|a l IH]; [reflexivity|]. cbn [map]. rewrite qsum_cons, IH. ring. Qed.
Lemma qsum_indicator (q : Q) n : forall k N, n < k + N -> k <= n -> (qsum (map (fun i => if n =? i then q else 0) (seq k N)) == q)%Q.
Proof.
  intros k N. revert k. induction N as [|N IH]; intros k H1 H2; [lia|]. cbn [seq map]. rewrite qsum_cons.
  destruct (n =? k) eqn:E.
  - apply Nat.eqb_eq in E. subst n. assert (Hz : (qsum (map (fun i => if k =? i then q else 0) (seq (S k) N)) == 0)%Q).
    { rewrite <- (qsum_zero (seq (S k) N)). apply qsum_ext. intros i Hi. apply in_seq in Hi. destruct (k =? i) eqn:E; [apply Nat.eqb_eq in E; lia | reflexivity]. }
    rewrite Hz. ring.
  - apply Nat.eqb_neq in E. rewrite IH by lia. ring.
Qed.

Section Balance.
Context (net : network) (wf : wf_network net) (f : nat -> Q).
Let N := length (net_nodes net).

Lemma all_inflow : (qsum (map (inflow net f) (seq 0 N)) == qsum (map f (seq 0 (length (net_edges net)))))%Q.
Proof.
  assert (H : forall eds k, (forall ed, In ed eds -> e_to ed < N) ->
    (qsum (map (sum_to f k eds) (seq 0 N)) == qsum (map f (seq k (length eds))))%Q).
  { induction eds as [|ed eds IH]; intros k Hin; cbn [length seq map].
    - change (map (sum_to f k []) (seq 0 N)) with (map (fun _ : nat => 0%Q) (seq 0 N)). rewrite qsum_zero. reflexivity.
    - rewrite qsum_cons, <- (IH (S k)) by (intros e He; apply Hin; right; exact He).
      rewrite (qsum_ext _ (fun i => (if e_to ed =? i then f k else 0) + sum_to f (S k) eds i)%Q) by reflexivity.
      rewrite qsum_plus, qsum_indicator; [reflexivity | apply Hin; left; reflexivity | lia]. }
  rewrite <- (H (net_edges net) 0); [apply qsum_ext; intros i _; apply inflow_sum | intros ed Hed; apply (wf_edges net wf ed Hed)].
Qed.
Lemma all_outflow : (qsum (map (outflow net f) (seq 0 N)) == qsum (map f (seq 0 (length (net_edges net)))))%Q.
Proof.
  assert (H : forall eds k, (forall ed, In ed eds -> e_from ed < N) ->
    (qsum (map (sum_from f k eds) (seq 0 N)) == qsum (map f (seq k (length eds))))%Q).
  { induction eds as [|ed eds IH]; intros k Hin; cbn [length seq map].
    - change (map (sum_from f k []) (seq 0 N)) with (map (fun _ : nat => 0%Q) (seq 0 N)). rewrite qsum_zero. reflexivity.
    - rewrite qsum_cons, <- (IH (S k)) by (intros e He; apply Hin; right; exact He).
      rewrite (qsum_ext _ (fun i => (if e_from ed =? i then f k else 0) + sum_from f (S k) eds i)%Q) by reflexivity.
      rewrite qsum_plus, qsum_indicator; [reflexivity | apply Hin; left; reflexivity | lia]. }
  rewrite <- (H (net_edges net) 0); [apply qsum_ext; intros i _; apply outflow_sum | intros ed Hed; apply (wf_edges net wf ed Hed)].
Qed.

Lemma empty_inflow i n : nth_error (net_nodes net) i = Some n -> n_type n = TInput -> (inflow net f i == 0)%Q.
Proof.
  intros Hn Ht. destruct (wf_nodes net wf i n Hn) as (E1 & _ & Hd). rewrite Ht in Hd. cbn in Hd. unfold inflow. rewrite <- E1. destruct Hd as [-> _]. reflexivity.
Qed.
Lemma empty_outflow i n : nth_error (net_nodes net) i = Some n -> n_type n = TOutput -> (outflow net f i == 0)%Q.
Proof.
  intros Hn Ht. destruct (wf_nodes net wf i n Hn) as (_ & E2 & Hd). rewrite Ht in Hd. cbn in Hd. unfold outflow. rewrite <- E2. destruct Hd as [_ ->]. reflexivity.
Qed.

Lemma storage_gain : balanced net f ->
  (over_type net TStorage (fun i => inflow net f i - outflow net f i) == over_type net TInput (outflow net f) - over_type net TOutput (inflow net f))%Q.
Proof.
  intros Hb. assert (H0 : (qsum (map (fun i => inflow net f i - outflow net f i) (seq 0 N)) == 0)%Q).
  { rewrite qsum_minus, all_inflow, all_outflow. ring. }
  unfold over_type. fold N. rewrite <- qsum_minus.
  assert (E : forall A (g h : A -> Q) l, (qsum (map (fun a => g a - h a) l) == 0)%Q -> (qsum (map g l) == qsum (map h l))%Q) by (intros; rewrite qsum_minus in H; lra).
  apply E. rewrite <- H0. apply qsum_ext. intros i Hi. apply in_seq in Hi.
  destruct (nth_error (net_nodes net) i) as [n|] eqn:En; [|apply nth_error_None in En; unfold N in Hi; lia].
  destruct (n_type n) eqn:Et.
  - rewrite (empty_inflow i n En Et). ring.
  - rewrite (empty_outflow i n En Et). ring.
  - rewrite (Hb i n En Et). ring.
  - ring.
Qed.

Lemma stored_after t st st1 : state_of net st -> write_flows net t f st = Ok st1 ->
  (total_stored st1 == total_stored st + ts_days t * over_type net TStorage (fun i => inflow net f i - outflow net f i))%Q.
Proof.
  intros Hst H. destruct (write_flows_Ok net t f st st1 Hst H) as (_ & W2 & _ & _ & W5). unfold total_stored.
  rewrite (qsum_indices _ (ns_nodes st1)), (qsum_indices _ (ns_nodes st)), W2, (state_nodes_length net st Hst). fold N.
  unfold over_type. fold N. rewrite <- qsum_scale, <- qsum_plus. apply qsum_ext. intros i Hi. apply in_seq in Hi.
  destruct (nth_error (net_nodes net) i) as [n|] eqn:En; [|apply nth_error_None in En; unfold N in Hi; lia].
  destruct (node_lookup net st i Hst (nth_error_Some_lt _ _ _ En)) as (s & Hs). destruct (W5 i s Hs) as (s1 & Hs1 & M). rewrite Hs, Hs1.
  pose proof (Forall2_nth_error _ _ _ i n s (so_nodes net st Hst) En Hs) as Hk. cbn in Hk.
  destruct s as [a|a], s1 as [b|b]; cbn in M; try contradiction.
  - assert (n_type n <> TStorage) by (intros E; apply Hk in E; destruct E; discriminate). destruct (n_type n); try congruence; ring.
  - rewrite (proj2 Hk) by eauto. destruct M as ((_ & _ & M) & _). exact M.
Qed.
End Balance.

(** ** Aggregated storages *)
Section AggStorage.
Context (st : net_state).
Lemma agg_proportional stores vs ms : rmap (get_node_volume st) stores = Ok vs -> rmap (get_node_max_volume st) stores = Ok ms ->
  agg_storage_proportional st stores = Ok (if Qeq_bool (qsum ms) 0 then 1%Q else (qsum vs / qsum ms)%Q).
Proof. intros H1 H2. unfold agg_storage_proportional. rewrite H1. cbn [rbind]. rewrite H2. reflexivity. Qed.

Lemma sums_ordered l l' : Forall2 (fun a b => 0 <= a <= b)%Q l l' -> (0 <= qsum l <= qsum l')%Q.
Proof. induction 1 as [|a b l l' H _ IH]; [split; apply Qle_refl|]. rewrite !qsum_cons. lra. Qed.
End AggStorage.

(** ** The balance of a solved time-step *)
Lemma solved_total net (wf : wf_network net) fm order ss e t st x st2 : state_of net st ->
  solved net fm order ss (lp_state_of st e t) x -> (0 < ts_days t)%Q -> storages_not_exclusive net ->
  after_solve net e t (edge_flow net x) st = Ok st2 ->
  (total_stored st2 == total_stored st + ts_days t * (over_type net TInput (outflow net (edge_flow net x)) - over_type net TOutput (inflow net (edge_flow net x))))%Q.
Proof.
  intros Hst Hx Hd Hse H. set (f := edge_flow net x) in *. rewrite <- (storage_gain net wf f (C09_link_mass_balance net fm order _ _ _ wf Hx)).
  pose proof (after_solve_state net e t f st st2 Hst H) as Hst2. unfold total_stored.
  rewrite (qsum_indices _ (ns_nodes st2)), (qsum_indices _ (ns_nodes st)), (state_nodes_length net st2 Hst2), (state_nodes_length net st Hst).
  unfold over_type. rewrite <- qsum_scale, <- qsum_plus. apply qsum_ext. intros i Hi. apply in_seq in Hi.
  destruct (nth_error (net_nodes net) i) as [n|] eqn:En; [|apply nth_error_None in En; lia].
  destruct (node_lookup net st i Hst (nth_error_Some_lt _ _ _ En)) as (s & Hs).
  destruct (node_lookup net st2 i Hst2 (nth_error_Some_lt _ _ _ En)) as (s2 & Hs2). rewrite Hs, Hs2.
  pose proof (Forall2_nth_error _ _ _ i n s (so_nodes net st Hst) En Hs) as Hk. cbn in Hk.
  pose proof (Forall2_nth_error _ _ _ i n s2 (so_nodes net st2 Hst2) En Hs2) as Hk2. cbn in Hk2.
  destruct (n_type n) eqn:Et.
  1-3: destruct s as [a|a]; [|exfalso; assert (E : exists y, NsStorage a = NsStorage y) by eauto; apply Hk in E; discriminate];
       destruct s2 as [b|b]; [|exfalso; assert (E : exists y, NsStorage b = NsStorage y) by eauto; apply Hk2 in E; discriminate]; ring.
  destruct (proj1 Hk eq_refl) as (a & ->), (proj1 Hk2 eq_refl) as (b & ->).
  destruct (solved_step_volume net wf fm order ss e t st x Hst Hx Hd st2 i n H En Et (Hse i n En Et)) as (v & v2 & V1 & V2 & E & _).
  unfold get_node_volume in V1, V2. rewrite Hs in V1. rewrite Hs2 in V2. injection V1 as <-. injection V2 as <-. exact E.
Qed.

(** ** Building concrete runs *)
Fixpoint simulate (net : network) (fm : Q) (order : list (list nat)) (done : list sim_step) (st : net_state)
  (inputs : list (timestep * env * (nat -> Q))) : option (list sim_step) :=
  match inputs with
  | [] => Some done
  | (t, e, x) :: rest =>
      match before_phase net e t st with
      | Ok st1 =>
          if solved_check net fm order (map sim_lp done) (lp_state_of st1 e t) x then
            match after_solve net e t (edge_flow net x) st1 with
            | Ok st2 => simulate net fm order (done ++ [mkStep t e st1 x st2]) st2 rest
            | _ => None
            end
          else None
      | _ => None
      end
  end.
Lemma simulate_runs net fm order inputs : valid_order net order -> forall done steps,
  run net fm order done -> simulate net fm order done (end_state net done) inputs = Some steps -> run net fm order steps.
Proof.
  intros Ho. induction inputs as [|[[t e] x] rest IH]; intros done steps Hr H; cbn [simulate] in H.
  - injection H as <-. exact Hr.
  - destruct (before_phase net e t (end_state net done)) as [st1|?|?] eqn:Hb; try discriminate.
    destruct (solved_check _ _ _ _ _ _) eqn:Hc; try discriminate.
    destruct (after_solve _ _ _ _ _) as [st2|?|?] eqn:Ha; try discriminate.
    apply (IH (done ++ [mkStep t e st1 x st2])).
    + apply (run_step net fm order done (mkStep t e st1 x st2)); [exact Hr | exact Hb | | exact Ha]. apply solved_check_sound; assumption.
    + unfold end_state at 1. rewrite map_app. cbn [map]. rewrite last_last. exact H.
Qed.
