(** C43: piecewise storages. *)
From Coq Require Import Lqa Qminmax.
From Verif Require Import Base Calendar Network NetworkBuild NetworkSpec NetworkBuildLemmas Lp LpSpec LpRowLemmas AggFuncs AggFuncsLemmas Timestep NetState NetStateSpec NetStateLemmas NetHistLemmas
  Props_Network Formulas ControlCurves SchemaNodes SchemaMetrics SchemaSpec SchemaLemmas Props_Schema SchemaRun SchemaRunCheck PiecewiseSpec.
Local Open Scope string_scope.
Local Open Scope list_scope.
Local Open Scope nat_scope.

(** *** Filling from the bottom *)
Fixpoint fill (amount : Q) (caps : list Q) : list Q :=
  match caps with [] => [] | c :: r => Qmin (Qmax amount 0) c :: fill (amount - c) r end.
Lemma fill_dry caps : forall amount, (amount <= 0)%Q -> Forall (fun c => 0 <= c)%Q caps -> Forall (fun l => l == 0)%Q (fill amount caps).
Proof.
  induction caps as [|c r IH]; intros amount Ha Hc; [constructor|]. inversion Hc as [|? ? H1 H2]; subst. cbn [fill]. constructor.
  - rewrite Q.max_r by exact Ha. rewrite Q.min_l by exact H1. reflexivity.
  - apply IH; [lra | exact H2].
Qed.
Lemma qsum_zero l : Forall (fun l => l == 0)%Q l -> (qsum l == 0)%Q.
Proof. induction 1 as [|q r E _ IH]; [reflexivity|]. rewrite qsum_cons, E, IH. reflexivity. Qed.
Lemma fill_length caps : forall amount, length (fill amount caps) = length caps.
Proof. induction caps as [|c r IH]; intros amount; cbn; [reflexivity | rewrite IH; reflexivity]. Qed.
Lemma fill_filled caps : forall amount, Forall (fun c => 0 <= c)%Q caps -> (0 <= amount)%Q -> (amount <= qsum caps)%Q -> filled caps (fill amount caps) amount.
Proof.
  induction caps as [|c r IH]; intros amount Hc H0 Hs.
  - constructor; [constructor | cbn in *; lra | intros [|i] j ? ? ? _ E; discriminate].
  - inversion Hc as [|? ? H1 H2]; subst. rewrite qsum_cons in Hs. destruct (Qlt_le_dec amount c) as [Hl|Hl].
    + assert (Hd := fill_dry r (amount - c) ltac:(lra) H2). cbn [fill].
      assert (Eh : (Qmin (Qmax amount 0) c == amount)%Q) by (rewrite Q.max_l by exact H0; rewrite Q.min_l by lra; reflexivity).
      constructor.
      * constructor; [rewrite Eh; lra|]. pose proof (fill_length r (amount - c)) as El. revert H2 Hd El. generalize (fill (amount - c) r). clear.
        induction r as [|c r IH]; intros [|l ls] Hc Hl El; try discriminate; constructor.
        -- inversion Hl as [|? ? E _]; subst. inversion Hc; subst. lra.
        -- inversion Hl; inversion Hc; subst. apply IH; try assumption. injection El as El. exact El.
      * rewrite qsum_cons, Eh, (qsum_zero _ Hd). ring.
      * intros i [|j] ci li lj Hij _ _ Ej Hp; [lia|]. cbn [nth_error] in Ej. rewrite Forall_forall in Hd. specialize (Hd lj (nth_error_In _ _ Ej)). lra.
    + destruct (IH (amount - c)%Q H2 ltac:(lra) ltac:(lra)) as [I1 I2 I3]. cbn [fill].
      assert (Eh : (Qmin (Qmax amount 0) c == c)%Q) by (rewrite Q.max_l by exact H0; rewrite Q.min_r by lra; reflexivity).
      constructor.
      * constructor; [rewrite Eh; lra | exact I1].
      * rewrite qsum_cons, Eh, I2. ring.
      * intros [|i] [|j] ci li lj Hij E1 E2 E3 Hp; try lia.
        -- cbn [nth_error] in E1, E2. injection E1 as <-. injection E2 as <-. exact Eh.
        -- cbn [nth_error] in E1, E2, E3. apply (I3 i j ci li lj ltac:(lia) E1 E2 E3 Hp).
Qed.
Lemma filled_ext caps levels levels' amount : Forall2 Qeq levels' levels -> filled caps levels amount -> filled caps levels' amount.
Proof.
  intros He [H1 H2 H3]. constructor.
  - clear H2 H3. revert levels' He. induction H1 as [|c l cs ls [P1 P2] _ IH]; intros levels' He; inversion He as [|l' ? ls' ? E1 E2]; subst; constructor.
    + rewrite E1. auto.
    + apply IH, E2.
  - rewrite <- H2. clear H1 H2 H3. induction He as [|a b la lb E _ IH]; [reflexivity|]. rewrite !qsum_cons, E, IH. reflexivity.
  - intros i j ci li lj Hij E1 E2 E3 Hp.
    destruct (nth_error_lt_Some levels i) as (mi & Ei); [rewrite <- (Forall2_length' _ _ _ He); apply (nth_error_Some_lt _ _ _ E2)|].
    destruct (nth_error_lt_Some levels j) as (mj & Ej); [rewrite <- (Forall2_length' _ _ _ He); apply (nth_error_Some_lt _ _ _ E3)|].
    rewrite (Forall2_nth_error _ _ _ _ _ _ He E2 Ei). apply (H3 i j ci mi mj Hij E1 Ei Ej).
    rewrite <- (Forall2_nth_error _ _ _ _ _ _ He E3 Ej). exact Hp.
Qed.

(** The code's two ways of working out a store's share. *)
Lemma share_initial amount prior cap : (0 <= cap)%Q -> (fmin (fmax (amount - prior) 0) cap == Qmin (Qmax (amount - prior) 0) cap)%Q.
Proof. intros _. rewrite fmin_Qmin, fmax_Qmax. reflexivity. Qed.
Lemma share_minimum amount prior cap q : (0 <= cap)%Q ->
  difference_before (Ok amount) (Ok prior) (Some (Ok 0%Q)) (Some (Ok cap)) = Ok q -> (q == Qmin (Qmax (amount - prior) 0) cap)%Q.
Proof.
  intros Hc. cbn [difference_before read_option rbind]. intros E. injection E as <-. unfold difference.
  destruct (Qle_bool 0 (amount - prior)) eqn:E0; cbn [negb].
  - apply Qle_bool_iff in E0. rewrite Q.max_l by exact E0. destruct (Qle_bool (amount - prior) cap) eqn:E1; cbn [negb].
    + apply Qle_bool_iff in E1. rewrite Q.min_l by exact E1. reflexivity.
    + assert (~ (amount - prior <= cap)%Q) by (rewrite <- Qle_bool_iff, E1; discriminate). rewrite Q.min_r by lra. reflexivity.
  - assert (~ (0 <= amount - prior)%Q) by (rewrite <- Qle_bool_iff, E0; discriminate). rewrite Q.max_r by lra. rewrite Q.min_l by exact Hc. reflexivity.
Qed.

(** Levels given store by store are those of [fill]. *)
Lemma fill_pointwise caps levels : length levels = length caps -> forall amount,
  (forall i c l, nth_error caps i = Some c -> nth_error levels i = Some l -> (l == Qmin (Qmax (amount - qsum (firstn i caps)) 0) c)%Q) ->
  Forall2 Qeq levels (fill amount caps).
Proof.
  revert levels. induction caps as [|c r IH]; intros [|l ls] Hl amount Hp; try discriminate; [constructor|]. cbn [fill]. constructor.
  - rewrite (Hp 0 c l eq_refl eq_refl). cbn [firstn qsum fold_right]. setoid_replace (amount - 0)%Q with amount by ring. reflexivity.
  - apply IH; [injection Hl as Hl; exact Hl|]. intros i ci li E1 E2. rewrite (Hp (S i) ci li E1 E2). cbn [firstn]. rewrite qsum_cons.
    setoid_replace (amount - (c + qsum (firstn i r)))%Q with (amount - c - qsum (firstn i r))%Q by ring. reflexivity.
Qed.

Lemma choose {A B} (R : A -> B -> Prop) l : (forall x, In x l -> exists y, R x y) -> exists l', Forall2 R l l'.
Proof.
  induction l as [|x l IH]; intros H; [exists []; constructor|]. destruct (H x (or_introl eq_refl)) as (y & Hy).
  destruct IH as (l' & Hl); [intros; apply H; right; assumption|]. exists (y :: l'). constructor; assumption.
Qed.

Lemma firstn_seq k n : k <= n -> firstn k (seq 0 n) = seq 0 k.
Proof.
  intros H. replace n with (k + (n - k)) by lia. rewrite seq_app, firstn_app, seq_length, Nat.sub_diag, firstn_all2 by (rewrite seq_length; lia).
  cbn [firstn]. apply app_nil_r.
Qed.

(** *** The stores of a piecewise storage *)
Section Stores.
Variables (key : umetric -> nat) (step : option Z) (sc : schema) (a : added) (net : network) (tr : list run_step).
Hypothesis Hr : file_run key step sc a net tr.
Variables (t : run_step) (name : string) (total : umetric) (tmin cost : option umetric) (steps : list store) (init : sinit).
Hypothesis Ht : In t tr.
Hypothesis Hin : In (SPiecewiseStorage name total tmin cost steps init) (sc_nodes sc).
Local Notation e := (st_env (rs_state t)).

Definition lower (i : nat) : option umetric := match i with O => None | S j => option_map so_curve (nth_error steps j) end.
Definition upper (i : nat) : option umetric := option_map so_curve (nth_error steps i).
Definition curve (d : Q) (m : option umetric) : Q := match m with Some m => before key t m | None => d end.

Variables (indices : list nat) (stores : list node).
Hypothesis Hs : stores_of a net name (length steps) indices stores.

Definition as_built (i : nat) (n : node) : Prop :=
  n_type n = TStorage /\
  n_maxv n = Some (to_metric key (UParam (max_volume_name name i) None)) /\
  n_minv n = option_map (fun _ => to_metric key (UParam (min_volume_name name i) None)) tmin /\
  n_init n = store_init key name total init i.

Lemma store_built i : i <= length steps -> exists k n, declared (declaration a) k (store_name name i) /\ nth_error (net_nodes net) k = Some n /\ as_built i n.
Proof.
  intros Hi. pose proof (fr_steps _ _ _ _ _ _ Hr t Ht) as H. loaded H Hin Hpo.
  assert (Hn : In (store_builder key name total tmin (match nth_error steps i with Some s => so_cost s | None => cost end) init i) (ad_nodes a)).
  { apply (po_nodes _ _ Hpo). unfold add_piecewise_storage. cbn [ad_nodes].
    apply (in_map (fun i => store_builder key name total tmin (match nth_error steps i with Some s => so_cost s | None => cost end) init i) _ i).
    apply in_seq. lia. }
  destruct (built_node _ _ _ _ _ _ _ H _ Hn) as (k & n & Hd & En & Hty & _ & _ & _ & _ & Hst & _). cbn [store_builder nb_name nb_type nb_minv nb_maxv nb_init] in *.
  destruct (Hst eq_refl) as (H1 & H2 & H3). injection H3 as H3. exists k, n. repeat split; assumption.
Qed.
Lemma store_as_built i k n : nth_error indices i = Some k -> nth_error stores i = Some n -> nth_error (net_nodes net) k = Some n /\ as_built i n.
Proof.
  intros Ek En. destruct (so_store _ _ _ _ _ _ Hs i k n Ek En) as (Hd & Hn). split; [exact Hn|].
  assert (Hi := nth_error_Some_lt _ _ _ Ek). rewrite (so_indices _ _ _ _ _ _ Hs) in Hi. destruct (store_built i ltac:(lia)) as (k' & n' & Hd' & Hn' & Hb).
  pose proof (fr_steps _ _ _ _ _ _ Hr t Ht) as H. rewrite (declared_unique _ _ _ _ _ _ _ H _ _ _ Hd Hd') in Hn. rewrite Hn' in Hn. injection Hn as <-. exact Hb.
Qed.
Lemma stores_at i n : nth_error stores i = Some n -> as_built i n.
Proof.
  intros En. assert (Hi := nth_error_Some_lt _ _ _ En). rewrite (so_stores _ _ _ _ _ _ Hs), <- (so_indices _ _ _ _ _ _ Hs) in Hi.
  destruct (nth_error_lt_Some indices i Hi) as (k & Ek). exact (proj2 (store_as_built i k n Ek En)).
Qed.

Lemma params_in i d : In i (seq 0 (S (length steps))) -> In d (store_params name total tmin steps i) -> In d (ad_params a).
Proof.
  intros Hi Hd. pose proof (fr_steps _ _ _ _ _ _ Hr t Ht) as H. loaded H Hin Hpo. apply (po_params _ _ Hpo). unfold add_piecewise_storage. cbn [ad_params].
  apply in_flat_map. exists i. auto.
Qed.

Lemma cap_value i : In i (seq 0 (S (length steps))) ->
  (before key t (UParam (max_volume_name name i) None) == before key t total * (curve 1 (upper i) - curve 0 (lower i)))%Q.
Proof.
  intros Hi. assert (Hd : In (PVolumeBetween (max_volume_name name i) total (upper i) (lower i)) (ad_params a)) by (apply (params_in i _ Hi); left; reflexivity).
  destruct (fr_params _ _ _ _ _ _ Hr _ Hd t Ht) as (q & E & Eq). rewrite Eq. unfold volume_between in E. cbn [rbind] in E.
  unfold curve. destruct (lower i), (upper i); cbn [option_map rbind] in E; injection E as <-; reflexivity.
Qed.
Lemma prior_value i : In i (seq 0 (S (length steps))) ->
  (before key t (UParam (prior_volume_name name i) None) == qsum (map (fun j => before key t (UParam (max_volume_name name j) None)) (seq 0 i)))%Q.
Proof.
  intros Hi. assert (Hd : In (PSum (prior_volume_name name i) (map (fun j => UParam (max_volume_name name j) None) (seq 0 i))) (ad_params a))
    by (apply (params_in i _ Hi); right; left; reflexivity).
  rewrite (fr_params _ _ _ _ _ _ Hr _ Hd t Ht). cbn [calc_iter_f64]. rewrite iter_sum_qsum, map_map. reflexivity.
Qed.

Definition caps : list Q := map (fun i => before key t (UParam (max_volume_name name i) None)) (seq 0 (S (length steps))).
Lemma list_ext {A} (l l' : list A) : length l = length l' -> (forall i x y, nth_error l i = Some x -> nth_error l' i = Some y -> x = y) -> l = l'.
Proof.
  revert l'. induction l as [|x l IH]; intros [|y l'] Hl H; try discriminate; [reflexivity|]. f_equal; [apply (H 0); reflexivity|].
  apply IH; [injection Hl as Hl; exact Hl|]. intros i. apply (H (S i)).
Qed.
Lemma caps_of : map (fun n => upper_volume e (n_maxv n)) stores = caps.
Proof.
  unfold caps. apply list_ext; [rewrite !map_length, seq_length; apply (so_stores _ _ _ _ _ _ Hs)|]. intros i x y Ex Ey.
  rewrite nth_error_map in Ex, Ey. destruct (nth_error stores i) as [n|] eqn:En; [|discriminate]. injection Ex as <-.
  assert (Hi := nth_error_Some_lt _ _ _ En). rewrite (so_stores _ _ _ _ _ _ Hs) in Hi.
  rewrite (nth_error_nth' _ 0) in Ey by (rewrite seq_length; lia). rewrite seq_nth in Ey by lia. cbn in Ey. injection Ey as <-.
  destruct (stores_at i n En) as (_ & -> & _). reflexivity.
Qed.

Definition curves : list Q := map (fun s => before key t (so_curve s)) steps.
Lemma upper_curve i : i < length steps -> curve 1 (upper i) = nth i curves 0%Q.
Proof.
  intros Hi. unfold upper, curves. destruct (nth_error_lt_Some steps i Hi) as (s & Es). rewrite Es. cbn [option_map curve].
  erewrite nth_error_nth; [reflexivity|]. rewrite nth_error_map, Es. reflexivity.
Qed.
Lemma upper_top : upper (length steps) = None.
Proof. unfold upper. rewrite (proj2 (nth_error_None steps (length steps)) ltac:(lia)). reflexivity. Qed.
Lemma lower_upper i : i < length steps -> curve 0 (lower (S i)) = curve 1 (upper i).
Proof. intros Hi. unfold lower, upper. destruct (nth_error_lt_Some steps i Hi) as (s & ->). reflexivity. Qed.

Lemma prefix_sum i : i <= length steps -> (qsum (firstn i caps) == before key t total * curve 0 (lower i))%Q.
Proof.
  induction i as [|i IH]; intros Hi; [cbn [firstn qsum fold_right lower curve]; ring|].
  assert (Ei : firstn (S i) caps = firstn i caps ++ [before key t (UParam (max_volume_name name i) None)]).
  { unfold caps. rewrite !firstn_map, !firstn_seq by lia. rewrite seq_S, map_app. reflexivity. }
  rewrite Ei, qsum_app, IH by lia. rewrite qsum_cons. rewrite cap_value by (apply in_seq; lia). rewrite lower_upper by lia. cbn [qsum fold_right]. ring.
Qed.
Lemma caps_length : length caps = S (length steps).
Proof. unfold caps. rewrite map_length, seq_length. reflexivity. Qed.
Lemma caps_nth i c : nth_error caps i = Some c -> i <= length steps /\ c = before key t (UParam (max_volume_name name i) None).
Proof.
  intros E. assert (Hi := nth_error_Some_lt _ _ _ E). rewrite caps_length in Hi. split; [lia|]. unfold caps in E.
  rewrite nth_error_map in E. rewrite (nth_error_nth' _ 0) in E by (rewrite seq_length; lia). rewrite seq_nth in E by lia. cbn in E. injection E as <-. reflexivity.
Qed.
Lemma caps_sum : (qsum caps == before key t total)%Q.
Proof.
  assert (E : caps = firstn (length steps) caps ++ [before key t (UParam (max_volume_name name (length steps)) None)]).
  { unfold caps. rewrite !firstn_map, !firstn_seq by lia. rewrite seq_S, map_app. reflexivity. }
  rewrite E, qsum_app, prefix_sum by lia. rewrite qsum_cons, cap_value by (apply in_seq; lia). rewrite upper_top. cbn [curve qsum fold_right]. ring.
Qed.

Lemma ascending_nth l : forall lo hi i, ascending lo l hi -> i <= length l ->
  (match i with O => lo | S j => nth j l 0 end <= (if i <? length l then nth i l 0 else hi))%Q.
Proof.
  induction l as [|c r IH]; intros lo hi i Ha Hi; cbn [ascending length] in *.
  - replace i with 0 by lia. exact Ha.
  - destruct Ha as [H1 H2]. destruct i as [|i]; [exact H1|]. specialize (IH c hi i H2 ltac:(lia)).
    replace (S i <? S (length r)) with (i <? length r) by reflexivity. destruct i; exact IH.
Qed.
Lemma caps_nonneg : ascending 0 curves 1 -> (0 <= before key t total)%Q -> Forall (fun c => 0 <= c)%Q caps.
Proof.
  intros Ha Hv. apply Forall_forall. intros c Hc. destruct (In_nth_error _ _ Hc) as (i & Ei). destruct (caps_nth _ _ Ei) as (Hi & ->).
  rewrite cap_value by (apply in_seq; lia). apply Qmult_le_0_compat; [exact Hv|].
  assert (El : length curves = length steps) by (unfold curves; apply map_length).
  pose proof (ascending_nth curves 0 1 i Ha ltac:(lia)) as Hn. rewrite El in Hn.
  assert (Eu : curve 1 (upper i) = (if i <? length steps then nth i curves 0%Q else 1%Q)).
  { destruct (i <? length steps) eqn:E; [apply Nat.ltb_lt in E; apply upper_curve, E|]. apply Nat.ltb_ge in E. replace i with (length steps) by lia.
    rewrite upper_top. reflexivity. }
  assert (Eo : curve 0 (lower i) = match i with O => 0%Q | S j => nth j curves 0%Q end).
  { destruct i as [|j]; [reflexivity|]. rewrite lower_upper by lia. apply upper_curve. lia. }
  rewrite Eu, Eo. destruct i; lra.
Qed.
Lemma prior_is i : i <= length steps -> (before key t (UParam (prior_volume_name name i) None) == qsum (firstn i caps))%Q.
Proof.
  intros Hi. rewrite prior_value by (apply in_seq; lia). unfold caps. rewrite firstn_map, firstn_seq by lia. reflexivity.
Qed.

Lemma min_value i q : tmin = Some q -> i <= length steps -> Forall (fun c => 0 <= c)%Q caps ->
  (before key t (UParam (min_volume_name name i) None) ==
   Qmin (Qmax (before key t q - qsum (firstn i caps)) 0) (before key t (UParam (max_volume_name name i) None)))%Q.
Proof.
  intros Eq Hi Hc. assert (Hd : In (PDifference (min_volume_name name i) q (UParam (prior_volume_name name i) None)
      (Some (UConst 0)) (Some (UParam (max_volume_name name i) None))) (ad_params a)).
  { apply (params_in i); [apply in_seq; lia|]. unfold store_params. rewrite Eq. right. right. left. reflexivity. }
  destruct (fr_params _ _ _ _ _ _ Hr _ Hd t Ht) as (v & E & Ev). rewrite Ev. cbn [befores option_map] in E. change (before key t (UConst 0)) with 0%Q in E.
  rewrite (share_minimum _ _ _ _ (proj1 (Forall_forall _ _) Hc _ (in_map _ _ _ (proj2 (in_seq (S (length steps)) 0 i) ltac:(lia)))) E), <- prior_is by exact Hi. reflexivity.
Qed.
End Stores.

(** *** C43: the stores partition the reservoir *)

(** A piecewise storage with [n] control curves has [n + 1] stores, each
    connected to the next one in both directions, and an aggregated storage made
    of all of them. *)
Theorem C43_stores : forall key step sc a net tr t name total tmin cost steps init,
  file_run key step sc a net tr -> In t tr -> In (SPiecewiseStorage name total tmin cost steps init) (sc_nodes sc) ->
  exists indices stores, stores_of a net name (length steps) indices stores /\
    Forall (fun n => n_type n = TStorage) stores /\
    (forall i, i < length steps -> In (store_name name (S i), store_name name i) (ad_edges a) /\ In (store_name name i, store_name name (S i)) (ad_edges a)) /\
    exists whole, In whole (ad_agg_storages a) /\ Forall2 (declared (declaration a)) indices (snd whole).
Proof.
  intros key step sc a net tr t name total tmin cost steps init Hr Ht Hin.
  destruct (choose (fun i p => declared (declaration a) (fst p) (store_name name i) /\ nth_error (net_nodes net) (fst p) = Some (snd p) /\ n_type (snd p) = TStorage)
    (seq 0 (S (length steps)))) as (l & Hl).
  { intros i Hi. apply in_seq in Hi. destruct (store_built _ _ _ _ _ _ Hr _ _ _ _ _ _ _ Ht Hin i ltac:(lia)) as (k & n & H1 & H2 & H3 & _). exists (k, n). auto. }
  assert (El := Forall2_length' _ _ _ Hl). rewrite seq_length in El.
  assert (Hat : forall i p, nth_error l i = Some p ->
    declared (declaration a) (fst p) (store_name name i) /\ nth_error (net_nodes net) (fst p) = Some (snd p) /\ n_type (snd p) = TStorage).
  { intros i p Ei. apply (Forall2_nth_error _ _ _ i i p Hl); [|exact Ei]. assert (Hi := nth_error_Some_lt _ _ _ Ei).
    rewrite (nth_error_nth' _ 0) by (rewrite seq_length; lia). rewrite seq_nth by lia. reflexivity. }
  exists (map fst l), (map snd l). split; [constructor; rewrite ?map_length; auto|].
  { intros i k s Ek Es. rewrite nth_error_map in Ek, Es. destruct (nth_error l i) as [p|] eqn:E; [|discriminate]. injection Ek as <-. injection Es as <-.
    destruct (Hat i p E) as (H1 & H2 & _). auto. }
  pose proof (fr_steps _ _ _ _ _ _ Hr t Ht) as H. loaded H Hin Hpo. split; [|split].
  - apply Forall_forall. intros n Hn. apply in_map_iff in Hn. destruct Hn as (p & <- & Hp). destruct (In_nth_error _ _ Hp) as (i & Ei). apply (Hat i p Ei).
  - intros i Hi. split; apply (po_edges _ _ Hpo); unfold add_piecewise_storage; cbn [ad_edges]; apply in_flat_map; exists i;
      (split; [apply in_seq; lia | cbn; auto]).
  - exists (sub name "agg-store", map (store_name name) (seq 0 (S (length steps)))). split; [apply (po_agg_storages _ _ Hpo); left; reflexivity|]. cbn [snd].
    clear - Hl. induction Hl as [|i p is ps (H1 & _) _ IH]; cbn [map]; constructor; assumption.
Qed.
Print Assumptions C43_stores.

(** The capacities of the stores are the slices of the total volume between
    neighbouring control curves and they add up to it; whatever the curves
    are. *)
Theorem C43_capacities : forall key step sc a net tr t name total tmin cost steps init indices stores,
  file_run key step sc a net tr -> In t tr -> In (SPiecewiseStorage name total tmin cost steps init) (sc_nodes sc) ->
  stores_of a net name (length steps) indices stores ->
  let volume := before key t total in
  let curves := map (fun s => before key t (so_curve s)) steps in
  let capacities := map (fun n => upper_volume (st_env (rs_state t)) (n_maxv n)) stores in
  (qsum capacities == volume)%Q /\
  (forall i c, nth_error capacities i = Some c -> (c == volume * (nth i (curves ++ [1]) 0 - nth i (0 :: curves) 0))%Q) /\
  (ascending 0 curves 1 -> (0 <= volume)%Q -> Forall (fun c => 0 <= c)%Q capacities).
Proof.
  intros key step sc a net tr t name total tmin cost steps init indices stores Hr Ht Hin Hs. cbv zeta.
  rewrite (caps_of _ _ _ _ _ _ Hr _ _ _ _ _ _ _ Ht Hin _ _ Hs).
  split; [apply (caps_sum _ _ _ _ _ _ Hr _ _ _ _ _ _ _ Ht Hin)|]. split; [|apply (caps_nonneg _ _ _ _ _ _ Hr _ _ _ _ _ _ _ Ht Hin)].
  intros i c Ec. destruct (caps_nth _ _ _ _ _ _ Ec) as (Hi & ->).
  rewrite (cap_value _ _ _ _ _ _ Hr _ _ _ _ _ _ _ Ht Hin) by (apply in_seq; lia).
  assert (El : length (map (fun s => before key t (so_curve s)) steps) = length steps) by apply map_length.
  assert (Eu : curve key t 1 (upper steps i) = nth i (map (fun s => before key t (so_curve s)) steps ++ [1%Q]) 0%Q).
  { destruct (Nat.eq_dec i (length steps)) as [->|Hn].
    - rewrite upper_top, app_nth2, El, Nat.sub_diag by lia. reflexivity.
    - rewrite app_nth1 by lia. apply upper_curve. lia. }
  assert (Eo : curve key t 0 (lower steps i) = nth i (0%Q :: map (fun s => before key t (so_curve s)) steps) 0%Q).
  { destruct i as [|j]; [reflexivity|]. rewrite lower_upper by lia. cbn [nth]. apply upper_curve. lia. }
  rewrite Eu, Eo. reflexivity.
Qed.
Print Assumptions C43_capacities.

(** The stores' minimum volumes are the reservoir's, filled from the bottom. *)
Theorem C43_minimum : forall key step sc a net tr t name total tmin cost steps init indices stores,
  file_run key step sc a net tr -> In t tr -> In (SPiecewiseStorage name total (Some tmin) cost steps init) (sc_nodes sc) ->
  stores_of a net name (length steps) indices stores ->
  ascending 0 (map (fun s => before key t (so_curve s)) steps) 1 ->
  (0 <= before key t tmin)%Q -> (before key t tmin <= before key t total)%Q ->
  filled (map (fun n => upper_volume (st_env (rs_state t)) (n_maxv n)) stores)
         (map (fun n => lower_volume (st_env (rs_state t)) (n_minv n)) stores) (before key t tmin).
Proof.
  intros key step sc a net tr t name total tmin cost steps init indices stores Hr Ht Hin Hs Ha H0 H1.
  rewrite (caps_of _ _ _ _ _ _ Hr _ _ _ _ _ _ _ Ht Hin _ _ Hs).
  assert (Hc := caps_nonneg _ _ _ _ _ _ Hr _ _ _ _ _ _ _ Ht Hin Ha ltac:(lra)).
  eapply filled_ext; [|apply fill_filled; [exact Hc | exact H0 | rewrite (caps_sum _ _ _ _ _ _ Hr _ _ _ _ _ _ _ Ht Hin); exact H1]].
  apply fill_pointwise; [rewrite map_length, caps_length; apply (so_stores _ _ _ _ _ _ Hs)|]. intros i c l Ec El.
  destruct (caps_nth _ _ _ _ _ _ Ec) as (Hi & ->). rewrite nth_error_map in El. destruct (nth_error stores i) as [n|] eqn:En; [|discriminate]. injection El as <-.
  destruct (stores_at _ _ _ _ _ _ Hr _ _ _ _ _ _ _ Ht Hin _ _ Hs i n En) as (_ & _ & E & _). rewrite E.
  exact (min_value _ _ _ _ _ _ Hr _ _ _ _ _ _ _ Ht Hin i tmin eq_refl Hi Hc).
Qed.
Print Assumptions C43_minimum.

(** What the file asks the reservoir to start with. *)
Lemma starting_levels key step sc a net tr t name total tmin cost steps init indices stores ts st :
  file_run key step sc a net tr -> In t tr -> In (SPiecewiseStorage name total tmin cost steps init) (sc_nodes sc) ->
  stores_of a net name (length steps) indices stores ->
  is_first ts = true -> before_phase net (st_env (rs_state t)) ts (initial_state net) = Ok st ->
  exists levels, rmap (get_node_volume st) indices = Ok levels /\
    Forall2 Qeq levels (fill (initial_amount init (before key t total)) (map (fun n => upper_volume (st_env (rs_state t)) (n_maxv n)) stores)).
Proof.
  intros Hr Ht Hin Hs Hf Hb. rewrite (caps_of _ _ _ _ _ _ Hr _ _ _ _ _ _ _ Ht Hin _ _ Hs).
  assert (Hv : forall i k n, nth_error indices i = Some k -> nth_error stores i = Some n -> exists v, get_node_volume st k = Ok v /\
     (v == Qmin (Qmax (initial_amount init (before key t total) - qsum (firstn i (caps key t name steps))) 0) (before key t (UParam (max_volume_name name i) None)))%Q).
  { intros i k n Ek En. destruct (store_as_built _ _ _ _ _ _ Hr _ _ _ _ _ _ _ Ht Hin _ _ Hs i k n Ek En) as (Hn & Hty & Hm & _ & Hi).
    assert (Hlt := nth_error_Some_lt _ _ _ Ek). rewrite (so_indices _ _ _ _ _ _ Hs) in Hlt.
    destruct (before_volume net _ _ _ _ k n (initial_state_of net) Hb Hn Hty) as (v0 & v & _ & Ev & Hv). rewrite Hf in Hv. exists v. split; [exact Ev|]. rewrite Hv, Hi, Hm.
    rewrite <- (prior_is _ _ _ _ _ _ Hr _ _ _ _ _ _ _ Ht Hin i ltac:(lia)). unfold store_init.
    destruct init as [q|q]; cbn [starting_volume initial_amount upper_volume]; [reflexivity|].
    change (metric_value (st_env (rs_state t)) (to_metric key total)) with (before key t total).
    setoid_replace (before key t total * q)%Q with (q * before key t total)%Q by ring. reflexivity. }
  assert (Hok : exists levels, Forall2 (fun k v => get_node_volume st k = Ok v) indices levels).
  { apply choose. intros k Hk. destruct (In_nth_error _ _ Hk) as (i & Ek). assert (Hlt := nth_error_Some_lt _ _ _ Ek).
    rewrite (so_indices _ _ _ _ _ _ Hs), <- (so_stores _ _ _ _ _ _ Hs) in Hlt. destruct (nth_error_lt_Some stores i Hlt) as (n & En).
    destruct (Hv i k n Ek En) as (v & E & _). exists v. exact E. }
  destruct Hok as (levels & Hl). exists levels.
  assert (El := Forall2_length' _ _ _ Hl). rewrite (so_indices _ _ _ _ _ _ Hs) in El. split.
  - clear - Hl. induction Hl as [|k v ks vs E _ IH]; cbn [rmap]; [reflexivity|]. rewrite E, IH. reflexivity.
  - apply fill_pointwise; [rewrite caps_length; auto|]. intros i c l Ec Ei. destruct (caps_nth _ _ _ _ _ _ Ec) as (Hi & ->).
    destruct (nth_error_lt_Some indices i) as (k & Ek); [rewrite (so_indices _ _ _ _ _ _ Hs); lia|].
    destruct (nth_error_lt_Some stores i) as (n & En); [rewrite (so_stores _ _ _ _ _ _ Hs); lia|].
    destruct (Hv i k n Ek En) as (v & E & Hq). pose proof (Forall2_nth_error _ _ _ i k l Hl Ek Ei) as E'. cbn beta in E'. rewrite E in E'. injection E' as <-. exact Hq.
Qed.

(** At the first time-step the stores hold the water the file asks for, filled
    from the bottom, and that is the volume the piecewise storage reports. *)
Theorem C43_initial : forall key step sc a net tr t name total tmin cost steps init indices stores ts st,
  file_run key step sc a net tr -> In t tr -> In (SPiecewiseStorage name total tmin cost steps init) (sc_nodes sc) ->
  stores_of a net name (length steps) indices stores ->
  ascending 0 (map (fun s => before key t (so_curve s)) steps) 1 ->
  let amount := initial_amount init (before key t total) in
  (0 <= amount)%Q -> (amount <= before key t total)%Q ->
  is_first ts = true -> before_phase net (st_env (rs_state t)) ts (initial_state net) = Ok st ->
  exists levels, rmap (get_node_volume st) indices = Ok levels /\
    filled (map (fun n => upper_volume (st_env (rs_state t)) (n_maxv n)) stores) levels amount /\
    exists q, agg_storage_volume st indices = Ok q /\ (q == amount)%Q.
Proof.
  intros key step sc a net tr t name total tmin cost steps init indices stores ts st Hr Ht Hin Hs Ha amount H0 H1 Hf Hb.
  destruct (starting_levels _ _ _ _ _ _ _ _ _ _ _ _ _ _ _ _ _ Hr Ht Hin Hs Hf Hb) as (levels & El & Hl). exists levels. split; [exact El|].
  rewrite (caps_of _ _ _ _ _ _ Hr _ _ _ _ _ _ _ Ht Hin _ _ Hs) in *.
  assert (Hfl : filled (caps key t name steps) levels amount).
  { eapply filled_ext; [exact Hl|]. apply fill_filled; [apply (caps_nonneg _ _ _ _ _ _ Hr _ _ _ _ _ _ _ Ht Hin Ha); lra | exact H0|].
    rewrite (caps_sum _ _ _ _ _ _ Hr _ _ _ _ _ _ _ Ht Hin). exact H1. }
  split; [exact Hfl|]. exists (qsum levels). unfold agg_storage_volume. rewrite El. split; [reflexivity | apply (fl_total _ _ _ Hfl)].
Qed.
Print Assumptions C43_initial.

(** Asked for more than fits, the stores start full: the rest is dropped
    without an error. *)
Lemma fill_over caps : forall amount, Forall (fun c => 0 <= c)%Q caps -> (qsum caps <= amount)%Q -> Forall2 Qeq (fill amount caps) caps.
Proof.
  induction caps as [|c r IH]; intros amount Hc Hs; [constructor|]. inversion Hc as [|? ? H1 H2]; subst. rewrite qsum_cons in Hs. cbn [fill].
  assert (H0 : (0 <= qsum r)%Q) by (clear - H2; induction H2 as [|c r H _ IH]; [apply Qle_refl | rewrite qsum_cons; lra]).
  constructor; [rewrite Q.max_l by lra; rewrite Q.min_r by lra; reflexivity | apply IH; [exact H2 | lra]].
Qed.
Theorem C43_excess_is_dropped : forall key step sc a net tr t name total tmin cost steps init indices stores ts st,
  file_run key step sc a net tr -> In t tr -> In (SPiecewiseStorage name total tmin cost steps init) (sc_nodes sc) ->
  stores_of a net name (length steps) indices stores ->
  ascending 0 (map (fun s => before key t (so_curve s)) steps) 1 ->
  (0 <= before key t total)%Q -> (before key t total <= initial_amount init (before key t total))%Q ->
  is_first ts = true -> before_phase net (st_env (rs_state t)) ts (initial_state net) = Ok st ->
  exists levels, rmap (get_node_volume st) indices = Ok levels /\
    Forall2 Qeq levels (map (fun n => upper_volume (st_env (rs_state t)) (n_maxv n)) stores) /\
    exists q, agg_storage_volume st indices = Ok q /\ (q == before key t total)%Q.
Proof.
  intros key step sc a net tr t name total tmin cost steps init indices stores ts st Hr Ht Hin Hs Ha H0 H1 Hf Hb.
  destruct (starting_levels _ _ _ _ _ _ _ _ _ _ _ _ _ _ _ _ _ Hr Ht Hin Hs Hf Hb) as (levels & El & Hl). exists levels. split; [exact El|].
  rewrite (caps_of _ _ _ _ _ _ Hr _ _ _ _ _ _ _ Ht Hin _ _ Hs) in *.
  assert (Hfl : Forall2 Qeq levels (caps key t name steps)).
  { assert (Ho := fill_over (caps key t name steps) (initial_amount init (before key t total)) (caps_nonneg _ _ _ _ _ _ Hr _ _ _ _ _ _ _ Ht Hin Ha H0)).
    rewrite (caps_sum _ _ _ _ _ _ Hr _ _ _ _ _ _ _ Ht Hin) in Ho. specialize (Ho H1). revert Hl Ho. generalize (fill (initial_amount init (before key t total)) (caps key t name steps)). generalize (caps key t name steps).
    clear. intros cs fs Hl. revert cs. induction Hl as [|x y l l' E _ IH]; intros cs Ho; inversion Ho as [|? c ? cs' E1 E2]; subst; constructor; [rewrite E; exact E1 | apply IH, E2]. }
  split; [exact Hfl|]. exists (qsum levels). unfold agg_storage_volume. rewrite El. split; [reflexivity|].
  rewrite <- (caps_sum _ _ _ _ _ _ Hr _ _ _ _ _ _ _ Ht Hin). clear - Hfl. induction Hfl as [|x y l l' E _ IH]; [reflexivity|]. rewrite !qsum_cons, E, IH. reflexivity.
Qed.
Print Assumptions C43_excess_is_dropped.

(** A reservoir of 100 with curves at 3/10 and 7/10, a minimum of 35 and an
    initial volume of 1/2. *)
Definition ex_pw_key (m : umetric) : nat :=
  match m with
  | UParam (_, p) _ => fold_right (fun q k => if String.eqb p (fst q) then snd q else k) 0
      [("store-00-max-volume", 4); ("store-01-max-volume", 5); ("store-02-max-volume", 6);
       ("store-00-prior-max-volume", 7); ("store-01-prior-max-volume", 8); ("store-02-prior-max-volume", 9);
       ("store-00-min-volume", 10); ("store-01-min-volume", 11); ("store-02-min-volume", 12)]
  | _ => 0
  end.
Definition ex_pw (c1 c2 : Q) (init : sinit) : schema :=
  mkSchema [SInput "in" None None None;
            SPiecewiseStorage "r" (UConst 100) (Some (UConst 35)) None [mkStore (UConst c1) None; mkStore (UConst c2) None] init;
            SOutput "out" None None None] [] [ex_edge "in" "r"; ex_edge "r" "out"].
Definition ex_pw_vals := [0; 0; 0; 0; 30; 40; 30; 0; 30; 70; 30; 5; 0]%Q.
Definition ex_pw_run : list (list Q * list Q * (umetric -> Q)) :=
  [(ex_pw_vals, [0; 0; 20; 0; 0; 0; 20; 30], fun m => match m with UConst q => q | _ => 0 end)]%Q.
Example C43_example :
  let sc := ex_pw (3#10) (7#10) (SIProportional (1#2)) in
  let a := ex_run_added ex_pw_key sc in
  let net := ex_run_net ex_pw_key sc in
  let e := fun k => nth k ex_pw_vals 0%Q in
  file_run ex_pw_key None sc a net (ex_steps ex_pw_key sc ex_pw_run) /\
  ascending 0 [3#10; 7#10] 1 /\
  stores_of a net "r" 2 [1; 2; 3] (firstn 3 (skipn 1 (net_nodes net))) /\
  exists st, before_phase net e (Timestep (DateTime (Date 2021 6 1) 0) 0 NS_PER_DAY) (initial_state net) = Ok st /\
    exists v0 v1 v2, rmap (get_node_volume st) [1; 2; 3] = Ok [v0; v1; v2] /\ (v0 == 30 /\ v1 == 20 /\ v2 == 0)%Q.
Proof.
  cbv zeta. split; [apply ex_file_run; vm_compute; reflexivity|]. split; [cbn; repeat split; lra|].
  split; [constructor; [reflexivity | reflexivity |]; intros [|[|[|i]]] k s Ek Es; try (destruct i; discriminate); cbn in Ek; injection Ek as <-;
          (split; [reflexivity | vm_compute in Es; injection Es as <-; reflexivity])|].
  eexists. split; [vm_compute; reflexivity|]. eexists. eexists. eexists. split; [vm_compute; reflexivity|]. repeat split; vm_compute; reflexivity.
Qed.

(** The order of the control curves is not checked: a file with curves at 7/10
    and 3/10 is loaded and its middle store is given a negative capacity. *)
Theorem C43_unordered_curves_refuted : exists sc a net name total tmin cost lo hi init p q,
  load_schema ex_pw_key None sc = Ok a /\ build_network (declaration a) = Ok net /\
  In (SPiecewiseStorage name (UConst total) tmin cost [mkStore (UConst lo) None; mkStore (UConst hi) None] init) (sc_nodes sc) /\
  In (PVolumeBetween p (UConst total) (Some (UConst hi)) (Some (UConst lo))) (ad_params a) /\
  volume_between (Ok total) (Some (Ok hi)) (Some (Ok lo)) = Ok q /\ (0 < total)%Q /\ (q < 0)%Q.
Proof.
  exists (ex_pw (7#10) (3#10) (SIProportional (1#2))), (ex_run_added ex_pw_key (ex_pw (7#10) (3#10) (SIProportional (1#2)))),
    (ex_run_net ex_pw_key (ex_pw (7#10) (3#10) (SIProportional (1#2)))), "r", 100%Q, (Some (UConst 35)), None, (7#10), (3#10), (SIProportional (1#2)).
  eexists. eexists. split; [vm_compute; reflexivity|]. split; [vm_compute; reflexivity|]. split; [right; left; reflexivity|].
  split; [vm_compute; do 3 right; left; reflexivity|]. split; [reflexivity|]. split; vm_compute; reflexivity.
Qed.
Print Assumptions C43_unordered_curves_refuted.

(** The edges of the file lead to and from every store but the top one, which
    is reached through the one below it.  So a reservoir without control curves,
    which has only a top store, is cut off: the file below, where an edge leads
    from an input to it and another one from it to an output, is rejected because
    the input has no outgoing edge. *)
Definition ex_pw_bare : schema :=
  mkSchema [SInput "in" None None None; SPiecewiseStorage "r" (UConst 100) None None [] (SIProportional 1); SOutput "out" None None None] []
           [ex_edge "in" "r"; ex_edge "r" "out"].
Theorem C43_no_curves_cut_off_refuted : exists sc a name from to,
  load_schema ex_pw_key None sc = Ok a /\
  In (SPiecewiseStorage name (UConst 100) None None [] (SIProportional 1)) (sc_nodes sc) /\
  sc_edges sc = [ex_edge from name; ex_edge name to] /\
  build_network (declaration a) = Err (NoOutgoingEdges (whole from)).
Proof.
  exists ex_pw_bare, (ex_run_added ex_pw_key ex_pw_bare), "r", "in", "out".
  split; [vm_compute; reflexivity|]. split; [right; left; reflexivity|]. split; reflexivity.
Qed.
Print Assumptions C43_no_curves_cut_off_refuted.
