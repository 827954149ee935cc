(** C67: virtual storages and aggregated storages of a model file. *)
From Coq Require Import Lqa.
From Verif Require Import Base Calendar Timestep Network NetworkBuild NetworkSpec NetworkBuildLemmas Lp LpSpec LpRowLemmas Props_Network Props_Lp
  Props_LpRel NetState NetStateSpec NetRunLemmas NetHistLemmas Props_NetState SchemaNodes SchemaMetrics SchemaSpec SchemaLemmas SchemaNodeLemmas SchemaEdgeLemmas Props_Schema
  Props_SchemaEdges Props_SchemaMore SchemaRunCheck SchemaVirtual SchemaVirtualSpec SchemaVirtualLemmas SchemaVirtualRefs.
Local Open Scope string_scope.
Local Open Scope list_scope.
Local Open Scope nat_scope.

(** *** Seasons *)
Lemma after_b m1 d1 m2 d2 : ((m1 <? m2) || ((m1 =? m2) && (d1 <=? d2)))%Z%bool = true <-> not_after m1 d1 m2 d2.
Proof.
  unfold not_after. rewrite orb_true_iff, andb_true_iff, Z.ltb_lt, Z.eqb_eq, Z.leb_le. reflexivity.
Qed.
Lemma season_active r d : vs_is_active (to_period r) d = true <-> in_season r d.
Proof.
  destruct r as [[|dd mm|n|sd sm ed em]|]; cbn [to_period vs_is_active in_season]; try tauto.
  set (A := ((sm <? d_month d) || ((d_month d =? sm) && (sd <=? d_day d)))%Z%bool).
  set (B := ((d_month d <? em) || ((d_month d =? em) && (d_day d <=? ed)))%Z%bool).
  set (C := ((sm <? em) || ((sm =? em) && (sd <=? ed)))%Z%bool).
  assert (HA : A = true <-> not_after sm sd (d_month d) (d_day d)).
  { unfold A. rewrite (Z.eqb_sym (d_month d) sm). apply after_b. }
  assert (HB : B = true <-> not_after (d_month d) (d_day d) em ed) by apply after_b.
  assert (HC : C = true <-> not_after sm sd em ed) by apply after_b.
  rewrite <- HA, <- HB, <- HC. destruct A, B, C; cbn; intuition congruence.
Qed.

(** *** The virtual storage that a file's node becomes *)
Lemma Forall2_concat {A B} (R : A -> B -> Prop) gs l : Forall2 R (concat gs) l -> exists ls, l = concat ls /\ Forall2 (Forall2 R) gs ls.
Proof.
  revert l. induction gs as [|g gs IH]; intros l HF; cbn [concat] in HF.
  - inversion HF; subst. exists []. split; [reflexivity | constructor].
  - apply Forall2_app_inv_l in HF. destruct HF as (l1 & l2 & F1 & F2 & ->). destruct (IH _ F2) as (ls & -> & F). exists (l1 :: ls). split; [reflexivity | constructor; assumption].
Qed.
Lemma singles {A} (gs : list (list A)) : Forall (fun g => exists u, g = [u]) gs -> gs = map (fun u => [u]) (concat gs).
Proof. intros HF. induction HF as [|g gs (u & ->) HF IH]; [reflexivity|]. cbn [concat app map]. f_equal. exact IH. Qed.

Section Licence.
Variables (key : umetric -> nat) (step : option Z) (sc : schema) (a : added) (net : network).
Hypotheses (Hload : load_schema key step sc = Ok a) (Hbuild : build_network (declaration a) = Ok net).
Local Notation b := (declaration a).

Record licence (name : string) (refs : list node_ref) (fs : option (list Q)) (mn mx : option umetric) (i : sinit) (r : option sreset)
    (rv : option vs_reset_volume) (w : option swindow) (k : nat) (v : vs_node) (groups : list (list uname)) (gs : list (list nat)) : Prop := {
  li_at : nth_error (net_vss net) k = Some v;
  li_index : vs_index a (whole name) = Some k;
  li_groups : rmap (ref_nodes sc) refs = Ok groups;
  li_nodes : v_nodes v = concat gs;
  li_declared : Forall2 (Forall2 (fun u i => declared b i u)) groups gs;
  li_factors : v_factors v = match fs with Some l => l | None => repeat 1%Q (length (concat groups)) end;
  li_init : v_init v = to_init i;
  li_minv : v_minv v = to_metrics key mn;
  li_maxv : v_maxv v = to_metrics key mx;
  li_reset : v_reset v = to_reset r;
  li_reset_volume : v_reset_volume v = match rv with Some x => x | None => ResetInitial end;
  li_window : match w with None => v_window v = None | Some w => exists n, as_timesteps step w = Some n /\ v_window v = Some n end;
  li_period : v_period v = to_period r }.

Lemma loaded_vs name refs fs c mn mx i r rv w : In (VStorage name refs fs c mn mx i r rv w) (sc_vnodes sc) ->
  exists k v groups gs, licence name refs fs mn mx i r rv w k v groups gs.
Proof.
  intros Hv. destruct (loaded_vnode _ _ _ _ Hload _ Hv) as (p & Hp & Hpo). cbn [add_vnode] in Hp. apply rbind_Ok in Hp. destruct Hp as (groups & Hg & Hp).
  apply rbind_Ok in Hp. destruct Hp as (win & Hw & Hp). injection Hp as <-.
  set (vb := mkVb (whole name) (concat groups) fs (to_init i) (to_metrics key mn) (to_metrics key mx) (to_reset r)
                  (match rv with Some x => x | None => ResetInitial end) win (to_period r) (to_metrics key c)) in Hpo.
  assert (Hin : In vb (ad_vss a)) by (apply (po_vss _ _ Hpo); left; reflexivity).
  destruct (In_nth_error _ _ Hin) as (k & Hk). destruct (C37_references_as_declared _ _ Hbuild) as (_ & HF & _).
  change (b_vss b) with (ad_vss a) in HF. destruct (nth_error (net_vss net) k) as [v|] eqn:Ev.
  2: { apply nth_error_None in Ev. apply nth_error_Some_lt in Hk. rewrite <- (Forall2_length' _ _ _ HF) in Ev. lia. }
  destruct (Forall2_nth_error _ _ _ k vb v HF Hk Ev) as (F1 & F2 & F3 & F4 & F5 & F6 & F7 & F8 & F9 & _). cbn [vb vb_nodes vb_factors vb_init vb_minv vb_maxv vb_reset vb_reset_volume vb_window vb_period] in *.
  destruct (Forall2_concat _ _ _ F1) as (gs & Egs & FG). exists k, v, groups, gs. constructor; try assumption.
  - unfold vs_index. change (whole name) with (vb_name vb). apply position_nodup; [|exact Hk]. exact (proj1 (proj2 (proj2 (C57_names_never_collide _ _ _ _ Hload)))).
  - destruct w as [w|]; [|injection Hw as <-; exact F8]. destruct (as_timesteps step w) as [n|]; [|discriminate Hw]. injection Hw as <-. exists n. split; [reflexivity | exact F8].
Qed.

Lemma single_flow net' f j : (group_flow net' f [j] == node_flow net' f j)%Q.
Proof. unfold group_flow, qsum. cbn [map fold_right]. ring. Qed.
(** The file says how a reference's flow is weighted. *)
Definition weighted (refs : list node_ref) (fs : option (list Q)) : Prop :=
  match fs with None => True | Some l => length l = length refs /\ Forall (one_part sc) refs end.
Lemma licence_use name refs fs mn mx i r rv w k v groups gs s x :
  licence name refs fs mn mx i r rv w k v groups gs -> simulated key step sc a net s x -> weighted refs fs ->
  exists qs, Forall2 (ref_flow sc a net x) refs qs /\ (vs_use net (edge_flow net x) v == dot (ref_factors refs fs) qs)%Q.
Proof.
  intros L H Hwt. exists (map (group_flow net (edge_flow net x)) gs). split; [exact (refs_flows _ _ _ _ _ _ _ H _ _ _ (li_groups _ _ _ _ _ _ _ _ _ _ _ _ _ L) (li_declared _ _ _ _ _ _ _ _ _ _ _ _ _ L))|].
  unfold vs_use, vs_terms. rewrite (li_nodes _ _ _ _ _ _ _ _ _ _ _ _ _ L), (li_factors _ _ _ _ _ _ _ _ _ _ _ _ _ L).
  pose proof (li_declared _ _ _ _ _ _ _ _ _ _ _ _ _ L) as HD. pose proof (proj1 (rmap_Ok_Forall2 _ _ _) (li_groups _ _ _ _ _ _ _ _ _ _ _ _ _ L)) as HG.
  destruct fs as [l|]; cbn [ref_factors weighted] in *.
  - destruct Hwt as [Hl Hone]. clear L H. revert gs HD l Hl. induction HG as [|rf g refs groups E HG IH]; intros gs HD l Hl; inversion HD as [|? js ? gs' Fj HD']; subst.
    + destruct l; [reflexivity | discriminate Hl].
    + destruct l as [|q l]; [discriminate Hl|]. inversion Hone as [|? ? (u & Eu) Hone']; subst. rewrite E in Eu. injection Eu as ->.
      inversion Fj as [|? j ? ? Fj1 Fj2]; subst. inversion Fj2; subst. cbn [concat app combine map]. rewrite qsum_cons. cbn [fst snd].
      injection Hl as Hl. rewrite (IH Hone' _ HD' l Hl). unfold dot. cbn [combine map]. rewrite qsum_cons. cbn [fst snd]. rewrite single_flow. reflexivity.
  - assert (E : length (concat groups) = length (concat gs)).
    { clear -HD. induction HD as [|g js groups gs F HD IH]; [reflexivity|]. cbn [concat]. rewrite !app_length, IH, (Forall2_length' _ _ _ F). reflexivity. }
    rewrite E. clear E. assert (E1 : (qsum (map (fun t => snd t * node_flow net (edge_flow net x) (fst t)) (combine (concat gs) (repeat 1 (length (concat gs))))) == group_flow net (edge_flow net x) (concat gs))%Q).
    { unfold group_flow. generalize (concat gs) as l. induction l as [|j l IH]; [reflexivity|]. cbn [length repeat combine map]. rewrite !qsum_cons, IH. cbn [fst snd]. ring. }
    rewrite E1, group_flow_concat. clear E1. assert (El : length refs = length gs) by (rewrite (Forall2_length' _ _ _ HG); exact (Forall2_length' _ _ _ HD)).
    clear -El. revert gs El. induction refs as [|rf refs IH]; intros [|g gs] El; try discriminate El; [reflexivity|]. injection El as El. unfold dot in *. cbn [map combine]. rewrite !qsum_cons, (IH gs El). cbn [fst snd]. ring.
Qed.
End Licence.

Lemma value_lower key e m : lower_volume e (to_metrics key m) = file_value key e m 0%Q.
Proof. destruct m; reflexivity. Qed.
Lemma value_upper key e m : upper_volume e (to_metrics key m) = file_value key e m F64_MAX.
Proof. destruct m; reflexivity. Qed.
Lemma value_target key e mx i rv v : v_init v = to_init i -> v_maxv v = to_metrics key mx -> v_reset_volume v = match rv with Some x => x | None => ResetInitial end ->
  reset_target e v = file_target key e mx i rv.
Proof.
  intros E1 E2 E3. unfold reset_target, file_target. rewrite E1, E2, E3. destruct rv as [[|]|], i; cbn [to_init starting_volume]; rewrite <- ?value_upper; reflexivity.
Qed.
Lemma file_rule key step sc a net name refs fs mn mx i r rv w k v groups gs steps R :
  licence key step sc a net name refs fs mn mx i r rv w k v groups gs -> file_reset r steps R -> reset_rule v steps R.
Proof.
  intros L HR j p Hj. cbv zeta. rewrite (HR j p Hj). cbv zeta. rewrite (li_period _ _ _ _ _ _ _ _ _ _ _ _ _ _ _ _ _ _ L), (li_reset _ _ _ _ _ _ _ _ _ _ _ _ _ _ _ _ _ _ L).
  rewrite <- season_active, not_true_iff_false. destruct r as [[|dd mm|n|sd sm ed em]|]; reflexivity.
Qed.

(** *** Virtual storages *)

(** In season, a virtual storage falls by what the references carry, each times
    its factor; out of season it does not change.  It stays within its limits.
    Full statement: for all factors.  Proved without factors and for references
    to nodes that are not made of several parts; the others fail (below). *)
Theorem C67_virtual_storage_partial : forall key step sc a net fm order ss e t st x st2 name refs fs c mn mx i r rv w q,
  load_schema key step sc = Ok a -> build_network (declaration a) = Ok net ->
  state_of net st -> solved net fm order ss (lp_state_of st e t) x -> (0 < ts_days t)%Q -> after_solve net e t (edge_flow net x) st = Ok st2 ->
  let v := VStorage name refs fs c mn mx i r rv w in
  In v (sc_vnodes sc) -> match fs with None => True | Some l => length l = length refs /\ Forall (one_part sc) refs end ->
  vnode_volume_is a st v (Some AtVolume) q -> (file_value key e mn 0 <= q <= file_value key e mx F64_MAX)%Q ->
  exists qs q2, Forall2 (ref_flow sc a net x) refs qs /\ vnode_volume_is a st2 v (Some AtVolume) q2 /\
    (file_value key e mn 0 <= q2 <= file_value key e mx F64_MAX)%Q /\
    (in_season r (ts_day t) -> (q2 == q - ts_days t * dot (ref_factors refs fs) qs)%Q) /\
    (~ in_season r (ts_day t) -> (q2 == q)%Q).
Proof.
  intros key step sc a net fm order ss e t st x st2 name refs fs c mn mx i r rv w q Hl Hb Hst Hx Hd Ha v Hv Hwt Hq B.
  destruct (loaded_vs _ _ _ _ _ Hl Hb _ _ _ _ _ _ _ _ _ _ Hv) as (k & vn & groups & gs & L).
  assert (H : simulated key step sc a net (lp_state_of st e t) x) by (constructor; [exact Hl | exact Hb | exists fm, order, ss; exact Hx]).
  destruct (licence_use _ _ _ _ _ _ _ _ _ _ _ _ _ _ _ _ _ _ _ _ L H Hwt) as (qs & HF & Eu). exists qs.
  destruct Hq as (m & r0 & Em & Er & (q' & -> & Eq)). injection Em as <-. cbn [vvolume_value] in Er. rewrite (li_index _ _ _ _ _ _ _ _ _ _ _ _ _ _ _ _ _ _ L) in Er. injection Er as Er.
  destruct (C16_virtual_storage_use net fm order ss e t st x st2 k vn q' (C37_built_well_formed _ _ Hb) Hst Hx Hd Ha (li_at _ _ _ _ _ _ _ _ _ _ _ _ _ _ _ _ _ _ L) Er) as (q2 & Eq2 & B2 & Hq2).
  { rewrite (li_minv _ _ _ _ _ _ _ _ _ _ _ _ _ _ _ _ _ _ L), (li_maxv _ _ _ _ _ _ _ _ _ _ _ _ _ _ _ _ _ _ L), value_lower, value_upper, Eq. exact B. }
  rewrite (li_minv _ _ _ _ _ _ _ _ _ _ _ _ _ _ _ _ _ _ L), (li_maxv _ _ _ _ _ _ _ _ _ _ _ _ _ _ _ _ _ _ L), value_lower, value_upper in B2.
  exists q2. split; [exact HF|]. split.
  { exists (VmVsVolume (whole name)), (Ok q2). split; [reflexivity|]. cbn [vvolume_value]. rewrite (li_index _ _ _ _ _ _ _ _ _ _ _ _ _ _ _ _ _ _ L). cbn [option_map]. rewrite Eq2.
    split; [reflexivity|]. exists q2. split; reflexivity. }
  split; [exact B2|]. rewrite <- season_active. rewrite (li_period _ _ _ _ _ _ _ _ _ _ _ _ _ _ _ _ _ _ L) in Hq2. destruct (vs_is_active (to_period r) (ts_day t)).
  - split; [intros _; rewrite Hq2, Eu, Eq; reflexivity | intros N; exfalso; apply N; reflexivity].
  - split; [intros N; discriminate N | intros _; rewrite Hq2; exact Eq].
Qed.
Print Assumptions C67_virtual_storage_partial.

(** Without a rolling window: on a reset the volume is set to the declared one,
    and otherwise a time-step starts with the volume the last one ended with. *)
Theorem C67_resets : forall key step sc a net fm order steps name refs fs c mn mx i r rv R,
  load_schema key step sc = Ok a -> build_network (declaration a) = Ok net -> run net fm order steps -> numbered steps ->
  let v := VStorage name refs fs c mn mx i r rv None in
  In v (sc_vnodes sc) -> file_reset r steps R ->
  forall j p, nth_error steps j = Some p ->
  exists q, vnode_volume_is a (sim_start p) v (Some AtVolume) q /\
    (R j -> (q == file_target key (sim_env p) mx i rv)%Q) /\
    (~ R j -> vnode_volume_is a (end_state net (firstn j steps)) v (Some AtVolume) q).
Proof.
  intros key step sc a net fm order steps name refs fs c mn mx i r rv R Hl Hb Hr Hn v Hv HR j p Hj.
  destruct (loaded_vs _ _ _ _ _ Hl Hb _ _ _ _ _ _ _ _ _ _ Hv) as (k & vn & groups & gs & L).
  destruct (C17_resets net fm order steps k vn R (C37_built_well_formed _ _ Hb) Hr Hn (li_at _ _ _ _ _ _ _ _ _ _ _ _ _ _ _ _ _ _ L) (li_window _ _ _ _ _ _ _ _ _ _ _ _ _ _ _ _ _ _ L)
    (file_rule _ _ _ _ _ _ _ _ _ _ _ _ _ _ _ _ _ _ _ _ L HR) j p Hj) as (q & Eq & HR1 & HR2).
  assert (Hvol : forall st, get_vs_volume st k = Ok q -> vnode_volume_is a st v (Some AtVolume) q).
  { intros st E. exists (VmVsVolume (whole name)), (Ok q). split; [reflexivity|]. cbn [vvolume_value]. rewrite (li_index _ _ _ _ _ _ _ _ _ _ _ _ _ _ _ _ _ _ L). cbn [option_map]. rewrite E.
    split; [reflexivity|]. exists q. split; reflexivity. }
  exists q. split; [exact (Hvol _ Eq)|]. split; [|intros N; exact (Hvol _ (HR2 N))]. intros Y. rewrite (HR1 Y).
  rewrite (value_target key _ mx i rv vn (li_init _ _ _ _ _ _ _ _ _ _ _ _ _ _ _ _ _ _ L) (li_maxv _ _ _ _ _ _ _ _ _ _ _ _ _ _ _ _ _ _ L) (li_reset_volume _ _ _ _ _ _ _ _ _ _ _ _ _ _ _ _ _ _ L)). reflexivity.
Qed.
Print Assumptions C67_resets.

Lemma window_of step w n n' : as_timesteps step w = Some n -> window_steps step w n' -> n = n'.
Proof.
  destruct w as [days|k]; cbn [as_timesteps window_steps]; [|intros E ->; injection E as <-; reflexivity]. intros E (s & Hs & -> & Hl & Hu).
  rewrite Z_mod_mult, Z.eqb_refl, Z_div_mult, Nat2Z.id in E by (unfold NS_DAY; lia). destruct (days / s =? 0) eqn:E0; [discriminate E|]. injection E as <-.
  symmetry. apply Nat.div_unique with (days - n' * s); cbn [Nat.mul] in Hu; [lia|]. rewrite (Nat.mul_comm s n'). lia.
Qed.
(** A window in days is accepted only if at least one time-step fits. *)
Theorem C67_window_days : forall key step sc a name refs fs c mn mx i r rv days,
  load_schema key step sc = Ok a -> In (VStorage name refs fs c mn mx i r rv (Some (SwDays days))) (sc_vnodes sc) ->
  (forall ns, step = Some ns -> (0 < ns)%Z) -> exists n, 1 <= n /\ window_steps step (SwDays days) n.
Proof.
  intros key step sc a name refs fs c mn mx i r rv days Hl Hv Hpos. destruct (loaded_vnode _ _ _ _ Hl _ Hv) as (p & Hp & _). cbn [add_vnode] in Hp. apply rbind_Ok in Hp. destruct Hp as (groups & Hg & Hp).
  apply rbind_Ok in Hp. destruct Hp as (win & Hw & _). cbn [as_timesteps] in Hw. destruct step as [ns|]; [|discriminate Hw]. specialize (Hpos ns eq_refl).
  destruct (Z.eqb_spec (ns mod NS_DAY) 0) as [E|E]; [|discriminate Hw]. destruct (days / Z.to_nat (ns / NS_DAY) =? 0) eqn:E0; [discriminate Hw|]. apply Nat.eqb_neq in E0.
  assert (Hns : ns = (NS_DAY * (ns / NS_DAY))%Z) by (apply Z_div_exact_full_2; [unfold NS_DAY; lia | exact E]).
  assert (Hp2 : (0 < ns / NS_DAY)%Z) by (revert Hns; generalize (ns / NS_DAY)%Z; intros y Hy; unfold NS_DAY in Hy; lia).
  exists (days / Z.to_nat (ns / NS_DAY)). split; [apply Nat.neq_0_lt_0; exact E0|]. exists (Z.to_nat (ns / NS_DAY)). split; [apply (proj1 (Z2Nat.inj_lt 0 _ (Z.le_refl 0) (Z.lt_le_incl _ _ Hp2))); exact Hp2|].
  split; [f_equal; rewrite Z2Nat.id by lia; rewrite Z.mul_comm; exact Hns|]. set (s := Z.to_nat (ns / NS_DAY)) in *. assert (Hs : s <> 0) by (unfold s; lia).
  pose proof (Nat.div_mod days s Hs). pose proof (Nat.mod_upper_bound days s Hs). cbn [Nat.mul]. lia.
Qed.
Print Assumptions C67_window_days.

(** With a rolling window of [n] time-steps, from a reset at time-step [r] to
    time-step [j] (see C18 for what is missing): what was used up to [n]
    time-steps ago has been returned. *)
Theorem C67_rolling_window_partial : forall key step sc a net fm order steps name refs fs c mn mx i rs rv win n R d r pr j,
  load_schema key step sc = Ok a -> build_network (declaration a) = Ok net -> run net fm order steps -> numbered steps ->
  let v := VStorage name refs fs c mn mx i rs rv (Some win) in
  In v (sc_vnodes sc) -> match fs with None => True | Some l => length l = length refs /\ Forall (one_part sc) refs end ->
  window_steps step win n -> 0 < n -> file_reset rs steps R ->
  nth_error steps r = Some pr -> R r -> r <= j -> j < length steps -> (forall l, r < l <= j -> ~ R l) ->
  (forall l p, r <= l <= j -> nth_error steps l = Some p ->
     in_season rs (ts_day (sim_t p)) /\ (ts_days (sim_t p) == d)%Q /\ vss_within net (sim_env p) (sim_start p)) ->
  let m := Nat.min (S j - r) n in
  exists us q, Forall2 (fun p u => exists qs, Forall2 (ref_flow sc a net (sim_x p)) refs qs /\ (u == dot (ref_factors refs fs) qs)%Q)
                       (skipn (S j - m) (firstn (S j) steps)) us /\
    vnode_volume_is a (end_state net (firstn (S j) steps)) v (Some AtVolume) q /\
    (q == file_target key (sim_env pr) mx i rv
          + d * (inject_Z (Z.of_nat m) / inject_Z (Z.of_nat n)) * (file_value key (sim_env pr) mx F64_MAX - file_target key (sim_env pr) mx i None)
          - d * qsum us)%Q.
Proof.
  intros key step sc a net fm order steps name refs fs c mn mx i rs rv win n R d r pr j Hl Hb Hr Hn v Hv Hwt Hw Hn0 HR Hpr HRr Hrj Hj Hno Hset m.
  destruct (loaded_vs _ _ _ _ _ Hl Hb _ _ _ _ _ _ _ _ _ _ Hv) as (k & vn & groups & gs & L).
  assert (Ew : v_window vn = Some n).
  { destruct (li_window _ _ _ _ _ _ _ _ _ _ _ _ _ _ _ _ _ _ L) as (n' & E1 & E2). rewrite (window_of _ _ _ _ E1 Hw) in E2. exact E2. }
  destruct (C18_rolling_window_partial net fm order steps k vn n R d r pr j (C37_built_well_formed _ _ Hb) Hr Hn (li_at _ _ _ _ _ _ _ _ _ _ _ _ _ _ _ _ _ _ L) Hn0 Ew
    (file_rule _ _ _ _ _ _ _ _ _ _ _ _ _ _ _ _ _ _ _ _ L HR) Hpr HRr Hrj Hj Hno) as (q & Eq & Hq).
  { intros l p Hlp Hp. destruct (Hset l p Hlp Hp) as (H1 & H2 & H3). rewrite (li_period _ _ _ _ _ _ _ _ _ _ _ _ _ _ _ _ _ _ L). split; [apply season_active; exact H1|]. split; assumption. }
  fold m in Hq.
  assert (HU : exists us, Forall2 (fun p u => exists qs, Forall2 (ref_flow sc a net (sim_x p)) refs qs /\ (u == dot (ref_factors refs fs) qs)%Q)
                                  (skipn (S j - m) (firstn (S j) steps)) us /\ (charges net vn (skipn (S j - m) (firstn (S j) steps)) == qsum us)%Q).
  { assert (Hall : forall p, In p (skipn (S j - m) (firstn (S j) steps)) -> In p steps).
    { intros p Hp. rewrite <- (firstn_skipn (S j) steps). apply in_or_app. left. rewrite <- (firstn_skipn (S j - m) (firstn (S j) steps)). apply in_or_app. right. exact Hp. }
    revert Hall. generalize (skipn (S j - m) (firstn (S j) steps)) as ps. induction ps as [|p ps IH]; intros Hall; [exists []; split; [constructor | reflexivity]|].
    destruct (IH (fun p' Hp' => Hall p' (or_intror Hp'))) as (us & HF & Es). destruct (In_nth_error _ _ (Hall p (or_introl eq_refl))) as (l & El).
    destruct (run_nth net fm order steps Hr l p El) as (_ & Hsol & _).
    assert (H : simulated key step sc a net (sim_lp p) (sim_x p)) by (constructor; [exact Hl | exact Hb | exists fm, order, (map sim_lp (firstn l steps)); exact Hsol]).
    destruct (licence_use _ _ _ _ _ _ _ _ _ _ _ _ _ _ _ _ _ _ _ _ L H Hwt) as (qs & HFq & Eu). exists (vs_use net (sim_flows net p) vn :: us). split.
    - constructor; [exists qs; split; [exact HFq | exact Eu] | exact HF].
    - unfold charges in *. cbn [map]. rewrite !qsum_cons, Es. reflexivity. }
  destruct HU as (us & HF & Es). exists us, q. split; [exact HF|]. split.
  { exists (VmVsVolume (whole name)), (Ok q). split; [reflexivity|]. cbn [vvolume_value]. rewrite (li_index _ _ _ _ _ _ _ _ _ _ _ _ _ _ _ _ _ _ L). cbn [option_map]. rewrite Eq.
    split; [reflexivity|]. exists q. split; reflexivity. }
  rewrite Hq, Es, (value_target key _ mx i rv vn (li_init _ _ _ _ _ _ _ _ _ _ _ _ _ _ _ _ _ _ L) (li_maxv _ _ _ _ _ _ _ _ _ _ _ _ _ _ _ _ _ _ L) (li_reset_volume _ _ _ _ _ _ _ _ _ _ _ _ _ _ _ _ _ _ L)).
  rewrite (li_maxv _ _ _ _ _ _ _ _ _ _ _ _ _ _ _ _ _ _ L), (li_init _ _ _ _ _ _ _ _ _ _ _ _ _ _ _ _ _ _ L), value_upper.
  assert (Ei : starting_volume (sim_env pr) (to_metrics key mx) (to_init i) = file_target key (sim_env pr) mx i None).
  { destruct i; cbn [to_init starting_volume file_target]; rewrite ?value_upper; reflexivity. }
  rewrite Ei. reflexivity.
Qed.
Print Assumptions C67_rolling_window_partial.

(** *** Aggregated storages *)
Lemma find_nodup {A} (l : list (uname * A)) u y : NoDup (map fst l) -> In (u, y) l -> find (fun p => uname_eqb (fst p) u) l = Some (u, y).
Proof.
  induction l as [|[u' y'] l IH]; intros Hnd Hin; [contradiction|]. cbn [map fst] in Hnd. inversion Hnd as [|? ? Hni Hnd']; subst. cbn [find fst]. destruct Hin as [E|Hin].
  - injection E as -> ->. replace (uname_eqb u u) with true by (symmetry; apply uname_eqb_eq; reflexivity). reflexivity.
  - destruct (uname_eqb u' u) eqn:E; [|exact (IH Hnd' Hin)]. apply uname_eqb_eq in E. subst u'. exfalso. apply Hni. exact (in_map fst _ _ Hin).
Qed.
Section Stores.
Variables (key : umetric -> nat) (step : option Z) (sc : schema) (a : added) (net : network) (st : net_state).
Hypotheses (Hload : load_schema key step sc = Ok a) (Hbuild : build_network (declaration a) = Ok net) (Hst : state_of net st).
Local Notation b := (declaration a).

Lemma store_volume nb : In nb (ad_nodes a) -> nb_type nb = TStorage -> exists i v m, declared b i (nb_name nb) /\ get_node_volume st i = Ok v /\ get_node_max_volume st i = Ok m.
Proof.
  intros Hn Ht. destruct (In_nth_error _ _ Hn) as (i & Hi). destruct (built_nodes b net Hbuild) as (Hl & Hd).
  assert (Hlt : i < length (net_nodes net)) by (rewrite Hl; apply (nth_error_Some_lt _ _ _ Hi)).
  destruct (nth_error_lt_Some _ _ Hlt) as (n & En). pose proof (Hd i nb n Hi En) as (Ety & _).
  destruct (node_lookup net st i Hst Hlt) as (s & Es). pose proof (Forall2_nth_error _ _ _ i n s (so_nodes _ _ Hst) En Es) as [K _].
  destruct (K ltac:(rewrite Ety; exact Ht)) as (x & ->). exists i, (s_volume x), (s_max x).
  split; [unfold declared; apply map_nth_error; exact Hi|]. unfold get_node_volume, get_node_max_volume. rewrite Es. split; reflexivity.
Qed.

(** The stores of a reference: what they hold and can hold. *)
Definition holds (us : list uname) (is : list nat) (vs ms : list Q) : Prop :=
  Forall2 (fun u i => declared b i u) us is /\ rmap (get_node_volume st) is = Ok vs /\ rmap (get_node_max_volume st) is = Ok ms.
Lemma lookup i u : declared b i u -> get_node_index_by_name b u = Some i.
Proof. intros Hd. apply (lookup_declared b net u i Hbuild). exact Hd. Qed.
Lemma lookups us is : Forall2 (fun u i => declared b i u) us is -> stores_of a us = Some is.
Proof. intros HF. induction HF as [|u i us is Hd HF IH]; [reflexivity|]. unfold stores_of in *. cbn [map all_some]. rewrite (lookup i u Hd), IH. reflexivity. Qed.

Lemma all_held us : (forall u, In u us -> exists i v m, declared b i u /\ get_node_volume st i = Ok v /\ get_node_max_volume st i = Ok m) -> exists is vs ms, holds us is vs ms.
Proof.
  induction us as [|u us IH]; intros Hu; [exists [], [], []; repeat split; constructor|].
  destruct (IH (fun u' Hu' => Hu u' (or_intror Hu'))) as (is & vs & ms & H1 & H2 & H3). destruct (Hu u (or_introl eq_refl)) as (i & v & m & E1 & E2 & E3).
  exists (i :: is), (v :: vs), (m :: ms). split; [constructor; assumption|]. cbn [rmap]. rewrite E2, E3, H2, H3. split; reflexivity.
Qed.

Lemma ref_holds r us : rbind (find_node sc (rf_name r)) storage_nodes = Ok us ->
  exists is vs ms, holds us is vs ms /\ ref_volume sc a st r (qsum vs) /\ ref_capacity sc a st r (qsum ms).
Proof.
  intros E. apply rbind_Ok in E. destruct E as (n & En & E). destruct (find_node_Ok _ _ _ En) as [Hin Hn]. destruct (loaded_node _ _ _ _ Hload _ Hin) as (p & Hp & Hpo).
  assert (Hsum : forall q, (qsum [q] == q)%Q) by (intros q; unfold qsum; cbn [fold_right]; ring).
  assert (Hone : forall name nb, In nb (ad_nodes a) -> nb_name nb = whole name -> nb_type nb = TStorage -> exists i v m,
    holds [whole name] [i] [v] [m] /\ volume_is a st (UNodeVolume (whole name)) (qsum [v]) /\ volume_is a st (UNodeMaxVolume (whole name)) (qsum [m])).
  { intros name nb Hnb Enb Ht. destruct (store_volume nb Hnb Ht) as (i & v & m & Hd & Hv & Hm). rewrite Enb in Hd. exists i, v, m. split.
    - split; [constructor; [exact Hd | constructor]|]. cbn [rmap]. rewrite Hv, Hm. split; reflexivity.
    - unfold volume_is. cbn [volume_value]. rewrite (lookup i _ Hd). cbn [option_map]. rewrite Hv, Hm. split; (eexists; split; [reflexivity|]; eexists; split; [reflexivity | symmetry; apply Hsum]). }
  destruct n; cbn [storage_nodes] in E; try discriminate E; injection E as <-; cbn [add_node] in Hp.
  - injection Hp as <-. destruct (Hone name (storage key (whole name) f)) as (i & v & m & Hh & H1 & H2); [apply (po_nodes _ _ Hpo); left; reflexivity | reflexivity | reflexivity|].
    exists [i], [v], [m]. split; [exact Hh|]. split.
    + exists (SStorage name f), (UNodeVolume (whole name)). auto.
    + exists (SStorage name f). split; [exact Hin|]. split; [exact Hn|]. exists (UNodeMaxVolume (whole name)). auto.
  - injection Hp as <-. set (us := map (store_name name) (seq 0 (S (length steps)))).
    destruct (all_held us) as (is & vs & ms & HF & Hv & Hm).
    { intros u Hu. unfold us in Hu. apply in_map_iff in Hu. destruct Hu as (j & <- & Hj).
      set (nb := store_builder key name max min (match nth_error steps j with Some s => so_cost s | None => cost end) init j).
      apply (store_volume nb); [|reflexivity]. apply (po_nodes _ _ Hpo). unfold add_piecewise_storage. cbn [ad_nodes]. apply in_map_iff. exists j. split; [reflexivity | exact Hj]. }
    exists is, vs, ms. split; [repeat split; assumption|]. split.
    + exists (SPiecewiseStorage name max min cost steps init), (UAggStorageVolume (sub name "agg-store")). split; [exact Hin|]. split; [exact Hn|]. split; [reflexivity|].
      assert (Ea : agg_stores a (sub name "agg-store") = Some is).
      { unfold agg_stores. assert (Hpin : In (sub name "agg-store", us) (ad_agg_storages a)) by (apply (po_agg_storages _ _ Hpo); left; reflexivity).
        rewrite (find_nodup _ _ _ (proj2 (proj2 (proj2 (C57_names_never_collide _ _ _ _ Hload)))) Hpin). exact (lookups _ _ HF). }
      unfold volume_is. cbn [volume_value]. rewrite Ea. eexists. split; [reflexivity|]. apply C50_volume_is_total. exact Hv.
    + exists (SPiecewiseStorage name max min cost steps init). split; [exact Hin|]. split; [exact Hn|]. exists ms. split; [|reflexivity].
      clear - HF Hm Hbuild. unfold us in HF. revert is ms HF Hm. generalize (seq 0 (S (length steps))) as ks. induction ks as [|k ks IH]; intros is ms HF Hm; inversion HF as [|? i ? is' Hd HF']; subst.
      * injection Hm as <-. constructor.
      * cbn [rmap] in Hm. destruct (get_node_max_volume st i) as [m| |] eqn:E; try discriminate Hm. cbn [rbind] in Hm.
        destruct (rmap (get_node_max_volume st) is') as [ms'| |] eqn:E'; try discriminate Hm. injection Hm as <-. constructor; [|exact (IH _ _ HF' E')].
        exists (Ok m). cbn [volume_value]. rewrite (lookup i _ Hd). cbn [option_map]. rewrite E. split; [reflexivity|]. exists m. split; reflexivity.
  - assert (Hnb : In (storage key (whole name) (rv_storage f)) (ad_nodes a)).
    { apply (po_nodes _ _ Hpo). unfold add_reservoir in Hp. destruct (_ && _) in Hp; [discriminate Hp|]. injection Hp as <-. left. reflexivity. }
    destruct (Hone name _ Hnb) as (i & v & m & Hh & H1 & H2); [reflexivity | reflexivity|].
    exists [i], [v], [m]. split; [exact Hh|]. split.
    + exists (SReservoir name f), (UNodeVolume (whole name)). auto.
    + exists (SReservoir name f). split; [exact Hin|]. split; [exact Hn|]. exists (UNodeMaxVolume (whole name)). auto.
Qed.

Lemma refs_hold refs groups : rmap (fun r => rbind (find_node sc (rf_name r)) storage_nodes) refs = Ok groups ->
  exists is vs ms qs cs, holds (concat groups) is vs ms /\ Forall2 (ref_volume sc a st) refs qs /\ Forall2 (ref_capacity sc a st) refs cs /\
    (qsum vs == qsum qs)%Q /\ (qsum ms == qsum cs)%Q.
Proof.
  intros Hg. apply rmap_Ok_Forall2 in Hg. induction Hg as [|r us refs groups E HG (is & vs & ms & qs & cs & (H1 & H2 & H3) & H4 & H5 & E1 & E2)].
  - exists [], [], [], [], []. repeat split; try constructor.
  - destruct (ref_holds r us E) as (is0 & vs0 & ms0 & (G1 & G2 & G3) & G4 & G5).
    exists (is0 ++ is), (vs0 ++ vs), (ms0 ++ ms), (qsum vs0 :: qs), (qsum ms0 :: cs). split; [split|].
    + cbn [concat]. apply Forall2_app; assumption.
    + apply rmap_Ok_Forall2 in G2, G3, H2, H3. split; apply rmap_Ok_Forall2, Forall2_app; assumption.
    + split; [constructor; assumption|]. split; [constructor; assumption|]. rewrite !qsum_app, !qsum_cons, E1, E2. split; reflexivity.
Qed.
End Stores.

(** An aggregated storage reports the total of the volumes referred to, and that
    total over the total capacity (1 if the capacity is zero). *)
Theorem C67_aggregated_storage : forall key step sc a net st name refs,
  load_schema key step sc = Ok a -> build_network (declaration a) = Ok net -> state_of net st -> In (VAggStorage name refs) (sc_vnodes sc) ->
  exists qs cs, Forall2 (ref_volume sc a st) refs qs /\ Forall2 (ref_capacity sc a st) refs cs /\
    vnode_volume_is a st (VAggStorage name refs) (Some AtVolume) (qsum qs) /\
    ((qsum cs == 0)%Q -> vnode_volume_is a st (VAggStorage name refs) (Some AtPropVolume) 1) /\
    (~ (qsum cs == 0)%Q -> vnode_volume_is a st (VAggStorage name refs) (Some AtPropVolume) (qsum qs / qsum cs)).
Proof.
  intros key step sc a net st name refs Hl Hb Hst Hv. destruct (loaded_vnode _ _ _ _ Hl _ Hv) as (p & Hp & Hpo). cbn [add_vnode] in Hp. apply rbind_Ok in Hp. destruct Hp as (groups & Hg & Hp). injection Hp as <-.
  destruct (refs_hold _ _ _ _ _ _ Hl Hb Hst refs groups Hg) as (is & vs & ms & qs & cs & (HF & H2 & H3) & H4 & H5 & E1 & E2).
  assert (Ea : agg_stores a (whole name) = Some is).
  { unfold agg_stores. assert (Hpin : In (whole name, concat groups) (ad_agg_storages a)) by (apply (po_agg_storages _ _ Hpo); left; reflexivity).
    rewrite (find_nodup _ _ _ (proj2 (proj2 (proj2 (C57_names_never_collide _ _ _ _ Hl)))) Hpin). exact (lookups _ _ Hb _ _ HF). }
  exists qs, cs. split; [exact H4|]. split; [exact H5|]. split.
  - exists (VmAggVolume (whole name)). eexists. split; [reflexivity|]. cbn [vvolume_value]. rewrite Ea. split; [reflexivity|].
    destruct (C50_volume_is_total st is vs H2) as (q & Eq & Eq'). exists q. split; [exact Eq|]. rewrite Eq'. exact E1.
  - destruct (C50_proportional_volume st is vs ms H2 H3) as (q & Eq & Z1 & Z2). rewrite E2 in Z1, Z2.
    split; intros Hz; exists (VmAggPropVolume (whole name)); eexists; (split; [reflexivity|]); cbn [vvolume_value]; rewrite Ea; (split; [reflexivity|]); exists q; (split; [exact Eq|]).
    + exact (Z1 Hz).
    + rewrite (Z2 Hz), E1. reflexivity.
Qed.
Print Assumptions C67_aggregated_storage.
