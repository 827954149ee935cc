(** Aggregated periods tile time. *)
From Coq Require Import QArith Lqa.
From Verif Require Import Base Calendar CalendarLemmas Timestep Network NetworkBuildLemmas LpRowLemmas AggFuncs AggFuncsSpec AggFuncsLemmas Aggregator AggregatorSpec PeriodLemmas.
Open Scope Z_scope.

Lemma start_end v : instant (pv_end v) = stop_of v.
Proof. unfold pv_end, add_duration. apply instant_datetime_of_instant. Qed.

(* ---------- lists of consecutive values ---------- *)

Lemma consecutive_tl v l : consecutive (v :: l) -> consecutive l.
Proof. destruct l; cbn; [auto|tauto]. Qed.

Lemma last_cons {A} (a : A) l d : last (a :: l) d = last l a.
Proof. revert a d. induction l as [|b l IH]; intros a d; [reflexivity|]. change (last (a :: b :: l) d) with (last (b :: l) d). rewrite !IH. reflexivity. Qed.

Lemma last_app_cons {A} (l1 : list A) b l2 d : last (l1 ++ b :: l2) d = last l2 b.
Proof.
  revert d. induction l1 as [|a l1 IH]; intros d; cbn [app]; [apply last_cons|]. rewrite last_cons. apply IH.
Qed.

Lemma consecutive_app l1 l2 :
  consecutive (l1 ++ l2) <-> consecutive l1 /\ consecutive l2 /\
    match l1, l2 with a :: r, b :: _ => stop_of (last r a) = start_of b | _, _ => True end.
Proof.
  induction l1 as [|a l1 IH]; cbn [app].
  - cbn [consecutive]. tauto.
  - destruct l1 as [|b l1].
    + cbn [app last]. destruct l2 as [|c l2]; cbn [consecutive]; tauto.
    + cbn [app] in *. rewrite last_cons. change (consecutive (a :: b :: l1 ++ l2)) with (stop_of a = start_of b /\ consecutive (b :: l1 ++ l2)).
      rewrite IH. cbn [consecutive]. destruct l2; tauto.
Qed.

Lemma zsum_app a b : zsum (a ++ b) = zsum a + zsum b.
Proof. induction a; cbn [app zsum fold_right]; [reflexivity|]. change (fold_right Z.add 0 ?x) with (zsum x) in *. lia. Qed.

Lemma consecutive_span a l : consecutive (a :: l) -> stop_of (last l a) - start_of a = zsum (map pv_dur (a :: l)).
Proof.
  revert a. induction l as [|b l IH]; intros a H.
  - unfold stop_of. cbn. lia.
  - rewrite last_cons. destruct H as [E H]. specialize (IH b H). cbn [map zsum fold_right] in *.
    change (fold_right Z.add 0 ?x) with (zsum x) in *. unfold stop_of in *. lia.
Qed.

Lemma total_qsum l : total l = qsum l.
Proof. reflexivity. Qed.

Lemma integral_app a b : (integral (a ++ b) == integral a + integral b)%Q.
Proof. unfold integral. rewrite map_app, !total_qsum. apply qsum_app. Qed.

Lemma integral_cons a b : (integral (a :: b) == pv_value a * days_of a + integral b)%Q.
Proof. reflexivity. Qed.

Lemma days_zsum l : (qsum (map days_of l) == inject_Z (zsum (map pv_dur l)) / inject_Z NS_PER_DAY)%Q.
Proof.
  induction l as [|v l IH]; [reflexivity|]. cbn [map zsum fold_right]. change (fold_right Z.add 0 ?x) with (zsum x).
  rewrite qsum_cons, IH, inject_Z_plus. unfold days_of. field. intros H. discriminate H.
Qed.

Lemma zsum_pos l : l <> [] -> Forall recorded l -> 0 < zsum (map pv_dur l).
Proof.
  intros Hne H. destruct l as [|v l]; [congruence|]. clear Hne. cbn [map zsum fold_right]. change (fold_right Z.add 0 ?x) with (zsum x).
  inversion H as [|? ? [_ Hv] Hl]; subst. clear H. assert (0 <= zsum (map pv_dur l)); [|lia]. clear Hv.
  induction Hl as [|w l [_ Hw] Hl IH]; cbn; [lia|]. change (fold_right Z.add 0 ?x) with (zsum x). lia.
Qed.

Lemma aggregate_exists func g : g <> [] -> Forall recorded g -> exists a, calc_period_values func g = Some a.
Proof.
  intros Hne H. destruct func; cbn [calc_period_values]; try (eexists; reflexivity).
  - cbv zeta. destruct (Qeq_bool _ 0) eqn:E; [|eexists; reflexivity]. exfalso.
    apply Qeq_bool_iff in E. rewrite iter_sum_qsum in E. change (fun v => fractional_days (pv_dur v)) with days_of in E.
    rewrite days_zsum in E. pose proof (zsum_pos g Hne H) as P.
    assert (0 < inject_Z (zsum (map pv_dur g)) / inject_Z NS_PER_DAY)%Q; [|lra].
    apply Qlt_shift_div_l; [reflexivity|]. rewrite Qmult_0_l. change 0%Q with (inject_Z 0). rewrite <- Zlt_Qlt. exact P.
  - destruct g; [congruence|]. eexists; reflexivity.
  - destruct g; [congruence|]. eexists; reflexivity.
Qed.

(* ---------- splitting ---------- *)

Lemma split_loop_spec fuel f : forall cur stop x parts,
  freq_ok f -> valid_datetime cur = true -> instant cur < instant stop ->
  split_loop fuel f cur stop x = Some parts ->
  Forall recorded parts /\ consecutive parts /\ Forall (fun p => pv_value p = x) parts /\
  Forall (within_a_period f) parts /\
  (calendric f -> Forall (fun p => begins_period f (start_of p)) (tl parts)) /\
  exists a, head parts = Some a /\ pv_start a = cur /\ stop_of (last parts a) = instant stop.
Proof.
  induction fuel as [|fuel IH]; intros cur stop x parts F V L H; [discriminate|].
  cbn [split_loop] in H. destruct (instant cur <? instant stop) eqn:E; [|lia]. cbv zeta in H.
  destruct (next_period_facts f cur F V) as (Vn & Ln & In & _).
  remember (start_of_next_period f cur) as next eqn:EN.
  destruct (split_loop fuel f next stop x) as [rest|] eqn:R; [|discriminate]. injection H as <-.
  destruct (instant next <? instant stop) eqn:E2.
  - assert (L2 : instant next < instant stop) by lia.
    destruct (IH next stop x rest F Vn L2 R) as (A & B & C & D & G & a & Ha & Hs & Hl).
    destruct (instant next <=? instant stop) eqn:E3; [|lia].
    destruct rest as [|a' rest]; [discriminate Ha|]. injection Ha as ->.
    repeat split.
    + constructor; [|exact A]. split; cbn; [exact V|lia].
    + unfold stop_of, start_of. cbn [pv_start pv_dur]. rewrite Hs. lia.
    + exact B.
    + constructor; [reflexivity|exact C].
    + constructor; [|exact D]. intros t Ht. unfold stop_of, start_of in Ht. cbn [pv_start pv_dur] in *. apply In. lia.
    + intros Cf. cbn [tl]. constructor; [|exact (G Cf)]. apply begins_period_iff; [exact Cf|].
      unfold start_of. rewrite Hs. rewrite datetime_of_instant_inv by exact Vn.
      destruct (next_period_calendar f cur Cf V) as [_ I2]. rewrite <- EN in I2. rewrite I2 at 1. do 2 f_equal.
      symmetry. apply pindex_unique; auto. rewrite I2. pose proof (pstart_mono f (pindex f cur + 1) (pindex f cur + 1 + 1)). unfold NS_PER_DAY. lia.
    + eexists. split; [reflexivity|]. split; [reflexivity|]. rewrite last_cons. rewrite last_cons in Hl |- *. exact Hl.
  - assert (rest = []) as ->.
    { destruct fuel; [discriminate|]. cbn [split_loop] in R. rewrite E2 in R. congruence. }
    assert (D : (if instant next <=? instant stop then instant next - instant cur else instant stop - instant cur) = instant stop - instant cur).
    { destruct (instant next <=? instant stop) eqn:E3; lia. }
    rewrite D. repeat split.
    + constructor; [|constructor]. split; cbn; [exact V|lia].
    + constructor; [reflexivity|constructor].
    + constructor; [|constructor]. intros t Ht. unfold stop_of, start_of in Ht. cbn [pv_start pv_dur] in *. apply In. lia.
    + intros _. constructor.
    + eexists. split; [reflexivity|]. split; [reflexivity|]. unfold stop_of, start_of. cbn [last pv_start pv_dur]. lia.
Qed.

(** Enough fuel. *)
Lemma split_loop_total_aligned f x stop : freq_ok f -> forall fuel t,
  valid_datetime t = true ->
  instant stop - instant (start_of_next_period f t) <= Z.of_nat fuel * NS_PER_DAY ->
  exists parts, split_loop (S fuel) f (start_of_next_period f t) stop x = Some parts.
Proof.
  intros F. induction fuel as [|fuel IH]; intros t V H.
  - cbn [split_loop]. destruct (_ <? _) eqn:E; [|eexists; reflexivity]. lia.
  - remember (S fuel) as k. cbn [split_loop]. destruct (_ <? _) eqn:E; [|eexists; reflexivity]. cbv zeta.
    destruct (next_period_facts f t F V) as (Vn & _). pose proof (next_period_day f t F V) as P.
    destruct (IH (start_of_next_period f t) Vn) as [parts Hp]; [nia|]. subst k. rewrite Hp. eexists; reflexivity.
Qed.

Lemma split_total f v : freq_ok f -> recorded v -> exists parts, split_value_into_periods f v = Ok parts.
Proof.
  intros F [V D]. unfold split_value_into_periods.
  set (k := Z.to_nat (pv_dur v / NS_PER_DAY + 1)).
  replace (Z.to_nat (pv_dur v / NS_PER_DAY + 3)) with (S (S k)).
  2:{ unfold k. assert (0 <= pv_dur v / NS_PER_DAY) by (apply Z.div_pos; unfold NS_PER_DAY; lia). lia. }
  remember (S k) as k1. cbn [split_loop]. destruct (_ <? _) eqn:E; [|eexists; reflexivity]. cbv zeta.
  destruct (next_period_facts f (pv_start v) F V) as (Vn & L & _). subst k1.
  destruct (split_loop_total_aligned f (pv_value v) (pv_end v) F k (pv_start v) V) as [parts Hp].
  - rewrite start_end. unfold stop_of, start_of, k. rewrite Z2Nat.id.
    + pose proof (Z.div_mod (pv_dur v) NS_PER_DAY ltac:(discriminate)). pose proof (Z.mod_pos_bound (pv_dur v) NS_PER_DAY eq_refl). lia.
    + assert (0 <= pv_dur v / NS_PER_DAY) by (apply Z.div_pos; unfold NS_PER_DAY; lia). lia.
  - rewrite Hp. eexists; reflexivity.
Qed.

Lemma split_spec f v parts : freq_ok f -> recorded v -> split_value_into_periods f v = Ok parts ->
  covers v parts /\ Forall (within_a_period f) parts /\
  (calendric f -> Forall (fun p => begins_period f (start_of p)) (tl parts)).
Proof.
  intros F [V D] H. unfold split_value_into_periods in H. destruct (split_loop _ _ _ _ _) as [l|] eqn:E; [|discriminate].
  injection H as ->.
  assert (L : instant (pv_start v) < instant (pv_end v)) by (rewrite start_end; unfold stop_of, start_of; lia).
  destruct (split_loop_spec _ f _ _ _ _ F V L E) as (A & B & C & W & G & a & Ha & Hs & Hl). rewrite start_end in Hl.
  split; [|split; assumption]. repeat split; auto. exists a, (last parts a). auto.
Qed.

(** A value which lies in one period is not split. *)
Lemma unsplit f v ps : freq_ok f -> recorded v -> within_a_period f v -> split_value_into_periods f v = Ok ps -> ps = [v].
Proof.
  intros F R W H. pose proof R as [V D]. destruct (next_period_facts f (pv_start v) F V) as (Vn & Ln & In & Nn).
  assert (B : stop_of v <= instant (start_of_next_period f (pv_start v))).
  { destruct (Z_le_gt_dec (stop_of v) (instant (start_of_next_period f (pv_start v)))) as [L|G]; [exact L|]. exfalso. apply Nn.
    rewrite <- (datetime_of_instant_inv _ Vn). apply W. unfold start_of. lia. }
  unfold split_value_into_periods in H.
  assert (Z : 0 <= pv_dur v / NS_PER_DAY) by (apply Z.div_pos; unfold NS_PER_DAY; lia).
  replace (Z.to_nat (pv_dur v / NS_PER_DAY + 3)) with (S (S (Z.to_nat (pv_dur v / NS_PER_DAY + 1)))) in H by lia.
  remember (S (Z.to_nat (pv_dur v / NS_PER_DAY + 1))) as k. cbn [split_loop] in H. rewrite start_end in H.
  assert (LS : instant (pv_start v) < stop_of v) by (unfold stop_of, start_of; lia).
  destruct (instant (pv_start v) <? stop_of v) eqn:E1; [|lia]. cbv zeta in H. subst k.
  cbn [split_loop] in H. rewrite start_end in H. destruct (instant (start_of_next_period f (pv_start v)) <? stop_of v) eqn:E2; [lia|].
  injection H as <-. destruct v as [s d x]. cbn [pv_start pv_dur pv_value] in *.
  unfold stop_of, start_of in *. cbn [pv_start pv_dur] in *. destruct (_ <=? _) eqn:E3;
    [replace (instant (start_of_next_period f s) - instant s) with d by lia|replace (instant s + d - instant s) with d by lia]; reflexivity.
Qed.

(* ---------- the parts fed one after another ---------- *)

Definition opt_list {A} (o : option A) : list A := match o with Some a => [a] | None => [] end.

Fixpoint feed (f : agg_freq) (func : agg_f64) (s : pstate) (ps : list pvalue) : res unit (list pvalue * pstate) :=
  match ps with
  | [] => Ok ([], s)
  | p :: rest =>
      rbind (state_process_value f func s p) (fun '(o, s') =>
        rbind (feed f func s' rest) (fun '(es, s'') => Ok (opt_list o ++ es, s'')))
  end.

Lemma feed_app f func a : forall s b es1 s1 es2 s2,
  feed f func s a = Ok (es1, s1) -> feed f func s1 b = Ok (es2, s2) -> feed f func s (a ++ b) = Ok (es1 ++ es2, s2).
Proof.
  induction a as [|p a IH]; intros s b es1 s1 es2 s2 H1 H2; cbn [feed app] in *.
  - injection H1 as <- <-. exact H2.
  - apply rbind_Ok in H1. destruct H1 as ((o, s') & E1 & H1). apply rbind_Ok in H1. destruct H1 as ((es, s'') & E2 & H1).
    injection H1 as <- <-. rewrite E1. cbn [rbind]. rewrite (IH _ _ _ _ _ _ E2 H2). cbn [rbind]. rewrite app_assoc. reflexivity.
Qed.

Lemma process_parts_feed f func parts : forall s av o s', process_parts f func s parts av = Ok (o, s') ->
  exists es, feed f func s parts = Ok (es, s') /\ opt_list o = opt_list av ++ es.
Proof.
  induction parts as [|p parts IH]; intros s av o s' H; cbn [process_parts feed] in *.
  - injection H as <- <-. exists []. rewrite app_nil_r. auto.
  - apply rbind_Ok in H. destruct H as ((o1, s1) & E1 & H). rewrite E1. cbn [rbind].
    destruct o1 as [e|].
    + destruct av as [e'|]; [discriminate|]. destruct (IH _ _ _ _ H) as (es & -> & E). exists (e :: es). cbn [rbind opt_list app] in *. auto.
    + destruct (IH _ _ _ _ H) as (es & -> & E). exists es. cbn [rbind opt_list app] in *. auto.
Qed.

Lemma append_all_feed f func values : freq_ok f -> Forall recorded values -> forall s outs st,
  append_all (ABase (Level (Some f) func)) (SBase s) values = Ok (outs, st) ->
  exists parts s', st = SBase s' /\
    Forall2 covers values parts /\ Forall (Forall (within_a_period f)) parts /\
    Forall2 (fun v ps => within_a_period f v -> ps = [v]) values parts /\
    feed f func s (concat parts) = Ok (emitted outs, s').
Proof.
  intros F. induction 1 as [|v values Hv Hvs IH]; intros s outs st H; cbn [append_all] in H.
  - injection H as <- <-. exists [], s. repeat split; constructor.
  - apply rbind_Ok in H. destruct H as ((o, st1) & E1 & H). apply rbind_Ok in H. destruct H as ((os, st2) & E2 & H).
    injection H as <- <-. cbn [append_value] in E1. apply rbind_Ok in E1. destruct E1 as ((o', s1) & E1 & E). injection E as <- <-.
    unfold level_process_value in E1. cbn [lv_freq lv_func] in E1. apply rbind_Ok in E1. destruct E1 as (ps & Eps & E1).
    destruct (IH _ _ _ E2) as (parts & s' & -> & C & W & U & Fd).
    destruct (process_parts_feed _ _ _ _ _ _ _ E1) as (es & Fe & Ee). cbn [opt_list app] in Ee. subst es.
    destruct (split_spec f v ps F Hv Eps) as (Cv & Wv & _).
    exists (ps :: parts), s'. split; [reflexivity|]. split; [constructor; assumption|]. split; [constructor; assumption|].
    split; [constructor; [intros Wi; exact (unsplit f v ps F Hv Wi Eps)|exact U]|].
    cbn [concat]. change (emitted (o' :: os)) with (opt_list o' ++ emitted os). eapply feed_app; eassumption.
Qed.

(** Parts of consecutive values are consecutive. *)
Lemma covers_nonempty v ps : covers v ps -> ps <> [].
Proof. intros (_ & _ & _ & a & b & H & _). destruct ps; [discriminate H|discriminate]. Qed.

Lemma covers_first v ps : covers v ps -> exists a r, ps = a :: r /\ pv_start a = pv_start v /\ stop_of (last r a) = stop_of v.
Proof.
  intros (_ & _ & _ & a & b & H & L & S & E). destruct ps as [|a' r]; [discriminate H|]. injection H as ->.
  exists a, r. rewrite last_cons in L. subst b. auto.
Qed.

Lemma covers_consecutive vs parts : Forall2 covers vs parts -> consecutive vs ->
  consecutive (concat parts) /\ Forall recorded (concat parts).
Proof.
  intros H. induction H as [|v ps vs parts Hv Hvs IH]; intros C; [split; cbn; auto|].
  cbn [concat]. destruct (IH (consecutive_tl _ _ C)) as [IC IR]. clear IH.
  pose proof Hv as (R & K & _). split; [|apply Forall_app; auto].
  apply consecutive_app. split; [exact K|]. split; [exact IC|].
  destruct (covers_first v ps Hv) as (a & r & -> & S & E).
  destruct Hvs as [|w qs vs parts Hw Hvs]; [exact I|].
  destruct (covers_first w qs Hw) as (b & q & -> & S2 & E2). cbn [concat app].
  destruct C as [C _]. unfold start_of in *. rewrite S2, E. exact C.
Qed.

(* ---------- grouping ---------- *)

Lemma one_period_snoc f a l p : one_period f (a :: l) -> same_period f (pv_start a) (pv_start p) -> one_period f ((a :: l) ++ [p]).
Proof. intros H S. unfold one_period in *. cbn [app]. rewrite app_comm_cons. apply Forall_app. split; [exact H|constructor; [exact S|constructor]]. Qed.

Lemma feed_groups f func : freq_ok f -> forall ps a l es s',
  Forall recorded ((a :: l) ++ ps) -> consecutive ((a :: l) ++ ps) -> one_period f (a :: l) ->
  feed f func (Some (a :: l)) ps = Ok (es, s') ->
  exists groups pending, (a :: l) ++ ps = concat groups ++ pending /\ s' = Some pending /\ pending <> [] /\
    Forall2 (aggregates func) groups es /\ Forall (one_period f) (groups ++ [pending]) /\ apart f (groups ++ [pending]) /\
    exists r gs, groups ++ [pending] = (a :: r) :: gs.
Proof.
  intros F. induction ps as [|p ps IH]; intros a l es s' R C O H.
  - cbn [feed] in H. injection H as <- <-. exists [], (a :: l). cbn [concat app]. rewrite app_nil_r. repeat split; auto; try discriminate.
    eauto.
  - cbn [feed state_process_value] in H.
    assert (Va : valid_datetime (pv_start a) = true) by (cbn [app] in R; inversion R as [|? ? [Va _] _]; exact Va).
    destruct (is_date_in_period f (pv_start a) (pv_start p)) eqn:E; cbn [rbind opt_list app] in H.
    + apply rbind_Ok in H. destruct H as ((es1, s1) & E1 & H). injection H as <- <-. cbn [app].
      apply in_period_iff in E; [|exact Va].
      change (a :: l ++ [p]) with (a :: (l ++ [p])) in E1.
      destruct (IH a (l ++ [p]) es1 s1) as (gs & pe & E2 & Rest).
      * rewrite <- app_comm_cons, <- app_assoc. exact R.
      * rewrite <- app_comm_cons, <- app_assoc. exact C.
      * apply (one_period_snoc f a l p O E).
      * exact E1.
      * exists gs, pe. rewrite <- app_comm_cons, <- app_assoc in E2. split; [exact E2|exact Rest].
    + assert (NS : ~ same_period f (pv_start a) (pv_start p)) by (intros Hs; apply (in_period_iff f) in Hs; [congruence|exact Va]).
      apply rbind_Ok in H. destruct H as ((es1, s1) & E1 & H). injection H as <- <-.
      apply Forall_app in R. destruct R as [Ra Rp]. apply consecutive_app in C. destruct C as (Ca & Cp & J).
      destruct (aggregate_exists func (a :: l) ltac:(discriminate) Ra) as [x Hx]. rewrite Hx.
      destruct (IH p [] es1 s1 Rp Cp) as (gs & pe & E2 & S2 & Np & F2 & O2 & A2 & r & q & E3).
      { cbn. constructor; [|constructor]. inversion Rp as [|? ? [Vp _] _]; subst.
        destruct (next_period_facts f (pv_start p) F Vp) as (_ & L & I & _).
        rewrite <- (datetime_of_instant_inv (pv_start p) Vp) at 2. apply I. lia. }
      { exact E1. }
      cbn [app] in E2. exists ((a :: l) :: gs), pe. split; [cbn [concat app]; rewrite E2, app_assoc; reflexivity|].
      split; [exact S2|]. split; [exact Np|]. split.
      { cbn [opt_list app]. constructor; [|exact F2]. exists a. split; [reflexivity|]. cbn [pv_start pv_value].
        split; [reflexivity|]. split; [|exact Hx]. unfold stop_of at 1, start_of at 1. cbn [pv_start pv_dur].
        rewrite last_cons, J. unfold start_of. lia. }
      split; [cbn [app]; constructor; assumption|]. split.
      { cbn [app]. rewrite E3 in *. cbn [apart]. split; [exact NS|exact A2]. }
      cbn [app]. eauto.
Qed.

Lemma feed_groups_none f func ps es s' : freq_ok f -> ps <> [] -> Forall recorded ps -> consecutive ps ->
  feed f func None ps = Ok (es, s') ->
  exists groups pending, ps = concat groups ++ pending /\ s' = Some pending /\ pending <> [] /\
    Forall2 (aggregates func) groups es /\ Forall (one_period f) (groups ++ [pending]) /\ apart f (groups ++ [pending]).
Proof.
  intros F Hne R C H. destruct ps as [|p ps]; [congruence|]. clear Hne. cbn [feed state_process_value rbind opt_list app] in H.
  apply rbind_Ok in H. destruct H as ((es1, s1) & E1 & H). injection H as <- <-.
  destruct (feed_groups f func F ps p [] es1 s1 R C) as (gs & pe & A & B & D & G & K & L & _).
  - cbn. constructor; [|constructor]. inversion R as [|? ? [Vp _] _]; subst.
    destruct (next_period_facts f (pv_start p) F Vp) as (_ & Ln & I & _).
    rewrite <- (datetime_of_instant_inv (pv_start p) Vp) at 2. apply I. lia.
  - exact E1.
  - exists gs, pe. cbn [app] in A. auto 8.
Qed.
