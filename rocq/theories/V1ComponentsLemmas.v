(** Proofs about the conversion of parameters and nodes. *)
From Coq Require Import QArith Qabs Lia.
From Verif Require Import Base Calendar Network NetworkBuildLemmas AggFuncs AggFuncsSpec ControlCurves ControlCurvesSpec ParamsTemporalSpec Profiles ProfilesSpec SchemaNodes MetricSets SchemaParams SchemaParamsSpec V1Components V1ComponentsSpec.
Local Open Scope string_scope.
Local Open Scope list_scope.
Local Open Scope nat_scope.

Lemma F2_map {A B C} (R : B -> C -> Prop) (S : A -> C -> Prop) (f : A -> B -> Prop) l l' l'' :
  (forall a b c, f a b -> R b c -> S a c) -> Forall2 f l l' -> Forall2 R l' l'' -> Forall2 S l l''.
Proof.
  intros H F. revert l''. induction F as [|a b l l' Hab F IH]; intros l'' G; inversion G; subst; constructor; [eapply H; eauto | apply IH; assumption].
Qed.

Lemma Forall2_nth_r {A B} (P : A -> B -> Prop) l m k b : Forall2 P l m -> nth_error m k = Some b -> exists a, nth_error l k = Some a /\ P a b.
Proof.
  intros F. revert k. induction F as [|x y l m Hxy F IH]; intros [|k] H; try discriminate; cbn in *; [injection H as <-; exists x; auto | apply IH; exact H].
Qed.

Section P.
  Variable V : Type.
  Variable cv : V -> option smetric.
  Variable ci : V -> option imetric.
  Variable virtuals : list string.
  Variable name : string.

  Lemma metric_attr_ok a v m : metric_attr V cv name a v = Ok m <-> cv v = Some m.
  Proof. unfold metric_attr. destruct (cv v); split; intros H; inversion H; reflexivity. Qed.
  Lemma index_attr_ok a v m : index_attr V ci name a v = Ok m <-> ci v = Some m.
  Proof. unfold index_attr. destruct (ci v); split; intros H; inversion H; reflexivity. Qed.
  Lemma metrics_ok a l ms : rmap (metric_attr V cv name a) l = Ok ms -> Forall2 (fun v m => cv v = Some m) l ms.
  Proof. intros H. apply rmap_Ok_Forall2 in H. induction H; constructor; [eapply metric_attr_ok; eassumption | assumption]. Qed.
  Lemma indices_ok a l ms : rmap (index_attr V ci name a) l = Ok ms -> Forall2 (fun v m => ci v = Some m) l ms.
  Proof. intros H. apply rmap_Ok_Forall2 in H. induction H; constructor; [eapply index_attr_ok; eassumption | assumption]. Qed.
  Lemma curves_ok cs c ms : conv_curves V cv name cs c = Ok ms -> exists l, curves_given V cs c l /\ Forall2 (fun v m => cv v = Some m) l ms.
  Proof.
    unfold conv_curves. destruct cs as [l|].
    - intros H. apply metrics_ok in H. exists l. split; [left; reflexivity | exact H].
    - destruct c as [v|]; [|discriminate]. intros H. apply rbind_Ok in H. destruct H as (m & H1 & H2). injection H2 as <-.
      apply metric_attr_ok in H1. exists [v]. split; [right; split; [reflexivity | exists v; auto] | repeat constructor; exact H1].
  Qed.
  Lemma vec_ok v fv tv l : conv_vec name v = Ok fv -> vec_is tv fv l -> numbers tv v l.
  Proof.
    unfold conv_vec, numbers. destruct v as [w e tb]; cbn. destruct w as [w|].
    - intros H G. injection H as <-. cbn in G. subst. left; reflexivity.
    - destruct e; [discriminate|]. destruct tb as [[[t key]|]|]; try discriminate. intros H G. injection H as <-. cbn in G.
      right. repeat split; auto. exists t, key. auto.
  Qed.
End P.

(** The default attribute of a node is the natural one. *)
Lemma natural_default n u : create_metric n None = Ok u -> exists a, natural_attribute n a /\ create_metric n (Some a) = Ok u.
Proof. destruct n; intros H; try discriminate H; eexists; (split; [reflexivity | exact H]). Qed.

Section M.
  Variable args : load_args.
  Variable W : valuation.
  Variable other_f : moment -> nat -> lmetric -> Q.
  Variable other_i : moment -> nat -> lindex -> Z.
  Variable date : nat -> datetime.
  Variable T : nat.
  Variable tv : string -> list string -> option (list Q).
  Variable chosen : string -> nat.
  Variable sc : option string.
  Variable name : string.
  Variable V : Type.
  Variable cv : V -> option smetric.
  Variable ci : V -> option imetric.
  Variable rv : moment -> nat -> V -> Q -> Prop.
  Variable ri : moment -> nat -> V -> Z -> Prop.
  Variable virtuals : list string.
  Hypothesis keeps : forall v m mo t q, cv v = Some m -> reads args W other_f sc mo t m q -> rv mo t v q.
  Hypothesis keeps_i : forall v m mo t q, ci v = Some m -> reads_i W other_i sc mo t m q -> ri mo t v q.

  Lemma reads_literal_inv mo t q x : reads args W other_f sc mo t (MLiteral q) x -> x = q.
  Proof. intros H. inversion H; subst; [reflexivity | contradiction]. Qed.
  Lemma reads_literals mo t vs xs : Forall2 (reads args W other_f sc mo t) (map MLiteral vs) xs -> xs = vs.
  Proof.
    revert xs. induction vs as [|v vs IH]; intros xs H; inversion H; subst; [reflexivity|].
    f_equal; [eapply reads_literal_inv; eassumption | apply IH; assumption].
  Qed.
  Lemma node_default_reads n mo t q : reads args W other_f sc mo t (MNode n None) q -> node_value args W other_f sc n mo t q.
  Proof.
    intros H. inversion H as [| | | | |m lm E L]; subst. cbn [load_metric] in L.
    apply rbind_Ok in L. destruct L as (nd & Hn & L). apply rbind_Ok in L. destruct L as (u & Hu & L). injection L as <-.
    unfold of_schema in Hu. destruct (create_metric nd None) as [u'| |] eqn:C; try discriminate. injection Hu as ->.
    destruct (natural_default _ _ C) as (a & Na & Ca). exists nd, a. split; [exact Hn|]. split; [exact Na|].
    apply reads_other; [exact I|]. cbn [load_metric]. rewrite Hn. cbn [rbind]. rewrite Ca. reflexivity.
  Qed.
  Lemma existsb_name n : existsb (String.eqb n) virtuals = true <-> In n virtuals.
  Proof.
    rewrite existsb_exists. split; [intros (x & Hx & E); apply String.eqb_eq in E; subst; exact Hx | intros H; exists n; split; [exact H | apply String.eqb_refl]].
  Qed.
  Lemma level_reads n t q : reads args W other_f sc Before t (level_of virtuals n) q -> level args W other_f sc virtuals n t q.
  Proof.
    unfold level_of, level. destruct (existsb (String.eqb n) virtuals) eqn:E; intros H.
    - left. split; [apply existsb_name; exact E | exact H].
    - right. split; [intros C; apply existsb_name in C; congruence | exact H].
  Qed.
  Lemma all_reads mo t l ms xs : Forall2 (fun v m => cv v = Some m) l ms -> Forall2 (reads args W other_f sc mo t) ms xs -> Forall2 (rv mo t) l xs.
  Proof. apply F2_map. intros a b c. apply keeps. Qed.
  Lemma all_reads_i mo t l ms xs : Forall2 (fun v m => ci v = Some m) l ms -> Forall2 (reads_i W other_i sc mo t) ms xs -> Forall2 (ri mo t) l xs.
  Proof. apply F2_map. intros a b c. apply keeps_i. Qed.
  Lemma history_at {A M} (rds : nat -> M -> A -> Prop) m l t : history T rds m l -> t < T -> exists a, nth_error l t = Some a /\ rds t m a.
  Proof. intros (L & H) Ht. destruct (nth_error_lt_Some l t) as (a & Ha); [lia|]. exists a. split; [exact Ha | apply H; exact Ha]. Qed.
  Lemma interp_ok kw e : conv_interp_kwargs name kw = Ok e -> linear_only kw /\ refuses_outside kw (given e true).
  Proof.
    unfold conv_interp_kwargs, linear_only, refuses_outside. destruct kw as [kw|].
    - intros H. assert (E : e = match kwarg_of kw "bounds_error" with Some (KBool b) => Some b | _ => None end).
      { destruct (kwarg_of kw "kind") as [[| |k|]|]; try (injection H as <-; reflexivity). destruct (String.eqb k "linear"); [injection H as <-; reflexivity | discriminate]. }
      split.
      + intros k s Ek Ks. injection Ek as <-. rewrite Ks in H. destruct (String.eqb s "linear") eqn:El; [apply String.eqb_eq; exact El | discriminate].
      + rewrite E. destruct (kwarg_of kw "bounds_error") as [[]|]; reflexivity.
    - intros H. injection H as <-. split; [discriminate | reflexivity].
  Qed.
  Lemma threshold_ok m th p vs r (x y : nat -> Q -> Prop) :
    conv_returned name vs = Ok r ->
    (forall t q, reads args W other_f sc Before t m q -> x t q) -> (forall t q, reads args W other_f sc Before t th q -> y t q) ->
    body_means args W other_f other_i date T sc name (SpThreshold m th (conv_predicate p) r false) ->
    threshold_means W T sc name x y vs p.
  Proof.
    intros R X Y (xs & ths & Hx & Hy & H) t Ht. specialize (H t Ht).
    destruct (history_at _ _ _ t Hx Ht) as (a & Na & Ra). destruct (history_at _ _ _ t Hy Ht) as (b & Nb & Rb).
    exists a, b. split; [apply X; exact Ra|]. split; [apply Y; exact Rb|].
    assert (A : active (conv_predicate p) false xs ths t <-> v1_compares p a b).
    { unfold active, passed. split.
      - intros (a' & b' & Na' & Nb' & C). rewrite Na in Na'. rewrite Nb in Nb'. injection Na' as <-. injection Nb' as <-. destruct p; exact C.
      - intros C. exists a, b. repeat split; auto. destruct p; exact C. }
    unfold conv_returned in R. destruct vs as [[|v1 [|v2 [|]]]|]; try discriminate; injection R as <-; cbn [returns].
    - exists v1, v2. split; [reflexivity|]. destruct H as (q & Hq & [(Ac & Rq)|(Ac & Rq)]); apply reads_literal_inv in Rq; subst q; tauto.
    - tauto.
  Qed.
  Lemma multi_ok m ths ms (x : nat -> Q -> Prop) :
    Forall2 (fun v m => cv v = Some m) ths ms -> (forall t q, reads args W other_f sc Before t m q -> x t q) ->
    body_means args W other_f other_i date T sc name (SpMultiThreshold m ms GE None false) -> multi_means W T sc name V rv x ths.
  Proof.
    intros F X (xs & thss & Hx & Hy & H) t Ht. destruct (H t Ht) as (k & (a & l & Na & Nl & P1 & P2) & Hk).
    exists a, l, k. assert (L : Forall2 (rv Before t) ths l) by (eapply all_reads; [exact F | apply (proj2 Hy); exact Nl]).
    split; [apply X; apply (proj2 Hx); exact Na|]. split; [exact L|]. split; [exact Hk|]. split.
    - intros j th Hj Nj. specialize (P1 j th Hj Nj). cbn in P1. apply Qnot_le_lt. exact P1.
    - destruct P2 as [P2|P2]; [left; rewrite P2; symmetry; eapply Forall2_length'; exact L | right; exact P2].
  Qed.
  Lemma interpolation_ok n xs ys kw e ms ns :
    Forall2 (fun v m => cv v = Some m) xs ms -> Forall2 (fun v m => cv v = Some m) ys ns -> conv_interp_kwargs name kw = Ok e ->
    body_means args W other_f other_i date T sc name (SpInterpolated (MNode n None) ms ns e) ->
    linear_only kw /\ interpolation_means args W other_f T sc name V rv n xs ys kw.
  Proof.
    intros F G K H. destruct (interp_ok _ _ K) as (L & R). split; [exact L|]. intros t Ht.
    destruct (H t Ht) as (v & ps & qs & y & Hv & Hp & Hq & Hl & Hi & Hy). exists v, ps, qs, y, (given e true).
    split; [apply node_default_reads; exact Hv|]. split; [eapply all_reads; eassumption|]. split; [eapply all_reads; eassumption|]. auto.
  Qed.

  Lemma as_i16_id y : (-32768 <= y < 32768)%Z -> as_i16 y = y.
  Proof. intros H. unfold as_i16. rewrite Z.mod_small; lia. Qed.

  Ltac bind H x Hx := apply rbind_Ok in H; destruct H as (x & Hx & H).
  Ltac done H := injection H as <-.

  Theorem conv_means b r : ~ bare_curve_of_virtual virtuals b -> conv_body V cv ci virtuals name b = Ok r ->
    v2_means args W other_f other_i date T tv chosen sc name r ->
    v1_means args W other_f other_i date T tv chosen sc name V rv ri virtuals b.
  Proof.
    intros NB C M. destruct b; cbn [conv_body] in C; unfold nb in C.
    - cbn [v1_means]. destruct value as [q|]; [|destruct table as [[[t key]|]|]]; try discriminate; done C; destruct M as (x & Hx & M); exists x; (split; [cbn in Hx | exact M]).
      + left. congruence.
      + right; left. split; [reflexivity|]. exists t, key. auto.
      + right; right. auto.
    - bind C v Hv. done C. destruct M as (l & q & Hl & Hq & M). exists l, q. split; [eapply vec_ok; eassumption | auto].
    - bind C bd Hb. done C. bind Hb m Hm. done Hb. apply metric_attr_ok in Hm. intros t Ht. destruct (M t Ht) as (x & q & Rx & H). exists x, q. split; [eapply keeps; eassumption | exact H].
    - bind C bd Hb. done C. bind Hb m Hm. done Hb. apply metric_attr_ok in Hm. intros t Ht. destruct (M t Ht) as (x & q & Rx & H). exists x, q. split; [eapply keeps; eassumption | exact H].
    - bind C bd Hb. done C. bind Hb m Hm. done Hb. apply metric_attr_ok in Hm. intros t Ht. destruct (M t Ht) as (x & q & Rx & H). exists x, q. split; [eapply keeps; eassumption | exact H].
    - bind C bd Hb. done C. bind Hb m Hm. done Hb. apply metric_attr_ok in Hm. intros t Ht. destruct (M t Ht) as (x & q & Rx & H). exists x, q. split; [eapply keeps; eassumption | exact H].
    - bind C bd Hb. done C. bind Hb m Hm. done Hb. apply metric_attr_ok in Hm. intros t Ht. destruct (M t Ht) as (x & q & Rx & H). exists x, q. split; [eapply keeps; eassumption | exact H].
    - bind C bd Hb. done C. bind Hb n Hn. bind Hb d Hd. done Hb. apply metric_attr_ok in Hn. apply metric_attr_ok in Hd.
      intros t Ht. destruct (M Before t eq_refl Ht) as (x & y & q & Rx & Ry & H). exists x, y, q. split; [eapply keeps; eassumption|]. split; [eapply keeps; eassumption | exact H].
    - bind C bd Hb. done C. bind Hb ms Hm. done Hb. apply metrics_ok in Hm.
      intros t Ht. destruct (M Before t eq_refl Ht) as (xs & q & Rx & A & H). exists xs, q. split; [eapply all_reads; eassumption|]. split; [destruct func; exact A | exact H].
    - bind C bd Hb. done C. bind Hb ms Hm. done Hb. apply indices_ok in Hm.
      intros t Ht. destruct (M Before t eq_refl Ht) as (xs & q & Rx & A & H). exists xs, q. split; [eapply all_reads_i; eassumption|]. split; [destruct func; exact A | exact H].
    - bind C bd Hb. done C. bind Hb ms Hm. bind Hb i Hi. done Hb. apply metrics_ok in Hm. apply index_attr_ok in Hi.
      intros t Ht. destruct (M t Ht) as (k & m & q & Rk & Nk & Rq & H).
      destruct (Forall2_nth_r _ _ _ _ _ Hm Nk) as (v & Nv & Ev).
      exists k, v, q. split; [eapply keeps_i; eassumption|]. split; [exact Nv|]. split; [eapply keeps; eassumption | exact H].
    - bind C bd Hb. done C. bind Hb xs Hx. bind Hb ys Hy. bind Hb e He. done Hb. apply metrics_ok in Hx. apply metrics_ok in Hy. eapply interpolation_ok; eassumption.
    - bind C bd Hb. done C. bind Hb xs Hx. bind Hb ys Hy. bind Hb e He. done Hb. apply metrics_ok in Hx. apply metrics_ok in Hy. eapply interpolation_ok; eassumption.
    - done C. intros t Ht. destruct (M t Ht) as (x & q & Rx & H). exists x, q. split; [destruct use_proportional as [[|]|]; exact Rx | exact H].
    - done C. intros Hy t Ht. destruct (M t Ht) as (x & q & Rx & Hq & H). apply reads_literal_inv in Rx. subst x. rewrite as_i16_id in Hq by exact Hy. exists q. auto.
    - bind C bd Hb. done C. bind Hb m Hm. bind Hb th Hth. bind Hb rr Hr. done Hb. apply metric_attr_ok in Hm. apply metric_attr_ok in Hth.
      eapply threshold_ok; try eassumption; intros; eapply keeps; eassumption.
    - bind C bd Hb. done C. bind Hb th Hth. bind Hb rr Hr. done Hb. apply metric_attr_ok in Hth.
      eapply threshold_ok; try eassumption; intros; [apply node_default_reads; assumption | eapply keeps; eassumption].
    - bind C bd Hb. done C. bind Hb rr Hr. bind Hb th Hth. done Hb. apply metric_attr_ok in Hth.
      eapply threshold_ok; try eassumption; intros; [apply node_default_reads; assumption | eapply keeps; eassumption].
    - bind C bd Hb. done C. bind Hb ths Hth. done Hb. apply metrics_ok in Hth. eapply multi_ok; try eassumption. intros; apply node_default_reads; assumption.
    - bind C bd Hb. done C. bind Hb m Hm. bind Hb ths Hth. done Hb. apply metrics_ok in Hth. apply metric_attr_ok in Hm. eapply multi_ok; try eassumption. intros; eapply keeps; eassumption.
    - bind C bd Hb. done C. bind Hb a Ha. bind Hb bb Hbb. done Hb. apply index_attr_ok in Ha. apply index_attr_ok in Hbb.
      destruct M as (ons & offs & (L1 & H1) & (L2 & H2) & M). exists ons, offs.
      split; [split; [exact L1 | intros; eapply keeps_i; [exact Ha | eapply H1; eassumption]]|].
      split; [split; [exact L2 | intros; eapply keeps_i; [exact Hbb | eapply H2; eassumption]] | exact M].
    - bind C bd Hb. done C. bind Hb cs Hc. done Hb. apply metrics_ok in Hc. intros t Ht. destruct (M t Ht) as (x & l & k & Rx & Rl & H).
      exists x, l, k. split; [apply level_reads; exact Rx|]. split; [eapply all_reads; eassumption | exact H].
    - destruct (conv_curve V cv virtuals name storage_node curves curve values parameters) as [bd|e|] eqn:E; try discriminate.
      + done C. unfold conv_curve in E. bind E cs Hc. bind E vs Hv. done E. destruct (curves_ok _ _ _ _ _ _ Hc) as (l & Hl & F).
        exists l. split; [exact Hl|]. intros t Ht. destruct (M t Ht) as (x & ls & k & Rx & Rl & Z & H).
        apply level_reads in Rx. assert (Rl' := all_reads _ _ _ _ _ F Rl).
        assert (Lc : length cs = length l) by (symmetry; eapply Forall2_length'; exact F).
        destruct values as [vals|]; [|destruct parameters as [ps|]; [|discriminate]].
        * done Hv. exists x, ls, k. repeat (split; [assumption|]). intros Ln. destruct H as (v & q & Nv & Rq & Hq); [rewrite map_length; lia|].
          rewrite nth_error_map in Nv. destruct (nth_error vals k) as [y|]; [|discriminate]. injection Nv as <-. apply reads_literal_inv in Rq. subst q. exists y. auto.
        * apply metrics_ok in Hv. exists x, ls, k. repeat (split; [assumption|]). intros Ln.
          assert (Lv := Forall2_length' _ _ _ Hv). destruct H as (v & q & Nv & Rq & Hq); [lia|].
          destruct (Forall2_nth_r _ _ _ _ _ Hv Nv) as (y & Ny & Ey). exists y, q. split; [exact Ny|]. split; [eapply keeps; eassumption | exact Hq].
      + bind C bd Hb. done C. unfold conv_curve_as_index in Hb. bind Hb cs Hc. destruct values; [discriminate|]. destruct parameters; [discriminate|]. done Hb.
        destruct (curves_ok _ _ _ _ _ _ Hc) as (l & Hl & F). exists l. split; [exact Hl|]. intros t Ht. destruct (M t Ht) as (x & ls & k & Rx & Rl & H).
        exists x, ls, k. split; [right; split; [exact NB | exact Rx]|]. split; [eapply all_reads; eassumption | exact H].
    - bind C bd Hb. done C. bind Hb cs Hc. bind Hb vs Hv. done Hb. destruct (curves_ok _ _ _ _ _ _ Hc) as (l & Hl & F).
      exists l. split; [exact Hl|]. intros t Ht Ln. assert (Lc := Forall2_length' _ _ _ F).
      assert (Lv : length vs = length (given values []) + length (given parameters [])).
      { destruct values as [v|], parameters as [p|]; try discriminate; cbn [given length].
        - done Hv. rewrite map_length. lia.
        - apply metrics_ok in Hv. apply Forall2_length' in Hv. lia. }
      destruct (M ltac:(lia) t Ht) as (x & ls & vals & k & lo & up & y & Rx & Rl & Rv & H).
      exists x, ls, vals, k, lo, up, y. split; [apply level_reads; exact Rx|]. split; [eapply all_reads; eassumption|]. split; [|exact H].
      destruct values as [v|], parameters as [p|]; try discriminate.
      + done Hv. apply reads_literals in Rv. subst. left; auto.
      + right. split; [reflexivity|]. exists p. split; [reflexivity|]. apply metrics_ok in Hv. eapply all_reads; eassumption.
    - bind C bd Hb. done C. bind Hb cs Hc. done Hb. destruct (curves_ok _ _ _ _ _ _ Hc) as (l & Hl & F).
      exists l. split; [exact Hl|]. intros Ln t Ht. assert (Lc := Forall2_length' _ _ _ F).
      destruct (M ltac:(lia) t Ht) as (x & ls & k & v & y & Rx & Rl & H). exists x, ls, k, v, y.
      split; [apply level_reads; exact Rx|]. split; [eapply all_reads; eassumption | exact H].
    - destruct timesteps as [w|], days as [d|]; try discriminate. done C. exists w. split; [reflexivity|]. split; [reflexivity|].
      destruct M as (xs & (L & H) & M). exists xs. split; [split; [exact L | intros; apply node_default_reads; eapply H; eassumption]|].
      intros t Ht. destruct (M t Ht) as (q & Hq & A). exists q. split; [exact Hq|]. cbn [given] in A.
      destruct (length (last_values w (firstn t xs)) <? w); [rewrite A; destruct initial_flow; reflexivity | exact A].
    - bind C v Hv. done C. destruct t as [| |i]; destruct M as (l & Hl & M); exists l; (split; [eapply vec_ok; eassumption|]); try exact M.
      destruct i as [[|]|]; exact M.
    - done C. exact M.
    - exact I.
  Qed.
End M.

(** ** Which parameters are accepted *)

(** A result is [Ok] exactly when [P] holds, and never a panic. *)
Definition decides {A} (r : cres A) (P : Prop) : Prop := match r with Ok _ => P | Err _ => ~ P | Panic => False end.
Lemma decides_iff {A} (r : cres A) P Q : decides r P -> (P <-> Q) -> decides r Q.
Proof. destruct r; cbn; tauto. Qed.
Lemma decides_bind {A B} (r : cres A) (f : A -> cres B) P Q :
  decides r P -> (forall a, r = Ok a -> decides (f a) Q) -> decides (rbind r f) (P /\ Q).
Proof.
  destruct r as [a|e|]; cbn; [|tauto|tauto]. intros HP H. specialize (H a eq_refl). destruct (f a); cbn in *; tauto.
Qed.
Lemma decides_ok {A} (a : A) : decides (Ok a : cres A) True.
Proof. exact I. Qed.
Lemma decides_last {A B} (r : cres A) (f : A -> B) P : decides r P -> decides (rbind r (fun a => Ok (f a))) P.
Proof. destruct r; cbn; tauto. Qed.
Lemma decides_map {A B} (f : A -> cres B) (P : A -> Prop) l : (forall a, decides (f a) (P a)) -> decides (rmap f l) (Forall P l).
Proof.
  intros H. induction l as [|a l IH]; [constructor|]. cbn [rmap]. specialize (H a).
  destruct (f a) as [b|e|]; cbn in *; [|intros C; inversion C; tauto | contradiction].
  destruct (rmap f l); cbn in *; [constructor; assumption | intros C; inversion C; tauto | contradiction].
Qed.

Section A.
  Variable V : Type.
  Variable cv : V -> option smetric.
  Variable ci : V -> option imetric.
  Variable virtuals : list string.
  Variable name : string.
  Lemma d_metric a v : decides (metric_attr V cv name a v) (good cv v).
  Proof. unfold metric_attr, good. destruct (cv v); cbn; [discriminate | tauto]. Qed.
  Lemma d_index a v : decides (index_attr V ci name a v) (good_i ci v).
  Proof. unfold index_attr, good_i. destruct (ci v); cbn; [discriminate | tauto]. Qed.
  Lemma d_metrics a l : decides (rmap (metric_attr V cv name a) l) (Forall (good cv) l).
  Proof. apply decides_map. intros; apply d_metric. Qed.
  Lemma d_indices a l : decides (rmap (index_attr V ci name a) l) (Forall (good_i ci) l).
  Proof. apply decides_map. intros; apply d_index. Qed.
  Lemma d_curves cs c : decides (conv_curves V cv name cs c) (has_curves cv cs c).
  Proof.
    unfold conv_curves, has_curves. destruct cs as [l|]; [apply d_metrics|]. destruct c as [v|].
    - eapply decides_iff; [apply decides_last, d_metric|]. split; [intros H; exists v; auto | intros (x & E & H); injection E as <-; exact H].
    - cbn. intros (x & E & _). discriminate.
  Qed.
  Lemma d_vec v : decides (conv_vec name v) (has_numbers v).
  Proof.
    unfold conv_vec, has_numbers. destruct v as [w e tb]; cbn. destruct w; cbn; [left; discriminate|].
    destruct e; cbn; [intros [H|(H & _)]; [apply H; reflexivity | discriminate]|].
    destruct tb as [[[t key]|]|]; cbn; [right; split; [reflexivity | eexists; reflexivity] | |]; intros [H|(_ & t & H)]; try discriminate; apply H; reflexivity.
  Qed.
  Lemma d_kwargs kw : decides (conv_interp_kwargs name kw) (linear_only kw).
  Proof.
    unfold conv_interp_kwargs, linear_only. destruct kw as [kw|]; [|cbn; discriminate].
    destruct (kwarg_of kw "kind") as [[| |k|]|] eqn:E; cbn; try (intros k' s E1 E2; injection E1 as <-; congruence).
    destruct (String.eqb k "linear") eqn:L; cbn.
    - intros k' s E1 E2. injection E1 as <-. apply String.eqb_eq in L. congruence.
    - intros H. specialize (H kw k eq_refl E). subst k. discriminate.
  Qed.
  Lemma d_returned vs : decides (conv_returned name vs) (two vs).
  Proof.
    unfold conv_returned, two. destruct vs as [[|a [|b [|c l]]]|]; cbn; try (intros H; specialize (H _ eq_refl); discriminate H); [intros l E; injection E as <-; reflexivity | discriminate].
  Qed.
  Lemma d_rbf kw : decides (conv_rbf name kw) (rbf_supported kw).
  Proof.
    unfold conv_rbf, rbf_supported. destruct (kwarg_of kw "smooth"); [cbn; intros (H & _); discriminate|].
    destruct (kwarg_of kw "norm"); [cbn; intros (_ & H & _); discriminate|].
    destruct (kwarg_of kw "epsilon") as [[| q | |]|]; cbn [rbind];
      try (cbn; intros (_ & _ & H & _); destruct (H _ eq_refl); discriminate).
    all: destruct (kwarg_of kw "function") as [[b|n|f|]|];
      [cbn; intros (_ & _ & _ & H); destruct (H _ eq_refl) as (s & E & _); discriminate
      |cbn; intros (_ & _ & _ & H); destruct (H _ eq_refl) as (s & E & _); discriminate
      |
      |cbn; intros (_ & _ & _ & H); destruct (H _ eq_refl) as (s & E & _); discriminate
      |cbn; repeat split; try discriminate; intros e E; injection E as <-; eexists; reflexivity].
    all: repeat match goal with |- context [String.eqb ?g ?w] => let Hw := fresh "Hw" in destruct (String.eqb g w) eqn:Hw;
           [apply String.eqb_eq in Hw; subst g; cbn; repeat split; try discriminate;
            intros e E; injection E as <-; eexists; first [reflexivity | split; [reflexivity | cbn; tauto]]|] end.
    all: cbn; intros (_ & _ & _ & H); destruct (H _ eq_refl) as (s & E & I); injection E as <-; cbn in I;
      repeat (destruct I as [<- |I]; [discriminate|]); exact I.
  Qed.

  Theorem conv_supported b : decides (conv_body V cv ci virtuals name b) (supported cv ci b).
  Proof.
    destruct b; cbn [conv_body supported]; unfold nb;
      try (apply decides_last; first [apply d_vec | apply d_rbf]);
      try (apply decides_last, decides_last; first [apply d_metric | apply d_metrics | apply d_indices | apply d_curves]).
    - destruct value as [q|]; [cbn; discriminate|]. destruct table as [[[t key]|]|]; cbn; try discriminate. intros H; apply (H eq_refl); reflexivity.
    - apply decides_last, decides_bind; [apply d_metric|]. intros; apply decides_last, d_metric.
    - apply decides_last, decides_bind; [apply d_metrics|]. intros; apply decides_last, d_index.
    - apply decides_last, decides_bind; [apply d_metrics|]. intros; apply decides_bind; [apply d_metrics|]. intros; apply decides_last, d_kwargs.
    - apply decides_last, decides_bind; [apply d_metrics|]. intros; apply decides_bind; [apply d_metrics|]. intros; apply decides_last, d_kwargs.
    - exact I.
    - exact I.
    - apply decides_last, decides_bind; [apply d_metric|]. intros; apply decides_bind; [apply d_metric|]. intros; apply decides_last, d_returned.
    - apply decides_last, decides_bind; [apply d_metric|]. intros; apply decides_last, d_returned.
    - eapply decides_iff; [apply decides_last, decides_bind; [apply d_returned|]; intros; apply decides_last, d_metric | tauto].
    - apply decides_last, decides_bind; [apply d_metric|]. intros; apply decides_last, d_metrics.
    - apply decides_last, decides_bind; [apply d_index|]. intros; apply decides_last, d_index.
    - unfold conv_curve, conv_curve_as_index. pose proof (d_curves curves curve) as D. destruct (conv_curves V cv name curves curve) as [cs|e|]; cbn [rbind]; cbn in D; [|cbn; tauto|contradiction].
      destruct values as [vs|]; cbn [rbind]; [cbn; split; [exact D | discriminate]|].
      destruct parameters as [ps|]; cbn [rbind]; [|cbn; split; [exact D | discriminate]].
      pose proof (d_metrics "parameters" ps) as P. destruct (rmap (metric_attr V cv name "parameters") ps); cbn in *; [|intros (_ & H); apply P; apply H; reflexivity | contradiction].
      split; [exact D|]. intros _ l E. injection E as <-. exact P.
    - apply decides_last, decides_bind; [apply d_curves|]. intros cs _. apply decides_last.
      destruct values as [vs|], parameters as [ps|]; cbn.
      + intros [(_ & H)|(H & _)]; discriminate.
      + left. split; [discriminate | reflexivity].
      + eapply decides_iff; [apply d_metrics|]. split; [intros H; right; split; [reflexivity | exists ps; auto] | intros [(H & _)|(_ & l & E & H)]; [destruct (H eq_refl) | injection E as <-; exact H]].
      + intros [(H & _)|(_ & l & H & _)]; [apply H; reflexivity | discriminate].
    - destruct timesteps as [w|], days as [d|]; cbn; try (intros (H & G); try discriminate; apply H; reflexivity). split; [discriminate | reflexivity].
    - exact I.
  Qed.
End A.

(** ** Nodes *)

Section N.
  Variable V : Type.
  Variable cn : V -> option umetric.
  Variable name : string.
  Lemma d_node a v : decides (node_attr V cn name a v) (ngood cn v).
  Proof. unfold node_attr, ngood. destruct (cn v); cbn; [discriminate | tauto]. Qed.
  Lemma d_opt a v : decides (opt_attr V cn name a v) (ogood cn v).
  Proof.
    unfold opt_attr, ogood. destruct v as [v|]; [|cbn; discriminate]. eapply decides_iff; [apply decides_last, d_node|].
    split; [intros H x E; injection E as <-; exact H | intros H; apply H; reflexivity].
  Qed.
  Lemma d_initial i pc : decides (conv_initial name i pc) (has_start i pc).
  Proof. unfold conv_initial, has_start. destruct i, pc; cbn; try (left; discriminate); try (right; discriminate). intros [H|H]; apply H; reflexivity. Qed.
  Lemma d_factor v : decides (factor_value V cn name v) (number cn v).
  Proof. unfold factor_value, number. destruct (cn v) as [[]|]; cbn; try (intros (q & H); discriminate). eexists; reflexivity. Qed.
  Lemma d_factors fs : decides (conv_factors V cn name fs) (Forall (number cn) fs).
  Proof.
    unfold conv_factors. destruct fs as [|f fs]; [constructor|].
    eapply decides_iff; [apply decides_bind; [apply d_factor | intros; apply decides_last, (decides_map _ (number cn)); intros; apply d_factor]|].
    split; [intros (A & B); constructor; assumption | intros H; inversion H; auto].
  Qed.
  Ltac dec := repeat first [apply decides_last; first [apply d_opt | apply d_initial | apply d_factors] | apply decides_bind; [first [apply d_opt | apply d_initial]|]; intros ? _].

  Theorem node_supported n : decides (conv_nbody V cn name n) (nsupported cn n).
  Proof.
    destruct n as [c mn mx|c mn mx|c mn mx|c mn mx i pc|c f|m mc c|lf c mn mx|c mn mx|m mc fs slots|n costs maxs|ds ts i|ns fs mn mx|ns|s t]; cbn [conv_nbody nsupported].
    - eapply decides_iff; [dec | tauto].
    - eapply decides_iff; [dec | tauto].
    - eapply decides_iff; [dec | tauto].
    - eapply decides_iff; [dec | tauto].
    - dec.
    - dec.
    - eapply decides_iff; [dec | tauto].
    - destruct mx; [cbn; intros (_ & _ & H); discriminate|]. destruct mn; [cbn; intros (_ & H & _); discriminate|]. destruct c; cbn; [intros (H & _); discriminate | auto].
    - dec.
    - apply decides_bind.
      + destruct costs as [l|]; [|cbn; discriminate].
        eapply decides_iff; [apply (decides_map _ (ngood cn)); intros; apply decides_last, d_node|]. split; [intros H x E; injection E as <-; exact H | intros H; apply H; reflexivity].
      + intros cs _. apply decides_last. destruct maxs as [l|]; [|cbn; discriminate].
        eapply decides_iff; [apply (decides_map _ (ogood cn)); intros; apply d_opt|]. split; [intros H x E; injection E as <-; exact H | intros H; apply H; reflexivity].
    - destruct ds, ts; cbn; try (left; discriminate); try (right; discriminate). intros [H|H]; apply H; reflexivity.
    - eapply decides_iff; [apply (decides_bind _ _ (forall l, fs = Some l -> Forall (ngood cn) l)) | ].
      + destruct fs as [l|]; [|cbn; discriminate]. eapply decides_iff; [apply decides_last, (decides_map _ (ngood cn)); intros v; unfold ngood; destruct (cn v); cbn; [discriminate | tauto]|].
        split; [intros H x E; injection E as <-; exact H | intros H; apply H; reflexivity].
      + intros rel _. dec.
      + tauto.
    - exact I.
    - apply decides_last. unfold conv_store. eapply decides_iff; [do 3 (apply decides_bind; [apply d_opt|]; intros ? _); apply decides_bind; [apply d_initial|]; intros i' _;
        instantiate (1 := match t with StRolling (Some d) _ => d <> 0 | StRolling None (Some n) => n <> 0 | StRolling None None => False | _ => True end)|].
      + destruct t as [|? ? ?|? ?|? ? ? ? ?|ds ts]; try exact I. unfold conv_window. destruct ds as [d|]; [|destruct ts as [d|]; [|cbn; tauto]]; destruct d; cbn; try lia; tauto.
      + tauto.
  Qed.

  Lemma same_opt a v m : opt_attr V cn name a v = Ok m -> same cn v m.
  Proof.
    unfold opt_attr, node_attr, same. destruct v as [v|]; [|intros H; injection H as <-; exact I].
    destruct (cn v) eqn:E; cbn; [intros H; injection H as <-; first [exact E | reflexivity] | discriminate].
  Qed.
  Lemma starts_ok i pc r : conv_initial name i pc = Ok r -> starts i pc r.
  Proof. unfold conv_initial, starts. destruct i, pc; intros H; inversion H; reflexivity. Qed.
  Lemma factor_ok v q : factor_value V cn name v = Ok q -> cn v = Some (UConst q).
  Proof. unfold factor_value. destruct (cn v) as [[]|]; intros H; inversion H; reflexivity. Qed.
  Lemma shares_ok fs ps : conv_factors V cn name fs = Ok ps -> shares cn fs ps.
  Proof.
    unfold conv_factors, shares. destruct fs as [|f fs]; [intros H; injection H as <-; left; auto|]. intros H.
    apply rbind_Ok in H. destruct H as (q & Hq & H). apply rbind_Ok in H. destruct H as (qs & Hs & H). cbv zeta in H. injection H as <-.
    right. exists (q :: qs). apply factor_ok in Hq. apply rmap_Ok_Forall2 in Hs.
    split; [constructor; [exact Hq|]; induction Hs; constructor; [apply factor_ok; assumption | assumption]|]. split; [discriminate|]. cbn [tl].
    assert (E : (total (q :: qs) == qsum qs + q)%Q) by (unfold total, qsum; cbn [fold_right]; apply Qplus_comm).
    set (s := (qsum qs + q)%Q) in *. clearbody s. clear Hs. generalize E. generalize (total (q :: qs)). intros tot E'. clear E.
    induction qs as [|x l IH]; [constructor|]. cbn [map]. constructor; [|exact IH]. exists (x / s)%Q. split; [reflexivity|]. intros N. rewrite E'. field. rewrite <- E'. exact N.
  Qed.
  Lemma as_i8_id z : (-128 <= z < 128)%Z -> as_i8 z = z.
  Proof. intros H. unfold as_i8. rewrite Z.mod_small; lia. Qed.
  Lemma nth_combine {A B} (l : list A) (m : list B) i p : nth_error (combine l m) i = Some p -> nth_error l i = Some (fst p) /\ nth_error m i = Some (snd p).
  Proof. revert m i. induction l as [|a l IH]; intros [|b m] [|i] H; try discriminate; cbn in *; [injection H as <-; auto | apply IH; exact H]. Qed.
  Lemma nth_tl {A} (l : list A) i : nth_error (skipn 1 l) i = nth_error l (S i).
  Proof. destruct l; [destruct i; reflexivity | reflexivity]. Qed.
  Lemma nth_repeat_None {A} n i (x : option A) : nth_error (repeat None n) i = Some x -> x = None.
  Proof. intros H. apply nth_error_In in H. apply repeat_spec in H. exact H. Qed.

  Ltac bind H x Hx := apply rbind_Ok in H; destruct H as (x & Hx & H).
  Ltac opt H x Hx := bind H x Hx; apply same_opt in Hx.
  Theorem node_becomes n r : conv_nbody V cn name n = Ok r -> becomes cn name n r.
  Proof.
    destruct n as [c mn mx|c mn mx|c mn mx|c mn mx i pc|c f|m mc c|lf c mn mx|c mn mx|m mc fs slots|n costs maxs|ds ts i|ns fs mn mx|ns|s t]; cbn [conv_nbody becomes]; intros H.
    - opt H c' Hc. opt H mx' Hx. opt H mn' Hn. injection H as <-. exists c', mn', mx'. auto.
    - opt H c' Hc. opt H mx' Hx. opt H mn' Hn. injection H as <-. exists c', mn', mx'. auto.
    - opt H c' Hc. opt H mx' Hx. opt H mn' Hn. injection H as <-. exists c', mn', mx'. auto.
    - opt H c' Hc. opt H mx' Hx. opt H mn' Hn. bind H i' Hi. injection H as <-. apply starts_ok in Hi. exists c', mn', mx', i'. auto.
    - opt H c' Hc. opt H f' Hf. injection H as <-. exists c', f'. auto.
    - opt H m' Hm. opt H mc' Hmc. opt H c' Hc. injection H as <-. exists m', mc', c'. auto.
    - opt H lf' Hl. opt H c' Hc. opt H mx' Hx. opt H mn' Hn. injection H as <-. exists lf', c', mn', mx'. repeat (split; [assumption|]). destruct lf'; reflexivity.
    - destruct mx, mn, c; try discriminate. injection H as <-. auto.
    - opt H m' Hm. opt H mc' Hmc. bind H ps Hp. remember (skipn 1 slots) as rest eqn:Er. injection H as <-. apply shares_ok in Hp. exists m', mc', ps.
      eexists. split; [exact Hm|]. split; [exact Hmc|]. split; [exact Hp|]. split; [|split; [|reflexivity]].
      + rewrite map_length, combine_length, Er, skipn_length. reflexivity.
      + intros i s N. rewrite nth_error_map in N. destruct (nth_error (combine ps rest) i) as [p|] eqn:E; [|discriminate]. injection N as <-.
        apply nth_combine in E. destruct E as (E1 & E2). rewrite Er, nth_tl in E2. auto.
    - bind H cs Hc. bind H ms Hm. injection H as <-. eexists. split; [|split; [|split; [|split; [|reflexivity]]]].
      + rewrite map_length, combine_length. f_equal.
        * destruct costs as [l|]; [apply rmap_Ok_Forall2, Forall2_length' in Hc; auto | injection Hc as <-; apply repeat_length].
        * destruct maxs as [l|]; [apply rmap_Ok_Forall2, Forall2_length' in Hm; auto | injection Hm as <-; apply repeat_length].
      + intros l ->. apply rmap_Ok_Forall2 in Hc. clear -Hc. induction Hc as [|v m l ms H F IH]; constructor; [|exact IH].
        apply rbind_Ok in H. destruct H as (x & H & _). unfold node_attr in H. destruct (cn v); discriminate.
      + intros l ->. apply rmap_Ok_Forall2 in Hm. clear -Hm. induction Hm as [|v m l ms H F IH]; constructor; [|exact IH]. exists m. apply same_opt in H. exact H.
      + intros i s N. rewrite nth_error_map in N. destruct (nth_error (combine cs ms) i) as [p|] eqn:E; [|discriminate]. injection N as <-.
        apply nth_combine in E. destruct E as (E1 & E2). cbn [ls_min ls_cost ls_max]. split; [reflexivity|]. split.
        * destruct costs as [l|]; [|injection Hc as <-; eapply nth_repeat_None; exact E1]. apply rmap_Ok_Forall2 in Hc.
          destruct (Forall2_nth_r _ _ _ _ _ Hc E1) as (v & Nv & Hv). exists v. split; [exact Nv|]. apply rbind_Ok in Hv. destruct Hv as (x & Hx & Hv). injection Hv as <-.
          unfold node_attr in Hx. cbn. destruct (cn v); [injection Hx as <-; reflexivity | discriminate].
        * destruct maxs as [l|]; [|injection Hm as <-; eapply nth_repeat_None; exact E2]. apply rmap_Ok_Forall2 in Hm.
          destruct (Forall2_nth_r _ _ _ _ _ Hm E2) as (v & Nv & Hv). exists v. split; [exact Nv | eapply same_opt; exact Hv].
    - destruct ds as [d|]; [|destruct ts as [d|]; [|discriminate]]; injection H as <-; exists d; (split; [reflexivity | destruct i; reflexivity]).
    - bind H rel Hr. opt H mx' Hx. opt H mn' Hn. injection H as <-. exists rel, mn', mx'. repeat (split; [assumption|]). split; [|reflexivity].
      destruct fs as [l|]; [|injection Hr as <-; reflexivity]. bind Hr l' Hl. injection Hr as <-. exists l'. split; [|reflexivity].
      apply rmap_Ok_Forall2 in Hl. clear -Hl. induction Hl as [|v m l l' H F IH]; constructor; [|exact IH]. destruct (cn v); [injection H as <-; reflexivity | discriminate].
    - injection H as <-. reflexivity.
    - bind H v Hv. injection H as <-. unfold conv_store in Hv. opt Hv c' Hc. opt Hv mx' Hx. opt Hv mn' Hn. bind Hv i' Hi. apply starts_ok in Hi. cbv zeta in Hv.
      destruct t as [|d m ti|m ti|d m ed em ti|ds ts]; [| | | |bind Hv w Hw]; injection Hv as <-; exists c', mn', mx', i'; do 3 eexists;
        (repeat (split; [eassumption|])); (split; [|split; [|reflexivity]]); cbn; auto.
      + split; [intros; rewrite !as_i8_id by assumption; reflexivity|]. split; [do 2 eexists; reflexivity | destruct ti; reflexivity].
      + split; [intros; rewrite !as_i8_id by assumption; reflexivity|]. split; [do 4 eexists; reflexivity | destruct ti; reflexivity].
      + unfold conv_window in Hw. destruct ds as [[|d]|]; [discriminate | injection Hw as <-; auto | destruct ts as [[|d]|]; [discriminate | injection Hw as <-; auto | discriminate]].
  Qed.
End N.

(** ** What an error names *)

(** Every error of [r] is about the component, and blames only a value of [l]
    (or what [extra] allows). *)
Definition fair {V A} (bad : V -> Prop) (name : string) (extra : string -> Prop) (l : list (string * V)) (r : cres A) : Prop :=
  forall e, r = Err e -> names e = name /\ forall a, blames e a -> (exists v, In (a, v) l /\ bad v) \/ extra a.
Lemma fair_bind {V A B} bad name extra (l : list (string * V)) (r : cres A) (f : A -> cres B) :
  fair bad name extra l r -> (forall a, r = Ok a -> fair bad name extra l (f a)) -> fair bad name extra l (rbind r f).
Proof. intros H G e. destruct r as [a|e'|]; cbn; [apply G; reflexivity | intros E; injection E as <-; apply H; reflexivity | discriminate]. Qed.
Lemma fair_ok {V A} bad name extra (l : list (string * V)) (a : A) : fair bad name extra l (Ok a).
Proof. intros e H. discriminate. Qed.
Lemma fair_err {V A} bad name (extra : string -> Prop) (l : list (string * V)) e : names e = name -> (forall a, blames e a -> extra a) -> fair bad name extra l (Err e : cres A).
Proof. intros N B e' H. injection H as <-. split; [exact N|]. intros a Ha. right. apply B. exact Ha. Qed.
Lemma fair_incl {V A} bad name extra (l m : list (string * V)) (r : cres A) : incl l m -> fair bad name extra l r -> fair bad name extra m r.
Proof. intros I H e E. destruct (H e E) as (N & B). split; [exact N|]. intros a Ha. destruct (B a Ha) as [(v & Hv & Bv)|X]; [left; exists v; auto | right; exact X]. Qed.
Lemma fair_map {V X A} bad name extra (l : list (string * V)) (f : X -> cres A) vs : (forall v, In v vs -> fair bad name extra l (f v)) -> fair bad name extra l (rmap f vs).
Proof.
  induction vs as [|v vs IH]; intros H; [apply fair_ok|]. cbn [rmap]. intros e E. destruct (f v) as [b|e'|] eqn:F; cbn in E.
  - destruct (rmap f vs) as [bs|e'|] eqn:R; cbn in E; try discriminate. injection E as <-. apply IH; [intros; apply H; right; assumption | reflexivity].
  - injection E as <-. apply (H v); [left; reflexivity | exact F].
  - discriminate.
Qed.

Section F.
  Variable V : Type.
  Variable cv : V -> option smetric.
  Variable ci : V -> option imetric.
  Variable virtuals : list string.
  Variable name : string.
  Notation bad := (fun v => cv v = None \/ ci v = None).
  Variable extra : string -> Prop.
  Lemma f_metric l a v : In (a, v) l -> fair bad name extra l (metric_attr V cv name a v).
  Proof. intros I e. unfold metric_attr. destruct (cv v) eqn:E; intros H; inversion H. split; [reflexivity|]. cbn. intros b ->. left. exists v. auto. Qed.
  Lemma f_index l a v : In (a, v) l -> fair bad name extra l (index_attr V ci name a v).
  Proof. intros I e. unfold index_attr. destruct (ci v) eqn:E; intros H; inversion H. split; [reflexivity|]. cbn. intros b ->. left. exists v. auto. Qed.
  Lemma in_under (a : string) (l : list V) v : In v l -> In (a, v) (under a l).
  Proof. intros H. unfold under. apply in_map_iff. exists v. auto. Qed.
  Lemma f_metrics l a vs : incl (under a vs) l -> fair bad name extra l (rmap (metric_attr V cv name a) vs).
  Proof. intros I. apply fair_map. intros v Hv. apply f_metric, I, in_under, Hv. Qed.
  Lemma f_indices l a vs : incl (under a vs) l -> fair bad name extra l (rmap (index_attr V ci name a) vs).
  Proof. intros I. apply fair_map. intros v Hv. apply f_index, I, in_under, Hv. Qed.
  Lemma f_curves l cs c : incl (curve_values cs c) l -> fair bad name extra l (conv_curves V cv name cs c).
  Proof.
    intros I. unfold conv_curves. destruct cs as [vs|].
    - apply f_metrics. intros x Hx. apply I. apply in_or_app. left. exact Hx.
    - destruct c as [v|]; [|apply fair_err; [reflexivity | intros a []]]. apply fair_bind; [|intros; apply fair_ok]. apply f_metric, I. left. reflexivity.
  Qed.
  Lemma f_vec (l : list (string * V)) v : (w_table v = Some None -> extra "table") -> fair bad name extra l (conv_vec name v).
  Proof.
    intros X. unfold conv_vec. destruct (w_values v); [apply fair_ok|]. destruct (w_external v); [apply fair_err; [reflexivity | intros a []]|].
    destruct (w_table v) as [[[t key]|]|]; [apply fair_ok | apply fair_err; [reflexivity | cbn; intros a ->; apply X; reflexivity] | apply fair_err; [reflexivity | intros a []]].
  Qed.
  Lemma f_returned (l : list (string * V)) vs : fair bad name extra l (conv_returned name vs).
  Proof. unfold conv_returned. destruct vs as [[|a [|b [|c m]]]|]; try apply fair_ok; apply fair_err; try reflexivity; intros x []. Qed.
  Lemma f_kwargs (l : list (string * V)) kw : fair bad name extra l (conv_interp_kwargs name kw).
  Proof.
    unfold conv_interp_kwargs. destruct kw as [kw|]; [|apply fair_ok]. cbv zeta. destruct (kwarg_of kw "kind") as [[]|]; try apply fair_ok.
    destruct (String.eqb s "linear"); [apply fair_ok | apply fair_err; [reflexivity | intros a []]].
  Qed.
  Lemma f_rbf (l : list (string * V)) kw : fair bad name extra l (conv_rbf name kw).
  Proof.
    unfold conv_rbf. destruct (kwarg_of kw "smooth"); [apply fair_err; [reflexivity | intros a []]|].
    destruct (kwarg_of kw "norm"); [apply fair_err; [reflexivity | intros a []]|].
    apply fair_bind; [destruct (kwarg_of kw "epsilon") as [[]|]; first [apply fair_ok | apply fair_err; [reflexivity | intros a []]]|]. intros eps _.
    destruct (kwarg_of kw "function") as [[]|]; try (apply fair_err; [reflexivity | intros a []]); [|apply fair_ok].
    repeat match goal with |- context [String.eqb ?g ?w] => destruct (String.eqb g w); [apply fair_ok|] end. apply fair_err; [reflexivity | intros a []].
  Qed.
End F.
Ltac inc := intros ?x ?Hx; cbn [attribute_values]; unfold curve_values in *; cbn in *; repeat rewrite in_app_iff in *; cbn in *; tauto.
Ltac fsolve := repeat first
  [apply fair_ok | apply f_returned | apply f_kwargs | apply f_rbf | apply f_metric; cbn; tauto | apply f_index; first [cbn; tauto | apply in_or_app; cbn; tauto]
  | apply f_metrics; inc | apply f_indices; inc | apply f_curves; inc
  | apply fair_err; [reflexivity | intros ? []] | apply fair_bind; [|intros ? _]].
Theorem conv_fair V cv ci virtuals name (b : v1_body V) :
  fair (fun v => cv v = None \/ ci v = None) name (fun a => a = "table" /\ has_table b) (attribute_values b) (conv_body V cv ci virtuals name b).
Proof.
  destruct b; cbn [conv_body attribute_values]; unfold nb; try solve [fsolve].
  - destruct value; [apply fair_ok|]. destruct table as [[[t key]|]|]; try apply fair_ok. apply fair_err; [reflexivity|]. cbn. auto.
  - apply fair_bind; [apply f_vec; cbn; auto | intros; apply fair_ok].
  - destruct (conv_curve V cv virtuals name storage_node curves curve values parameters); [apply fair_ok | | intros e0 H; discriminate].
    apply fair_bind; [|intros; apply fair_ok]. unfold conv_curve_as_index. apply fair_bind; [apply f_curves; inc|]. intros cs _. destruct values, parameters; fsolve.
  - apply fair_bind; [|intros; apply fair_ok]. apply fair_bind; [apply f_curves; inc|]. intros cs _. apply fair_bind; [|intros; apply fair_ok]. destruct values, parameters; fsolve.
  - destruct timesteps, days; fsolve.
  - apply fair_bind; [apply f_vec; cbn; auto | intros; apply fair_ok].
Qed.

Section FN.
  Variable V : Type.
  Variable cn : V -> option umetric.
  Variable name : string.
  Notation bad := (fun v => cn v = None).
  Variable extra : string -> Prop.
  Lemma f_node l a v : In (a, v) l -> fair bad name extra l (node_attr V cn name a v).
  Proof. intros I e. unfold node_attr. destruct (cn v) eqn:E; intros H; inversion H. split; [reflexivity|]. cbn. intros b ->. left. exists v. auto. Qed.
  Lemma f_opt l a v : (forall x, v = Some x -> In (a, x) l) -> fair bad name extra l (opt_attr V cn name a v).
  Proof. intros I. unfold opt_attr. destruct v as [v|]; [|apply fair_ok]. apply fair_bind; [apply f_node, I; reflexivity | intros; apply fair_ok]. Qed.
  Lemma f_initial (l : list (string * V)) i pc : fair bad name extra l (conv_initial name i pc).
  Proof. unfold conv_initial. destruct i, pc; first [apply fair_ok | apply fair_err; [reflexivity | intros a []]]. Qed.
  Lemma f_factor l v : In ("factors", v) l -> fair bad name extra l (factor_value V cn name v).
  Proof.
    intros I e. unfold factor_value. destruct (cn v) as [[]|] eqn:E; intros H; inversion H; (split; [reflexivity|]); cbn; intros b Hb; try contradiction. subst b. left. exists v. auto.
  Qed.
  Lemma f_factors l fs : incl (under "factors" fs) l -> fair bad name extra l (conv_factors V cn name fs).
  Proof.
    intros I. unfold conv_factors. destruct fs as [|f fs]; [apply fair_ok|]. apply fair_bind; [apply f_factor, I; left; reflexivity|]. intros q _.
    apply fair_bind; [|intros; apply fair_ok]. apply fair_map. intros v Hv. apply f_factor, I. right. apply in_under, Hv.
  Qed.
End FN.
Ltac osolve := intros ?x ->; cbn; repeat rewrite in_app_iff; cbn; tauto.
Ltac nsolve := repeat first [apply fair_ok | apply f_opt; osolve | apply f_initial | apply fair_bind; [|intros ? _] | apply fair_err; [reflexivity | intros ? []]].
Theorem node_fair V cn name (n : v1_nbody V) : ~ is_catchment n ->
  fair (fun v => cn v = None) name (fun _ => False) (node_values n) (conv_nbody V cn name n).
Proof.
  intros NC. destruct n as [c mn mx|c mn mx|c mn mx|c mn mx i pc|c f|m mc c|lf c mn mx|c mn mx|m mc fs slots|n costs maxs|ds ts i|ns fs mn mx|ns|s t]; cbn [conv_nbody node_values]; try solve [nsolve].
  - destruct (NC I).
  - destruct mx, mn, c; nsolve.
  - apply fair_bind; [apply f_opt; osolve|]. intros ? _. apply fair_bind; [apply f_opt; osolve|]. intros ? _. apply fair_bind; [|intros; apply fair_ok].
    apply f_factors. intros x Hx. rewrite !in_app_iff. auto.
  - apply fair_bind.
    + destruct costs as [l|]; [|apply fair_ok]. apply fair_map. intros v Hv. apply fair_bind; [|intros; apply fair_ok]. apply f_node. apply in_or_app. left. apply in_under, Hv.
    + intros ? _. apply fair_bind; [|intros; apply fair_ok]. destruct maxs as [l|]; [|apply fair_ok]. apply fair_map. intros v Hv. apply f_opt. intros x ->. apply in_or_app. right.
      apply in_flat_map. exists (Some x). split; [exact Hv | left; reflexivity].
  - destruct ds, ts; nsolve.
  - apply fair_bind; [|intros ? _; nsolve]. destruct fs as [l|]; [|apply fair_ok]. apply fair_bind; [|intros; apply fair_ok]. apply fair_map. intros v Hv e.
    destruct (cn v) eqn:E; intros H; inversion H. split; [reflexivity|]. cbn. intros b ->. left. exists v. split; [apply in_or_app; left; apply in_under, Hv | exact E].
  - apply fair_bind; [|intros; apply fair_ok]. unfold conv_store. do 3 (apply fair_bind; [apply f_opt; osolve | intros ? _]). apply fair_bind; [apply f_initial|]. intros ? _.
    destruct t as [|? ? ?|? ?|? ? ? ? ?|ds ts]; try apply fair_ok. apply fair_bind; [|intros; apply fair_ok]. unfold conv_window.
    destruct ds as [[|d]|]; [| |destruct ts as [[|d]|]]; cbn [Nat.eqb]; nsolve.
Qed.
