(** Lemmas about the parameters of a model file. *)
From Coq Require Import QArith Qabs Qpower Lia Lqa.
From Verif Require Import Base Calendar Network AggFuncs AggFuncsSpec AggFuncsLemmas ControlCurves ControlCurvesSpec ControlCurvesLemmas Formulas
  ParamsTemporal ParamsTemporalSpec Profiles ProfilesSpec Props_Temporal Props_Curves Props_Profiles Props_Agg
  SchemaNodes SchemaVirtual MetricSets SchemaParams SchemaParamsSpec.
Local Open Scope string_scope.
Local Open Scope list_scope.
Local Open Scope nat_scope.

(** ** Results and lists *)

Lemma bind_Ok {E A B} (r : res E A) (f : A -> res E B) b : rbind r f = Ok b -> exists a, r = Ok a /\ f a = Ok b.
Proof. destruct r as [a | e |]; cbn [rbind]; intros H; [exists a; split; [reflexivity | exact H] | discriminate H | discriminate H]. Qed.
Lemma of_metric_Ok {A} (r : mres A) a : of_metric r = Ok a -> r = Ok a.
Proof. destruct r; cbn; intros H; [injection H as ->; reflexivity | discriminate H | discriminate H]. Qed.
Lemma as_f_Ok r v : as_f r = Ok v -> exists q, r = Ok q /\ v = VF q.
Proof. intros H. apply bind_Ok in H as (q & -> & H). injection H as <-. exists q. split; reflexivity. Qed.
Lemma of_curve_Ok {A} (r : res curve_error A) a : of_curve r = Ok a -> r = Ok a.
Proof. destruct r; cbn; intros H; [injection H as ->; reflexivity | discriminate H | discriminate H]. Qed.
Lemma of_unit_Ok {A} (r : res unit A) a : of_unit r = Ok a -> r = Ok a.
Proof. destruct r; cbn; intros H; [injection H as ->; reflexivity | discriminate H | discriminate H]. Qed.
Lemma of_profile_Ok (r : profile_value) q : of_profile r = Ok q -> r = Ok q.
Proof. destruct r; cbn; intros H; [injection H as ->; reflexivity | discriminate H | discriminate H]. Qed.
Lemma loads_Ok args p ms lms : rmap (fun m => of_metric (load_metric args p m)) ms = Ok lms -> Forall2 (fun m lm => load_metric args p m = Ok lm) ms lms.
Proof.
  intros H. apply rmap_Ok_Forall2 in H. clear -H. induction H; constructor; [apply of_metric_Ok; assumption | assumption].
Qed.

Lemma stepped {A B} (g : nat -> B) (h : A -> B) T l : steps T g = map h l ->
  length l = T /\ forall t, t < T -> exists a, nth_error l t = Some a /\ g t = h a.
Proof.
  unfold steps. intros H. assert (L : length l = T).
  { rewrite <- (map_length h l), <- H, map_length, seq_length. reflexivity. }
  split; [exact L|]. intros t Ht. destruct (nth_error l t) as [a|] eqn:E; [|apply nth_error_None in E; lia].
  exists a. split; [reflexivity|].
  assert (X : nth_error (map g (seq 0 T)) t = Some (h a)) by (rewrite H; apply map_nth_error; exact E).
  rewrite (map_nth_error g t (seq 0 T) (d := t)) in X; [injection X as <-; reflexivity|].
  rewrite nth_error_nth' with (d := 0) by (rewrite seq_length; exact Ht). rewrite seq_nth by exact Ht. reflexivity.
Qed.
Lemma nth_steps {A} (g : nat -> A) T t : t < T -> nth_error (steps T g) t = Some (g t).
Proof.
  intros Ht. unfold steps. apply map_nth_error. rewrite nth_error_nth' with (d := 0) by (rewrite seq_length; exact Ht).
  rewrite seq_nth by exact Ht. reflexivity.
Qed.
Lemma nth_steps_inv {A} (g : nat -> A) T t a : nth_error (steps T g) t = Some a -> t < T /\ a = g t.
Proof.
  intros H. assert (Ht : t < T).
  { assert (X : t < length (steps T g)) by (apply nth_error_Some; rewrite H; discriminate). unfold steps in X.
    rewrite map_length, seq_length in X. exact X. }
  rewrite nth_steps in H by exact Ht. injection H as <-. split; [exact Ht | reflexivity].
Qed.
Lemma steps_length {A} (g : nat -> A) T : length (steps T g) = T.
Proof. unfold steps. rewrite map_length, seq_length. reflexivity. Qed.
Lemma pointwise {E A} (f : nat -> res E A) (g : nat -> A) T : rmap f (seq 0 T) = Ok (steps T g) -> forall t, t < T -> f t = Ok (g t).
Proof.
  unfold steps. intros H t Ht. apply rmap_Ok_Forall2 in H.
  assert (X : forall l, Forall2 (fun a b => f a = Ok b) l (map g l) -> forall a, In a l -> f a = Ok (g a)).
  { clear. induction l as [|x l IH]; cbn; intros H a I; [destruct I|]. inversion H as [|? ? ? ? H1 H2]; subst.
    destruct I as [<- | I]; [exact H1 | exact (IH H2 a I)]. }
  apply (X _ H). apply in_seq. lia.
Qed.

(** ** Functions *)

Lemma max2 a b : is_max [a; b] (fmax a b).
Proof. exact (fold_max_spec [b] a). Qed.
Lemma min2 a b : is_min [a; b] (fmin a b).
Proof. exact (fold_min_spec [b] a). Qed.

Lemma load_func_spec f l : aggregate f l (calc_iter_f64 (load_func f) l).
Proof.
  destruct f as [ | | | | | | tol]; cbn [aggregate load_func].
  - apply C33_sum.
  - apply C33_max_attained.
  - apply C33_min_attained.
  - apply C33_product.
  - apply C33_mean.
  - destruct (C33_count_non_zero l) as (n & H & K). exists n. rewrite H. split; [reflexivity | exact K].
  - destruct tol as [tol|]; apply C33_any_non_zero.
Qed.
Lemma fold_checked op l : forall acc z, fold_u64 Checked op l acc = Ok z -> z = fold_left op l acc.
Proof.
  induction l as [|x l IH]; cbn [fold_u64 fold_left]; intros acc z H; [injection H as <-; reflexivity|].
  apply bind_Ok in H as (a & H & K). unfold fit in H. destruct (op acc x <=? U64_MAX)%Z; [|discriminate H].
  injection H as <-. apply IH. exact K.
Qed.
Lemma fold_add l : forall a, fold_left Z.add l a = (a + zsum l)%Z.
Proof. induction l as [|x l IH]; intros a; cbn [fold_left zsum fold_right]; [lia|]. rewrite IH. unfold zsum. lia. Qed.
Lemma fold_mul l : forall a, fold_left Z.mul l a = (a * zprod l)%Z.
Proof. induction l as [|x l IH]; intros a; cbn [fold_left zprod fold_right]; [lia|]. rewrite IH. unfold zprod. lia. Qed.
Lemma load_index_func_spec f l z : calc_iter_u64 Checked (load_index_func f) l = Ok z -> index_aggregate f l z.
Proof.
  destruct f; cbn [index_aggregate load_index_func]; intros H.
  - apply fold_checked in H. rewrite H, fold_add. lia.
  - apply fold_checked in H. rewrite H, fold_mul. lia.
  - intros N. destruct (C33_u64_min_max Checked l N) as [(m & E & K) _]. rewrite E in H. injection H as <-. exact K.
  - intros N. destruct (C33_u64_min_max Checked l N) as [_ (m & E & K)]. rewrite E in H. injection H as <-. exact K.
  - destruct (C33_u64_any_all Checked l) as [(v & E & K) _]. rewrite E in H. injection H as <-. exact K.
  - destruct (C33_u64_any_all Checked l) as [_ (v & E & K)]. rewrite E in H. injection H as <-.
    destruct K as [K | [K1 K2]]; [left; exact K | right]. split; [exact K1|]. exists 0%Z. split; [exact K2 | reflexivity].
Qed.
Lemma load_predicate_spec p x th : holds (load_predicate p) x th <-> compares p x th.
Proof. destruct p; cbn [load_predicate holds compares]; reflexivity. Qed.

Lemma polynomial_loop_spec x cs : forall i y, (polynomial_loop x i cs y == y + x ^ Z.of_nat i * power_series cs x)%Q.
Proof.
  induction cs as [|c cs IH]; intros i y; cbn [polynomial_loop power_series fold_right].
  - ring.
  - rewrite IH. fold (power_series cs x).
    assert (X : (x ^ Z.of_nat (S i) == x ^ Z.of_nat i * x)%Q).
    { rewrite Nat2Z.inj_succ. unfold Z.succ. rewrite Qpower_plus' by lia. reflexivity. }
    rewrite X. ring.
Qed.
Lemma discount_spec r y : ~ (r == -1)%Q -> (1 / (1 + r) ^ y * (1 + r) ^ y == 1)%Q.
Proof.
  intros N. field. intros Z. apply (Qpower_not_0 (1 + r) y) in Z; [exact Z|]. intros K. apply N. lra.
Qed.

Lemma interpolates_spec points refuse x y : linear_interpolation x points refuse = Ok y -> interpolates points refuse x y.
Proof.
  intros H L S. destruct (nth_error points 0) as [first|] eqn:F; [|apply nth_error_None in F; lia].
  destruct (nth_error points (length points - 1)) as [final|] eqn:G; [|apply nth_error_None in G; lia].
  destruct (Qlt_le_dec x (fst first)) as [X|X].
  { right. left. rewrite (C27_below_the_range points x refuse first L F X) in H. destruct refuse; [discriminate H|].
    injection H as <-. split; [reflexivity|]. exists first. repeat split; assumption. }
  destruct (Qlt_le_dec (fst final) x) as [Y|Y].
  { right. right. rewrite (C27_above_the_range points x refuse final L S G Y) in H. destruct refuse; [discriminate H|].
    injection H as <-. split; [reflexivity|]. exists final. repeat split; assumption. }
  left. destruct (C27_between_points points x refuse first final L S F G (conj X Y)) as (k & p & q & z & A & B & C & D & E & I & J).
  rewrite E in H. injection H as ->. exists k, p, q. repeat split; assumption.
Qed.

Lemma insert_feb29_spec vs t : length vs = 365 -> valid_datetime t = true ->
  exists v, daily_profile (insert_feb29 vs) t = Ok v /\
    (feb29 (dt_date t) /\ configured vs 58 v \/ ~ feb29 (dt_date t) /\ configured vs (short_place (dt_date t)) v).
Proof.
  intros L H. destruct (C29_daily_from_file vs) as (_ & _ & X). destruct (X L) as (full & E & _ & K).
  unfold daily_from_schema in E. rewrite L in E. cbn [Nat.eqb] in E.
  apply bind_Ok in E as (a & E1 & E2). injection E2 as <-.
  assert (Ea : nth 58 vs 0%Q = a).
  { unfold index_or_panic in E1. destruct (nth_error vs 58) as [b|] eqn:N; [|discriminate E1]. injection E1 as ->. apply nth_error_nth. exact N. }
  destruct (K t H) as (v & K1 & K2). exists v. split.
  - rewrite <- K1. unfold insert_feb29. rewrite Ea. reflexivity.
  - unfold feb29. destruct ((d_month (dt_date t) =? 2) && (d_day (dt_date t) =? 29))%Z%bool eqn:B.
    + left. apply Bool.andb_true_iff in B as [B1 B2]. apply Z.eqb_eq in B1, B2. split; [split; assumption | exact K2].
    + right. split; [|exact K2]. intros [B1 B2]. rewrite B1, B2 in B. discriminate B.
Qed.
Lemma as_i8_small z : (0 <= z <= 127)%Z -> as_i8 z = z.
Proof. intros H. unfold as_i8. rewrite Z.mod_small by lia. lia. Qed.
Lemma as_u8_small z : (0 <= z <= 255)%Z -> as_u8 z = z.
Proof. intros H. unfold as_u8. apply Z.mod_small. lia. Qed.

Lemma delay_hooked {A} n (i : A) hist outs : hooked_run delay_before delay_after (delay_setup n i) hist = Ok outs ->
  outs = map (delayed n i hist) (seq 0 (length hist)).
Proof.
  intros H. destruct n as [|n].
  - destruct hist as [|a hist]; cbn in H; [injection H as <-; reflexivity | discriminate H].
  - rewrite C22_general in H by lia. injection H as <-. reflexivity.
Qed.
