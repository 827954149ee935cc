From Coq Require Import Reals List ZArith Lia Permutation.
From Verif Require Import Base Calendar CalendarLemmas Timestep TimestepLemmas ProfilesSpec Radial.
From Coq Require Import Lra.
Import ListNotations.
Local Open Scope R_scope.

Definition rdot (row w : list R) : R := fold_right Rplus 0 (map (fun p => fst p * snd p) (combine row w)).

Lemma xsum_from l : forall a, fold_left xadd (map XFin l) (XFin a) = XFin (a + fold_right Rplus 0 l).
Proof.
  induction l as [|x l IH]; intros a; cbn [map fold_left fold_right xadd]; [f_equal; lra|].
  rewrite IH. f_equal. lra.
Qed.

Lemma xsum_fin l : xsum (map XFin l) = XFin (fold_right Rplus 0 l).
Proof. unfold xsum. rewrite xsum_from. f_equal. lra. Qed.

Lemma xadd_nan a : xadd XNan a = XNan.
Proof. reflexivity. Qed.
Lemma xadd_nan_r a : xadd a XNan = XNan.
Proof. destruct a; reflexivity. Qed.
Lemma xsum_nan_from l : fold_left xadd l XNan = XNan.
Proof. induction l as [|x l IH]; [reflexivity|]. cbn [fold_left]. rewrite xadd_nan. exact IH. Qed.

Lemma xsum_nan l : In XNan l -> xsum l = XNan.
Proof.
  unfold xsum. generalize (XFin 0). induction l as [|x l IH]; intros a H; [destruct H|].
  cbn [fold_left]. destruct H as [-> | H]; [rewrite xadd_nan_r; apply xsum_nan_from|apply IH, H].
Qed.

Lemma xmul_nan a : xmul XNan a = XNan.
Proof. destruct a; reflexivity. Qed.

Lemma thin_plate_zero : radial_value ThinPlateSpline 0 = XNan.
Proof.
  cbn [radial_value]. unfold xln. destruct (Req_EM_T 0 0) as [_|H]; [|destruct (H eq_refl)].
  cbn [xmul]. unfold scaled. destruct (Req_EM_T (0 ^ 2) 0) as [_|H]; [reflexivity|]. exfalso. apply H. lra.
Qed.

Lemma distance_zero d : distance d d = 0.
Proof. unfold distance. rewrite Rminus_diag_eq by reflexivity. apply Rabs_R0. Qed.
Lemma distance_sym d e : distance d e = distance e d.
Proof. unfold distance. apply Rabs_minus_sym. Qed.

(** The values of the functions that are numbers at every distance. *)
Definition number_of (f : radial) (r : R) : R := match radial_value f r with XFin x => x | _ => 0 end.
Lemma number_of_ok f r : f <> ThinPlateSpline -> radial_value f r = XFin (number_of f r).
Proof. intros H. unfold number_of. destruct f; try reflexivity. destruct (H eq_refl). Qed.

Lemma radial_at_fin points f W d : f <> ThinPlateSpline ->
  radial_at points f (map XFin W) d = XFin (rdot (map (fun c => number_of f (distance (fst c) d)) points) W).
Proof.
  intros Hf. unfold radial_at, rdot. rewrite <- xsum_fin. f_equal. revert W.
  induction points as [|c points IH]; intros W; [reflexivity|]. destruct W as [|w W]; [reflexivity|].
  cbn [map combine fst snd]. rewrite (number_of_ok f _ Hf), (distance_sym d). cbn [xmul]. f_equal. apply IH.
Qed.

Lemma radial_matrix_fin points f : f <> ThinPlateSpline ->
  radial_matrix points f = map (map XFin) (map (fun r => map (fun c => number_of f (distance (fst c) (fst r))) points) points).
Proof.
  intros Hf. unfold radial_matrix. rewrite map_map. apply map_ext. intros r. rewrite map_map. apply map_ext. intros c. apply number_of_ok, Hf.
Qed.

(** The place of a date in the profile of 366 days, and in the one of 365. *)
Lemma long_profile (short : list f64x) x prof k : nth_error short 58 = Some x -> prof = firstn 58 short ++ [x] ++ skipn 58 short ->
  (k < length short)%nat -> nth_error prof (if (k <=? 58)%nat then k else S k) = nth_error short k /\ nth_error prof 59 = nth_error short 58.
Proof.
  intros Hx -> Hk. assert (L : (58 < length short)%nat) by (apply nth_error_Some; rewrite Hx; discriminate).
  assert (Lf : length (firstn 58 short) = 58%nat) by (rewrite firstn_length; lia).
  assert (Sk : forall j, nth_error (skipn 58 short) j = nth_error short (58 + j)).
  { intros j. clear - j. revert j. generalize 58%nat as m. intros m. revert short. induction m as [|m IH]; intros short j; [reflexivity|].
    destruct short as [|y short]; [destruct j; reflexivity|]. cbn [skipn Nat.add nth_error]. apply IH. }
  split.
  - destruct (k <=? 58)%nat eqn:E.
    + apply Nat.leb_le in E. destruct (Nat.eq_dec k 58) as [->|N].
      * rewrite nth_error_app2, Lf by lia. rewrite Nat.sub_diag. cbn [app nth_error]. symmetry. exact Hx.
      * rewrite nth_error_app1 by lia. rewrite <- (firstn_skipn 58 short) at 2. rewrite nth_error_app1 by lia. reflexivity.
    + apply Nat.leb_gt in E. rewrite nth_error_app2, Lf by lia. replace (S k - 58)%nat with (S (k - 58)) by lia. cbn [app nth_error].
      rewrite Sk. f_equal. lia.
  - rewrite nth_error_app2, Lf by lia. change (nth_error (skipn 58 short) 0 = nth_error short 58). rewrite Sk. reflexivity.
Qed.

Lemma place_index t : valid_date t = true ->
  (feb29 t -> day_of_year_index t = 59%Z) /\
  (~ feb29 t -> (0 <= short_place t < 365)%Z /\ day_of_year_index t = if (short_place t <=? 58)%Z then short_place t else (short_place t + 1)%Z).
Proof.
  intros V. rewrite (doy_index_fixed t V). apply valid_date_iff in V. destruct V as [Hm Hd]. unfold feb29, short_place. split.
  - intros [-> ->]. reflexivity.
  - intros N. destruct t as [y m d]; cbn [d_month d_day d_year] in *.
    assert (Hm' : (m = 1 \/ m = 2 \/ m = 3 \/ m = 4 \/ m = 5 \/ m = 6 \/ m = 7 \/ m = 8 \/ m = 9 \/ m = 10 \/ m = 11 \/ m = 12)%Z) by lia.
    unfold days_in_month in Hd.
    decompose [or] Hm'; subst m; unfold days_before_month; cbn -[Z.add Z.sub Z.leb] in Hd |- *; try (destruct (leap y)); match goal with |- context [(?a <=? 58)%Z] => destruct (Z.leb_spec a 58) end; lia.
Qed.

Lemma radial_on_place solve points f prof t d : radial_profile solve points f = Ok prof -> valid_date t = true ->
  (d = short_place t /\ ~ feb29 t) \/ (d = 58%Z /\ feb29 t) ->
  exists w, solve (radial_matrix (radial_repeated points) f) (radial_rhs (radial_repeated points)) = Some w /\
    radial_on prof t = Some (radial_at (radial_repeated points) f w d).
Proof.
  unfold radial_profile, interpolate_radial. destruct (solve _ _) as [w|]; [|discriminate]. cbn [rbind].
  set (short := map (radial_at (radial_repeated points) f w) (map Z.of_nat (seq 0 365))).
  assert (Hn : forall k, (k < 365)%nat -> nth_error short k = Some (radial_at (radial_repeated points) f w (Z.of_nat k))).
  { intros k Hk. unfold short. rewrite !nth_error_map. rewrite (nth_error_nth' (seq 0 365) 0%nat) by (rewrite seq_length; exact Hk).
    rewrite seq_nth by exact Hk. reflexivity. }
  assert (L : length short = 365%nat) by (unfold short; rewrite !map_length, seq_length; reflexivity).
  rewrite (Hn 58%nat) by lia. intros E. injection E as E. symmetry in E. intros V P. exists w. split; [reflexivity|].
  unfold radial_on. destruct (place_index t V) as [P1 P2]. destruct P as [[-> N]|[-> N]].
  - destruct (P2 N) as [B ->]. destruct (long_profile short _ prof (Z.to_nat (short_place t)) (Hn 58%nat ltac:(lia)) E ltac:(lia)) as [K _].
    assert (Ei : Z.to_nat (if (short_place t <=? 58)%Z then short_place t else (short_place t + 1)%Z) =
      if (Z.to_nat (short_place t) <=? 58)%nat then Z.to_nat (short_place t) else S (Z.to_nat (short_place t))).
    { destruct (Z.leb_spec (short_place t) 58); destruct (Nat.leb_spec (Z.to_nat (short_place t)) 58); lia. }
    rewrite Ei, K, Hn by lia. rewrite Z2Nat.id by lia. reflexivity.
  - rewrite (P1 N). destruct (long_profile short _ prof 58%nat (Hn 58%nat ltac:(lia)) E ltac:(lia)) as [_ K].
    change (Z.to_nat 59) with 59%nat. rewrite K, Hn by lia. reflexivity.
Qed.

Lemma radial_repeated_in points d y : In (d, y) points \/ In ((d + 365)%Z, y) points -> In (d, y) (radial_repeated points).
Proof.
  intros [H|H]; unfold radial_repeated; rewrite !in_app_iff; [auto|]. left. apply in_map_iff. exists ((d + 365)%Z, y). cbn [fst snd].
  split; [|exact H]. f_equal. lia.
Qed.

(** ** The estimate of epsilon *)
Definition least {A} (le : A -> A -> Prop) (l : list A) (a : A) : Prop := In a l /\ forall b, In b l -> le a b.

Lemma fold_least {A} (le : A -> A -> Prop) (op : A -> A -> A) :
  (forall a, le a a) -> (forall a b c, le a b -> le b c -> le a c) -> (forall a b, le (op a b) a /\ le (op a b) b /\ (op a b = a \/ op a b = b)) ->
  forall l a, least le (a :: l) (fold_left op l a).
Proof.
  intros Re Tr Op l. induction l as [|x l IH]; intros a; cbn [fold_left].
  - split; [left; reflexivity|]. intros b [<-|[]]. apply Re.
  - destruct (IH (op a x)) as [I M]. destruct (Op a x) as (O1 & O2 & O3). split.
    + destruct I as [E|I]; [|right; right; exact I]. rewrite <- E. destruct O3 as [-> | ->]; [left|right; left]; reflexivity.
    + pose proof (M _ (or_introl eq_refl)) as M0. intros b [<-|[<-|H]]; [exact (Tr _ _ _ M0 O1)|exact (Tr _ _ _ M0 O2)|apply M; right; exact H].
Qed.

Lemma least_unique {A} (le : A -> A -> Prop) (l : list A) a b : (forall x y, le x y -> le y x -> x = y) -> least le l a -> least le l b -> a = b.
Proof. intros An [I1 M1] [I2 M2]. apply An; auto. Qed.
