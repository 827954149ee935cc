(** C81: what holds of the program's double precision arithmetic. *)
From Coq Require Import Floats.SpecFloat Reals Permutation.
From Flocq Require Import Core.
From Verif Require Import Base Float64 Float64Order Float64Spec Float64Real Float64Lemmas Float64Error Float64Sum Float64More Float64Rows.
From Coq Require Import Lra.
Open Scope list_scope.

Lemma r2_bpow k : r2 k = bpow radix2 k.
Proof. unfold r2. now rewrite bpow_powerRZ. Qed.

(** At the end of a time-step the volume of a storage is within its limits, and a
    volume that was within them is kept as it is; for all doubles, infinities
    included, but for a NaN. *)
Theorem C81_volume_in_limits : forall E volume min max v, is_nan volume = false ->
  finalise (E:=E) volume min max = Ok v ->
  fle min v = true /\ fle v max = true /\ (fle min volume = true -> fle volume max = true -> v = volume).
Proof. intros E volume min max v N H. exact (finalise_within volume min max v N H). Qed.
Print Assumptions C81_volume_in_limits.

(** A volume within the limits never raises the mass-balance error. *)
Theorem C81_within_accepted : forall E volume min max, double volume -> double min -> double max ->
  fle min volume = true -> fle volume max = true -> finalise (E:=E) volume min max = Ok volume.
Proof. intros E volume min max. apply finalise_kept. Qed.
Print Assumptions C81_within_accepted.

(** The limits given to the solver keep the volume within the tolerance: a storage
    of at most 2^31 (about 2.1e9) units, with time-steps between a second and
    131072 days, is emptied or filled by any one flow that its limit allows
    without a mass-balance error, whatever is lost to rounding on the way. *)
Theorem C81_limits_suffice_partial : forall E volume min max days flow,
  double volume -> double min -> double max -> double days -> double flow ->
  fle zero min = true -> fle min volume = true -> fle volume max = true -> fle max (pow2 31) = true ->
  fle (pow2 (-17)) days = true -> fle days (pow2 17) = true -> fle zero flow = true ->
  let '(lower, upper) := storage_row volume min max days in
  (fle flow (fneg lower) = true -> exists v, finalise (E:=E) (add_out_flow volume flow days) min max = Ok v) /\
  (fle flow upper = true -> exists v, finalise (E:=E) (add_in_flow volume flow days) min max = Ok v).
Proof.
  intros E v m M d f Dv Dm DM Dd Df H0 H1 H2 H3 H4 H5 H6.
  assert (FB : forall a x b, fd a -> fd b -> double x -> fle a x = true -> fle x b = true -> fd x).
  { intros a x b [_ Fa] [_ Fb] Dx A B. split; auto.
    destruct x as [[]|[]| |[] mm e]; try exact I; destruct a as [sa|sa| |sa ma ea]; try contradiction;
      destruct b as [sb|sb| |sb mb eb]; try contradiction; cbn in A, B; discriminate. }
  assert (P31 : fd (pow2 31)) by (apply pow2_double; lia).
  assert (P17 : fd (pow2 17)) by (apply pow2_double; lia).
  assert (Pm17 : fd (pow2 (-17))) by (apply pow2_double; lia).
  pose proof fd_zero as Fz.
  assert (FM : fd M) by exact (FB zero M (pow2 31) Fz P31 DM (fle_trans _ _ _ H0 (fle_trans _ _ _ H1 H2)) H3).
  assert (Fv : fd v) by exact (FB zero v M Fz FM Dv (fle_trans _ _ _ H0 H1) H2).
  assert (Fm : fd m) by exact (FB zero m v Fz Fv Dm H0 H1).
  assert (Fd : fd d) by exact (FB (pow2 (-17)) d (pow2 17) Pm17 P17 Dd H4 H5).
  apply (fle_val _ _ Fz Fm) in H0. apply (fle_val _ _ Fm Fv) in H1. apply (fle_val _ _ Fv FM) in H2.
  apply (fle_val _ _ FM P31) in H3. apply (fle_val _ _ Pm17 Fd) in H4. apply (fle_val _ _ Fd P17) in H5.
  rewrite pow2_val in *. rewrite val_zero in *. rewrite b17 in H5. rewrite bm17 in H4.
  destruct (storage_row v m M d) as [lower upper] eqn:R.
  assert (Rl : lower = fst (storage_row v m M d)) by (now rewrite R).
  assert (Ru : upper = snd (storage_row v m M d)) by (now rewrite R).
  destruct f as [s|s| |s mf ef]; try discriminate H6.
  - assert (Ff : fd (S754_zero s)) by (split; [exact Df|exact I]).
    split; intros L.
    + apply emptied; auto. { cbn; lra. } now rewrite <- Rl.
    + apply filled; auto. { cbn; lra. } now rewrite <- Ru.
  - destruct s; try discriminate H6.
    (* an infinite flow is above every limit *)
    rewrite b31 in H3.
    destruct (fsub_small v m Fv Fm) as (F1 & V1); try (rewrite Rabs_pos_eq; lra).
    destruct (fsub_small M v FM Fv) as (F2 & V2); try (rewrite Rabs_pos_eq; lra).
    assert (Fin : forall a, fd a -> (Rabs (val a) <= 2147483648)%R -> fd (fdiv a d)).
    { intros a Fa Ba. apply fdiv_val; auto. { lra. }
      apply below_1023. rewrite b60. unfold Rdiv. rewrite Rabs_mult, Rabs_inv, (Rabs_pos_eq (val d)) by lra.
      apply Rle_trans with (2147483648 * 131072)%R; [|lra]. apply Rmult_le_compat; try lra. { apply Rabs_pos. }
      { apply Rlt_le, Rinv_0_lt_compat. lra. } rewrite <- (Rinv_inv 131072). apply Rinv_le; lra. }
    assert (B1 : (Rabs (val (fsub v m)) <= 2147483648)%R).
    { rewrite V1. change 2147483648%R with (bpow radix2 31). apply rabs_rnd; [lia|]. rewrite b31, Rabs_pos_eq; lra. }
    assert (B2 : (Rabs (val (fsub M v)) <= 2147483648)%R).
    { rewrite V2. change 2147483648%R with (bpow radix2 31). apply rabs_rnd; [lia|]. rewrite b31, Rabs_pos_eq; lra. }
    destruct (fneg_val _ F1) as (F3 & V3).
    assert (Flo : fd lower). { rewrite Rl. cbn [storage_row fst]. apply Fin; auto. now rewrite V3, Rabs_Ropp. }
    assert (Fup : fd upper). { rewrite Ru. cbn [storage_row snd]. now apply Fin. }
    destruct (fneg_val _ Flo) as ([_ Fnl] & _). destruct Fup as [_ Fup].
    split; intros L; exfalso.
    + destruct (fneg lower) as [s|s| |s ml el]; try contradiction; cbn in L; discriminate.
    + destruct upper as [s|s| |s ml el]; try contradiction; cbn in L; discriminate.
  - destruct s; try discriminate H6.
    assert (Ff : fd (S754_finite false mf ef)) by (split; [exact Df|exact I]).
    assert (H6' : (0 <= val (S754_finite false mf ef))%R) by (apply (fle_val _ _ Fz Ff); exact H6).
    split; intros L.
    + apply emptied; auto. now rewrite <- Rl.
    + apply filled; auto. now rewrite <- Ru.
Qed.
Print Assumptions C81_limits_suffice_partial.

(** A volume of 1.5e9 with a minimum of 0.1 and a weekly time-step. *)
Example C81_limits_suffice_example :
  let v := lit 15000000001 10 in let m := lit 1 10 in let M := of_int 2000000000 in let d := fractional_days 604800 in
  let f := fneg (fst (storage_row v m M d)) in
  double v /\ double m /\ double M /\ double d /\ double f /\
  fle zero m = true /\ fle m v = true /\ fle v M = true /\ fle M (pow2 31) = true /\
  fle (pow2 (-17)) d = true /\ fle d (pow2 17) = true /\ fle zero f = true /\
  fle f (fneg (fst (storage_row v m M d))) = true.
Proof. vm_compute. repeat split; reflexivity. Qed.

(** Not so for larger storages: one of 61,570,227,133 cubic metres, emptied within a
    week by the flow that its limit allows, ends the run with a mass-balance error. *)
Theorem C81_large_storage_refuted : exists volume max days flow,
  double volume /\ double max /\ double days /\ double flow /\
  fle volume max = true /\ days = fractional_days (7 * 86400) /\ fle volume (of_int 100000000000) = true /\
  fle flow (fneg (fst (storage_row volume zero max days))) = true /\
  forall E, finalise (E:=E) (add_out_flow volume flow days) zero max = Panic.
Proof.
  exists (of_int 61570227133), (of_int 61570227133), (fractional_days (7 * 86400)),
    (fneg (fst (storage_row (of_int 61570227133) zero (of_int 61570227133) (fractional_days (7 * 86400))))).
  repeat split; vm_compute; reflexivity.
Qed.
Print Assumptions C81_large_storage_refuted.

(** A volume that is not a number passes both checks and stays. *)
Theorem C81_nan_volume_refuted : forall E min max, fle min max = true ->
  finalise (E:=E) S754_nan min max = Ok S754_nan.
Proof.
  intros E min max L. unfold finalise.
  assert (N : forall y, fsub S754_nan y = S754_nan) by (destruct y; reflexivity).
  assert (A : forall y, flt S754_nan y = false) by (intros; now apply flt_nan_l).
  assert (B : forall y, flt y S754_nan = false) by (intros; now apply flt_nan_r).
  rewrite !N, A, B. unfold fclamp. now rewrite L, A, B.
Qed.
Print Assumptions C81_nan_volume_refuted.

(** Virtual storages: the limits allow no flow to be forced, whatever the volumes. *)
Theorem C81_virtual_limits : forall volume min max days,
  double volume -> double min -> double max -> double days -> finite days -> flt zero days = true ->
  let '(lower, upper) := virtual_storage_row volume min max days in
  fle lower zero = true /\ fle zero upper = true.
Proof.
  intros v m M d Dv Dm DM Dd Fd Hd. unfold virtual_storage_row.
  assert (Dz : double zero) by reflexivity.
  split; apply div_sign; auto using double_max, double_sub; now apply fmax_r.
Qed.
Print Assumptions C81_virtual_limits.

(** The initial volume of a piece of a storage is within zero and its maximum. *)
Theorem C81_initial_volume : forall absolute total proportion prior max, fle zero max = true ->
  (fle zero (distributed_absolute absolute prior max) = true /\ fle (distributed_absolute absolute prior max) max = true) /\
  (fle zero (distributed_proportional total proportion prior max) = true /\
   fle (distributed_proportional total proportion prior max) max = true).
Proof.
  assert (G : forall a p M, fle zero M = true ->
    fle zero (distributed_absolute a p M) = true /\ fle (distributed_absolute a p M) M = true).
  { intros a p M H. unfold distributed_absolute. pose proof H as H'. apply fle_iff in H'. destruct H' as (_ & NM & _).
    assert (Z : fle zero (fmax (fsub a p) zero) = true) by (now apply fmax_r).
    split; [|now apply fmin_r]. destruct (fmin_or (fmax (fsub a p) zero) M) as [-> | ->]; auto. }
  intros a t q p M H. split; [now apply G|]. unfold distributed_proportional. now apply G.
Qed.
Print Assumptions C81_initial_volume.

(** Interpolation: at and beyond the bounds the given values exactly. *)
Theorem C81_interpolate_ends : forall value lower_bound upper_bound lower_value upper_value,
  (fle value lower_bound = true -> interpolate value lower_bound upper_bound lower_value upper_value = lower_value) /\
  (fle upper_bound value = true -> flt lower_bound upper_bound = true ->
   interpolate value lower_bound upper_bound lower_value upper_value = upper_value).
Proof.
  intros x lb ub lv uv. unfold interpolate. split; intros H.
  - now rewrite H.
  - intros L. rewrite H. replace (fle x lb) with false; auto. symmetry.
    destruct (fle x lb) eqn:A; auto. pose proof (fle_trans _ _ _ H A) as C. apply fle_lt_false in C. congruence.
Qed.
Print Assumptions C81_interpolate_ends.

(** Between them it is close to the exact number, with an error of at most 2^-50 of
    the two values; where the bounds are closer than the tolerance it is the lower value. *)
Theorem C81_interpolate_close_partial : forall value lower_bound upper_bound lower_value upper_value,
  Forall (fun x => double x /\ finite x /\ (Rabs (val x) <= r2 400)%R) [value; lower_bound; upper_bound; lower_value; upper_value] ->
  flt lower_bound value = true -> flt value upper_bound = true ->
  let result := interpolate value lower_bound upper_bound lower_value upper_value in
  let exact := (val lower_value + (val upper_value - val lower_value) * (val value - val lower_bound) / (val upper_bound - val lower_bound))%R in
  (flt (fabs (fsub lower_bound upper_bound)) float_eq_tolerance = false ->
   double result /\ finite result /\
   (Rabs (val result - exact) <= r2 (-50) * (Rabs (val lower_value) + Rabs (val upper_value)) + r2 (-1000))%R) /\
  (flt (fabs (fsub lower_bound upper_bound)) float_eq_tolerance = true -> result = lower_value).
Proof.
  intros x lb ub lv uv H L1 L2.
  assert (A : forall y, In y [x; lb; ub; lv; uv] -> fd y /\ (Rabs (val y) <= big)%R).
  { intros y I. rewrite Forall_forall in H. destruct (H y I) as (D & F & B). rewrite r2_bpow in B. split; [split|]; auto. }
  destruct (A x) as [Fx _]; [cbn; auto|]. destruct (A lb) as [Flb Blb]; [cbn; auto|]. destruct (A ub) as [Fub Bub]; [cbn; auto|].
  destruct (A lv) as [Flv Blv]; [cbn; auto|]. destruct (A uv) as [Fuv Buv]; [cbn; auto 6|].
  pose proof (proj1 (flt_val _ _ Flb Fx) L1) as V1. pose proof (proj1 (flt_val _ _ Fx Fub) L2) as V2.
  cbv zeta. split; intros S.
  - destruct (interpolate_fd lb ub lv uv Flb Fub Flv Fuv Blb Bub Blv Buv x Fx V2) as (D & F).
    split; auto. split; auto. rewrite !r2_bpow. now apply interpolate_close.
  - unfold interpolate. rewrite S. destruct (fle x lb) eqn:E1. { reflexivity. }
    destruct (fle ub x) eqn:E2; auto. apply fle_lt_false in E2. congruence.
Qed.
Print Assumptions C81_interpolate_close_partial.

Example C81_interpolate_close_example :
  flt zero (lit 1 3) = true /\ flt (lit 1 3) one = true /\
  flt (fabs (fsub zero one)) float_eq_tolerance = false /\
  interpolate (lit 1 3) zero one (lit 7 10) (lit 29 10) = lit 143333333333333334 100000000000000000.
Proof. vm_compute. repeat split; reflexivity. Qed.

(** It keeps the order of the arguments below the upper bound. *)
Theorem C81_interpolate_order_partial : forall x y lower_bound upper_bound lower_value upper_value,
  Forall (fun x => double x /\ finite x /\ (Rabs (val x) <= r2 400)%R) [lower_bound; upper_bound; lower_value; upper_value] ->
  double x -> finite x -> double y -> finite y -> fle x y = true -> flt y upper_bound = true ->
  let at_ z := interpolate z lower_bound upper_bound lower_value upper_value in
  (fle lower_value upper_value = true -> fle lower_value (at_ x) = true /\ fle (at_ x) (at_ y) = true) /\
  (fle upper_value lower_value = true -> fle (at_ y) (at_ x) = true /\ fle (at_ x) lower_value = true).
Proof.
  intros x y lb ub lv uv H Dx Fx Dy Fy L1 L2.
  assert (A : forall y, In y [lb; ub; lv; uv] -> fd y /\ (Rabs (val y) <= big)%R).
  { intros z I. rewrite Forall_forall in H. destruct (H z I) as (D & F & B). rewrite r2_bpow in B. split; [split|]; auto. }
  destruct (A lb) as [Flb Blb]; [cbn; auto|]. destruct (A ub) as [Fub Bub]; [cbn; auto|].
  destruct (A lv) as [Flv Blv]; [cbn; auto|]. destruct (A uv) as [Fuv Buv]; [cbn; auto 6|].
  assert (FX : fd x) by (split; auto). assert (FY : fd y) by (split; auto).
  pose proof (proj1 (fle_val _ _ FX FY) L1) as V1. pose proof (proj1 (flt_val _ _ FY Fub) L2) as V2.
  assert (V3 : (val x < val ub)%R) by lra. cbv zeta.
  assert (G1 : fd (interpolate x lb ub lv uv)) by (apply interpolate_fd; auto).
  assert (G2 : fd (interpolate y lb ub lv uv)) by (apply interpolate_fd; auto).
  split; intros M; (apply fle_val in M; [|assumption|assumption]); split; (apply fle_val; [assumption|assumption|]).
  - destruct (interpolate_cases lb ub lv uv Flb Fub x FX V3) as [(_ & ->) | [(_ & _ & ->) | (L & S)]]; try lra.
    apply formula_above; auto.
  - apply interpolate_mono; auto.
  - apply interpolate_anti; auto.
  - destruct (interpolate_cases lb ub lv uv Flb Fub x FX V3) as [(_ & ->) | [(_ & _ & ->) | (L & S)]]; try lra.
    apply formula_below; auto.
Qed.
Print Assumptions C81_interpolate_order_partial.

(** But just below the upper bound it can be above the upper value, so that the
    curve is neither within the two values nor increasing; and the product in it
    can overflow although both values are far from the largest double. *)
Theorem C81_interpolate_range_refuted :
  (exists value lower_bound upper_bound lower_value upper_value,
     Forall double [value; lower_bound; upper_bound; lower_value; upper_value] /\
     flt lower_bound value = true /\ flt value upper_bound = true /\ flt lower_value upper_value = true /\
     flt upper_value (interpolate value lower_bound upper_bound lower_value upper_value) = true /\
     interpolate upper_bound lower_bound upper_bound lower_value upper_value = upper_value) /\
  (exists value lower_bound upper_bound lower_value upper_value,
     Forall (fun x => double x /\ flt (fabs x) (pow2 900) = true) [value; lower_bound; upper_bound; lower_value; upper_value] /\
     interpolate value lower_bound upper_bound lower_value upper_value = S754_infinity false).
Proof.
  split.
  - exists (fsub (of_int 100) (lit 1 100000000000000)), zero, (of_int 100), (lit 7 10), (lit 29 10).
    repeat split; try (repeat constructor); vm_compute; reflexivity.
  - exists (pow2 700), zero, (pow2 701), zero, (pow2 700).
    repeat split; try (repeat constructor); vm_compute; reflexivity.
Qed.
Print Assumptions C81_interpolate_range_refuted.

Lemma digits_above p : (Z.pos p < 2 ^ Z.pos (digits2_pos p))%Z.
Proof.
  induction p as [p IH|p IH|]; cbn [digits2_pos]; [| |reflexivity]; rewrite Pos2Z.inj_succ, Z.pow_succ_r by lia; lia.
Qed.
Lemma bounded_below m e : SpecFloat.bounded 53 1024 m e = true -> (e < 971)%Z \/ (e = 971%Z /\ (Z.pos m <= 9007199254740991)%Z).
Proof.
  intros H. unfold SpecFloat.bounded in H. apply andb_prop in H. destruct H as [C H]. apply Z.leb_le in H.
  destruct (Z.eq_dec e 971) as [E|N]; [right|left; lia]. split; [exact E|].
  unfold canonical_mantissa, fexp, emin in C. apply Zeq_bool_eq in C. pose proof (digits_above m) as D.
  assert (F : Z.pos (digits2_pos m) = 53%Z) by lia. rewrite F in D.
  assert (T : (2 ^ 53)%Z = 9007199254740992%Z) by (vm_compute; reflexivity). rewrite T in D. lia.
Qed.
Lemma below_largest s m e M E : (e < E)%Z \/ (e = E /\ (Z.pos m <= Z.pos M)%Z) ->
  fle (S754_finite s m e) (S754_finite false M E) = true.
Proof.
  intros B. unfold fle, SFleb, SFcompare. destruct s; [reflexivity|]. destruct (Z.compare_spec e E) as [H|H|H]; [|reflexivity|exfalso; lia].
  pose proof (Pos.compare_spec m M) as X. unfold Pos.compare in X. destruct X as [G|G|G]; [reflexivity|reflexivity|exfalso; lia].
Qed.
Lemma above_smallest s m e M E : (e < E)%Z \/ (e = E /\ (Z.pos m <= Z.pos M)%Z) ->
  fle (S754_finite true M E) (S754_finite s m e) = true.
Proof.
  intros B. unfold fle, SFleb, SFcompare. destruct s; [|reflexivity]. destruct (Z.compare_spec E e) as [H|H|H]; [|exfalso; lia|reflexivity].
  pose proof (Pos.compare_spec M m) as X. unfold Pos.compare in X. destruct X as [G|G|G]; [reflexivity|exfalso; lia|reflexivity].
Qed.
Lemma f64_max_is : f64_max = S754_finite false 9007199254740991 971.
Proof. vm_compute. reflexivity. Qed.
Lemma f64_min_is : f64_min = S754_finite true 9007199254740991 971.
Proof. vm_compute. reflexivity. Qed.
(** The bounds of the program are the largest and the smallest number there is:
    only an infinity is beyond them. *)
Theorem C81_largest : valid_binary prec emax f64_max = true /\ valid_binary prec emax f64_min = true /\
  forall x, valid_binary prec emax x = true -> is_nan x = false ->
  (fle x f64_max = true \/ x = S754_infinity false) /\ (fle f64_min x = true \/ x = S754_infinity true).
Proof.
  rewrite f64_max_is, f64_min_is. split; [vm_compute; reflexivity|]. split; [vm_compute; reflexivity|].
  intros x V N. destruct x as [s|s| |s m e]; [| |discriminate N|].
  - destruct s; split; left; reflexivity.
  - destruct s; split; (left; reflexivity) || (right; reflexivity).
  - pose proof (bounded_below m e V) as B. split; left; [apply below_largest|apply above_smallest]; exact B.
Qed.
Print Assumptions C81_largest.

(** The largest and smallest of a list: not a NaN, above (below) all that are not,
    and one of them, unless all are infinite on the other side; so the order does
    not matter. *)
Theorem C81_extremes : forall l,
  (let r := calc_iter Max l in
   is_nan r = false /\ (forall v, In v l -> is_nan v = false -> fle v r = true) /\
   ((exists v, In v l /\ fle f64_min v = true) -> exists v, In v l /\ same r v)) /\
  (let r := calc_iter Min l in
   is_nan r = false /\ (forall v, In v l -> is_nan v = false -> fle r v = true) /\
   ((exists v, In v l /\ fle v f64_max = true) -> exists v, In v l /\ same r v)) /\
  (forall l', (forall v, In v l <-> In v l') ->
     same (calc_iter Max l) (calc_iter Max l') /\ same (calc_iter Min l) (calc_iter Min l')).
Proof.
  assert (Nmin : num f64_min) by reflexivity. assert (Nmax : num f64_max) by reflexivity.
  intros l. cbn [calc_iter]. destruct (max_fold l f64_min Nmin) as (A & B & C & D). cbv zeta in *.
  destruct (min_fold l f64_max Nmax) as (A' & B' & C' & D').
  split; [|split].
  - split; auto. split; auto. intros (v & I & L). destruct D as [D|D].
    + exists v. split; auto. unfold same. apply fle_antisym.
      * now rewrite D. * apply C; auto. now apply fle_iff in L.
    + exists (fold_left fmax l f64_min). split; auto. now apply same_refl.
  - split; auto. split; auto. intros (v & I & L). destruct D' as [D'|D'].
    + exists v. split; auto. unfold same. apply fle_antisym.
      * apply C'; auto. now apply fle_iff in L. * now rewrite D'.
    + exists (fold_left fmin l f64_max). split; auto. now apply same_refl.
  - intros l' P. destruct (max_fold l' f64_min Nmin) as (A2 & B2 & C2 & D2). cbv zeta in *.
    destruct (min_fold l' f64_max Nmax) as (A2' & B2' & C2' & D2').
    split; apply fle_antisym.
    + destruct D as [-> |D]; auto. apply C2; auto. now apply P.
    + destruct D2 as [-> |D2]; auto. apply C; auto. now apply P.
    + destruct D2' as [-> |D2']; auto. apply C'; auto. now apply P.
    + destruct D' as [-> |D']; auto. apply C2'; auto. now apply P.
Qed.
Print Assumptions C81_extremes.

Example C81_extremes_example :
  calc_iter Max [one; S754_nan; lit 5 2; zero] = lit 5 2 /\ calc_iter Min [one; S754_nan; lit 5 2] = one.
Proof. vm_compute. auto. Qed.

(** The largest and smallest of the values of a period, of which two or more must not
    contain a NaN: else the run ends. *)
Theorem C81_period_extremes : forall E l,
  (forall r, period_max (E:=E) l = Ok (Some r) -> (2 <= length l)%nat -> In r l /\ forall v, In v l -> fle v r = true) /\
  (forall r, period_min (E:=E) l = Ok (Some r) -> (2 <= length l)%nat -> In r l /\ forall v, In v l -> fle r v = true) /\
  (period_max (E:=E) l = Panic <-> (2 <= length l)%nat /\ exists v, In v l /\ is_nan v = true) /\
  (period_min (E:=E) l = Panic <-> (2 <= length l)%nat /\ exists v, In v l /\ is_nan v = true) /\
  (forall v, l = [v] -> period_max (E:=E) l = Ok (Some v) /\ period_min (E:=E) l = Ok (Some v)) /\
  (l = [] -> period_max (E:=E) l = Ok None /\ period_min (E:=E) l = Ok None).
Proof.
  intros E l. destruct l as [|b l].
  { cbn. repeat split; try discriminate; try (intros; lia); intros [? _]; lia. }
  assert (LL : (2 <= length (b :: l))%nat <-> l <> []).
  { destruct l; cbn; split; intros H; try lia; try congruence; try discriminate. }
  assert (PM : forall bt, rbind (pick (E:=E) bt b l) (fun x => Ok (Some x)) = Panic <->
    (2 <= length (b :: l))%nat /\ exists v, In v (b :: l) /\ is_nan v = true).
  { intros bt. rewrite LL, <- (pick_panic (E:=E) bt l b). destruct (pick bt b l); cbn; split; congruence. }
  cbn [period_max period_min]. split; [|split; [|split; [|split; [|split]]]]; auto.
  - intros r H Ln. apply LL in Ln. destruct (pick _ b l) eqn:P; try discriminate. injection H as <-.
    now apply (pick_max (E:=E)).
  - intros r H Ln. apply LL in Ln. destruct (pick _ b l) eqn:P; try discriminate. injection H as <-.
    now apply (pick_min (E:=E)).
  - intros v [= -> ->]. split; reflexivity.
  - discriminate.
Qed.
Print Assumptions C81_period_extremes.

Example C81_period_extremes_example :
  period_max (E:=unit) [one; lit 5 2; zero] = Ok (Some (lit 5 2)) /\ period_min (E:=unit) [one; S754_nan] = Panic.
Proof. vm_compute. auto. Qed.

(** A sum is close to the exact one: with n values the error is at most (1+2^-53)^n - 1
    of the sum of their sizes. *)
Theorem C81_sum_close_partial : forall l, Forall (fun x => double x /\ finite x) l ->
  let sizes := rsum (map (fun x => Rabs (val x)) l) in
  let growth := ((1 + r2 (-53)) ^ length l)%R in
  (growth * sizes <= r2 1023)%R ->
  double (calc_iter Sum l) /\ finite (calc_iter Sum l) /\
  (Rabs (val (calc_iter Sum l) - rsum (map val l)) <= (growth - 1) * sizes)%R.
Proof.
  intros l F. cbv zeta. rewrite !r2_bpow. intros B. cbn [calc_iter].
  destruct (sum_close l F B) as ((D & Fi) & C). auto.
Qed.
Print Assumptions C81_sum_close_partial.

Example C81_sum_close_example :
  Forall (fun x => double x /\ finite x) [lit 1 10; lit 2 10; lit 3 10] /\
  ((1 + r2 (-53)) ^ 3 * rsum (map (fun x => Rabs (val x)) [lit 1 10; lit 2 10; lit 3 10]) <= r2 1023)%R /\
  feq (calc_iter Sum [lit 1 10; lit 2 10; lit 3 10]) (lit 6 10) = false.
Proof.
  split; [|split].
  - repeat (apply Forall_cons; [split; [vm_compute; reflexivity|vm_compute; exact I]|]). apply Forall_nil.
  - rewrite !r2_bpow. apply Rle_trans with (bpow radix2 10); [|apply bpow_le; lia].
    change (bpow radix2 (-53)) with (/ 9007199254740992)%R. change (bpow radix2 10) with 1024%R.
    assert (W : forall x, fd x -> fle zero x = true -> fle x one = true -> (Rabs (val x) <= 1)%R).
    { intros x Fx A B. assert (F1 : fd one) by (split; [vm_compute; reflexivity|exact I]).
      apply (fle_val _ _ fd_zero Fx) in A. apply (fle_val _ _ Fx F1) in B. rewrite val_zero in A.
      replace (val one) with 1%R in B. 2:{ symmetry. apply (of_int_val 1). lia. } rewrite Rabs_pos_eq; lra. }
    assert (W1 : (Rabs (val (lit 1 10)) <= 1)%R) by (apply W; [split; [vm_compute; reflexivity|vm_compute; exact I]|reflexivity|reflexivity]).
    assert (W2 : (Rabs (val (lit 2 10)) <= 1)%R) by (apply W; [split; [vm_compute; reflexivity|vm_compute; exact I]|reflexivity|reflexivity]).
    assert (W3 : (Rabs (val (lit 3 10)) <= 1)%R) by (apply W; [split; [vm_compute; reflexivity|vm_compute; exact I]|reflexivity|reflexivity]).
    cbn [map rsum fold_right].
    apply Rle_trans with (2 * 3)%R; [|lra]. apply Rmult_le_compat; try lra.
    + pose proof (Rabs_pos (val (lit 1 10))). pose proof (Rabs_pos (val (lit 2 10))). pose proof (Rabs_pos (val (lit 3 10))). lra.
  - vm_compute. reflexivity.
Qed.

(** The mean of up to 2^53 numbers differs from the exact mean by at most the
    relative error of that many additions and one division, and by at most half
    the smallest positive double. *)
Theorem C81_mean_close_partial : forall l, l <> [] -> (Z.of_nat (length l) <= 2 ^ 53)%Z ->
  Forall (fun x => double x /\ finite x) l ->
  let sizes := rsum (map (fun x => Rabs (val x)) l) in
  let growth k := ((1 + r2 (-53)) ^ k)%R in
  (growth (length l) * sizes <= r2 1023)%R ->
  double (calc_iter Mean l) /\ finite (calc_iter Mean l) /\
  (Rabs (val (calc_iter Mean l) - rsum (map val l) / INR (length l)) <=
     (growth (S (length l)) - 1) * sizes / INR (length l) + r2 (-1075))%R.
Proof.
  intros l N L F. cbv zeta. rewrite !r2_bpow. intros B.
  destruct (mean_close l N L F B) as ((D & Fi) & C). auto.
Qed.
Print Assumptions C81_mean_close_partial.

Example C81_mean_close_example :
  let l := [lit 1 10; lit 2 10; lit 3 10] in
  l <> [] /\ (Z.of_nat (length l) <= 2 ^ 53)%Z /\ Forall (fun x => double x /\ finite x) l /\
  ((1 + r2 (-53)) ^ length l * rsum (map (fun x => Rabs (val x)) l) <= r2 1023)%R /\
  feq (calc_iter Mean l) (lit 2 10) = false /\ flt (lit 2 10) (calc_iter Mean l) = true.
Proof.
  destruct C81_sum_close_example as (A & B & _). repeat split; auto; try discriminate; vm_compute; reflexivity || congruence.
Qed.

(** It depends on the order of the values, which for the nodes and parameters of an
    aggregation is that of the model file; and a mean can be above all of its values. *)
Theorem C81_sum_order_refuted :
  (exists l l', Permutation l l' /\ Forall double l /\ feq (calc_iter Sum l) (calc_iter Sum l') = false) /\
  (exists l, l <> [] /\ Forall double l /\ forall v, In v l -> flt v (calc_iter Mean l) = true).
Proof.
  split.
  - exists [of_int (10 ^ 16); one; fneg (of_int (10 ^ 16))], [of_int (10 ^ 16); fneg (of_int (10 ^ 16)); one].
    split; [|split].
    + constructor. apply perm_swap.
    + repeat constructor; vm_compute; reflexivity.
    + vm_compute. reflexivity.
  - exists [lit 1 10; lit 1 10; lit 1 10]. split; [discriminate|]. split.
    + repeat constructor; vm_compute; reflexivity.
    + intros v [<- | [<- | [<- | []]]]; vm_compute; reflexivity.
Qed.
Print Assumptions C81_sum_order_refuted.

(** A predicate and its negation: of two numbers exactly one of < and >= holds, and
    one of > and <=; with a NaN none does.  Equality is within the tolerance. *)
Theorem C81_threshold : forall value threshold,
  (double value -> finite value -> double threshold -> finite threshold ->
   (apply LessThan value threshold = true <-> (val value < val threshold)%R) /\
   (apply GreaterThan value threshold = true <-> (val value > val threshold)%R)) /\
  (is_nan value = false -> is_nan threshold = false ->
   apply GreaterThanOrEqualTo value threshold = negb (apply LessThan value threshold) /\
   apply LessThanOrEqualTo value threshold = negb (apply GreaterThan value threshold)) /\
  (is_nan value = true \/ is_nan threshold = true -> forall p, apply p value threshold = false) /\
  (double value -> finite value -> double threshold -> finite threshold ->
   (Rabs (val value - val threshold) <= r2 1023)%R ->
   ((Rabs (val value - val threshold) <= val float_eq_tolerance)%R -> apply EqualTo value threshold = true) /\
   (apply EqualTo value threshold = true ->
    (Rabs (val value - val threshold) <= (1 + r2 (-52)) * val float_eq_tolerance)%R)).
Proof.
  intros x y. split; [|split; [|split]].
  - intros Dx Fx Dy Fy. cbn [apply]. split; apply flt_val; split; auto.
  - intros Nx Ny. cbn [apply]. split.
    + destruct (flt x y) eqn:L; cbn [negb].
      * apply not_true_is_false. intros G. apply fle_lt_false in G. congruence.
      * now apply flt_false.
    + destruct (flt y x) eqn:L; cbn [negb].
      * apply not_true_is_false. intros G. apply fle_lt_false in G. congruence.
      * now apply flt_false.
  - intros N p.
    assert (LN : forall a b, is_nan a = true \/ is_nan b = true -> fle a b = false).
    { intros a b NN. apply not_true_is_false. intros G. apply fle_iff in G. destruct G as (A & B & _).
      unfold num in *. destruct NN; congruence. }
    assert (TN : forall a b, is_nan a = true \/ is_nan b = true -> flt a b = false).
    { intros a b [H|H]; [now apply flt_nan_l|now apply flt_nan_r]. }
    assert (S : fsub x y = S754_nan).
    { destruct N as [N|N]. - destruct x; try discriminate. destruct y; reflexivity.
      - destruct y; try discriminate. destruct x; reflexivity. }
    destruct p; cbn [apply]; try (apply TN; tauto); try (apply LN; tauto).
    rewrite S. apply LN. left. reflexivity.
  - intros Dx Fx Dy Fy B. rewrite r2_bpow in *. apply equal_to; auto; split; auto.
Qed.
Print Assumptions C81_threshold.

(** An infinite number is not equal to itself. *)
Theorem C81_equal_infinite_refuted : forall s,
  let inf := S754_infinity s in
  feq inf inf = true /\ apply LessThanOrEqualTo inf inf = true /\ apply GreaterThanOrEqualTo inf inf = true /\
  apply EqualTo inf inf = false.
Proof. intros [|]; vm_compute; auto. Qed.
Print Assumptions C81_equal_infinite_refuted.

(** Lengths of time-steps: the number of whole days is found exactly when there is
    one, for all durations in seconds below 2^53. *)
Theorem C81_whole_days : forall secs, (0 <= secs < 2 ^ 53)%Z ->
  whole_days secs = if (secs mod 86400 =? 0)%Z then Some (secs / 86400)%Z else None.
Proof. exact whole_days_spec. Qed.
Print Assumptions C81_whole_days.

Example C81_whole_days_example : whole_days (31 * 86400) = Some 31%Z /\ whole_days (31 * 86400 - 1) = None.
Proof. vm_compute. auto. Qed.

(** The limits on the net flow into a storage are those of the exact volumes, with a
    relative error of 2^-51; those of a virtual storage likewise, where a volume
    beyond its limits gives zero. *)
Theorem C81_limits_close_partial : forall volume min max days,
  Forall (fun x => double x /\ finite x /\ (Rabs (val x) <= r2 400)%R) [volume; min; max] ->
  double days -> finite days -> (r2 (-400) <= val days)%R ->
  let close x exact := double x /\ finite x /\ (Rabs (val x - exact) <= r2 (-51) * Rabs exact + r2 (-1000))%R in
  (let '(lower, upper) := storage_row volume min max days in
   close lower (- (val volume - val min) / val days)%R /\ close upper ((val max - val volume) / val days)%R) /\
  (let '(lower, upper) := virtual_storage_row volume min max days in
   close lower (- Rmax (val volume - val min) 0 / val days)%R /\ close upper (Rmax (val max - val volume) 0 / val days)%R).
Proof.
  intros v m M d H Dd Fd Hd. cbv zeta. rewrite !r2_bpow in *.
  assert (A : forall y, In y [v; m; M] -> small y).
  { intros y I. rewrite Forall_forall in H. destruct (H y I) as (D & F & B). split; [split|]; auto. }
  assert (C : forall x r, close x r -> double x /\ finite x /\ (Rabs (val x - r) <= bpow radix2 (-51) * Rabs r + bpow radix2 (-1000))%R).
  { intros x r ((D & F) & B). auto. }
  assert (FD : fd d) by (split; auto).
  pose proof (storage_row_close v m M d) as S. pose proof (virtual_row_close v m M d) as V.
  destruct (storage_row v m M d) as [l h]. destruct (virtual_storage_row v m M d) as [l' h'].
  split.
  - destruct S as [S1 S2]; auto; try (apply A; cbn; tauto).
  - destruct V as [V1 V2]; auto; try (apply A; cbn; tauto).
Qed.
Print Assumptions C81_limits_close_partial.

Example C81_limits_close_example :
  Forall (fun x => double x /\ finite x /\ (Rabs (val x) <= r2 400)%R) [of_int 60; of_int 10; of_int 100] /\
  double (of_int 7) /\ finite (of_int 7) /\ (r2 (-400) <= val (of_int 7))%R.
Proof.
  assert (P : forall z, (Z.abs z <= 2 ^ 53)%Z -> double (of_int z) /\ finite (of_int z) /\ (Rabs (val (of_int z)) <= r2 400)%R).
  { intros z H. destruct (whole_int z H) as (D & F & V). split; [|split]; auto. rewrite V, r2_bpow, <- abs_IZR.
    apply Rle_trans with (IZR (2 ^ 53)); [now apply IZR_le|]. change (IZR (2 ^ 53)) with (bpow radix2 53). apply bpow_le. lia. }
  split.
  - repeat (apply Forall_cons; [apply P; lia|]). constructor.
  - destruct (whole_int 7) as (D & F & V); [lia|]. split; [|split]; auto. rewrite V, r2_bpow.
    apply Rle_trans with (bpow radix2 0); [apply bpow_le; lia|]. cbn. lra.
Qed.

(** The initial volume of a piece of a storage is close to the exact one: what is
    left of the volume above the earlier pieces, between zero and its maximum. *)
Theorem C81_initial_volume_close_partial : forall absolute total proportion prior max,
  Forall (fun x => double x /\ finite x /\ (Rabs (val x) <= r2 400)%R) [absolute; total; prior; max] ->
  double proportion -> finite proportion -> (Rabs (val proportion) <= 1)%R ->
  let exact volume := Rmin (Rmax (volume - val prior) 0) (val max) in
  (Rabs (val (distributed_absolute absolute prior max) - exact (val absolute)) <= r2 (-53) * Rabs (val absolute - val prior))%R /\
  (Rabs (val (distributed_proportional total proportion prior max) - exact (val total * val proportion)%R)
   <= r2 (-51) * (Rabs (val total * val proportion) + Rabs (val prior)) + r2 (-1000))%R.
Proof.
  intros a t q p M H Dq Fq Bq. cbv zeta. rewrite !r2_bpow.
  assert (A : forall y, In y [a; t; p; M] -> small y).
  { intros y I. rewrite Forall_forall in H. destruct (H y I) as (D & F & B). rewrite r2_bpow in B. split; [split|]; auto. }
  split.
  - apply distributed_absolute_close; apply A; cbn; tauto.
  - apply distributed_proportional_close; auto; try (apply A; cbn; tauto). now split.
Qed.
Print Assumptions C81_initial_volume_close_partial.

(** Whole numbers stay exact: sums, products and volumes of whole numbers have no
    rounding error as long as they are below 2^53. *)
Theorem C81_whole_numbers : forall xs zs, Forall2 whole xs zs ->
  ((zsum (map Z.abs zs) <= 2 ^ 53)%Z -> whole (calc_iter Sum xs) (zsum zs)) /\
  ((zproduct (map (fun z => Z.max 1 (Z.abs z)) zs) <= 2 ^ 53)%Z -> whole (calc_iter Product xs) (zproduct zs)) /\
  (forall volume flow days v f d, whole volume v -> whole flow f -> whole days d -> (Z.abs v + Z.abs (f * d) <= 2 ^ 53)%Z ->
     whole (add_in_flow volume flow days) (v + f * d) /\ whole (add_out_flow volume flow days) (v - f * d)).
Proof.
  intros xs zs W. split; [|split].
  - intros H. cbn [calc_iter]. unfold fsum. rewrite <- (Z.add_0_l (zsum zs)). apply (whole_sum xs zs W). { apply whole_zero. } exact H.
  - intros H. cbn [calc_iter]. unfold fproduct. rewrite <- (Z.mul_1_l (zproduct zs)). apply (whole_product xs zs W).
    + apply whole_int. lia.
    + change (Z.max 1 (Z.abs 1)) with 1%Z. now rewrite Z.mul_1_l.
  - intros x y d v f n X Y D H. unfold add_in_flow, add_out_flow.
    assert (P : whole (fmul y d) (f * n)) by (apply whole_mul; auto; lia).
    split; [apply whole_add|apply whole_sub]; auto; lia.
Qed.
Print Assumptions C81_whole_numbers.

Example C81_whole_numbers_example :
  Forall2 whole [of_int 3; of_int (-4); of_int 12] [3; -4; 12]%Z /\
  same (calc_iter Sum [of_int 3; of_int (-4); of_int 12]) (of_int 11) /\
  same (calc_iter Product [of_int 3; of_int (-4); of_int 12]) (of_int (-144)).
Proof.
  split; [|vm_compute; auto]. repeat (apply Forall2_cons; [apply whole_int; lia|]). constructor.
Qed.

(** The counting functions: exact, and [AnyNonZero] is one or zero. *)
Theorem C81_counts : forall xs, (Z.of_nat (length xs) <= 2 ^ 53)%Z -> Forall (fun x => double x /\ finite x) xs ->
  (forall not_zero, (forall x, In x xs -> (not_zero x = true <-> val x <> 0%R)) ->
     whole (calc_iter CountNonZero xs) (Z.of_nat (length (filter not_zero xs)))) /\
  (forall tolerance, double tolerance -> finite tolerance ->
     let r := calc_iter (AnyNonZero tolerance) xs in
     (r = one /\ exists x, In x xs /\ (Rabs (val x) > val tolerance)%R) \/
     (r = zero /\ forall x, In x xs -> (Rabs (val x) <= val tolerance)%R)).
Proof.
  intros xs L F. rewrite Forall_forall in F.
  assert (FD : forall x, In x xs -> fd x) by (intros x I; destruct (F x I); now split).
  split.
  - intros nz H. cbn [calc_iter]. unfold of_len.
    replace (filter (fun v => negb (feq v zero)) xs) with (filter nz xs).
    + apply whole_int. assert (length (filter nz xs) <= length xs)%nat by (clear; induction xs as [|x xs IH]; cbn; [lia|destruct (nz x); cbn; lia]). lia.
    + apply filter_ext_in. intros x I. specialize (H x I). specialize (FD x I).
      assert (Q : feq x zero = true <-> val x = 0%R).
      { assert (W : feq x zero = true <-> fle x zero = true /\ fle zero x = true).
        { split; [|intros []; now apply fle_antisym]. rewrite feq_iff, !fle_iff. unfold klt, keq. intuition lia. }
        rewrite W, (fle_val _ _ FD fd_zero), (fle_val _ _ fd_zero FD), val_zero. split; [intros []|intros ->]; lra. }
      destruct (feq x zero) eqn:E; cbn [negb].
      * apply not_true_is_false. rewrite H. intros N. apply N. now apply Q.
      * apply H. intros N. apply Q in N. congruence.
  - intros tol Dt Ft. cbn [calc_iter]. cbv zeta. assert (FT : fd tol) by (split; auto).
    destruct (existsb (fun v => flt tol (fabs v)) xs) eqn:E.
    + left. split; auto. apply existsb_exists in E. destruct E as (x & I & H). exists x. split; auto.
      destruct (fabs_val x (FD x I)) as (G & V). apply (flt_val _ _ FT G) in H. rewrite V in H. lra.
    + right. split; auto. intros x I. destruct (fabs_val x (FD x I)) as (G & V).
      apply Rnot_lt_le. intros N. rewrite <- V, <- (flt_val _ _ FT G) in N.
      assert (existsb (fun v => flt tol (fabs v)) xs = true) by (apply existsb_exists; eauto). congruence.
Qed.
Print Assumptions C81_counts.

(** A value that is not a number makes sums, means and products not a number, and
    these are refused when they are stored; the greatest and least of a list, and
    the counts, leave it out. *)
Theorem C81_nan_values : forall xs, In S754_nan xs ->
  (forall f, In f [Sum; Mean; Product] -> set_parameter (calc_iter f xs) = Err NaNValue) /\
  (forall f, In f [Max; Min] -> set_parameter (calc_iter f xs) = Ok (calc_iter f xs) /\
     calc_iter f xs = calc_iter f (filter (fun v => negb (is_nan v)) xs)).
Proof.
  intros xs I. split.
  - assert (S : fsum xs = S754_nan) by (apply fold_nan; auto using add_nan_l, add_nan_r).
    intros f [<- | [<- | [<- | []]]]; cbn [calc_iter].
    + now rewrite S.
    + destruct xs as [|x xs]; [destruct I|]. now rewrite S.
    + unfold fproduct. rewrite fold_nan; auto using mul_nan_l, mul_nan_r.
  - assert (G : forall op, (forall a, num a -> op a S754_nan = a) -> (forall a b, num a -> num (op a b)) ->
      forall l a, num a -> fold_left op l a = fold_left op (filter (fun v => negb (is_nan v)) l) a).
    { intros op H K. induction l as [|v l IH]; intros a N; cbn [fold_left filter]; auto.
      destruct v as [s|s| |s m e]; cbn [is_nan negb fold_left]; auto. rewrite H by auto. now apply IH. }
    intros f [<- | [<- | []]]; cbn [calc_iter].
    + split.
      * destruct (max_fold xs f64_min eq_refl) as (N & _). unfold set_parameter. now rewrite N.
      * apply G; auto using fmax_num; [|reflexivity]. intros a N. unfold fmax. now rewrite N.
    + split.
      * destruct (min_fold xs f64_max eq_refl) as (N & _). unfold set_parameter. now rewrite N.
      * apply G; auto using fmin_num; [|reflexivity]. intros a N. unfold fmin. now rewrite N.
Qed.
Print Assumptions C81_nan_values.

Example C81_nan_values_example : In S754_nan [one; S754_nan; of_int 5] /\ calc_iter Max [one; S754_nan; of_int 5] = of_int 5.
Proof. split; [cbn; auto|vm_compute; auto]. Qed.
