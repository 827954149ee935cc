(** C51, with all the radial basis functions: those with roots, exponentials and
    logarithms too. *)
From Coq Require Import Reals List ZArith Lia Permutation.
From Verif Require Import Base Calendar CalendarLemmas Timestep ProfilesSpec Radial RadialLemmas.
From Coq Require Import Lra.
Import ListNotations.
Local Open Scope R_scope.

(** The solver answers a system of numbers only with numbers that solve it; and
    any system with as many values as there are rows. *)
Definition solves (solve : list (list f64x) -> list f64x -> option (list f64x)) : Prop :=
  forall (M : list (list R)) (B : list R) w, solve (map (map XFin) M) (map XFin B) = Some w ->
  exists W, w = map XFin W /\ Forall2 (fun row b => fold_right Rplus 0 (map (fun p => fst p * snd p) (combine row W)) = b) M B.
Definition shaped (solve : list (list f64x) -> list f64x -> option (list f64x)) : Prop :=
  forall m b w, solve m b = Some w -> length w = length b.

(** The day [d] of the profile, from 0, is the date [t]: 28 February is given
    again on 29 February. *)
Definition day_is (d : Z) (t : date) : Prop := (d = short_place t /\ ~ feb29 t) \/ (d = 58%Z /\ feb29 t).

(** C51.  With every function but the thin plate spline the profile passes through
    its points. *)
Theorem C51_all_functions : forall solve points f profile d y t,
  solves solve -> f <> ThinPlateSpline -> radial_profile solve points f = Ok profile ->
  In (d, y) points \/ In ((d + 365)%Z, y) points -> valid_date t = true -> day_is d t ->
  radial_on profile t = Some (XFin y).
Proof.
  intros solve points f profile d y t Hs Hf E I V P.
  destruct (radial_on_place solve points f profile t d E V P) as (w & Hw & ->).
  rewrite (radial_matrix_fin _ f Hf) in Hw. unfold radial_rhs in Hw. rewrite <- map_map with (g := XFin) (f := snd) in Hw.
  destruct (Hs _ _ _ Hw) as (W & -> & HF). rewrite (radial_at_fin _ f W d Hf). f_equal. f_equal.
  apply radial_repeated_in in I. set (pts := radial_repeated points) in *.
  assert (G : forall l, Forall2 (fun row b => fold_right Rplus 0 (map (fun p => fst p * snd p) (combine row W)) = b)
      (map (fun r => map (fun c => number_of f (distance (fst c) (fst r))) pts) l) (map snd l) ->
    In (d, y) l -> rdot (map (fun c => number_of f (distance (fst c) d)) pts) W = y).
  { induction l as [|p l IH]; cbn [map]; intros F J; [destruct J|]. inversion F as [|? ? ? ? F0 F1]; subst. destruct J as [->|J]; [|exact (IH F1 J)].
    exact F0. }
  exact (G pts HF I).
Qed.
Print Assumptions C51_all_functions.

(** The year goes round: the profile is one curve on which every point lies on its
    day, a year before it and a year after it. *)
Theorem C51_cyclic : forall solve points f profile,
  solves solve -> f <> ThinPlateSpline -> radial_profile solve points f = Ok profile ->
  exists (curve : Z -> R) (centres : list Z) (weights : list R),
  (forall t d, valid_date t = true -> day_is d t -> radial_on profile t = Some (XFin (curve d))) /\
  (forall d, curve d = fold_right Rplus 0 (map (fun c => number_of f (Rabs (IZR (fst c) - IZR d)) * snd c) (combine centres weights))) /\
  (forall c, In c centres <-> exists d y k, In (d, y) points /\ (c = d + k * 365)%Z /\ (-1 <= k <= 1)%Z) /\
  (forall d y k, In (d, y) points -> (-1 <= k <= 1)%Z -> curve (d + k * 365)%Z = y).
Proof.
  intros solve points f profile Hs Hf E.
  destruct (solve (radial_matrix (radial_repeated points) f) (radial_rhs (radial_repeated points))) as [w|] eqn:Hw.
  2: { unfold radial_profile, interpolate_radial in E. rewrite Hw in E. discriminate. }
  assert (Hon : forall t d, valid_date t = true -> day_is d t -> radial_on profile t = Some (radial_at (radial_repeated points) f w d)).
  { intros t d V P. destruct (radial_on_place solve points f profile t d E V P) as (w' & Hw' & H). congruence. }
  clear E. rewrite (radial_matrix_fin _ f Hf) in Hw. unfold radial_rhs in Hw. rewrite <- map_map with (g := XFin) (f := snd) in Hw.
  destruct (Hs _ _ _ Hw) as (W & -> & HF). set (pts := radial_repeated points) in *.
  exists (fun d => rdot (map (fun c => number_of f (distance (fst c) d)) pts) W), (map fst pts), W. split; [|split; [|split]].
  - intros t d V P. rewrite (Hon t d V P), (radial_at_fin _ f W d Hf). reflexivity.
  - intros d. unfold rdot. f_equal. clear. generalize W. induction pts as [|p l IH]; intros [|a W0]; cbn [map combine]; try reflexivity.
    rewrite IH. reflexivity.
  - intros c. unfold pts, radial_repeated. rewrite in_map_iff. setoid_rewrite in_app_iff. setoid_rewrite in_app_iff. split.
    + intros ([c' y] & <- & H). cbn [fst]. destruct H as [H|[H|H]].
      * apply in_map_iff in H. destruct H as ([d y'] & Hd & I). cbn [fst snd] in Hd. injection Hd as <- <-. exists d, y', (-1)%Z. split; [exact I|lia].
      * exists c', y, 0%Z. split; [exact H|lia].
      * apply in_map_iff in H. destruct H as ([d y'] & Hd & I). cbn [fst snd] in Hd. injection Hd as <- <-. exists d, y', 1%Z. split; [exact I|lia].
    + intros (d & y & k & I & -> & K). assert (Ks : (k = -1 \/ k = 0 \/ k = 1)%Z) by lia. destruct Ks as [-> | [-> | -> ] ].
      * exists ((d - 365)%Z, y). split; [cbn [fst]; lia|]. left. apply in_map_iff. exists (d, y). auto.
      * exists (d, y). split; [cbn [fst]; lia|]. auto.
      * exists ((d + 365)%Z, y). split; [cbn [fst]; lia|]. right. right. apply in_map_iff. exists (d, y). auto.
  - intros d y k I K.
    assert (J : In ((d + k * 365)%Z, y) pts).
    { unfold pts, radial_repeated. rewrite !in_app_iff, !in_map_iff. assert (Ks : (k = -1 \/ k = 0 \/ k = 1)%Z) by lia. destruct Ks as [-> | [-> | -> ] ].
      - left. exists (d, y). cbn [fst snd]. split; [f_equal; lia|exact I].
      - right. left. replace (d + 0 * 365)%Z with d by lia. exact I.
      - right. right. exists (d, y). cbn [fst snd]. split; [f_equal; lia|exact I]. }
    assert (G : forall l, Forall2 (fun row b => fold_right Rplus 0 (map (fun p => fst p * snd p) (combine row W)) = b)
        (map (fun r => map (fun c => number_of f (distance (fst c) (fst r))) pts) l) (map snd l) ->
      In ((d + k * 365)%Z, y) l -> rdot (map (fun c => number_of f (distance (fst c) (d + k * 365)%Z)) pts) W = y).
    { induction l as [|p l IH]; cbn [map]; intros F L; [destruct L|]. inversion F as [|? ? ? ? F0 F1]; subst. destruct L as [->|L]; [|exact (IH F1 L)].
      exact F0. }
    exact (G pts HF J).
Qed.
Print Assumptions C51_cyclic.

(** A thin plate spline has no number on the days of its points, whatever the
    solver answers: the function is 0 times the logarithm of 0 there. *)
Theorem C51_thin_plate_refuted : forall solve points profile d y t,
  shaped solve -> radial_profile solve points ThinPlateSpline = Ok profile ->
  In (d, y) points \/ In ((d + 365)%Z, y) points -> valid_date t = true -> day_is d t ->
  radial_on profile t = Some XNan.
Proof.
  intros solve points profile d y t Hs E I V P.
  destruct (radial_on_place solve points _ profile t d E V P) as (w & Hw & ->). f_equal. apply Hs in Hw.
  unfold radial_rhs in Hw. rewrite map_length in Hw. apply radial_repeated_in in I. apply xsum_nan. apply in_map_iff.
  apply In_nth_error in I. destruct I as (k & Hk). assert (L : (k < length w)%nat) by (rewrite Hw; apply nth_error_Some; rewrite Hk; discriminate).
  destruct (nth_error w k) as [x|] eqn:Hx; [|apply nth_error_Some in L; destruct (L Hx)].
  exists ((d, y), x). cbn [fst snd]. rewrite distance_zero, thin_plate_zero. split; [apply xmul_nan|].
  clear - Hk Hx. revert k w Hk Hx. induction (radial_repeated points) as [|p l IH]; intros [|k] [|a w] Hk Hx; try discriminate; cbn [combine].
  - injection Hk as ->. injection Hx as ->. left. reflexivity.
  - right. exact (IH k w Hk Hx).
Qed.
Print Assumptions C51_thin_plate_refuted.

(** The other functions are numbers at every distance, positive ones except that
    the powers are 0 at the distance 0. *)
Theorem C51_function_values : forall f r, f <> ThinPlateSpline -> 0 <= r -> exists v, radial_value f r = XFin v /\ 0 <= v /\
  match f with
  | Linear | Cubic | Quintic => v = 0 <-> r = 0
  | Gaussian _ | InverseMultiQuadric _ => 0 < v <= 1 /\ (r = 0 -> v = 1)
  | MultiQuadric _ => 1 <= v /\ (r = 0 -> v = 1)
  | ThinPlateSpline => True
  end.
Proof.
  intros f r Hf Hr.
  assert (Pw : forall n, 0 <= r ^ S n /\ (r ^ S n = 0 <-> r = 0)).
  { intros n. split; [apply pow_le, Hr|]. split; [|intros ->; cbn [pow]; lra]. intros E. destruct (Req_dec r 0) as [?|N]; [assumption|]. destruct (pow_nonzero r (S n) N E). }
  destruct f; try (eexists; split; [reflexivity|]).
  - split; [exact Hr|tauto].
  - exact (Pw 2%nat).
  - exact (Pw 4%nat).
  - destruct (Hf eq_refl).
  - pose proof (pow2_ge_0 (epsilon * r)) as B. pose proof (exp_pos (- (epsilon * r) ^ 2)) as P. split; [lra|]. split.
    + split; [exact P|]. destruct (Req_dec ((epsilon * r) ^ 2) 0) as [->|N]; [rewrite Ropp_0, exp_0; lra|].
      left. rewrite <- exp_0. apply exp_increasing. lra.
    + intros ->. replace (- (epsilon * 0) ^ 2) with 0 by ring. apply exp_0.
  - pose proof (pow2_ge_0 (epsilon * r)) as B. assert (B1 : 1 <= sqrt (1 + (epsilon * r) ^ 2)) by (rewrite <- sqrt_1 at 1; apply sqrt_le_1_alt; lra).
    split; [lra|]. split; [exact B1|]. intros ->. replace (1 + (epsilon * 0) ^ 2) with 1 by ring. apply sqrt_1.
  - pose proof (pow2_ge_0 (epsilon * r)) as B. assert (P : 0 < Rpower (1 + (epsilon * r) ^ 2) (-(1/2))) by apply exp_pos.
    split; [lra|]. split.
    + split; [exact P|]. apply Rle_trans with (Rpower (1 + (epsilon * r) ^ 2) 0); [apply Rle_Rpower; lra|rewrite Rpower_O; lra].
    + intros ->. replace (1 + (epsilon * 0) ^ 2) with 1 by ring. unfold Rpower. rewrite ln_1, Rmult_0_r. apply exp_0.
Qed.
Print Assumptions C51_function_values.

(** The range of a list of days or values, 1 if they are all the same. *)
Definition range_is (l : list R) (q : R) : Prop :=
  exists lo hi, In lo l /\ In hi l /\ (forall x, In x l -> lo <= x <= hi) /\ ((lo = hi /\ q = 1) \/ (lo < hi /\ q = hi - lo)).

(** C51.  Without an epsilon in the file it is the positive root, as many times as
    there are points, of the range of the days times the range of the values; the
    order of the points does not matter.  Only without points is there none. *)
Theorem C51_epsilon : forall points,
  (points = [] <-> estimate_epsilon points = None) /\
  (forall e, estimate_epsilon points = Some e -> 0 < e /\
     forall xr yr, range_is (map (fun p => IZR (fst p)) points) xr -> range_is (map snd points) yr ->
     e ^ length points = xr * yr) /\
  (forall points', Permutation points points' -> estimate_epsilon points' = estimate_epsilon points).
Proof.
  assert (U : forall l q q', range_is l q -> range_is l q' -> q = q').
  { intros l q q' (lo & hi & I1 & I2 & M & D) (lo' & hi' & I1' & I2' & M' & D').
    assert (lo = lo') by (pose proof (M _ I1'); pose proof (M' _ I1); lra). assert (hi = hi') by (pose proof (M _ I2'); pose proof (M' _ I2); lra). lra. }
  assert (K : forall p ps, exists xr yr, range_is (map (fun p => IZR (fst p)) (p :: ps)) xr /\ range_is (map snd (p :: ps)) yr /\ 0 < xr /\ 0 < yr /\
    estimate_epsilon (p :: ps) = Some (Rpower (xr * yr) (1 / INR (length (p :: ps))))).
  { intros p ps. cbn [estimate_epsilon].
    destruct (fold_least Z.le Z.min Z.le_refl Z.le_trans ltac:(intros a b; lia) (map fst ps) (fst p)) as [X1 X2].
    destruct (fold_least (fun a b => Z.le b a) Z.max ltac:(cbv beta; intros; lia) ltac:(cbv beta; intros; lia) ltac:(cbv beta; intros a b; lia) (map fst ps) (fst p)) as [X3 X4].
    destruct (fold_least Rle Rmin ltac:(intros; lra) ltac:(intros; lra) ltac:(intros a b; unfold Rmin; destruct (Rle_dec a b); lra) (map snd ps) (snd p)) as [Y1 Y2].
    destruct (fold_least (fun a b => Rle b a) Rmax ltac:(cbv beta; intros; lra) ltac:(cbv beta; intros; lra) ltac:(cbv beta; intros a b; unfold Rmax; destruct (Rle_dec a b); lra) (map snd ps) (snd p)) as [Y3 Y4].
    set (x0 := fold_left Z.min _ _) in *. set (x1 := fold_left Z.max _ _) in *. set (y0 := fold_left Rmin _ _) in *. set (y1 := fold_left Rmax _ _) in *.
    change (fst p :: map fst ps) with (map fst (p :: ps)) in *. change (snd p :: map snd ps) with (map snd (p :: ps)) in *.
    assert (Bx : (x0 <= x1)%Z) by exact (X2 _ X3). assert (By : y0 <= y1) by exact (Y2 _ Y3).
    set (xr := if (x1 - x0 =? 0)%Z then 1%Z else (x1 - x0)%Z). set (yr := if Req_EM_T (y1 - y0) 0 then 1 else y1 - y0).
    assert (Px : (0 < xr)%Z) by (unfold xr; destruct (Z.eqb_spec (x1 - x0) 0); lia).
    assert (Py : 0 < yr) by (unfold yr; destruct (Req_EM_T (y1 - y0) 0); lra).
    exists (IZR xr), yr. repeat split; try assumption; [| |apply IZR_lt, Px].
    - exists (IZR x0), (IZR x1). rewrite <- (map_map fst IZR). split; [apply in_map, X1|]. split; [apply in_map, X3|]. split.
      + intros x Hx. apply in_map_iff in Hx. destruct Hx as (z & <- & Hz). split; apply IZR_le; [apply X2|apply X4]; exact Hz.
      + unfold xr. destruct (Z.eqb_spec (x1 - x0) 0) as [E|N]; [left; split; [f_equal; lia|reflexivity]|right]. split; [apply IZR_lt; lia|apply minus_IZR].
    - exists y0, y1. split; [exact Y1|]. split; [exact Y3|]. split.
      + intros x Hx. split; [apply Y2|apply Y4]; exact Hx.
      + unfold yr. destruct (Req_EM_T (y1 - y0) 0) as [E|N]; [left; split; [lra|reflexivity]|right; split; lra]. }
  intros points. split; [|split].
  - split; [intros ->; reflexivity|]. destruct points; [reflexivity|discriminate].
  - intros e He. destruct points as [|p ps]; [discriminate|]. destruct (K p ps) as (xr & yr & Rx & Ry & Px & Py & E). rewrite E in He. injection He as <-.
    split; [apply exp_pos|]. intros xr' yr' Rx' Ry'. rewrite (U _ _ _ Rx' Rx), (U _ _ _ Ry' Ry).
    rewrite <- Rpower_pow by apply exp_pos. rewrite Rpower_mult.
    assert (En : forall n, n <> 0 -> 1 / n * n = 1) by (intros n Hn; field; exact Hn).
    rewrite En by (apply not_0_INR; discriminate). apply Rpower_1, Rmult_lt_0_compat; assumption.
  - intros points' Hp. destruct points as [|p ps]; [apply Permutation_nil in Hp; subst; reflexivity|].
    destruct points' as [|p' ps']; [apply Permutation_sym, Permutation_nil in Hp; discriminate|].
    destruct (K p ps) as (xr & yr & Rx & Ry & _ & _ & ->). destruct (K p' ps') as (xr' & yr' & Rx' & Ry' & _ & _ & ->).
    assert (T : forall (g : Z * R -> R) q, range_is (map g (p :: ps)) q -> range_is (map g (p' :: ps')) q).
    { intros g q (lo & hi & I1 & I2 & M & D). pose proof (Permutation_map g Hp) as Hg. exists lo, hi.
      split; [exact (Permutation_in _ Hg I1)|]. split; [exact (Permutation_in _ Hg I2)|]. split; [|exact D].
      intros x Hx. apply M. exact (Permutation_in _ (Permutation_sym Hg) Hx). }
    rewrite (U _ _ _ Rx' (T _ _ Rx)), (U _ _ _ Ry' (T _ _ Ry)), (Permutation_length Hp). reflexivity.
Qed.
Print Assumptions C51_epsilon.

(** The epsilon of the file is used if there is one; a profile with points always
    has its function. *)
Theorem C51_function_loaded : forall points,
  (forall f, points <> [] -> exists g, into_core_rbf f points = Ok g) /\
  (forall e, into_core_rbf (SrGaussian (Some e)) points = Ok (Gaussian e) /\ into_core_rbf (SrMultiQuadric (Some e)) points = Ok (MultiQuadric e) /\
     into_core_rbf (SrInverseMultiQuadric (Some e)) points = Ok (InverseMultiQuadric e)) /\
  (into_core_rbf SrLinear points = Ok Linear /\ into_core_rbf SrCubic points = Ok Cubic /\ into_core_rbf SrQuintic points = Ok Quintic) /\
  (forall e, estimate_epsilon points = Some e -> into_core_rbf (SrGaussian None) points = Ok (Gaussian e) /\
     into_core_rbf (SrMultiQuadric None) points = Ok (MultiQuadric e) /\ into_core_rbf (SrInverseMultiQuadric None) points = Ok (InverseMultiQuadric e)).
Proof.
  intros points. split; [|split; [|split]].
  - intros f Hp. destruct (estimate_epsilon points) as [e|] eqn:E; [|apply (proj1 (C51_epsilon points)) in E; destruct (Hp E)].
    destruct f as [ | | | | [x|] | [x|] | [x|]]; cbn [into_core_rbf epsilon_or_estimate]; try rewrite E; eexists; reflexivity.
  - intros e. repeat split.
  - repeat split.
  - intros e E. cbn [into_core_rbf epsilon_or_estimate]. rewrite E. repeat split.
Qed.
Print Assumptions C51_function_loaded.

(** A profile with one point on 1 January, of Gaussian functions that have fallen
    to exp (-1) a year away, and a solver that knows the answer to its system. *)
Definition rx_y : R := 1 + exp (-4) - 2 * exp (-1) * exp (-1).
Definition rx_points : list (Z * R) := [(0%Z, rx_y)].
Definition rx_f : radial := Gaussian (1 / 365).
Definition rx_weights : list R := [1 - exp (-1); rx_y - 2 * exp (-1) * (1 - exp (-1)); 1 - exp (-1)].
Definition f64x_eq_dec (a b : f64x) : {a = b} + {a <> b}.
Proof. decide equality. apply Req_EM_T. Defined.
Definition rx_solver (m : list (list f64x)) (b : list f64x) : option (list f64x) :=
  if list_eq_dec (list_eq_dec f64x_eq_dec) m (radial_matrix (radial_repeated rx_points) rx_f)
  then if list_eq_dec f64x_eq_dec b (radial_rhs (radial_repeated rx_points)) then Some (map XFin rx_weights) else None
  else None.

Lemma radial_profile_some solve points f w : solve (radial_matrix (radial_repeated points) f) (radial_rhs (radial_repeated points)) = Some w ->
  exists profile, radial_profile solve points f = Ok profile.
Proof.
  intros E. unfold radial_profile, interpolate_radial. rewrite E. cbn [rbind].
  destruct (nth_error (map (radial_at (radial_repeated points) f w) (map Z.of_nat (seq 0 365))) 58) as [x|] eqn:N; [eexists; reflexivity|].
  apply nth_error_None in N. rewrite !map_length, seq_length in N. lia.
Qed.

Example C51_radial_example :
  solves rx_solver /\ shaped rx_solver /\ rx_f <> ThinPlateSpline /\ In (0%Z, rx_y) rx_points /\ valid_date (Date 2021 1 1) = true /\ day_is 0 (Date 2021 1 1) /\
  0 < rx_y /\ (exists profile, radial_profile rx_solver rx_points rx_f = Ok profile) /\
  (let solve := fun (_ : list (list f64x)) (b : list f64x) => Some b in shaped solve /\ exists profile, radial_profile solve rx_points ThinPlateSpline = Ok profile) /\
  range_is (map snd [(1%Z, 5); (10%Z, 7)]) 2.
Proof.
  assert (Inj : forall l l', map XFin l = map XFin l' -> l = l').
  { induction l as [|x l IH]; intros [|y l'] E; try discriminate; [reflexivity|]. injection E as -> E. f_equal. exact (IH _ E). }
  assert (Inj2 : forall l l', map (map XFin) l = map (map XFin) l' -> l = l').
  { induction l as [|x l IH]; intros [|y l'] E; try discriminate; [reflexivity|]. injection E as E0 E. f_equal; [exact (Inj _ _ E0)|exact (IH _ E)]. }
  assert (Hf : rx_f <> ThinPlateSpline) by discriminate.
  assert (Hd : forall a b c, IZR a - IZR b = c -> distance a b = Rabs c) by (intros a b c <-; reflexivity).
  assert (Hn : forall c k, c ^ 2 = k * 365 ^ 2 -> number_of rx_f (Rabs c) = exp (- k)).
  { intros c k E. unfold number_of, rx_f. cbn [radial_value]. f_equal. f_equal. rewrite Rpow_mult_distr. rewrite pow2_abs. rewrite E. field. }
  split; [|split; [|split; [|split; [|split; [|split; [|split; [|split; [|split]]]]]]]].
  - intros M B w. unfold rx_solver. destruct (list_eq_dec _ _ _) as [EM|]; [|discriminate]. destruct (list_eq_dec _ _ _) as [EB|]; [|discriminate].
    intros E. injection E as <-. exists rx_weights. split; [reflexivity|]. rewrite (radial_matrix_fin _ _ Hf) in EM. apply Inj2 in EM.
    unfold radial_rhs in EB. rewrite <- map_map with (g := XFin) (f := snd) in EB. apply Inj in EB. subst M B.
    cbn [rx_points radial_repeated map app fst snd Z.sub Z.add Z.opp].
    rewrite !distance_zero, (Hd (-365)%Z 0%Z (-365)) by lra. rewrite (Hd 0%Z (-365)%Z 365) by lra. rewrite (Hd 365%Z 0%Z 365) by lra. rewrite (Hd 0%Z 365%Z (-365)) by lra.
    rewrite (Hd (-365)%Z 365%Z (-730)) by lra. rewrite (Hd 365%Z (-365)%Z 730) by lra.
    assert (H0 : number_of rx_f 0 = 1) by (rewrite <- Rabs_R0, (Hn 0 0) by lra; rewrite Ropp_0; apply exp_0). rewrite !H0.
    rewrite (Hn 365 1) by lra. rewrite (Hn (-365) 1) by lra. rewrite (Hn 730 4) by lra. rewrite (Hn (-730) 4) by lra.
    change (Ropp 1) with (-1). change (Ropp 4) with (-4). unfold rx_weights, rx_y. repeat (apply Forall2_cons || apply Forall2_nil); cbn [combine map fst snd fold_right]; ring.
  - intros m b w. unfold rx_solver. destruct (list_eq_dec _ _ _) as [EM|]; [|discriminate]. destruct (list_eq_dec _ _ _) as [EB|]; [|discriminate].
    intros E. injection E as <-. rewrite EB. reflexivity.
  - exact Hf.
  - left. reflexivity.
  - reflexivity.
  - left. split; [reflexivity|]. intros [H _]. discriminate H.
  - unfold rx_y. rewrite Rmult_assoc, <- exp_plus. replace (-1 + -1) with (- (2)) by ring.
    replace (exp (-4)) with (exp (- (2)) * exp (- (2))) by (rewrite <- exp_plus; f_equal; ring).
    assert (exp (- (2)) < 1) by (rewrite <- exp_0; apply exp_increasing; lra). pose proof (exp_pos (- (2))). nra.
  - apply radial_profile_some with (w := map XFin rx_weights). unfold rx_solver.
    destruct (list_eq_dec _ _ _) as [EM|EM]; [|destruct (EM eq_refl)]. destruct (list_eq_dec _ _ _) as [EB|EB]; [reflexivity|destruct (EB eq_refl)].
  - cbv zeta. split; [intros m b w E; injection E as ->; reflexivity|]. eapply radial_profile_some. reflexivity.
  - exists 5, 7. cbn. split; [auto|]. split; [auto|]. split; [intros x [<-|[<-|[]]]; lra|right; lra].
Qed.
