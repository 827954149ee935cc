(** C25-C28: control curves and interpolation. *)
From Coq Require Import QArith Qabs.
From Verif Require Import Base Network ParamsTemporal ControlCurves ControlCurvesSpec AggFuncsSpec ControlCurvesLemmas.
Local Open Scope nat_scope.

(* ------------------------------ C25 ------------------------------ *)

(** For descending curves the index is the number of curves strictly above. *)
Theorem C25_index_counts_curves_above : forall x curves, descending curves ->
  control_curve_index (Ok x) (map Ok curves) = Ok (curves_above x curves).
Proof.
  intros x curves D. destruct (index_zone x curves) as (k & E & Z). unfold control_curve_index. cbn [rbind].
  rewrite (zone_count x curves k D Z). exact E.
Qed.
Print Assumptions C25_index_counts_curves_above.

(** For any curves the index is the zone, there is exactly one, and it is within range. *)
Theorem C25_index_is_the_zone : forall x curves, exists k,
  control_curve_index (Ok x) (map Ok curves) = Ok k /\ k <= length curves /\
  in_zone x curves k /\ forall l, in_zone x curves l -> l = k.
Proof.
  intros x curves. destruct (index_zone x curves) as (k & E & Z). exists k. split; [exact E|]. split; [apply Z|]. split; [exact Z|].
  intros l Hl. exact (in_zone_unique x curves l k Hl Z).
Qed.
Print Assumptions C25_index_is_the_zone.

(** The index never falls when the volume falls. *)
Theorem C25_index_monotone : forall x y curves k l, (x <= y)%Q ->
  control_curve_index (Ok x) (map Ok curves) = Ok k -> control_curve_index (Ok y) (map Ok curves) = Ok l -> l <= k.
Proof.
  intros x y curves k l H Hk Hl. destruct (index_zone x curves) as (k' & E & Z). destruct (index_zone y curves) as (l' & E' & Z').
  unfold control_curve_index in *. cbn [rbind] in *. rewrite E in Hk. rewrite E' in Hl. injection Hk as <-. injection Hl as <-.
  exact (in_zone_mono x y curves k' l' H Z Z').
Qed.
Print Assumptions C25_index_monotone.

(** With a value for each zone, the value parameter gives the value of the zone,
    reading no other. *)
Theorem C25_value_of_the_zone : forall x curves values k v,
  length values = length curves + 1 ->
  control_curve_index (Ok x) (map Ok curves) = Ok k -> nth_error values k = Some v ->
  control_curve_value (Ok x) (map Ok curves) values = v.
Proof.
  intros x curves values k v L E H. destruct (index_zone x curves) as (k' & E' & Z). unfold control_curve_index in E. cbn [rbind] in E.
  rewrite E' in E. injection E as <-. apply (value_of_zone x curves values k' v); [|exact Z|exact H]. rewrite L. apply Nat.add_1_r.
Qed.
Print Assumptions C25_value_of_the_zone.

(** Too few values are an error where they are needed. *)
Theorem C25_missing_value_is_an_error : forall x curves values k,
  control_curve_index (Ok x) (map Ok curves) = Ok k -> k < length curves -> length values <= k ->
  control_curve_value (Ok x) (map Ok curves) values = Err (OutOfBoundsError k (length values)).
Proof.
  intros x curves values k E Hk L. destruct (index_zone x curves) as (k' & E' & Z). unfold control_curve_index in E. cbn [rbind] in E.
  rewrite E' in E. injection E as <-. unfold control_curve_value. cbn [rbind]. rewrite (value_loop_zone x curves values k' 0 Z).
  destruct (Nat.eqb_spec k' (length curves)) as [->|_]; [exfalso; exact (Nat.lt_irrefl _ Hk)|]. rewrite Nat.add_0_l. unfold get_or_error.
  apply nth_error_None in L. rewrite L. reflexivity.
Qed.
Print Assumptions C25_missing_value_is_an_error.

(** Curves below the zone are not read: an error in one of them goes unnoticed. *)
Theorem C25_lower_curves_not_read : forall x curves c rest rest',
  (c <= x)%Q -> Forall (fun d => (x < d)%Q) curves ->
  control_curve_index (Ok x) (map Ok curves ++ Ok c :: rest) = control_curve_index (Ok x) (map Ok curves ++ Ok c :: rest').
Proof. exact index_lazy. Qed.
Print Assumptions C25_lower_curves_not_read.

Definition three_curves : list Q := [(9 # 10); (6 # 10); (6 # 10); (2 # 10)]%Q.
Example C25_case : descending three_curves /\
  map (fun x => control_curve_index (Ok x) (map Ok three_curves)) [1; 9 # 10; 7 # 10; 6 # 10; 3 # 10; 1 # 10]%Q
    = [Ok 0; Ok 0; Ok 1; Ok 1; Ok 3; Ok 4].
Proof. split; [repeat split; discriminate|vm_compute; reflexivity]. Qed.
Example C25_value_case : control_curve_value (Ok (6 # 10)%Q) (map Ok three_curves) (map Ok [10; 20; 30; 40; 50]%Q) = Ok 20%Q.
Proof. vm_compute. reflexivity. Qed.

(* ------------------------------ C26 ------------------------------ *)

(** With two values more than curves, the result is between the values that
    bracket the zone and on the line between them. *)
Theorem C26_between_and_on_the_line : forall x curves values, length values = length curves + 2 ->
  exists k lower upper y, in_zone x curves k /\ nth_error values k = Some upper /\ nth_error values (S k) = Some lower /\
    control_curve_interpolated (Ok x) (map Ok curves) (map Ok values) = Ok y /\ between lower upper y /\
    ((0 <= x <= 1)%Q -> (FLOAT_EQ_TOLERANCE <= zone_top 1 curves k - zone_bottom 0 curves k)%Q ->
       on_line x (zone_bottom 0 curves k) (zone_top 1 curves k) lower upper y).
Proof. exact interpolated_between. Qed.
Print Assumptions C26_between_and_on_the_line.

(** At a curve the result is the configured value. *)
Theorem C26_exact_at_curves : forall x curves values i c v,
  length values = length curves + 2 -> nth_error curves i = Some c -> (x == c)%Q ->
  (forall j d, j < i -> nth_error curves j = Some d -> (c < d)%Q) -> nth_error values (S i) = Some v ->
  control_curve_interpolated (Ok x) (map Ok curves) (map Ok values) = Ok v.
Proof. exact interpolated_at_curve. Qed.
Print Assumptions C26_exact_at_curves.

Theorem C26_exact_when_full : forall x curves values v,
  length values = length curves + 2 -> (1 <= x)%Q ->
  (match curves with [] => True | c :: _ => (c < 1)%Q end) -> nth_error values 0 = Some v ->
  control_curve_interpolated (Ok x) (map Ok curves) (map Ok values) = Ok v.
Proof. exact interpolated_full. Qed.
Print Assumptions C26_exact_when_full.

Theorem C26_exact_when_empty : forall x curves values v,
  length values = length curves + 2 -> (x <= 0)%Q ->
  Forall (fun c => (0 < c)%Q) curves -> nth_error values (S (length curves)) = Some v ->
  control_curve_interpolated (Ok x) (map Ok curves) (map Ok values) = Ok v.
Proof. exact interpolated_empty. Qed.
Print Assumptions C26_exact_when_empty.

(** If the values fall from zone to zone, the result never rises when the volume falls. *)
Theorem C26_monotone : forall x y curves values a b,
  length values = length curves + 2 -> descending values -> (x <= y)%Q ->
  control_curve_interpolated (Ok x) (map Ok curves) (map Ok values) = Ok a ->
  control_curve_interpolated (Ok y) (map Ok curves) (map Ok values) = Ok b -> (a <= b)%Q.
Proof. exact interpolated_mono. Qed.
Print Assumptions C26_monotone.

(** The piecewise parameter: the same with the zone's own pair. *)
Theorem C26_piecewise : forall x top bottom curves values k v,
  length values = S (length curves) -> in_zone x curves k -> nth_error values k = Some v ->
  exists y, piecewise_interpolated (Ok x) top bottom (map Ok curves) values = Ok y /\ between (snd v) (fst v) y /\
    ((bottom <= x <= top)%Q -> (FLOAT_EQ_TOLERANCE <= zone_top top curves k - zone_bottom bottom curves k)%Q ->
       on_line x (zone_bottom bottom curves k) (zone_top top curves k) (snd v) (fst v) y).
Proof. exact piecewise_in_zone. Qed.
Print Assumptions C26_piecewise.

(** Too few values panic, although nothing checks their number when the model is
    built: the value is needed at the first curve not above the volume. *)
Theorem C26_too_few_values_refuted : exists x curves values,
  (0 <= x <= 1)%Q /\ descending curves /\ length values = length curves + 1 /\
  control_curve_interpolated (Ok x) (map Ok curves) (map Ok values) = Panic.
Proof. exists (1 # 10)%Q, [], [5%Q]. repeat split; discriminate. Qed.
Print Assumptions C26_too_few_values_refuted.

(** Two curves closer than the tolerance: the value jumps within the zone. *)
Theorem C26_narrow_zone_not_on_the_line_refuted : exists x curves values y,
  (0 <= x <= 1)%Q /\ descending curves /\ length values = length curves + 2 /\ in_zone x curves 1 /\
  control_curve_interpolated (Ok x) (map Ok curves) (map Ok values) = Ok y /\
  ~ on_line x (zone_bottom 0 curves 1) (zone_top 1 curves 1) (nth 2 values 0%Q) (nth 1 values 0%Q) y.
Proof.
  exists (50000004 # 100000000)%Q, [(50000008 # 100000000); (5 # 10)]%Q, [10; 8; 4; 0]%Q, 4%Q.
  split; [split; discriminate|]. split; [split; [discriminate|exact I]|]. split; [reflexivity|]. split.
  - split; [repeat constructor|]. split.
    + intros [|i] c Hi Hc; [injection Hc as <-; reflexivity|]. exfalso. inversion Hi as [|? H]. inversion H.
    + intros c Hc. injection Hc as <-. discriminate.
  - split; [vm_compute; reflexivity|]. intros H. vm_compute in H. discriminate.
Qed.
Print Assumptions C26_narrow_zone_not_on_the_line_refuted.

Example C26_case :
  map (fun x => control_curve_interpolated (Ok x) (map Ok [(8 # 10); (5 # 10)]%Q) (map Ok [10; 6; 2; 0]%Q)) [1; 9 # 10; 8 # 10; 5 # 10; 0]%Q
    = [Ok 10; Ok (6 + (10 - 6) * ((9 # 10) - (8 # 10)) / (1 - (8 # 10))); Ok 6; Ok 2; Ok 0]%Q.
Proof. vm_compute. reflexivity. Qed.
Example C26_zone : in_zone (7 # 10) [(8 # 10); (5 # 10)]%Q 1 /\
  (FLOAT_EQ_TOLERANCE <= zone_top 1 [(8 # 10); (5 # 10)] 1 - zone_bottom 0 [(8 # 10); (5 # 10)] 1)%Q /\ descending [10; 6; 2; 0]%Q.
Proof.
  split; [split; [repeat constructor|split]|].
  - intros [|i] c Hi Hc; [injection Hc as <-; reflexivity|]. exfalso. inversion Hi as [|? H]. inversion H.
  - intros c Hc. injection Hc as <-. discriminate.
  - split; [vm_compute; discriminate|]. repeat split; discriminate.
Qed.

(* ------------------------------ C27 ------------------------------ *)

Theorem C27_exact_at_points : forall points error_on_bounds i p,
  2 <= length points -> strictly_increasing points -> nth_error points i = Some p ->
  forall x, (x == fst p)%Q -> linear_interpolation x points error_on_bounds = Ok (snd p).
Proof. exact linear_at_point. Qed.
Print Assumptions C27_exact_at_points.

(** In between: bracketed by two neighbouring points, between their values, and
    on the line through them unless they are closer than the tolerance. *)
Theorem C27_between_points : forall points value error_on_bounds first final,
  2 <= length points -> strictly_increasing points ->
  nth_error points 0 = Some first -> nth_error points (length points - 1) = Some final ->
  (fst first <= value <= fst final)%Q ->
  exists k p q y, nth_error points k = Some p /\ nth_error points (S k) = Some q /\ (fst p <= value)%Q /\ (value <= fst q)%Q /\
    linear_interpolation value points error_on_bounds = Ok y /\ between (snd p) (snd q) y /\
    ((FLOAT_EQ_TOLERANCE <= fst q - fst p)%Q -> on_line value (fst p) (fst q) (snd p) (snd q) y).
Proof.
  intros points value err first final L S Hf Hl R.
  destruct (linear_inside points value err L S first final Hf Hl R) as (k & p & q & A & B & C & D & E).
  exists k, p, q, (interpolate value (fst p) (fst q) (snd p) (snd q)). repeat (split; [assumption|]). split; [apply interpolate_between|].
  intros W. apply interpolate_line; assumption.
Qed.
Print Assumptions C27_between_points.

Theorem C27_below_the_range : forall points value error_on_bounds first,
  2 <= length points -> nth_error points 0 = Some first -> (value < fst first)%Q ->
  linear_interpolation value points error_on_bounds = if error_on_bounds then Err BelowLowerBounds else Ok (snd first).
Proof. exact linear_below. Qed.
Print Assumptions C27_below_the_range.

Theorem C27_above_the_range : forall points value error_on_bounds final,
  2 <= length points -> strictly_increasing points ->
  nth_error points (length points - 1) = Some final -> (fst final < value)%Q ->
  linear_interpolation value points error_on_bounds = if error_on_bounds then Err AboveUpperBounds else Ok (snd final).
Proof. exact linear_above. Qed.
Print Assumptions C27_above_the_range.

Theorem C27_too_few_points : forall points value error_on_bounds, length points < 2 ->
  linear_interpolation value points error_on_bounds = Err InsufficientPoints.
Proof.
  intros [|a [|b points]] value err H; [reflexivity|reflexivity|]. cbn [length] in H. lia.
Qed.
Print Assumptions C27_too_few_points.

(** Points out of order are reported exactly when they come before the query's place. *)
Theorem C27_disorder_reported : forall value first rest error_on_bounds,
  rest <> [] -> (fst first <= value)%Q ->
  linear_interpolation value (first :: rest) error_on_bounds = Err NotStrictlyMonotonic <->
  exists k p q, nth_error (first :: rest) k = Some p /\ nth_error (first :: rest) (S k) = Some q /\ (fst q <= fst p)%Q /\
    forall j r, 0 < j <= k -> nth_error (first :: rest) j = Some r ->
      (fst r < value)%Q /\ exists o, nth_error (first :: rest) (j - 1) = Some o /\ (fst o < fst r)%Q.
Proof.
  intros value first rest err Ne H. rewrite <- (windows_unsorted value err). unfold linear_interpolation.
  apply Qle_bool_iff in H. rewrite H. destruct rest; [congruence|]. reflexivity.
Qed.
Print Assumptions C27_disorder_reported.

(** Disorder after the query's place is not noticed. *)
Theorem C27_disorder_unnoticed_refuted : exists points value y,
  ~ strictly_increasing points /\ linear_interpolation value points true = Ok y.
Proof.
  exists [(0, 0); (2, 4); (1, 7)]%Q, 1%Q. eexists. split; [|vm_compute; reflexivity]. intros (_ & H & _). vm_compute in H. discriminate.
Qed.
Print Assumptions C27_disorder_unnoticed_refuted.

Example C27_case : let points := [(1, 3); (2, 5); (4, 1)]%Q in
  2 <= length points /\ strictly_increasing points /\
  map (fun x => linear_interpolation x points true) [0; 1; 3; 5]%Q =
    [Err BelowLowerBounds; Ok 3; Ok (5 + (1 - 5) * (3 - 2) / (4 - 2)); Err AboveUpperBounds]%Q /\
  linear_interpolation 5 points false = Ok 1%Q.
Proof. split; [repeat constructor|]. split; [repeat split|]. split; vm_compute; reflexivity. Qed.

(* ------------------------------ C28 ------------------------------ *)

Theorem C28_shares : forall x control_curve, exists upper lower,
  apportion (Ok x) (Ok control_curve) = Ok [("upper"%string, upper); ("lower"%string, lower)] /\
  (upper + lower == x)%Q /\ ((0 <= x)%Q -> (0 <= upper <= x)%Q /\ (0 <= lower <= x)%Q) /\
  ((0 <= control_curve <= 1)%Q -> (lower == control_curve * x)%Q) /\
  ((control_curve <= 0)%Q -> (lower == 0)%Q) /\ ((1 <= control_curve)%Q -> (upper == 0)%Q).
Proof. exact apportion_shares. Qed.
Print Assumptions C28_shares.

(** The volumes between neighbouring curves add up to the whole. *)
Theorem C28_volumes_between_curves : forall whole curves, exists volumes,
  zone_volumes whole None curves = map Ok volumes /\ (total volumes == whole)%Q.
Proof.
  intros whole curves. destruct (zone_volumes_total whole curves None) as (vs & E & T). exists vs. split; [exact E|]. rewrite T. apply Qmult_1_r.
Qed.
Print Assumptions C28_volumes_between_curves.

Example C28_case : apportion (Ok 200%Q) (Ok (3 # 2)%Q) = Ok [("upper"%string, ((1 - 1) * 200)%Q); ("lower"%string, (1 * 200)%Q)].
Proof. reflexivity. Qed.
Example C28_volumes_case : zone_volumes 100 None [(8 # 10); (5 # 10)]%Q =
  map Ok [100 * (1 - (8 # 10)); 100 * ((8 # 10) - (5 # 10)); 100 * ((5 # 10) - 0)]%Q.
Proof. reflexivity. Qed.
