(** C33: the aggregation functions. *)
From Coq Require Import QArith Qabs Permutation.
From Verif Require Import Base Calendar Network AggFuncs AggFuncsSpec AggFuncsLemmas.
Local Open Scope Q_scope.

(** The order of the values does not matter, for any function. *)
Theorem C33_order_f64 : forall f l l', Permutation l l' -> calc_iter_f64 f l == calc_iter_f64 f l'.
Proof. exact order_iter. Qed.
Print Assumptions C33_order_f64.

Theorem C33_order_periods : forall f l l', Permutation l l' -> opt_eq (calc_period_values f l) (calc_period_values f l').
Proof. exact order_periods. Qed.
Print Assumptions C33_order_periods.

(** For integers too, except for products with overflow checks switched on. *)
Theorem C33_order_u64 : forall p f l l', Permutation l l' -> in_u64 l ->
  (p = Checked -> f = UProduct -> ~ In 0%Z l) ->
  calc_iter_u64 p f l = calc_iter_u64 p f l'.
Proof. exact order_u64. Qed.
Print Assumptions C33_order_u64.

(** With overflow checks, a product with a zero in it panics or not depending on
    where the zero is. *)
Theorem C33_order_u64_checked_refuted : exists l l', Permutation l l' /\ in_u64 l /\
  calc_iter_u64 Checked UProduct l = Ok 0%Z /\ calc_iter_u64 Checked UProduct l' = Panic.
Proof.
  exists [0; 2 ^ 40; 2 ^ 40]%Z, [2 ^ 40; 2 ^ 40; 0]%Z. repeat split.
  - apply Permutation_cons_append.
  - destruct H as [<-|[<-|[<-|[]]]]; discriminate.
  - destruct H as [<-|[<-|[<-|[]]]]; discriminate.
Qed.
Print Assumptions C33_order_u64_checked_refuted.

(** What each function computes. *)
Theorem C33_sum : forall l, calc_iter_f64 FSum l == total l.
Proof. exact iter_sum_qsum. Qed.
Print Assumptions C33_sum.

Theorem C33_product : forall l, calc_iter_f64 FProduct l == qprod l.
Proof. exact iter_product_qprod. Qed.
Print Assumptions C33_product.

Theorem C33_mean : forall l, l <> [] ->
  calc_iter_f64 FMean l * inject_Z (Z.of_nat (length l)) == total l.
Proof. exact mean_formula. Qed.
Print Assumptions C33_mean.

(** The mean lies between any bounds on the values, so between the smallest and
    the largest. *)
Theorem C33_mean_between : forall l lo hi, l <> [] -> (forall x, In x l -> lo <= x /\ x <= hi) ->
  lo <= calc_iter_f64 FMean l /\ calc_iter_f64 FMean l <= hi.
Proof. exact mean_bounds. Qed.
Print Assumptions C33_mean_between.

Theorem C33_min_attained : forall l, l <> [] -> (forall x, In x l -> x <= F64_MAX) ->
  exists m, calc_iter_f64 FMin l == m /\ is_min l m.
Proof. exact finite_min. Qed.
Print Assumptions C33_min_attained.

Theorem C33_max_attained : forall l, l <> [] -> (forall x, In x l -> - F64_MAX <= x) ->
  exists m, calc_iter_f64 FMax l == m /\ is_max l m.
Proof. exact finite_max. Qed.
Print Assumptions C33_max_attained.

Theorem C33_count_non_zero : forall l, exists n,
  calc_iter_f64 FCountNonZero l = inject_Z (Z.of_nat n) /\ how_many (fun x => ~ x == 0) l n.
Proof. intros l. eexists. split; [reflexivity|]. apply filter_how_many. intros x _. apply non_zero_iff. Qed.
Print Assumptions C33_count_non_zero.

Theorem C33_count_func : forall func l, exists n,
  calc_iter_f64 (FCountFunc func) l = inject_Z (Z.of_nat n) /\ how_many (fun x => func x = true) l n.
Proof. intros func l. eexists. split; [reflexivity|]. apply filter_how_many. intros x _. reflexivity. Qed.
Print Assumptions C33_count_func.

Theorem C33_any_non_zero : forall t l,
  (calc_iter_f64 (FAnyNonZero t) l == 1 <-> exists x, In x l /\ t < Qabs x) /\
  (calc_iter_f64 (FAnyNonZero t) l == 0 <-> forall x, In x l -> Qabs x <= t).
Proof. exact any_spec. Qed.
Print Assumptions C33_any_non_zero.

(** No values: the neutral element of each function. *)
Theorem C33_empty :
  calc_iter_f64 FSum [] = 0 /\ calc_iter_f64 FProduct [] = 1 /\ calc_iter_f64 FMean [] = 0 /\
  calc_iter_f64 FMin [] = F64_MAX /\ calc_iter_f64 FMax [] = - F64_MAX /\
  calc_iter_f64 FCountNonZero [] = 0 /\ (forall func, calc_iter_f64 (FCountFunc func) [] = 0) /\
  (forall t, calc_iter_f64 (FAnyNonZero t) [] = 0).
Proof. repeat split. Qed.
Print Assumptions C33_empty.

Theorem C33_empty_u64 : forall p,
  calc_iter_u64 p USum [] = Ok 0%Z /\ calc_iter_u64 p UProduct [] = Ok 1%Z /\
  calc_iter_u64 p UMin [] = Ok (2 ^ 64 - 1)%Z /\ calc_iter_u64 p UMax [] = Ok 0%Z /\
  calc_iter_u64 p UAny [] = Ok 0%Z /\ calc_iter_u64 p UAll [] = Ok 1%Z.
Proof. repeat split. Qed.
Print Assumptions C33_empty_u64.

(** Values with periods: the mean weighs each value by the length of its period,
    and is absent if the periods have no length at all. *)
Theorem C33_periods_mean : forall l, ~ total (map days_of l) == 0 ->
  exists m, calc_period_values FMean l = Some m /\
    m * total (map days_of l) == total (map (fun v => pv_value v * days_of v) l).
Proof. exact weighted_formula. Qed.
Print Assumptions C33_periods_mean.

Theorem C33_periods_mean_none : forall l, total (map days_of l) == 0 -> calc_period_values FMean l = None.
Proof. exact weighted_none. Qed.
Print Assumptions C33_periods_mean_none.

Theorem C33_periods_mean_between : forall l lo hi m,
  (forall v, In v l -> (0 <= pv_dur v)%Z /\ lo <= pv_value v /\ pv_value v <= hi) ->
  calc_period_values FMean l = Some m -> lo <= m /\ m <= hi.
Proof. exact weighted_bounds. Qed.
Print Assumptions C33_periods_mean_between.

(** With periods of equal length it is the plain mean. *)
Theorem C33_periods_mean_equal : forall l d, l <> [] -> (0 < d)%Z -> (forall v, In v l -> pv_dur v = d) ->
  exists m, calc_period_values FMean l = Some m /\ m == calc_iter_f64 FMean (map pv_value l).
Proof. exact weighted_equal. Qed.
Print Assumptions C33_periods_mean_equal.

Theorem C33_periods_other : forall l,
  (exists s, calc_period_values FSum l = Some s /\ s == total (map pv_value l)) /\
  (exists s, calc_period_values FProduct l = Some s /\ s == qprod (map pv_value l)) /\
  match calc_period_values FMin l with Some m => is_min (map pv_value l) m | None => l = [] end /\
  match calc_period_values FMax l with Some m => is_max (map pv_value l) m | None => l = [] end /\
  (exists n, calc_period_values FCountNonZero l = Some (inject_Z (Z.of_nat n)) /\
     how_many (fun v => ~ v == 0) (map pv_value l) n) /\
  (forall func, exists n, calc_period_values (FCountFunc func) l = Some (inject_Z (Z.of_nat n)) /\
     how_many (fun v => func v = true) (map pv_value l) n) /\
  (forall t, calc_period_values (FAnyNonZero t) l = Some (calc_iter_f64 (FAnyNonZero t) (map pv_value l))).
Proof.
  intros l. repeat split.
  - eexists. split; [reflexivity|]. apply iter_sum_qsum.
  - eexists. split; [reflexivity|]. apply iter_product_qprod.
  - pose proof (iter_min_spec (map pv_value l)) as H. cbn [calc_period_values]. destruct (iter_min (map pv_value l)); [exact H|].
    destruct l; [reflexivity|discriminate].
  - pose proof (iter_max_spec (map pv_value l)) as H. cbn [calc_period_values]. destruct (iter_max (map pv_value l)); [exact H|].
    destruct l; [reflexivity|discriminate].
  - eexists. split; [reflexivity|]. apply filter_how_many. intros x _. apply non_zero_iff.
  - intros func. eexists. split; [reflexivity|]. apply filter_how_many. intros x _. reflexivity.
Qed.
Print Assumptions C33_periods_other.

(** Integers. *)
Theorem C33_u64_sum : forall p l, in_u64 l -> (zsum l <= U64_MAX)%Z -> calc_iter_u64 p USum l = Ok (zsum l).
Proof. exact u64_sum. Qed.
Print Assumptions C33_u64_sum.

Theorem C33_u64_product : forall p l, in_u64 l -> ~ In 0%Z l -> (zprod l <= U64_MAX)%Z ->
  calc_iter_u64 p UProduct l = Ok (zprod l).
Proof. exact u64_product. Qed.
Print Assumptions C33_u64_product.

Theorem C33_u64_product_zero : forall l, in_u64 l -> In 0%Z l -> calc_iter_u64 Wrapping UProduct l = Ok 0%Z.
Proof. exact u64_product_wrapping_zero. Qed.
Print Assumptions C33_u64_product_zero.

Theorem C33_u64_min_max : forall p l, l <> [] ->
  (exists m, calc_iter_u64 p UMin l = Ok m /\ is_zmin l m) /\
  (exists m, calc_iter_u64 p UMax l = Ok m /\ is_zmax l m).
Proof. exact u64_min_max. Qed.
Print Assumptions C33_u64_min_max.

Theorem C33_u64_any_all : forall p l,
  (exists v, calc_iter_u64 p UAny l = Ok v /\
     (v = 1%Z /\ (exists x, In x l /\ x <> 0%Z) \/ v = 0%Z /\ forall x, In x l -> x = 0%Z)) /\
  (exists v, calc_iter_u64 p UAll l = Ok v /\
     (v = 1%Z /\ (forall x, In x l -> x <> 0%Z) \/ v = 0%Z /\ In 0%Z l)).
Proof. exact u64_any_all. Qed.
Print Assumptions C33_u64_any_all.

(** A non-trivial case: a mean over periods of one and of three days. *)
Example C33_case :
  let d := DateTime (Date 2020 1 1) 0 in
  let l := [PV d NS_PER_DAY 8; PV d (3 * NS_PER_DAY) 4] in
  (exists m, calc_period_values FMean l = Some m /\ m == 5) /\
  calc_iter_f64 FMean [8; 4] == 6 /\ calc_iter_f64 FMax [8; 4] == 8 /\ calc_iter_f64 FMin [8; 4] == 4 /\
  calc_iter_u64 Checked USum [2 ^ 63; 2 ^ 63]%Z = Panic /\ calc_iter_u64 Wrapping USum [2 ^ 63; 2 ^ 63; 5]%Z = Ok 5%Z.
Proof.
  cbv zeta. split; [eexists; split; [reflexivity|]; vm_compute; reflexivity|].
  repeat split; vm_compute; reflexivity.
Qed.
