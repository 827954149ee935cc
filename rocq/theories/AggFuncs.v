(** Aggregation functions: pywr-core/src/agg_funcs/mod.rs.  Values are exact
    rationals; [f64::MAX] and [f64::MIN] are the finite limits of the type, and
    infinities and NaN are not modelled.  The Python function variants are
    arbitrary foreign code and are not modelled. *)
From Coq Require Import QArith Qabs.
From Verif Require Import Base Calendar Timestep Network.
Open Scope Q_scope.

(** recorders/aggregator/mod.rs 170-175: [PeriodValue].  The duration is in
    whole nanoseconds. *)
Record period_value (A : Type) : Type := PV { pv_start : datetime; pv_dur : Z; pv_value : A }.
Arguments PV {A} _ _ _.
Arguments pv_start {A} _.
Arguments pv_dur {A} _.
Arguments pv_value {A} _.

(** timestep.rs 62-64: [PywrDuration::fractional_days]. *)
Definition fractional_days (d : Z) : Q := inject_Z d / inject_Z NS_PER_DAY.

(** agg_funcs/mod.rs 24-38: [AggFuncF64]. *)
Inductive agg_f64 : Type :=
| FSum | FMean | FProduct | FMin | FMax | FCountNonZero
| FCountFunc (func : Q -> bool)
| FAnyNonZero (tolerance : Q).

(** [Iterator::sum] and [Iterator::product]: left folds from 0 and 1. *)
Definition iter_sum (l : list Q) : Q := fold_left Qplus l 0.
Definition iter_product (l : list Q) : Q := fold_left Qmult l 1.

(** [Iterator::min_by] and [Iterator::max_by] with [partial_cmp]: a reduction
    which keeps the first of equal minima and the last of equal maxima. *)
Definition iter_min (l : list Q) : option Q :=
  match l with
  | [] => None
  | x :: xs => Some (fold_left (fun a b => if Qle_bool a b then a else b) xs x)
  end.
Definition iter_max (l : list Q) : option Q :=
  match l with
  | [] => None
  | x :: xs => Some (fold_left (fun a b => if Qle_bool a b then b else a) xs x)
  end.

(** [iter.filter(p).count() as f64]. *)
Definition iter_count (p : Q -> bool) (l : list Q) : Q := inject_Z (Z.of_nat (length (filter p l))).

(** [any as u8 as f64]. *)
Definition bool_f64 (b : bool) : Q := if b then 1 else 0.

(** [v != 0.0]. *)
Definition non_zero (v : Q) : bool := negb (Qeq_bool v 0).

(** [v.abs() > tolerance]. *)
Definition above (tolerance v : Q) : bool := negb (Qle_bool (Qabs.Qabs v) tolerance).

(** agg_funcs/mod.rs 42-88: [AggFuncF64::calc_period_values]. *)
Definition calc_period_values (f : agg_f64) (values : list (period_value Q)) : option Q :=
  match f with
  | FSum => Some (iter_sum (map pv_value values))
  | FMean =>
      let ndays := iter_sum (map (fun v => fractional_days (pv_dur v)) values) in
      if Qeq_bool ndays 0 then None
      else Some (iter_sum (map (fun v => pv_value v * fractional_days (pv_dur v)) values) / ndays)
  | FProduct => Some (iter_product (map pv_value values))
  | FMin => iter_min (map pv_value values)
  | FMax => iter_max (map pv_value values)
  | FCountNonZero => Some (iter_count non_zero (map pv_value values))
  | FCountFunc func => Some (iter_count func (map pv_value values))
  | FAnyNonZero tolerance => Some (bool_f64 (existsb (above tolerance) (map pv_value values)))
  end.

(** agg_funcs/mod.rs 91-141: [AggFuncF64::calc_iter_f64].  The number of values
    in the mean is the lower bound of the iterator's size hint, which is exact
    for the slices and deques this is called with. *)
Definition calc_iter_f64 (f : agg_f64) (values : list Q) : Q :=
  match f with
  | FSum => iter_sum values
  | FMean =>
      let count := length values in
      if (count =? 0)%nat then 0 else iter_sum values / inject_Z (Z.of_nat count)
  | FMax => fold_left fmax values (- F64_MAX)
  | FMin => fold_left fmin values F64_MAX
  | FProduct => iter_product values
  | FCountNonZero => iter_count non_zero values
  | FCountFunc func => iter_count func values
  | FAnyNonZero tolerance => bool_f64 (existsb (above tolerance) values)
  end.

(** agg_funcs/mod.rs 144-160: [AggFuncU64]. *)
Inductive agg_u64 : Type := USum | UProduct | UMin | UMax | UAny | UAll.

(** Rust integer arithmetic: a build with overflow checks panics, one without
    wraps around. *)
Inductive profile : Type := Checked | Wrapping.
Definition U64_MAX : Z := (2 ^ 64 - 1)%Z.
Definition fit (p : profile) (z : Z) : res unit Z :=
  if (z <=? U64_MAX)%Z then Ok z
  else match p with Checked => Panic | Wrapping => Ok (z mod 2 ^ 64)%Z end.

Fixpoint fold_u64 (p : profile) (op : Z -> Z -> Z) (l : list Z) (acc : Z) : res unit Z :=
  match l with
  | [] => Ok acc
  | x :: xs => rbind (fit p (op acc x)) (fold_u64 p op xs)
  end.

Definition bool_u64 (b : bool) : Z := if b then 1%Z else 0%Z.

(** agg_funcs/mod.rs 163-183: [AggFuncU64::calc_iter_u64]. *)
Definition calc_iter_u64 (p : profile) (f : agg_u64) (values : list Z) : res unit Z :=
  match f with
  | USum => fold_u64 p Z.add values 0%Z
  | UProduct => fold_u64 p Z.mul values 1%Z
  | UMax => Ok (match values with [] => 0%Z | x :: xs => fold_left Z.max xs x end)
  | UMin => Ok (match values with [] => U64_MAX | x :: xs => fold_left Z.min xs x end)
  | UAny => Ok (bool_u64 (existsb (fun b => negb (b =? 0)%Z) values))
  | UAll => Ok (bool_u64 (forallb (fun b => negb (b =? 0)%Z) values))
  end.
