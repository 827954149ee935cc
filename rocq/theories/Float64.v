(** The double precision arithmetic of the program (Rust's [f64], IEEE 754
    binary64): the functions of pywr-core that the other files model over exact
    rationals, here with rounding to nearest even, signed zeros, infinities and
    NaN.  The numbers and operations are those of Coq's [SpecFloat] with a
    mantissa of 53 bits and exponents below 1024. *)
From Coq Require Import Floats.SpecFloat.
From Verif Require Import Base.
Open Scope list_scope.
Open Scope nat_scope.

(** Rust's [f64].  The payload and sign of a NaN are not kept. *)
Definition f64 : Type := spec_float.
Definition prec : Z := 53.
Definition emax : Z := 1024.

(** The operators [+], [-], [*], [/], unary [-], [abs], [<], [<=], [==] of [f64]. *)
Definition fadd (x y : f64) : f64 := SFadd prec emax x y.
Definition fsub (x y : f64) : f64 := SFsub prec emax x y.
Definition fmul (x y : f64) : f64 := SFmul prec emax x y.
Definition fdiv (x y : f64) : f64 := SFdiv prec emax x y.
Definition fneg (x : f64) : f64 := SFopp x.
Definition fabs (x : f64) : f64 := SFabs x.
Definition flt (x y : f64) : bool := SFltb x y.
Definition fle (x y : f64) : bool := SFleb x y.
Definition feq (x y : f64) : bool := SFeqb x y.

(** [f64::is_nan]. *)
Definition is_nan (x : f64) : bool := match x with S754_nan => true | _ => false end.

(** [z as f64]: the nearest double. *)
Definition of_int (z : Z) : f64 := SpecFloat.binary_normalize prec emax z 0 false.

(** A decimal literal [n/d] of the source, for [n] and [d] below 2^53: the
    compiler rounds the exact number to the nearest double, as one division of
    the two exact integers does. *)
Definition lit (n d : Z) : f64 := fdiv (of_int n) (of_int d).

Definition zero : f64 := S754_zero false.
Definition one : f64 := of_int 1.

(** [f64::MAX] and [f64::MIN]. *)
Definition f64_max : f64 := S754_finite false (2 ^ 53 - 1) 971.
Definition f64_min : f64 := S754_finite true (2 ^ 53 - 1) 971.

(** [f64::min], [f64::max]: a NaN gives the other argument.  (Of two zeros of
    different signs Rust may give either; here the first.) *)
Definition fmin (x y : f64) : f64 :=
  if is_nan x then y else if is_nan y then x else if flt y x then y else x.
Definition fmax (x y : f64) : f64 :=
  if is_nan x then y else if is_nan y then x else if flt x y then y else x.

(** [f64::clamp]: [assert!(min <= max)], then the two comparisons. *)
Definition fclamp {E} (x lo hi : f64) : res E f64 :=
  if fle lo hi then
    let x := if flt x lo then lo else x in
    Ok (if flt hi x then hi else x)
  else Panic.

(** pywr-core/src/lib.rs 28 and 31. *)
Definition float_eq_tolerance : f64 := lit 1 1000000.
Definition storage_tolerance : f64 := lit 1 1000000.

(** pywr-core/src/timestep.rs 62-64 and 203-205: the length of a time-step of
    [secs] whole seconds in days ([Duration::as_secs_f64] is exact below 2^53;
    parts of a second are not modelled). *)
Definition fractional_days (secs : Z) : f64 := fdiv (of_int secs) (of_int 86400).

(** [f64::trunc] as an integer; [f64::fract] is the number less it ([of_int] is exact
    for the days of any time-step). *)
Definition trunc (x : f64) : Z :=
  match x with
  | S754_finite s m e =>
      let n := if (0 <=? e)%Z then (Zpos m * 2 ^ e)%Z else (Zpos m / 2 ^ (- e))%Z in
      if s then (- n)%Z else n
  | _ => 0%Z
  end.
Definition fract (x : f64) : f64 := fsub x (of_int (trunc x)).

(** timestep.rs 52-59 [PywrDuration::whole_days]. *)
Definition whole_days (secs : Z) : option Z :=
  let d := fractional_days secs in
  if feq (fract d) zero then Some (trunc d) else None.

(** state/storage.rs 57-68: a flow into, or out of, the storage for a time-step
    of [days]; only the volume. *)
Definition add_in_flow (volume flow days : f64) : f64 := fadd volume (fmul flow days).
Definition add_out_flow (volume flow days : f64) : f64 := fsub volume (fmul flow days).

(** state/storage.rs 79-101 [finalise] with [clamp]: the volume at the end of a
    time-step.  The panics are the mass-balance errors and that of [f64::clamp]. *)
Definition finalise {E} (volume min_volume max_volume : f64) : res E f64 :=
  if flt (fsub volume min_volume) (fneg storage_tolerance) then Panic
  else if flt storage_tolerance (fsub volume max_volume) then Panic
  else fclamp volume min_volume max_volume.

(** node.rs 708-714 with solvers/builder.rs 494: the limits on the net flow into a
    storage node, as lower and upper bound of its row. *)
Definition storage_row (volume min_volume max_volume days : f64) : f64 * f64 :=
  (fdiv (fneg (fsub volume min_volume)) days, fdiv (fsub max_volume volume) days).

(** virtual_storage.rs 481-491 with solvers/builder.rs 611-612: the same for a
    virtual storage. *)
Definition virtual_storage_row (volume min_volume max_volume days : f64) : f64 * f64 :=
  (fdiv (fneg (fmax (fsub volume min_volume) zero)) days, fdiv (fmax (fsub max_volume volume) zero) days).

(** node.rs 1075-1084 [DistributedAbsolute] and 1085-1098 [DistributedProportional]:
    the share of one piece of a storage node in the initial volume. *)
Definition distributed_absolute (absolute prior_max_volume max_volume : f64) : f64 :=
  fmin (fmax (fsub absolute prior_max_volume) zero) max_volume.
Definition distributed_proportional (total_volume proportion prior_max_volume max_volume : f64) : f64 :=
  distributed_absolute (fmul total_volume proportion) prior_max_volume max_volume.

(** parameters/interpolate.rs 5-15. *)
Definition interpolate (value lower_bound upper_bound lower_value upper_value : f64) : f64 :=
  if fle value lower_bound then lower_value
  else if fle upper_bound value then upper_value
  else if flt (fabs (fsub lower_bound upper_bound)) float_eq_tolerance then lower_value
  else fadd lower_value
         (fdiv (fmul (fsub upper_value lower_value) (fsub value lower_bound)) (fsub upper_bound lower_bound)).

(** parameters/threshold.rs 15-38: [Predicate::apply]. *)
Inductive predicate := LessThan | GreaterThan | EqualTo | LessThanOrEqualTo | GreaterThanOrEqualTo.
Definition apply (p : predicate) (value threshold : f64) : bool :=
  match p with
  | LessThan => flt value threshold
  | GreaterThan => flt threshold value
  | EqualTo => fle (fabs (fsub value threshold)) float_eq_tolerance
  | LessThanOrEqualTo => fle value threshold
  | GreaterThanOrEqualTo => fle threshold value
  end.

(** agg_funcs/mod.rs 22-40, without the function pointers and Python. *)
Inductive agg := Sum | Mean | Product | Min | Max | CountNonZero | AnyNonZero (tolerance : f64).

(** [Iterator::sum] and [Iterator::product] of [f64]: from the left; the sum starts
    from -0.0, which changes no sum but the empty one. *)
Definition fsum (l : list f64) : f64 := fold_left fadd l (S754_zero true).
Definition fproduct (l : list f64) : f64 := fold_left fmul l one.
Definition of_len {A} (l : list A) : f64 := of_int (Z.of_nat (length l)).

(** agg_funcs/mod.rs 88-139: [AggFuncF64::calc_iter_f64], as the aggregated nodes and
    parameters use it. *)
Definition calc_iter (f : agg) (values : list f64) : f64 :=
  match f with
  | Sum => fsum values
  | Mean => match values with [] => zero | _ => fdiv (fsum values) (of_len values) end
  | Max => fold_left fmax values f64_min
  | Min => fold_left fmin values f64_max
  | Product => fproduct values
  | CountNonZero => of_len (filter (fun v => negb (feq v zero)) values)
  | AnyNonZero tol => if existsb (fun v => flt tol (fabs v)) values then one else zero
  end.

(** agg_funcs/mod.rs 57-64 ([min_by], [max_by] with [partial_cmp(..).expect(..)]): the
    least and greatest of the values of a period; a comparison with a NaN panics.
    Of equal ones [min_by] takes the first and [max_by] the last. *)
Fixpoint pick {E} (better : f64 -> f64 -> bool) (best : f64) (l : list f64) : res E f64 :=
  match l with
  | [] => Ok best
  | v :: l' =>
      if is_nan best || is_nan v then Panic
      else pick better (if better best v then v else best) l'
  end.
Definition period_min {E} (values : list f64) : res E (option f64) :=
  match values with
  | [] => Ok None
  | v :: l => rbind (pick (fun best v => flt v best) v l) (fun x => Ok (Some x))
  end.
Definition period_max {E} (values : list f64) : res E (option f64) :=
  match values with
  | [] => Ok None
  | v :: l => rbind (pick (fun best v => fle best v) v l) (fun x => Ok (Some x))
  end.

(** state/mod.rs 821-900: the four functions that store the value of a parameter
    refuse a NaN. *)
Inductive set_error := NaNValue.
Definition set_parameter (value : f64) : res set_error f64 :=
  if is_nan value then Err NaNValue else Ok value.
