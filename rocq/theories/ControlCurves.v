(** Interpolation and control curves: pywr-core/src/parameters/interpolate.rs and
    pywr-core/src/parameters/control_curves/.  Numbers are exact rationals.
    Metrics are read by the caller; a reading is a number or an error, and the
    order in which readings are used is the code's. *)
From Coq Require Import QArith Qabs.
From Verif Require Import Base Network ParamsTemporal.
Local Open Scope nat_scope.

(** Errors of the parameters here.  [ReadingFailed] stands for any error of
    [get_value]. *)
Inductive curve_error : Type :=
| ReadingFailed (what : string)
| OutOfBoundsError (index length : nat).

Notation reading := (res curve_error Q).

(** interpolate.rs 5-15: [interpolate]. *)
Definition interpolate (value lower_bound upper_bound lower_value upper_value : Q) : Q :=
  if Qle_bool value lower_bound then lower_value
  else if Qle_bool upper_bound value then upper_value
  else if negb (Qle_bool FLOAT_EQ_TOLERANCE (Qabs (lower_bound - upper_bound))) then lower_value
  else (lower_value + (upper_value - lower_value) * (value - lower_bound) / (upper_bound - lower_bound))%Q.

(** interpolate.rs 17-29: [InterpolationError]. *)
Inductive interpolation_error : Type :=
| InsufficientPoints
| InconsistentPoints
| BelowLowerBounds
| AboveUpperBounds
| NotStrictlyMonotonic.

(** interpolate.rs 49-69: the loop over pairs of neighbouring points and what
    follows it.  [last] is the y value of the last point. *)
Fixpoint interpolation_windows (value : Q) (lp : Q * Q) (points : list (Q * Q)) (error_on_bounds : bool)
  : res interpolation_error Q :=
  match points with
  | [] => if error_on_bounds then Err AboveUpperBounds else Ok (snd lp)
  | up :: rest =>
      if Qle_bool (fst up) (fst lp) then Err NotStrictlyMonotonic
      else if Qle_bool value (fst up) then Ok (interpolate value (fst lp) (fst up) (snd lp) (snd up))
      else interpolation_windows value up rest error_on_bounds
  end.

(** interpolate.rs 31-70: [linear_interpolation]. *)
Definition linear_interpolation (value : Q) (points : list (Q * Q)) (error_on_bounds : bool)
  : res interpolation_error Q :=
  match points with
  | [] | [_] => Err InsufficientPoints
  | first :: rest =>
      if negb (Qle_bool (fst first) value) then
        if error_on_bounds then Err BelowLowerBounds else Ok (snd first)
      else interpolation_windows value first rest error_on_bounds
  end.

(** control_curves/index.rs 42-48: the loop over the curves. *)
Fixpoint index_loop (x : Q) (curves : list reading) (idx : nat) : res curve_error nat :=
  match curves with
  | [] => Ok idx
  | c :: rest =>
      rbind c (fun cc_value => if Qle_bool cc_value x then Ok idx else index_loop x rest (S idx))
  end.

(** control_curves/index.rs 34-49: [before]. *)
Definition control_curve_index (metric : reading) (curves : list reading) : res curve_error nat :=
  rbind metric (fun x => index_loop x curves 0).

(** [slice::last] with the error of simple.rs 58-65 and piecewise.rs 61-68. *)
Definition last_or_error {A} (values : list A) : res curve_error A :=
  match values with
  | [] => Err (OutOfBoundsError 0 (length values))
  | v :: rest => Ok (last rest v)
  end.

(** [slice::get] with the error of simple.rs 46-53 and piecewise.rs 49-56. *)
Definition get_or_error {A} (values : list A) (idx : nat) : res curve_error A :=
  match nth_error values idx with
  | Some v => Ok v
  | None => Err (OutOfBoundsError idx (length values))
  end.

(** control_curves/simple.rs 43-67: the loop over the curves and what follows it. *)
Fixpoint value_loop (x : Q) (curves : list reading) (values : list reading) (idx : nat) : res curve_error Q :=
  match curves with
  | [] => rbind (last_or_error values) (fun v => v)
  | c :: rest =>
      rbind c (fun cc_value =>
        if Qle_bool cc_value x then rbind (get_or_error values idx) (fun v => v)
        else value_loop x rest values (S idx))
  end.

(** control_curves/simple.rs 35-68: [before]. *)
Definition control_curve_value (metric : reading) (curves values : list reading) : res curve_error Q :=
  rbind metric (fun x => value_loop x curves values 0).

(** control_curves/interpolated.rs 44-64: the loop over the curves and what
    follows it.  [self.values[i]] panics out of range, and so does [n - 2] below
    zero: with overflow checks at the subtraction, without at the index. *)
Fixpoint interpolated_loop (x cc_prev : Q) (curves values : list reading) (idx : nat) : res curve_error Q :=
  match curves with
  | [] =>
      match rev values with
      | lower :: upper :: _ =>
          rbind lower (fun lower_value => rbind upper (fun upper_value =>
            Ok (interpolate x 0 cc_prev lower_value upper_value)))
      | [lower] => rbind lower (fun _ => Panic)
      | [] => Panic
      end
  | c :: rest =>
      rbind c (fun cc_value =>
        if Qle_bool cc_value x then
          rbind (index_or_panic values (S idx)) (fun lower => rbind lower (fun lower_value =>
          rbind (index_or_panic values idx) (fun upper => rbind upper (fun upper_value =>
            Ok (interpolate x cc_value cc_prev lower_value upper_value)))))
        else interpolated_loop x cc_value rest values (S idx))
  end.

(** control_curves/interpolated.rs 36-65: [before]. *)
Definition control_curve_interpolated (metric : reading) (curves values : list reading) : res curve_error Q :=
  rbind metric (fun x => interpolated_loop x 1 curves values 0).

(** control_curves/piecewise.rs 45-69: the loop and what follows it.  A pair is
    the value at the top and the value at the bottom of the zone. *)
Fixpoint piecewise_loop (x cc_previous minimum : Q) (curves : list reading) (values : list (Q * Q)) (idx : nat)
  : res curve_error Q :=
  match curves with
  | [] => rbind (last_or_error values) (fun v => Ok (interpolate x minimum cc_previous (snd v) (fst v)))
  | c :: rest =>
      rbind c (fun cc_value =>
        if Qle_bool cc_value x then
          rbind (get_or_error values idx) (fun v => Ok (interpolate x cc_value cc_previous (snd v) (fst v)))
        else piecewise_loop x cc_value minimum rest values (S idx))
  end.

(** control_curves/piecewise.rs 37-70: [before]. *)
Definition piecewise_interpolated (metric : reading) (maximum minimum : Q) (curves : list reading)
    (values : list (Q * Q)) : res curve_error Q :=
  rbind metric (fun x => piecewise_loop x maximum minimum curves values 0).

(** [f64::clamp]. *)
Definition clamp (x lo hi : Q) : Q :=
  if negb (Qle_bool lo x) then lo else if negb (Qle_bool x hi) then hi else x.

(** control_curves/apportion.rs 43-62: [before]; the multi-value as an association list. *)
Definition apportion (metric control_curve : reading) : res curve_error (list (string * Q)) :=
  rbind metric (fun x =>
  rbind control_curve (fun cc =>
    let cc := clamp cc 0 1 in
    Ok [("upper"%string, ((1 - cc) * x)%Q); ("lower"%string, (cc * x)%Q)])).

(** control_curves/volume_between.rs 29-47: [compute]. *)
Definition volume_between (total : reading) (upper lower : option reading) : res curve_error Q :=
  rbind total (fun total =>
  rbind (match lower with Some m => m | None => Ok 0%Q end) (fun lower =>
  rbind (match upper with Some m => m | None => Ok 1%Q end) (fun upper =>
    Ok (total * (upper - lower))%Q))).
