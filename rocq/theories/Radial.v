(** Radial basis function profiles with all seven functions, over the reals with
    the infinities and NaN of [f64].  pywr-core/src/parameters/profiles/rbf.rs and
    pywr-schema/src/parameters/profiles.rs.  Rounding and overflow are not
    modelled. *)
From Coq Require Import Reals List ZArith.
From Verif Require Import Base Calendar Timestep.
Import ListNotations.
Local Open Scope R_scope.

(** Values of [f64]. *)
Inductive f64x := XFin (r : R) | XPosInf | XNegInf | XNan.

Definition xneg (a : f64x) : f64x :=
  match a with XFin r => XFin (- r) | XPosInf => XNegInf | XNegInf => XPosInf | XNan => XNan end.

(** The infinity of sign [s] times the number [r]: IEEE 754, 0 times an infinity is NaN. *)
Definition scaled (s : f64x) (r : R) : f64x :=
  if Req_EM_T r 0 then XNan else if Rlt_dec 0 r then s else xneg s.

Definition xmul (a b : f64x) : f64x :=
  match a, b with
  | XNan, _ | _, XNan => XNan
  | XFin x, XFin y => XFin (x * y)
  | XFin x, s | s, XFin x => scaled s x
  | XPosInf, s => s
  | XNegInf, s => xneg s
  end.

Definition xadd (a b : f64x) : f64x :=
  match a, b with
  | XNan, _ | _, XNan => XNan
  | XFin x, XFin y => XFin (x + y)
  | XFin _, s | s, XFin _ => s
  | XPosInf, XPosInf => XPosInf
  | XNegInf, XNegInf => XNegInf
  | _, _ => XNan
  end.

(** [Iterator::sum]. *)
Definition xsum (l : list f64x) : f64x := fold_left xadd l (XFin 0).

(** [f64::ln]. *)
Definition xln (r : R) : f64x :=
  if Req_EM_T r 0 then XNegInf else if Rlt_dec 0 r then XFin (ln r) else XNan.

(** profiles/rbf.rs 292-300: [RadialBasisFunction]. *)
Inductive radial := Linear | Cubic | Quintic | ThinPlateSpline | Gaussian (epsilon : R) | MultiQuadric (epsilon : R) | InverseMultiQuadric (epsilon : R).

(** profiles/rbf.rs 303-313: [compute]. *)
Definition radial_value (f : radial) (r : R) : f64x :=
  match f with
  | Linear => XFin r
  | Cubic => XFin (r ^ 3)
  | Quintic => XFin (r ^ 5)
  | ThinPlateSpline => xmul (XFin (r ^ 2)) (xln r)
  | Gaussian e => XFin (exp (- (e * r) ^ 2))
  | MultiQuadric e => XFin (sqrt (1 + (e * r) ^ 2))
  | InverseMultiQuadric e => XFin (Rpower (1 + (e * r) ^ 2) (-(1/2)))
  end.

(** The distance of two days. *)
Definition distance (d e : Z) : R := Rabs (IZR d - IZR e).

(** profiles/rbf.rs 322-327: the matrix (row by row) and the right-hand side. *)
Definition radial_matrix (points : list (Z * R)) (f : radial) : list (list f64x) :=
  map (fun r => map (fun c => radial_value f (distance (fst c) (fst r))) points) points.
Definition radial_rhs (points : list (Z * R)) : list f64x := map (fun p => XFin (snd p)) points.

(** profiles/rbf.rs 336-346: the value at day [doy]. *)
Definition radial_at (points : list (Z * R)) (f : radial) (weights : list f64x) (doy : Z) : f64x :=
  xsum (map (fun pw => xmul (radial_value f (distance doy (fst (fst pw)))) (snd pw)) (combine points weights)).

(** profiles/rbf.rs 316-349: [interpolate_rbf].  [solve] stands for nalgebra's
    [lu().solve()]; a failure is a panic ([expect]). *)
Definition interpolate_radial (solve : list (list f64x) -> list f64x -> option (list f64x))
  (points : list (Z * R)) (f : radial) (xs : list Z) : res Empty_set (list f64x) :=
  match solve (radial_matrix points f) (radial_rhs points) with
  | None => Panic
  | Some weights => Ok (map (radial_at points f weights) xs)
  end.

(** profiles/rbf.rs 351-376: [interpolate_rbf_profile]. *)
Definition radial_repeated (points : list (Z * R)) : list (Z * R) :=
  map (fun p => (fst p - 365, snd p)%Z) points ++ points ++ map (fun p => (fst p + 365, snd p)%Z) points.
Definition radial_profile (solve : list (list f64x) -> list f64x -> option (list f64x))
  (points : list (Z * R)) (f : radial) : res Empty_set (list f64x) :=
  rbind (interpolate_radial solve (radial_repeated points) f (map Z.of_nat (seq 0 365))) (fun short_profile =>
  match nth_error short_profile 58 with
  | Some feb28 => Ok (firstn 58 short_profile ++ [feb28] ++ skipn 58 short_profile)
  | None => Panic
  end).

(** profiles/rbf.rs 136-145: [compute], the value on a date. *)
Definition radial_on (profile : list f64x) (t : date) : option f64x :=
  nth_error profile (Z.to_nat (day_of_year_index t)).

(** pywr-schema/src/parameters/profiles.rs 241-249: the functions in a file. *)
Inductive schema_radial := SrLinear | SrCubic | SrQuintic | SrThinPlateSpline
  | SrGaussian (epsilon : option R) | SrMultiQuadric (epsilon : option R) | SrInverseMultiQuadric (epsilon : option R).

(** pywr-schema/src/parameters/profiles.rs 296-317: [estimate_epsilon]. *)
Definition estimate_epsilon (points : list (Z * R)) : option R :=
  match points with
  | [] => None
  | p :: ps =>
      let x_min := fold_left Z.min (map fst ps) (fst p) in
      let x_max := fold_left Z.max (map fst ps) (fst p) in
      let y_min := fold_left Rmin (map snd ps) (snd p) in
      let y_max := fold_left Rmax (map snd ps) (snd p) in
      let x_range := if (x_max - x_min =? 0)%Z then 1%Z else (x_max - x_min)%Z in
      let y_range := if Req_EM_T (y_max - y_min) 0 then 1 else y_max - y_min in
      Some (Rpower (IZR x_range * y_range) (1 / INR (length points)))
  end.

(** SchemaError::RbfEpsilonEstimation *)
Inductive radial_error := RbfEpsilonEstimation.

Definition epsilon_or_estimate (points : list (Z * R)) (epsilon : option R) : res radial_error R :=
  match epsilon with
  | Some e => Ok e
  | None => match estimate_epsilon points with Some e => Ok e | None => Err RbfEpsilonEstimation end
  end.

(** pywr-schema/src/parameters/profiles.rs 256-289: [into_core_rbf]. *)
Definition into_core_rbf (f : schema_radial) (points : list (Z * R)) : res radial_error radial :=
  match f with
  | SrLinear => Ok Linear
  | SrCubic => Ok Cubic
  | SrQuintic => Ok Quintic
  | SrThinPlateSpline => Ok ThinPlateSpline
  | SrGaussian e => rbind (epsilon_or_estimate points e) (fun e => Ok (Gaussian e))
  | SrMultiQuadric e => rbind (epsilon_or_estimate points e) (fun e => Ok (MultiQuadric e))
  | SrInverseMultiQuadric e => rbind (epsilon_or_estimate points e) (fun e => Ok (InverseMultiQuadric e))
  end.
