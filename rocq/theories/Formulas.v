(** Parameters that compute a number from the current values of their metrics:
    pywr-core/src/parameters/{muskingum,hydropower,difference,division,
    polynomial,min,max,negative,negativemin,negativemax,discount_factor,deficit,
    interpolated,vector,indexed_array,constant_scenario}.rs and utils.rs.
    Numbers are exact rationals.  A reading of a metric is a number or an error,
    and the order in which readings are used is the code's. *)
From Coq Require Import QArith.
From Verif Require Import Base Network ControlCurves.
Local Open Scope Q_scope.

(** parameters/errors.rs [GeneralCalculationError], as far as it is used here.
    [NotRead] stands for any error of [get_value]. *)
Inductive calc_error : Type :=
| NotRead (what : string)
| DivisionByZero
| OutOfBounds (index length : nat)
| NegativeFlow
| PhaseNotEnabled
| NotInterpolated (e : interpolation_error).
Notation calc := (res calc_error Q).

(** [Option<MetricF64>]: calc if given. *)
Definition read_option (m : option calc) : res calc_error (option Q) :=
  match m with
  | None => Ok None
  | Some r => rbind r (fun q => Ok (Some q))
  end.

(** ** muskingum.rs *)
(** 102-104. *)
Definition inflow_factor (weight travel_time : Q) : Q :=
  (1 - 2 * weight * travel_time) / (2 * travel_time * (1 - weight) + 1).
(** 107-113. *)
Definition muskingum_rhs (inflow outflow weight travel_time : Q) : Q :=
  let i := inflow * (1 + 2 * weight * travel_time) / (2 * travel_time * (1 - weight) + 1) in
  let o := outflow * (2 * travel_time * (1 - weight) - 1) / (2 * travel_time * (1 - weight) + 1) in
  i + o.
(** 116-118 and 121-123. *)
Definition steady_state_inflow_factor (weight travel_time : Q) : Q :=
  2 / (2 * travel_time * (1 - weight) + 1).
Definition steady_state_outflow_factor (weight travel_time : Q) : Q :=
  1 - (2 * travel_time * (1 - weight) - 1) / (2 * travel_time * (1 - weight) + 1).
(** 64-98 [before]: the values [inflow_factor] and [rhs].  [initial] is [None]
    for [SteadyState], otherwise the specified inflow and outflow. *)
Definition muskingum_before (is_first : bool) (initial : option (Q * Q)) (inflow outflow travel_time weight : calc)
  : res calc_error (Q * Q) :=
  rbind weight (fun weight =>
  rbind travel_time (fun travel_time =>
    let rest i o := Ok (- inflow_factor weight travel_time, muskingum_rhs i o weight travel_time) in
    if is_first then
      match initial with
      | None => Ok (- steady_state_inflow_factor weight travel_time / steady_state_outflow_factor weight travel_time, 0)
      | Some (i, o) => rest i o
      end
    else rbind inflow (fun i => rbind outflow (fun o => rest i o)))).

(** ** hydropower.rs, utils.rs *)
(** 28-41, without the metrics. *)
Record hydro := mkHydro {
  hy_min_head : Q; hy_elevation : Q; hy_efficiency : Q; hy_density : Q; hy_flow_conversion : Q; hy_energy_conversion : Q }.
(** hydropower.rs 157-174: the defaults. *)
Definition hydro_or_default (min_head elevation efficiency density flow_conversion energy_conversion : option Q) : hydro :=
  let or o d := match o with Some q => q | None => d end in
  mkHydro (or min_head 0) (or elevation 0) (or efficiency 1) (or density 1000) (or flow_conversion 1) (or energy_conversion (1 # 1000000)).
(** utils.rs 2-11 and 14-23. *)
Definition inverse_hydropower_calculation (power head efficiency flow_conversion energy_conversion density : Q) : Q :=
  power / (energy_conversion * density * (981 # 100) * head * efficiency * flow_conversion).
Definition hydropower_calculation (flow head efficiency flow_conversion energy_conversion density : Q) : Q :=
  flow * (energy_conversion * density * (981 # 100) * head * efficiency * flow_conversion).
(** 44-51 [head]. *)
Definition hydro_head (h : hydro) (water_elevation : option calc) : calc :=
  rbind (match water_elevation with
         | Some w => rbind w (fun w => Ok (w - hy_elevation h))
         | None => Ok (hy_elevation h)
         end) (fun head => Ok (fmax head 0)).
(** 70-113 [before]: the flow that would produce the target. *)
Definition hydropower_before (h : hydro) (target water_elevation max_flow min_flow : option calc) : calc :=
  rbind (hydro_head h water_elevation) (fun head =>
    match target with
    | None => Err PhaseNotEnabled
    | Some target =>
        if Qle_bool head (hy_min_head h) then Ok 0
        else
          rbind target (fun power =>
            let q := inverse_hydropower_calculation power head (hy_efficiency h) (hy_flow_conversion h) (hy_energy_conversion h) (hy_density h) in
            rbind (match max_flow with Some m => rbind m (fun m => Ok (fmin q m)) | None => Ok q end) (fun q =>
            rbind (match min_flow with Some m => rbind m (fun m => Ok (fmax q m)) | None => Ok q end) (fun q =>
              if negb (Qle_bool 0 q) then Err NegativeFlow else Ok q)))
    end).
(** 116-146 [after]: the power produced. *)
Definition hydropower_after (h : hydro) (actual_flow water_elevation : option calc) : calc :=
  match actual_flow with
  | None => Err PhaseNotEnabled
  | Some flow =>
      rbind flow (fun flow =>
      rbind (hydro_head h water_elevation) (fun head =>
        if Qle_bool head (hy_min_head h) then Ok 0
        else Ok (hydropower_calculation flow head (hy_efficiency h) (hy_flow_conversion h) (hy_energy_conversion h) (hy_density h))))
  end.

(** ** difference.rs *)
(** 89-104 [difference]. *)
Definition difference (a b : Q) (min max : option Q) : Q :=
  let result := a - b in
  match min with
  | Some min_val => if negb (Qle_bool min_val result) then min_val
                    else match max with
                         | Some max_val => if negb (Qle_bool result max_val) then max_val else result
                         | None => result
                         end
  | None => match max with
            | Some max_val => if negb (Qle_bool result max_val) then max_val else result
            | None => result
            end
  end.
(** 45-66 [before], 70-83 [compute]. *)
Definition difference_before (a b : calc) (min max : option calc) : calc :=
  rbind a (fun a => rbind b (fun b =>
  rbind (read_option min) (fun min => rbind (read_option max) (fun max => Ok (difference a b min max))))).

(** ** division.rs 33-47, 50-64. *)
Definition division (numerator denominator : calc) : calc :=
  rbind denominator (fun d =>
    if Qeq_bool d 0 then Err DivisionByZero else rbind numerator (fun n => Ok (n / d))).

(** ** polynomial.rs 36-51: [powi] with the place of the coefficient. *)
Fixpoint polynomial_loop (x : Q) (i : nat) (coefficients : list Q) (y : Q) : Q :=
  match coefficients with
  | [] => y
  | c :: rest => polynomial_loop x (S i) rest (y + c * x ^ Z.of_nat i)
  end.
Definition polynomial (coefficients : list Q) (scale offset : Q) (metric : calc) : calc :=
  rbind metric (fun x => Ok (polynomial_loop (x * scale + offset) 0 coefficients 0)).

(** ** min.rs 38-39, max.rs 40-41, negative.rs 39-40, negativemax.rs 38-39,
    negativemin.rs 38-39. *)
Definition min_param (threshold : Q) (metric : calc) : calc := rbind metric (fun x => Ok (fmin x threshold)).
Definition max_param (threshold : Q) (metric : calc) : calc := rbind metric (fun x => Ok (fmax x threshold)).
Definition negative_param (metric : calc) : calc := rbind metric (fun x => Ok (- x)).
Definition negative_max_param (threshold : Q) (metric : calc) : calc := rbind metric (fun x => Ok (fmax (- x) threshold)).
Definition negative_min_param (threshold : Q) (metric : calc) : calc := rbind metric (fun x => Ok (fmin (- x) threshold)).

(** ** discount_factor.rs 38-43.  [year] and [base_year] are [i16]; their
    difference is computed in [i16] and panics when it overflows (in builds
    with overflow checks).  A rate of -1 divides by zero, which is an infinity
    or NaN in the code and 0 here. *)
Definition discount_factor (base_year year : Z) (rate : calc) : calc :=
  let y := (year - base_year)%Z in
  if ((-32768 <=? y) && (y <=? 32767))%Z then rbind rate (fun r => Ok (1 / (1 + r) ^ y)) else Panic.

(** ** deficit.rs 37-47. *)
Definition deficit (flow max_flow : calc) : calc :=
  rbind flow (fun f => rbind max_flow (fun m => Ok (fmax (m - f) 0))).

(** ** interpolated.rs 36-58 with [error_on_bounds] as given. *)
Definition interpolated (x : calc) (points : list (calc * calc)) (error_on_bounds : bool) : calc :=
  rbind x (fun x =>
  rbind (rmap (fun p => rbind (fst p) (fun xp => rbind (snd p) (fun fp => Ok (xp, fp)))) points) (fun points =>
    match linear_interpolation x points error_on_bounds with
    | Ok f => Ok f
    | Err e => Err (NotInterpolated e)
    | Panic => Panic
    end)).

(** ** vector.rs 31-44. *)
Definition vector_param (values : list Q) (index : nat) : calc :=
  match nth_error values index with Some v => Ok v | None => Err (OutOfBounds index (length values)) end.

(** ** indexed_array.rs 34-51: only the selected metric is read. *)
Definition indexed_array (index : res calc_error nat) (metrics : list calc) : calc :=
  rbind index (fun index =>
    match nth_error metrics index with Some m => m | None => Err (OutOfBounds index (length metrics)) end).
