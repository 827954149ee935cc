(** The parameters that the nodes of a model file create for themselves, as
    parameters of the network.  Sources: pywr-schema/src/nodes/river.rs 339-413,
    delay.rs 119-148, reservoir.rs 360-588, piecewise_storage.rs 113-351; the
    builders in pywr-core/src/parameters. *)
From Coq Require Import Ascii String.
From Coq Require Import QArith.
From Verif Require Import Base Network AggFuncs SchemaNodes MetricSets SchemaParams.
Local Open Scope string_scope.
Local Open Scope list_scope.
Local Open Scope nat_scope.

Section Made.
(** The metric that has a number in the environment the solver reads
    ([Network.metric]). *)
Variable name : nat -> lmetric.

(** A metric of a schema node as a metric that is read in a run.
    pywr-core/src/metric.rs 458-496 [UnresolvedMetricF64]: names of parameters
    have the node as their parent. *)
Definition metric_of (m : umetric) : lmetric :=
  match m with
  | UConst q => LmConst q
  | UOther (MConst q) => LmConst q
  | UOther (MDyn k) => name k
  | UParam p k => LmParam (Some (fst p)) (snd p) k RvBefore
  | UParamAfter p => LmParam (Some (fst p)) (snd p) None RvAfter
  | m => LmNode m
  end.

(** parameters/mod.rs 437-443 [ParameterName::new] with the name of the node. *)
Definition own_name (p : pname) : cname := pname_new (snd p) (Some (fst p)).

(** The parameter that a node registers.  Those of Muskingum routing
    and turbines are in NodeSpecial.v. *)
Definition registered (d : pdecl) : option cparam :=
  match d with
  (* river.rs 348-359, delay.rs 128-137 *)
  | PDelay p m n q => Some (mkCparam (own_name p) (CDelay (metric_of m) n q))
  (* reservoir.rs 438-448, 470-480 *)
  | PProduct p ms => Some (mkCparam (own_name p) (CAggregated PhBefore FProduct (map metric_of ms)))
  (* piecewise_storage.rs 161-173, 232-247 *)
  | PSum p ms => Some (mkCparam (own_name p) (CAggregated PhBefore FSum (map metric_of ms)))
  (* piecewise_storage.rs 332-351 *)
  | PDifference p x y mn mx =>
      Some (mkCparam (own_name p) (CDifference (metric_of x) (metric_of y) (option_map metric_of mn) (option_map metric_of mx)))
  (* piecewise_storage.rs 296-325 *)
  | PVolumeBetween p total u l =>
      Some (mkCparam (own_name p) (CVolumeBetween (metric_of total) (option_map metric_of u) (option_map metric_of l)))
  (* reservoir.rs 550-572; interpolated.rs: the points are literals *)
  | PInterpolated p m pts =>
      Some (mkCparam (own_name p) (CInterpolated (metric_of m) (map (fun x => (LmConst (fst x), LmConst (snd x))) pts) true))
  (* reservoir.rs 573-585 *)
  | PPolynomial p m cs => Some (mkCparam (own_name p) (CPolynomial (metric_of m) cs 1 0))
  | _ => None
  end.
End Made.
