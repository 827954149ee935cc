(** What the parameters of a model file mean. *)
From Coq Require Import QArith Qabs.
From Verif Require Import Base Calendar Network AggFuncs AggFuncsSpec ControlCurves ControlCurvesSpec ParamsTemporalSpec Profiles ProfilesSpec MetricSets SchemaParams.
Local Open Scope string_scope.
Local Open Scope list_scope.
Local Open Scope nat_scope.

(** ** The parameters of a file *)

(** All parameters with the scope they are declared in: a node, a virtual node
    or the whole network. *)
Definition in_nodes (f : pfile) : list (option string * sparameter) :=
  flat_map (fun np => map (fun p => (Some (fst np), p)) (snd np)) (pf_nodes f).
Definition in_vnodes (f : pfile) : list (option string * sparameter) :=
  flat_map (fun np => map (fun p => (Some (fst np), p)) (snd np)) (pf_vnodes f).
Definition in_network (f : pfile) : list (option string * sparameter) := map (fun p => (None, p)) (pf_globals f).

(** ** Functions *)

Definition aggregate (f : sagg_func) (l : list Q) (q : Q) : Prop :=
  match f with
  | AgSum => q == total l
  | AgProduct => q == qprod l
  | AgMean => l <> [] -> q * inject_Z (Z.of_nat (length l)) == total l
  | AgMin => l <> [] -> (forall x, In x l -> x <= F64_MAX) -> exists m, q == m /\ is_min l m
  | AgMax => l <> [] -> (forall x, In x l -> - F64_MAX <= x) -> exists m, q == m /\ is_max l m
  | AgCountNonZero => exists n, q == inject_Z (Z.of_nat n) /\ how_many (fun x => ~ x == 0) l n
  | AgAnyNonZero tol =>
      let tol := match tol with Some tol => tol | None => 1 # 1000000 end in
      (q == 1 <-> exists x, In x l /\ tol < Qabs x) /\ (q == 0 <-> forall x, In x l -> Qabs x <= tol)
  end%Q.
Definition index_aggregate (f : sindex_agg) (l : list Z) (z : Z) : Prop :=
  match f with
  | IaSum => z = zsum l
  | IaProduct => z = zprod l
  | IaMin => l <> [] -> is_zmin l z
  | IaMax => l <> [] -> is_zmax l z
  | IaAny => z = 1%Z /\ (exists x, In x l /\ x <> 0%Z) \/ z = 0%Z /\ (forall x, In x l -> x = 0%Z)
  | IaAll => z = 1%Z /\ (forall x, In x l -> x <> 0%Z) \/ z = 0%Z /\ (exists x, In x l /\ x = 0%Z)
  end.
Definition compares (p : spredicate) (x th : Q) : Prop :=
  match p with LT => x < th | GT => th < x | EQ => Qabs (x - th) <= 1 # 1000000 | LE => x <= th | GE => th <= x end%Q.
(** [c0 + c1 y + c2 y^2 + ...] *)
Definition power_series (cs : list Q) (y : Q) : Q := fold_right (fun c rest => c + y * rest)%Q 0%Q cs.
Definition given {A} (o : option A) (default : A) : A := match o with Some a => a | None => default end.

(** The line through the points at [x], and the end points outside them unless
    that is refused. *)
Definition interpolates (points : list (Q * Q)) (refuse : bool) (x y : Q) : Prop :=
  2 <= length points -> strictly_increasing points ->
  (exists k p q, nth_error points k = Some p /\ nth_error points (S k) = Some q /\ (fst p <= x <= fst q)%Q /\ between (snd p) (snd q) y /\
     ((1 # 1000000 <= fst q - fst p)%Q -> on_line x (fst p) (fst q) (snd p) (snd q) y)) \/
  refuse = false /\ (exists p, nth_error points 0 = Some p /\ (x < fst p)%Q /\ y = snd p) \/
  refuse = false /\ (exists p, nth_error points (length points - 1) = Some p /\ (fst p < x)%Q /\ y = snd p).

(** [k] is the first of the thresholds that [x] passes, or their number. *)
Definition first_passed (p : spredicate) (x : Q) (ths : list Q) (k : nat) : Prop :=
  (forall j th, j < k -> nth_error ths j = Some th -> ~ compares p x th) /\
  (k = length ths \/ exists th, nth_error ths k = Some th /\ compares p x th).

Section Meaning.
  Variable args : load_args.
  Variable V : valuation.
  Variable other_f : moment -> nat -> lmetric -> Q.
  Variable other_i : moment -> nat -> lindex -> Z.
  Variable date : nat -> datetime.
  (** The number of time-steps. *)
  Variable T : nat.

  (** The value of the parameter called [name] in the scope [sc]. *)
  Definition val (sc : option string) (name : string) (mo : moment) (t : nat) : value := V mo t (mkCname name None sc).
  Inductive moment_of : option return_value -> moment -> Prop :=
  | mo_default : moment_of None Before
  | mo_before : moment_of (Some RvBefore) Before
  | mo_after : moment_of (Some RvAfter) After.

  (** What a metric reads in the scope [sc].  What metrics of nodes, virtual
      nodes, edges and transfers, and references to keys or to earlier values
      read is given by [other_f] and [other_i]. *)
  Definition elsewhere (m : smetric) : Prop :=
    match m with
    | MNode _ _ | MVirtual _ _ | MEdge _ | MTransfer _ => True
    | MParameter r | MLocalParameter r => pr_key r <> None \/ pr_return r = Some RvAfterOrInitial
    | _ => False
    end.
  Inductive reads (sc : option string) (mo : moment) (t : nat) : smetric -> Q -> Prop :=
  | reads_literal q : reads sc mo t (MLiteral q) q
  | reads_table tb key q : la_tables args tb key = Some q -> reads sc mo t (MTable tb key) q
  | reads_series s c p : la_timeseries args s c = Some p -> reads sc mo t (MTimeseries s c) (float_of (val None p Before t))
  | reads_global n rv mo' : moment_of rv mo' -> reads sc mo t (MParameter (mkPref n None rv)) (float_of (val None n mo' t))
  | reads_local node n rv mo' : sc = Some node -> moment_of rv mo' ->
      reads sc mo t (MLocalParameter (mkPref n None rv)) (float_of (val (Some node) n mo' t))
  | reads_other m lm : elsewhere m -> load_metric args sc m = Ok lm -> reads sc mo t m (other_f mo t lm).
  Inductive reads_i (sc : option string) (mo : moment) (t : nat) : imetric -> Z -> Prop :=
  | ireads_constant z : reads_i sc mo t (IxConstant z) z
  | ireads_global n rv mo' : moment_of rv mo' -> reads_i sc mo t (IxParameter (mkPref n None rv)) (int_of (val None n mo' t))
  | ireads_local node n rv mo' : sc = Some node -> moment_of rv mo' ->
      reads_i sc mo t (IxLocalParameter (mkPref n None rv)) (int_of (val (Some node) n mo' t))
  | ireads_keyed r : pr_key r <> None \/ pr_return r = Some RvAfterOrInitial ->
      reads_i sc mo t (IxParameter r) (other_i mo t (LiParam (mkCname (pr_name r) None None) (pr_key r) (given (pr_return r) RvBefore)))
  | ireads_keyed_local r node : sc = Some node -> pr_key r <> None \/ pr_return r = Some RvAfterOrInitial ->
      reads_i sc mo t (IxLocalParameter r) (other_i mo t (LiParam (mkCname (pr_name r) None (Some node)) (pr_key r) (given (pr_return r) RvBefore)))
  | ireads_other k : reads_i sc mo t (IxOther k) (other_i mo t (LiOther k)).

  (** The values of a metric in all time-steps. *)
  Definition history {A M} (rds : nat -> M -> A -> Prop) (m : M) (l : list A) : Prop :=
    length l = T /\ forall t a, nth_error l t = Some a -> rds t m a.

  Definition constant (v : cvalue) (q : Q) : Prop :=
    match v with CvLiteral c => q = c | CvTable tb key => la_tables args tb key = Some q end.

  (** The threshold is passed in time-step [t], or has been if it ratchets. *)
  Definition passed (p : spredicate) (xs ths : list Q) (t : nat) : Prop :=
    exists x th, nth_error xs t = Some x /\ nth_error ths t = Some th /\ compares p x th.
  Definition active (p : spredicate) (ratchet : bool) (xs ths : list Q) (t : nat) : Prop :=
    if ratchet then exists u, u <= t /\ passed p xs ths u else passed p xs ths t.
  Definition passed_at (p : spredicate) (xs : list Q) (thss : list (list Q)) (t k : nat) : Prop :=
    exists x ths, nth_error xs t = Some x /\ nth_error thss t = Some ths /\ first_passed p x ths k.
  Definition position (p : spredicate) (ratchet : bool) (xs : list Q) (thss : list (list Q)) (t k : nat) : Prop :=
    if ratchet then (exists u, u <= t /\ passed_at p xs thss u k) /\ (forall u j, u <= t -> passed_at p xs thss u j -> j <= k)
    else passed_at p xs thss t k.

  (** What the value of a parameter is, in the scope [sc], in every time-step.
      The moments are those of the phase of the parameter. *)
  Definition at_least_one_phase (ph : param_phase) (mo : moment) : Prop :=
    match ph with PhBefore => mo = Before | PhAfter => mo = After | PhBoth => True end.
  Section Scope.
    Variable sc : option string.
    Variable name : string.
    Notation is mo t q := (val sc name mo t = VF q).
    Notation is_index t z := (val sc name Before t = VI z).

    Definition body_means (b : sbody) : Prop :=
      match b with
      | SpConstant v => exists q, constant v q /\ forall t, t < T -> is Before t q
      | SpMax m th => forall t, t < T -> exists x q, reads sc Before t m x /\ is_max [x; given th 0%Q] q /\ is Before t q
      | SpMin m th => forall t, t < T -> exists x q, reads sc Before t m x /\ is_min [x; given th 0%Q] q /\ is Before t q
      | SpNegative m => forall t, t < T -> exists x q, reads sc Before t m x /\ (q == - x)%Q /\ is Before t q
      | SpNegativeMax m th => forall t, t < T -> exists x q, reads sc Before t m x /\ is_max [(- x)%Q; given th 0%Q] q /\ is Before t q
      | SpNegativeMin m th => forall t, t < T -> exists x q, reads sc Before t m x /\ is_min [(- x)%Q; given th 0%Q] q /\ is Before t q
      | SpDivision ph n d => forall mo t, at_least_one_phase ph mo -> t < T ->
          exists x y q, reads sc mo t n x /\ reads sc mo t d y /\ ~ (y == 0)%Q /\ (q * y == x)%Q /\ is mo t q
      | SpAggregated ph f ms => forall mo t, at_least_one_phase ph mo -> t < T ->
          exists xs q, Forall2 (reads sc mo t) ms xs /\ aggregate f xs q /\ is mo t q
      | SpAggregatedIndex ph f ms => forall mo t, at_least_one_phase ph mo -> t < T ->
          exists xs z, Forall2 (reads_i sc mo t) ms xs /\ index_aggregate f xs z /\ val sc name mo t = VI z
      | SpIndexedArray ms i => forall t, t < T ->
          exists k m q, reads_i sc Before t i k /\ nth_error ms (Z.to_nat k) = Some m /\ reads sc Before t m q /\ is Before t q
      | SpInterpolated x xp fp e => forall t, t < T ->
          exists v xs ys y, reads sc Before t x v /\ Forall2 (reads sc Before t) xp xs /\ Forall2 (reads sc Before t) fp ys /\
            length xs = length ys /\ interpolates (combine xs ys) (given e true) v y /\ is Before t y
      | SpPolynomial m cs s o => forall t, t < T ->
          exists x q, reads sc Before t m x /\ (q == power_series cs (x * given s 1 + given o 0))%Q /\ is Before t q
      | SpOffset o m => exists c, constant o c /\ forall t, t < T -> exists x q, reads sc Before t m x /\ (q == x + c)%Q /\ is Before t q
      | SpDiscount r y => forall t, t < T ->
          exists x q, reads sc Before t r x /\ (~ x == -1 -> q * (1 + x) ^ (d_year (dt_date (date t)) - y) == 1)%Q /\ is Before t q
      | SpThreshold m th p returned ra =>
          exists xs ths, history (fun t => reads sc Before t) m xs /\ history (fun t => reads sc Before t) th ths /\
            forall t, t < T ->
            match returned with
            | None => active p ra xs ths t /\ is_index t 1%Z \/ ~ active p ra xs ths t /\ is_index t 0%Z
            | Some (a, b) => exists q, is Before t q /\
                (active p ra xs ths t /\ reads sc Before t b q \/ ~ active p ra xs ths t /\ reads sc Before t a q)
            end
      | SpMultiThreshold m ths p returned ra =>
          exists xs thss, history (fun t => reads sc Before t) m xs /\ history (fun t => Forall2 (reads sc Before t)) ths thss /\
            forall t, t < T -> exists k, position p ra xs thss t k /\
            match returned with
            | None => is_index t (Z.of_nat k)
            | Some vs => exists v q, nth_error vs k = Some v /\ reads sc Before t v q /\ is Before t q
            end
      | SpSwitch a b =>
          exists ons offs, history (fun t => reads_i sc Before t) a ons /\ history (fun t => reads_i sc Before t) b offs /\
            forall t, t < T ->
            let on_signal u := exists z, nth_error ons u = Some z /\ (0 < z)%Z in
            let both_absent u := ~ on_signal u /\ nth_error offs u = Some 0%Z in
            let on := exists u, u <= t /\ on_signal u /\ forall v, u < v -> v <= t -> ~ both_absent v in
            on /\ is_index t 1%Z \/ ~ on /\ is_index t 0%Z
      | SpCurve cs m vs => forall t, t < T ->
          exists x curves k, reads sc Before t m x /\ Forall2 (reads sc Before t) cs curves /\ in_zone x curves k /\
            (length vs = length cs + 1 -> exists v q, nth_error vs k = Some v /\ reads sc Before t v q /\ is Before t q)
      | SpCurveIndex m cs => forall t, t < T ->
          exists x curves k, reads sc Before t m x /\ Forall2 (reads sc Before t) cs curves /\ in_zone x curves k /\ is_index t (Z.of_nat k)
      | SpCurveInterpolated cs m vs => length vs = length cs + 2 -> forall t, t < T ->
          exists x curves values k lower upper y,
            reads sc Before t m x /\ Forall2 (reads sc Before t) cs curves /\ Forall2 (reads sc Before t) vs values /\ in_zone x curves k /\
            nth_error values k = Some upper /\ nth_error values (S k) = Some lower /\ between lower upper y /\ is Before t y /\
            ((0 <= x <= 1)%Q -> (1 # 1000000 <= zone_top 1 curves k - zone_bottom 0 curves k)%Q ->
               on_line x (zone_bottom 0 curves k) (zone_top 1 curves k) lower upper y)
      | SpCurvePiecewise cs m vs lo hi =>
          let values := given vs [] in let top := given hi 1%Q in let bottom := given lo 0%Q in
          length values = length cs + 1 -> forall t, t < T ->
          exists x curves k v y,
            reads sc Before t m x /\ Forall2 (reads sc Before t) cs curves /\ in_zone x curves k /\ nth_error values k = Some v /\
            between (snd v) (fst v) y /\ is Before t y /\
            ((bottom <= x <= top)%Q -> (1 # 1000000 <= zone_top top curves k - zone_bottom bottom curves k)%Q ->
               on_line x (zone_bottom bottom curves k) (zone_top top curves k) (snd v) (fst v) y)
      | SpDelay m n i => exists xs, history (fun t => reads sc After t) m xs /\ forall t, t < T -> is Before t (delayed n i xs t)
      | SpDelayIndex m n i => exists xs, history (fun t => reads_i sc After t) m xs /\ forall t, t < T -> is_index t (delayed n i xs t)
      | SpRolling m w i mn f =>
          exists xs, history (fun t => reads sc After t) m xs /\ forall t, t < T ->
            let window := last_values w (firstn t xs) in
            exists q, is Before t q /\ if length window <? given mn w then q = i else aggregate f window q
      | SpRollingIndex m w i mn f =>
          exists xs, history (fun t => reads_i sc After t) m xs /\ forall t, t < T ->
            let window := last_values w (firstn t xs) in
            exists z, is_index t z /\ if length window <? given mn w then z = i else index_aggregate f window z
      | SpDaily vs => forall t, t < T -> exists q, is Before t q /\
          let d := dt_date (date t) in
          (length vs = 366 /\ configured vs (day_place d) q \/
           length vs = 365 /\ (feb29 d /\ configured vs 58 q \/ ~ feb29 d /\ configured vs (short_place d) q))
      | SpDiurnal vs => forall t, t < T -> exists q h, is Before t q /\ configured vs h q /\
          (NS_PER_HOUR * h <= dt_ns (date t) < NS_PER_HOUR * (h + 1))%Z
      | SpWeekly vs interp => forall t, t < T -> exists q, is Before t q /\
          let n := Z.of_nat (length vs) in
          let week := Z.min (day_place (dt_date (date t)) / 7) (n - 1) in
          let gone := ((NS_PER_DAY * day_place (dt_date (date t)) + dt_ns (date t)) mod (7 * NS_PER_DAY))%Z in
          match interp with
          | None => configured vs week q
          | Some First => exists a b, configured vs week a /\ configured vs ((week + 1) mod n) b /\ at_fraction a b gone (7 * NS_PER_DAY) q
          | Some Last => exists a b, configured vs ((week - 1) mod n) a /\ configured vs week b /\ at_fraction a b gone (7 * NS_PER_DAY) q
          end
      | SpMonthly vs interp => forall t, t < T -> exists q, is Before t q /\
          let d := dt_date (date t) in let m := d_month d in
          let month_length := (NS_PER_DAY * days_in_month (d_year d) m)%Z in
          match interp with
          | None => configured vs (m - 1) q
          | Some First => exists a b, configured vs (m - 1) a /\ configured vs (m mod 12) b /\
              at_fraction a b (NS_PER_DAY * (d_day d - 1) + dt_ns (date t)) month_length q
          | Some Last => exists a b, configured vs ((m - 2) mod 12) a /\ configured vs (m - 1) b /\
              at_fraction a b (NS_PER_DAY * d_day d + dt_ns (date t)) month_length q
          end
      | SpDrawdown d m r =>
          let day := given d 1%Z in let month := given m 1%Z in let residual := given r 0%Z in
          (0 <= day <= 127)%Z -> (3 <= month <= 127)%Z -> (0 <= residual <= 255)%Z ->
          forall t, t < T -> exists q, is Before t q /\
          forall y into total, in_period month day y (dt_date (date t)) into total ->
          (q == 1 - (1 - inject_Z residual / inject_Z total) * (inject_Z into / inject_Z total))%Q
      | SpPlaceholder => False
      end.
  End Scope.
  Definition means (sc : option string) (p : sparameter) : Prop := body_means sc (sp_name p) (sp_body p).
End Meaning.

(** ** References and names *)

(** The metrics a parameter refers to, and those of them that are looked up in
    the whole network only although the parameter belongs to a node. *)
Definition both (r : option (smetric * smetric)) : list smetric := match r with Some (a, b) => [a; b] | None => [] end.
Definition metrics_of (b : sbody) : list smetric * list imetric :=
  match b with
  | SpConstant _ | SpDaily _ | SpDiurnal _ | SpWeekly _ _ | SpMonthly _ _ | SpDrawdown _ _ _ | SpPlaceholder => ([], [])
  | SpMax m _ | SpMin m _ | SpNegative m | SpNegativeMax m _ | SpNegativeMin m _ | SpPolynomial m _ _ _ | SpOffset _ m | SpDiscount m _
  | SpDelay m _ _ | SpRolling m _ _ _ _ => ([m], [])
  | SpDivision _ n d => ([n; d], [])
  | SpAggregated _ _ ms => (ms, [])
  | SpAggregatedIndex _ _ ms => ([], ms)
  | SpIndexedArray ms i => (ms, [i])
  | SpInterpolated x xp fp _ => (x :: xp ++ fp, [])
  | SpThreshold m t _ r _ => (m :: t :: both r, [])
  | SpMultiThreshold m ts _ r _ => (m :: ts ++ given r [], [])
  | SpSwitch a b => ([], [a; b])
  | SpCurve cs m vs | SpCurveInterpolated cs m vs => (m :: cs ++ vs, [])
  | SpCurveIndex m cs | SpCurvePiecewise cs m _ _ _ => (m :: cs, [])
  | SpDelayIndex m _ _ | SpRollingIndex m _ _ _ _ => ([], [m])
  end.
Definition network_only (b : sbody) : list smetric * list imetric :=
  match b with
  | SpAggregated _ _ _ | SpAggregatedIndex _ _ _ | SpCurveIndex _ _ | SpCurvePiecewise _ _ _ _ _ => ([], [])
  | SpIndexedArray _ i => ([], [i])
  | SpMultiThreshold m _ _ r _ => (m :: given r [], [])
  | SpCurve _ m _ => ([m], [])
  | _ => metrics_of b
  end.
Definition is_local (m : smetric) : Prop := match m with MLocalParameter _ => True | _ => False end.
Definition is_local_i (m : imetric) : Prop := match m with IxLocalParameter _ => True | _ => False end.

(** What a parameter needs to be loaded: its numbers of values agree, its
    tables exist and what its metrics name exists. *)
Definition well_formed (args : load_args) (sc : option string) (p : sparameter) : Prop :=
  (forall m, In m (fst (metrics_of (sp_body p))) -> exists lm, load_metric args sc m = Ok lm) /\
  (forall m, In m (snd (metrics_of (sp_body p))) -> is_local_i m -> sc <> None) /\
  match sp_body p with
  | SpConstant v | SpOffset v _ => exists q, constant args v q
  | SpInterpolated _ xp fp _ => length xp = length fp
  | SpDaily vs => length vs = 365 \/ length vs = 366
  | SpDiurnal vs => length vs = 24
  | SpWeekly vs _ => length vs = 52 \/ length vs = 53
  | SpMonthly vs _ => length vs = 12
  | SpPlaceholder => False
  | _ => True
  end.
(** A local parameter is used only where it is looked for. *)
Definition scoped (p : sparameter) : Prop :=
  (forall m, In m (fst (network_only (sp_body p))) -> ~ is_local m) /\ (forall m, In m (snd (network_only (sp_body p))) -> ~ is_local_i m).

(** A multi-threshold that returns its position. *)
Definition bare_multi (p : sparameter) : Prop := match sp_body p with SpMultiThreshold _ _ _ None _ => True | _ => False end.
(** A threshold that returns other metrics. *)
Definition returning (p : sparameter) : Prop :=
  match sp_body p with SpThreshold _ _ _ (Some _) _ | SpMultiThreshold _ _ _ (Some _) _ => True | _ => False end.
