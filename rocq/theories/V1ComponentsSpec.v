(** What the parameters and nodes of a Pywr v1 file say, in terms of their own
    attributes.  Pywr v1 itself is not part of the repository: the meaning is
    that of the attributes' names and of the comments in the repository. *)
From Coq Require Import QArith Qabs.
From Verif Require Import Base Calendar Network AggFuncs AggFuncsSpec ControlCurves ControlCurvesSpec ParamsTemporalSpec Profiles ProfilesSpec SchemaNodes MetricSets SchemaParams SchemaParamsSpec V1Components.
Local Open Scope string_scope.
Local Open Scope list_scope.
Local Open Scope nat_scope.

(** ** Where the numbers of a profile are *)

(** The numbers themselves, or a table that the reader [tv] finds. *)
Definition numbers (tv : string -> list string -> option (list Q)) (v : v1_values) (l : list Q) : Prop :=
  w_values v = Some l \/ w_values v = None /\ w_external v = false /\ exists t key, w_table v = Some (Some (t, key)) /\ tv t key = Some l.
Definition vec_is (tv : string -> list string -> option (list Q)) (v : float_vec) (l : list Q) : Prop :=
  match v with FvLiteral vs => l = vs | FvTable t key => tv t key = Some l end.

(** What "the value of a node" is when no attribute is named. *)
Definition natural_attribute (n : snode) (a : attribute) : Prop :=
  match n with
  | SStorage _ _ | SReservoir _ _ | SPiecewiseStorage _ _ _ _ _ _ => a = AtVolume
  | SOutput _ _ _ _ => a = AtInflow
  | SAbstraction _ _ _ _ _ _ => a = AtAbstraction
  | SPlaceholder _ => False
  | _ => a = AtOutflow
  end.

Definition linear_only (kw : option kwargs) : Prop := forall k s, kw = Some k -> kwarg_of k "kind" = Some (KString s) -> s = "linear".
Definition refuses_outside (kw : option kwargs) (r : bool) : Prop :=
  match kw with
  | Some k => match kwarg_of k "bounds_error" with Some (KBool b) => r = b | _ => r = true end
  | None => r = true
  end.

Section Meaning.
  Variable args : load_args.
  Variable W : valuation.
  Variable other_f : moment -> nat -> lmetric -> Q.
  Variable other_i : moment -> nat -> lindex -> Z.
  Variable date : nat -> datetime.
  Variable T : nat.
  (** The numbers of tables, and the position of the scenario in its group. *)
  Variable tv : string -> list string -> option (list Q).
  Variable chosen : string -> nat.
  Variable sc : option string.
  Variable name : string.
  Notation is t q := (val W sc name Before t = VF q).
  Notation is_index t z := (val W sc name Before t = VI z).

  (** The meaning of a parameter of the new file (that of RBF profiles is
      stated apart). *)
  Definition v2_means (b : v2_body) : Prop :=
    match b with
    | NbBody b => body_means args W other_f other_i date T sc name b
    | NbDaily v => exists l, vec_is tv v l /\ body_means args W other_f other_i date T sc name (SpDaily l)
    | NbWeekly v i => exists l, vec_is tv v l /\ body_means args W other_f other_i date T sc name (SpWeekly l i)
    | NbMonthly v i => exists l, vec_is tv v l /\ body_means args W other_f other_i date T sc name (SpMonthly l i)
    | NbScenario v g => exists l q, vec_is tv v l /\ nth_error l (chosen g) = Some q /\ forall t, t < T -> is t q
    | NbRbf _ _ => True
    end.

  Variable V : Type.
  (** What a value of the v1 file is, in each time-step. *)
  Variable rv : moment -> nat -> V -> Q -> Prop.
  Variable ri : moment -> nat -> V -> Z -> Prop.
  Variable virtuals : list string.

  (** What nodes and storages report. *)
  Definition node_has (n : string) (a : attribute) (mo : moment) (t : nat) (q : Q) : Prop := reads args W other_f sc mo t (MNode n (Some a)) q.
  Definition node_value (n : string) (mo : moment) (t : nat) (q : Q) : Prop :=
    exists nd a, lookup_node args n = Ok nd /\ natural_attribute nd a /\ node_has n a mo t q.
  Definition level (n : string) (t : nat) (q : Q) : Prop :=
    In n virtuals /\ reads args W other_f sc Before t (MVirtual n (Some AtPropVolume)) q \/
    ~ In n virtuals /\ node_has n AtPropVolume Before t q.

  (** The curves that are given: a list, or else a single one. *)
  Definition curves_given (cs : option (list V)) (c : option V) (l : list V) : Prop := cs = Some l \/ cs = None /\ exists v, c = Some v /\ l = [v].
  Definition returns (vs : option (list Q)) (on : Prop) (t : nat) : Prop :=
    match vs with
    | None => on /\ is_index t 1%Z \/ ~ on /\ is_index t 0%Z
    | Some l => exists a b, l = [a; b] /\ (on /\ is t b \/ ~ on /\ is t a)
    end.
  Definition v1_compares (p : v1_predicate) (x th : Q) : Prop :=
    match p with P1LT => x < th | P1GT => th < x | P1EQ => Qabs (x - th) <= 1 # 1000000 | P1LE => x <= th | P1GE => th <= x end%Q.
  Definition v1_aggregate (f : v1_agg) (l : list Q) (q : Q) : Prop :=
    match f with
    | A1Sum => q == total l
    | A1Product => q == qprod l
    | A1Min => l <> [] -> (forall x, In x l -> x <= F64_MAX) -> exists m, q == m /\ is_min l m
    | A1Max => l <> [] -> (forall x, In x l -> - F64_MAX <= x) -> exists m, q == m /\ is_max l m
    end%Q.
  Definition v1_index_aggregate (f : v1_index_agg) (l : list Z) (z : Z) : Prop :=
    match f with
    | I1Sum => z = zsum l
    | I1Product => z = zprod l
    | I1Min => l <> [] -> is_zmin l z
    | I1Max => l <> [] -> is_zmax l z
    | I1Any => z = 1%Z /\ (exists x, In x l /\ x <> 0%Z) \/ z = 0%Z /\ (forall x, In x l -> x = 0%Z)
    | I1All => z = 1%Z /\ (forall x, In x l -> x <> 0%Z) \/ z = 0%Z /\ (exists x, In x l /\ x = 0%Z)
    end.

  Definition threshold_means (x th : nat -> Q -> Prop) (vs : option (list Q)) (p : v1_predicate) : Prop :=
    forall t, t < T -> exists a b, x t a /\ th t b /\ returns vs (v1_compares p a b) t.
  (** The position of the first threshold that is not above the value. *)
  Definition multi_means (x : nat -> Q -> Prop) (ths : list V) : Prop :=
    forall t, t < T -> exists a l k, x t a /\ Forall2 (rv Before t) ths l /\ is_index t (Z.of_nat k) /\
      (forall j th, j < k -> nth_error l j = Some th -> (a < th)%Q) /\
      (k = length ths \/ exists th, nth_error l k = Some th /\ (th <= a)%Q).
  Definition interpolation_means (n : string) (xs ys : list V) (kw : option kwargs) : Prop :=
    forall t, t < T -> exists x ps qs y refuse, node_value n Before t x /\ Forall2 (rv Before t) xs ps /\ Forall2 (rv Before t) ys qs /\
      length ps = length qs /\ refuses_outside kw refuse /\ interpolates (combine ps qs) refuse x y /\ is t y.

  (** What a v1 parameter says about its values. *)
  Definition v1_means (b : v1_body V) : Prop :=
    match b with
    | V1Constant value table =>
        exists q, (value = Some q \/ value = None /\ (exists tb key, table = Some (Some (tb, key)) /\ la_tables args tb key = Some q) \/
                   value = None /\ table = None /\ q = 0%Q) /\ forall t, t < T -> is t q
    | V1ConstantScenario g v => exists l q, numbers tv v l /\ nth_error l (chosen g) = Some q /\ forall t, t < T -> is t q
    | V1Max m th => forall t, t < T -> exists x q, rv Before t m x /\ is_max [x; given th 0%Q] q /\ is t q
    | V1Min m th => forall t, t < T -> exists x q, rv Before t m x /\ is_min [x; given th 0%Q] q /\ is t q
    | V1Negative m => forall t, t < T -> exists x q, rv Before t m x /\ (q == - x)%Q /\ is t q
    | V1NegativeMax m th => forall t, t < T -> exists x q, rv Before t m x /\ is_max [(- x)%Q; given th 0%Q] q /\ is t q
    | V1NegativeMin m th => forall t, t < T -> exists x q, rv Before t m x /\ is_min [(- x)%Q; given th 0%Q] q /\ is t q
    | V1Division n d => forall t, t < T -> exists x y q, rv Before t n x /\ rv Before t d y /\ ~ (y == 0)%Q /\ (q * y == x)%Q /\ is t q
    | V1Aggregated f ms => forall t, t < T -> exists xs q, Forall2 (rv Before t) ms xs /\ v1_aggregate f xs q /\ is t q
    | V1AggregatedIndex f ms => forall t, t < T -> exists xs z, Forall2 (ri Before t) ms xs /\ v1_index_aggregate f xs z /\ is_index t z
    | V1IndexedArray ms i => forall t, t < T ->
        exists k v q, ri Before t i k /\ nth_error ms (Z.to_nat k) = Some v /\ rv Before t v q /\ is t q
    | V1InterpolatedFlow n xs ys kw | V1InterpolatedVolume n xs ys kw => linear_only kw /\ interpolation_means n xs ys kw
    | V1Polynomial cs n up s o => forall t, t < T ->
        exists x q, node_has n (if given up true then AtPropVolume else AtVolume) Before t x /\
          (q == power_series cs (x * given s 1 + given o 0))%Q /\ is t q
    | V1Discount r y => (-32768 <= y < 32768)%Z -> forall t, t < T ->
        exists q, (~ r == -1 -> q * (1 + r) ^ (d_year (dt_date (date t)) - y) == 1)%Q /\ is t q
    | V1ParameterThreshold m th vs p => threshold_means (fun t => rv Before t m) (fun t => rv Before t th) vs p
    | V1NodeThreshold n th vs p | V1StorageThreshold n th vs p => threshold_means (node_value n Before) (fun t => rv Before t th) vs p
    | V1MultiThreshold n ths => multi_means (node_value n Before) ths
    | V1MultiThresholdParameter m ths => multi_means (fun t => rv Before t m) ths
    | V1Switch a b =>
        exists ons offs, history T (fun t => ri Before t) a ons /\ history T (fun t => ri Before t) b offs /\
          forall t, t < T ->
          let on_signal u := exists z, nth_error ons u = Some z /\ (0 < z)%Z in
          let both_absent u := ~ on_signal u /\ nth_error offs u = Some 0%Z in
          let on := exists u, u <= t /\ on_signal u /\ forall v, u < v -> v <= t -> ~ both_absent v in
          on /\ is_index t 1%Z \/ ~ on /\ is_index t 0%Z
    | V1CurveIndex n cs => forall t, t < T ->
        exists x l k, level n t x /\ Forall2 (rv Before t) cs l /\ in_zone x l k /\ is_index t (Z.of_nat k)
    | V1Curve n cs c vs ps =>
        exists given_curves, curves_given cs c given_curves /\ forall t, t < T ->
        match vs, ps with
        | None, None => exists x l k, level n t x /\ Forall2 (rv Before t) given_curves l /\
                          in_zone x l k /\ is_index t (Z.of_nat k)
        | Some vs, _ => exists x l k, level n t x /\ Forall2 (rv Before t) given_curves l /\ in_zone x l k /\
                          (length vs = length given_curves + 1 -> exists q, nth_error vs k = Some q /\ is t q)
        | None, Some ps => exists x l k, level n t x /\ Forall2 (rv Before t) given_curves l /\ in_zone x l k /\
                          (length ps = length given_curves + 1 -> exists v q, nth_error ps k = Some v /\ rv Before t v q /\ is t q)
        end
    | V1CurveInterpolated n cs c vs ps =>
        exists given_curves, curves_given cs c given_curves /\
        forall t, t < T -> (length (given vs []) + length (given ps []) = length given_curves + 2) ->
        exists x l values k lower upper y,
          level n t x /\ Forall2 (rv Before t) given_curves l /\
          (vs = Some values /\ ps = None \/ vs = None /\ exists ps', ps = Some ps' /\ Forall2 (rv Before t) ps' values) /\ in_zone x l k /\
          nth_error values k = Some upper /\ nth_error values (S k) = Some lower /\ between lower upper y /\ is t y /\
          ((0 <= x <= 1)%Q -> (1 # 1000000 <= zone_top 1 l k - zone_bottom 0 l k)%Q ->
             on_line x (zone_bottom 0 l k) (zone_top 1 l k) lower upper y)
    | V1CurvePiecewise n cs c vs lo =>
        exists given_curves, curves_given cs c given_curves /\
        (length (given vs []) = length given_curves + 1 -> forall t, t < T ->
         exists x l k v y, level n t x /\ Forall2 (rv Before t) given_curves l /\ in_zone x l k /\ nth_error (given vs []) k = Some v /\
           between (snd v) (fst v) y /\ is t y /\
           ((given lo 0%Q <= x <= 1)%Q -> (1 # 1000000 <= zone_top 1 l k - zone_bottom (given lo 0%Q) l k)%Q ->
              on_line x (zone_bottom (given lo 0%Q) l k) (zone_top 1 l k) (snd v) (fst v) y))
    | V1Rolling n ts days i =>
        exists w, ts = Some w /\ days = None /\
        exists xs, history T (fun t (_ : unit) => node_value n After t) tt xs /\ forall t, t < T -> exists q, is t q /\
          if length (last_values w (firstn t xs)) <? w then q = given i 0%Q
          else last_values w (firstn t xs) <> [] -> (q * inject_Z (Z.of_nat (length (last_values w (firstn t xs)))) == total (last_values w (firstn t xs)))%Q
    | V1Profile PtDaily v => exists l, numbers tv v l /\ body_means args W other_f other_i date T sc name (SpDaily l)
    | V1Profile PtWeekly v => exists l, numbers tv v l /\ body_means args W other_f other_i date T sc name (SpWeekly l None)
    | V1Profile (PtMonthly i) v =>
        exists l, numbers tv v l /\
        body_means args W other_f other_i date T sc name (SpMonthly l (match i with None => None | Some N1First => Some First | Some N1Last => Some Last end))
    | V1Drawdown d m r => body_means args W other_f other_i date T sc name (SpDrawdown d m r)
    | V1Rbf _ _ _ => True
    end.
End Meaning.

(** A control curve without values or parameters whose storage is virtual. *)
Definition bare_curve_of_virtual {V} (virtuals : list string) (b : v1_body V) : Prop :=
  match b with V1Curve n _ _ None None => In n virtuals | _ => False end.

(** ** Which parameters are accepted *)

Section Accepted.
  Context {V : Type} (cv : V -> option smetric) (ci : V -> option imetric).
  Definition good (v : V) : Prop := cv v <> None.
  Definition good_i (v : V) : Prop := ci v <> None.
  Definition has_numbers (v : v1_values) : Prop :=
    w_values v <> None \/ w_external v = false /\ exists t, w_table v = Some (Some t).
  Definition has_curves (cs : option (list V)) (c : option V) : Prop :=
    match cs with Some l => Forall good l | None => exists v, c = Some v /\ good v end.
  Definition two (vs : option (list Q)) : Prop := forall l, vs = Some l -> length l = 2.
  Definition rbf_supported (kw : kwargs) : Prop :=
    kwarg_of kw "smooth" = None /\ kwarg_of kw "norm" = None /\
    (forall e, kwarg_of kw "epsilon" = Some e -> exists q, e = KNumber q) /\
    (forall f, kwarg_of kw "function" = Some f ->
       exists s, f = KString s /\ In s ["multiquadric"; "inverse"; "gaussian"; "linear"; "cubic"; "thin_plate"]).
  Definition supported (b : v1_body V) : Prop :=
    match b with
    | V1Constant value table => value = None -> table <> Some None
    | V1ConstantScenario _ v | V1Profile _ v => has_numbers v
    | V1Max m _ | V1Min m _ | V1Negative m | V1NegativeMax m _ | V1NegativeMin m _ => good m
    | V1Division a b => good a /\ good b
    | V1Aggregated _ ms => Forall good ms
    | V1AggregatedIndex _ ms => Forall good_i ms
    | V1IndexedArray ms i => Forall good ms /\ good_i i
    | V1InterpolatedFlow _ xs ys kw | V1InterpolatedVolume _ xs ys kw => Forall good xs /\ Forall good ys /\ linear_only kw
    | V1Polynomial _ _ _ _ _ | V1Discount _ _ | V1Drawdown _ _ _ => True
    | V1ParameterThreshold m th vs _ => good m /\ good th /\ two vs
    | V1NodeThreshold _ th vs _ | V1StorageThreshold _ th vs _ => good th /\ two vs
    | V1MultiThreshold _ ths => Forall good ths
    | V1MultiThresholdParameter m ths => good m /\ Forall good ths
    | V1Switch a b => good_i a /\ good_i b
    | V1CurveIndex _ cs => Forall good cs
    | V1Curve _ cs c vs ps => has_curves cs c /\ (vs = None -> forall l, ps = Some l -> Forall good l)
    | V1CurveInterpolated _ cs c vs ps =>
        has_curves cs c /\ (vs <> None /\ ps = None \/ vs = None /\ exists l, ps = Some l /\ Forall good l)
    | V1CurvePiecewise _ cs c _ _ => has_curves cs c
    | V1Rolling _ ts days _ => ts <> None /\ days = None
    | V1Rbf _ _ kw => rbf_supported kw
    end.
End Accepted.

(** ** Nodes *)

Section NodeSpec.
  Context {V : Type} (cn : V -> option umetric).
  (** An attribute of the new node is what the old one was, or absent as it was. *)
  Definition same (v : option V) (m : option umetric) : Prop :=
    match v, m with Some v, Some m => cn v = Some m | None, None => True | _, _ => False end.
  Definition starts (volume pc : option Q) (i : sinit) : Prop :=
    match volume, pc with Some v, _ => i = SIAbsolute v | None, Some p => i = SIProportional p | None, None => False end.
  (** The shares of a split: all but the first factor, of the sum of all. *)
  Definition shares (fs : list V) (ps : list umetric) : Prop :=
    fs = [] /\ ps = [] \/
    exists qs, Forall2 (fun v q => cn v = Some (UConst q)) fs qs /\ qs <> [] /\
      Forall2 (fun q p => exists s, p = UConst s /\ (~ total qs == 0 -> s * total qs == q)%Q) (tl qs) ps.
  Definition the_reset (t : v1_store_type) (r : option sreset) (v : option vs_reset_volume) : Prop :=
    match t with
    | StPlain | StRolling _ _ => r = None /\ v = None
    | StAnnual d m ti => ((-128 <= d < 128)%Z -> (-128 <= m < 128)%Z -> r = Some (RsAnnual d m)) /\ (exists d m, r = Some (RsAnnual d m)) /\
        v = Some (if ti then ResetInitial else ResetMax)
    | StMonthly m ti => r = Some (RsMonthly m) /\ v = Some (if ti then ResetInitial else ResetMax)
    | StSeasonal d m ed em ti =>
        ((-128 <= d < 128)%Z -> (-128 <= m < 128)%Z -> (-128 <= ed < 128)%Z -> (-128 <= em < 128)%Z -> r = Some (RsSeasonal d m ed em)) /\
        (exists d m ed em, r = Some (RsSeasonal d m ed em)) /\ v = Some (if ti then ResetInitial else ResetMax)
    end.
  Definition the_window (t : v1_store_type) (w : option swindow) : Prop :=
    match t with
    | StRolling (Some d) _ => d <> 0 /\ w = Some (SwDays d)
    | StRolling None (Some n) => n <> 0 /\ w = Some (SwTimesteps n)
    | StRolling None None => False
    | _ => w = None
    end.
  Definition named (l : list string) : list node_ref := map (fun n => mkRef n None) l.
  Definition becomes (name : string) (n : v1_nbody V) (r : new_node) : Prop :=
    match n with
    | N1Input c mn mx => exists c' mn' mx', same c c' /\ same mn mn' /\ same mx mx' /\ r = NewNode (SInput name c' mn' mx')
    | N1Link c mn mx => exists c' mn' mx', same c c' /\ same mn mn' /\ same mx mx' /\ r = NewNode (SLink name c' mn' mx' None None)
    | N1Output c mn mx => exists c' mn' mx', same c c' /\ same mn mn' /\ same mx mx' /\ r = NewNode (SOutput name c' mn' mx')
    | N1Storage c mn mx i pc => exists c' mn' mx' i', same c c' /\ same mn mn' /\ same mx mx' /\ starts i pc i' /\
        r = NewNode (SStorage name (mkStorage c' mn' mx' i'))
    | N1Catchment c f => exists c' f', same c c' /\ same f f' /\ r = NewNode (SCatchment name c' f')
    | N1RiverGauge m mc c => exists m' mc' c', same m m' /\ same mc mc' /\ same c c' /\ r = NewNode (SRiverGauge name m' mc' c')
    | N1LossLink lf c mn mx => exists lf' c' mn' mx', same lf lf' /\ same c c' /\ same mn mn' /\ same mx mx' /\
        r = NewNode (SLossLink name (match lf' with Some f => Some (LNet f) | None => None end) c' mn' mx')
    | N1River c mn mx => c = None /\ mn = None /\ mx = None /\ r = NewNode (SRiver name None None)
    | N1RiverSplitGauge m mc fs slots => exists m' mc' ps splits, same m m' /\ same mc mc' /\ shares fs ps /\
        length splits = Nat.min (length ps) (length slots - 1) /\
        (forall i s, nth_error splits i = Some s -> nth_error ps i = Some (sp_factor s) /\ nth_error slots (S i) = sp_slot s) /\
        r = NewNode (SRiverSplit name m' mc' splits)
    | N1PiecewiseLink n costs maxs => exists steps,
        length steps = Nat.min (match costs with Some l => length l | None => n end) (match maxs with Some l => length l | None => n end) /\
        (forall l, costs = Some l -> Forall (fun v => cn v <> None) l) /\
        (forall l, maxs = Some l -> Forall (fun v => exists m, same v m) l) /\
        (forall i s, nth_error steps i = Some s -> ls_min s = None /\
           match costs with Some l => exists v, nth_error l i = Some v /\ same (Some v) (ls_cost s) | None => ls_cost s = None end /\
           match maxs with Some l => exists v, nth_error l i = Some v /\ same v (ls_max s) | None => ls_max s = None end) /\
        r = NewNode (SPiecewiseLink name steps)
    | N1Delay ds ts i => exists d, match ds with Some x => d = x | None => ts = Some d end /\ r = NewNode (SDelay name d (given i 0%Q))
    | N1Aggregated ns fs mn mx => exists fs' mn' mx', same mn mn' /\ same mx mx' /\
        match fs with
        | Some l => exists l', Forall2 (fun v m => cn v = Some m) l l' /\ fs' = Some (SrRatio l')
        | None => fs' = None
        end /\ r = NewVirtual (VAggregated name (named ns) mn' mx' fs')
    | N1AggregatedStorage ns => r = NewVirtual (VAggStorage name (named ns))
    | N1VirtualStorage s t => exists c' mn' mx' i' rs v w,
        same (y_cost s) c' /\ same (y_min s) mn' /\ same (y_max s) mx' /\ starts (y_initial s) (y_initial_pc s) i' /\
        the_reset t rs v /\ the_window t w /\ r = NewVirtual (VStorage name (named (y_nodes s)) (y_factors s) c' mn' mx' i' rs v w)
    end.
End NodeSpec.

(** ** Which nodes are accepted *)

Section NodeAccepted.
  Context {V : Type} (cn : V -> option umetric).
  Definition ngood (v : V) : Prop := cn v <> None.
  Definition ogood (v : option V) : Prop := forall x, v = Some x -> ngood x.
  Definition number (v : V) : Prop := exists q, cn v = Some (UConst q).
  Definition has_start (volume pc : option Q) : Prop := volume <> None \/ pc <> None.
  Definition nsupported (n : v1_nbody V) : Prop :=
    match n with
    | N1Input c mn mx | N1Link c mn mx | N1Output c mn mx => ogood c /\ ogood mn /\ ogood mx
    | N1Storage c mn mx i pc => ogood c /\ ogood mn /\ ogood mx /\ has_start i pc
    | N1Catchment c f => ogood c /\ ogood f
    | N1RiverGauge m mc c => ogood m /\ ogood mc /\ ogood c
    | N1LossLink lf c mn mx => ogood lf /\ ogood c /\ ogood mn /\ ogood mx
    | N1River c mn mx => c = None /\ mn = None /\ mx = None
    | N1RiverSplitGauge m mc fs _ => ogood m /\ ogood mc /\ Forall number fs
    | N1PiecewiseLink _ costs maxs => (forall l, costs = Some l -> Forall ngood l) /\ (forall l, maxs = Some l -> Forall ogood l)
    | N1Delay ds ts _ => ds <> None \/ ts <> None
    | N1Aggregated _ fs mn mx => (forall l, fs = Some l -> Forall ngood l) /\ ogood mn /\ ogood mx
    | N1AggregatedStorage _ => True
    | N1VirtualStorage s t =>
        ogood (y_cost s) /\ ogood (y_min s) /\ ogood (y_max s) /\ has_start (y_initial s) (y_initial_pc s) /\
        match t with
        | StRolling (Some d) _ => d <> 0
        | StRolling None (Some n) => n <> 0
        | StRolling None None => False
        | _ => True
        end
    end.
End NodeAccepted.

(** ** What an error names *)

(** The values of a parameter with the attribute each is under. *)
Definition under {V} (a : string) (l : list V) : list (string * V) := map (fun v => (a, v)) l.
Definition curve_values {V} (cs : option (list V)) (c : option V) : list (string * V) :=
  under "control_curves" (given cs []) ++ match c with Some v => [("control_curve", v)] | None => [] end.
Definition attribute_values {V} (b : v1_body V) : list (string * V) :=
  match b with
  | V1Max m _ | V1Min m _ | V1Negative m | V1NegativeMax m _ | V1NegativeMin m _ => [("parameter", m)]
  | V1Division a b => [("numerator", a); ("denominator", b)]
  | V1Aggregated _ ms | V1AggregatedIndex _ ms => under "parameters" ms
  | V1IndexedArray ms i => under "parameters" ms ++ [("index_parameter", i)]
  | V1InterpolatedFlow _ xs ys _ => under "flows" xs ++ under "values" ys
  | V1InterpolatedVolume _ xs ys _ => under "volumes" xs ++ under "values" ys
  | V1ParameterThreshold m th _ _ => [("parameter", m); ("threshold", th)]
  | V1NodeThreshold _ th _ _ | V1StorageThreshold _ th _ _ => [("threshold", th)]
  | V1MultiThreshold _ ths => under "thresholds" ths
  | V1MultiThresholdParameter m ths => ("parameter", m) :: under "thresholds" ths
  | V1Switch a b => [("on_index_parameter", a); ("off_index_parameter", b)]
  | V1CurveIndex _ cs => under "control_curves" cs
  | V1Curve _ cs c _ ps | V1CurveInterpolated _ cs c _ ps => curve_values cs c ++ under "parameters" (given ps [])
  | V1CurvePiecewise _ cs c _ _ => curve_values cs c
  | _ => []
  end.
Definition has_table {V} (b : v1_body V) : Prop :=
  match b with V1Constant _ t => t = Some None | V1ConstantScenario _ v | V1Profile _ v => w_table v = Some None | _ => False end.
Definition node_values {V} (n : v1_nbody V) : list (string * V) :=
  let o a (v : option V) := match v with Some v => [(a, v)] | None => [] end in
  match n with
  | N1Input c mn mx | N1Link c mn mx | N1Output c mn mx => o "cost" c ++ o "min_flow" mn ++ o "max_flow" mx
  | N1Storage c mn mx _ _ => o "cost" c ++ o "min_volume" mn ++ o "max_volume" mx
  | N1Catchment c f => o "cost" c ++ o "flow" f
  | N1RiverGauge m mc c => o "mrf" m ++ o "mrf_cost" mc ++ o "cost" c
  | N1LossLink lf c mn mx => o "loss_factor" lf ++ o "cost" c ++ o "min_flow" mn ++ o "max_flow" mx
  | N1River _ _ _ | N1Delay _ _ _ | N1AggregatedStorage _ => []
  | N1RiverSplitGauge m mc fs _ => o "mrf" m ++ o "mrf_cost" mc ++ under "factors" fs
  | N1PiecewiseLink _ costs maxs => under "costs" (given costs []) ++ flat_map (o "max_flows") (given maxs [])
  | N1Aggregated _ fs mn mx => under "factors" (given fs []) ++ o "min_flow" mn ++ o "max_flow" mx
  | N1VirtualStorage s _ => o "cost" (y_cost s) ++ o "min_volume" (y_min s) ++ o "max_volume" (y_max s)
  end.
Definition is_catchment {V} (n : v1_nbody V) : Prop := match n with N1Catchment _ _ => True | _ => False end.
Definition names (e : comp_error) : string := match e with PErr n _ _ | NErr n _ _ => n end.
(** An error says that the value of an attribute could not be converted. *)
Definition blames (e : comp_error) (a : string) : Prop := match e with PErr _ b WValue | NErr _ b WValue => a = b | _ => False end.
