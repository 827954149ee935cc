(** Specification vocabulary for C71: what a programme allows, what a problem
    held by a solver library allows, and when the two are the same.

    The largest number a solver uses for a bound ([inf]: [f64::MAX], or
    infinity) stands for the absence of that bound. *)
From Coq Require Import Qabs.
From Verif Require Import Base Calendar Network NetworkBuild Lp LpSpec Backends.
Open Scope nat_scope.

Definition above (inf lo v : Q) : Prop := (lo <= - inf \/ lo <= v)%Q.
Definition below (inf up v : Q) : Prop := (inf <= up \/ v <= up)%Q.

(** The programme of the network: bounds and integrality of the columns, bounds
    of the rows. *)
Definition allows (l : lp) (x : nat -> Q) : Prop :=
  (forall i c, nth_error (lp_cols l) i = Some c ->
     above (lp_fmax l) (col_lower c) (x i) /\ below (lp_fmax l) (col_upper c) (x i) /\
     (col_type_of c = ColInteger -> is_integer (x i))) /\
  (forall r, In r (lp_rows l) ->
     above (lp_fmax l) (l_lower r) (row_value (l_cols r) x) /\ below (lp_fmax l) (l_upper r) (row_value (l_cols r) x)).
Definition optimal (l : lp) (x : nat -> Q) : Prop :=
  allows l x /\ forall y, allows l y -> (objective l x <= objective l y)%Q.

(** The problem in the library. *)
Definition col_admits (inf : Q) (c : pcol) (v : Q) : Prop :=
  above inf (pc_lower c) v /\ below inf (pc_upper c) v /\ (pc_int c = true -> is_integer v).
Definition cols_admit (inf : Q) (cs : list pcol) (x : nat -> Q) : Prop :=
  forall i c, nth_error cs i = Some c -> col_admits inf c (x i).
Definition cols_cost (cs : list pcol) (x : nat -> Q) : Q :=
  qsum (map (fun ic => pc_obj (snd ic) * x (fst ic))%Q (combine (seq 0 (length cs)) cs)).
Definition constr_admits (inf : Q) (c : constr) (x : nat -> Q) : Prop :=
  let v := row_value (cs_cols c) x in
  match cs_cmp c with
  | CEq => (v == cs_rhs c)%Q
  | CGe => above inf (cs_rhs c) v
  | CLe => below inf (cs_rhs c) v
  end.
Definition admits (inf : Q) (h : held) (x : nat -> Q) : Prop :=
  match h with
  | HStd p => cols_admit inf (pb_cols p) x /\
      forall r, In r (pb_rows p) -> above inf (pr_lower r) (row_value (pr_cols r) x) /\
                                    below inf (pr_upper r) (row_value (pr_cols r) x)
  | HMicro p => cols_admit inf (mp_vars p) x /\ forall c, In c (mp_cons p) -> constr_admits inf c x
  end.
Definition cost (h : held) (x : nat -> Q) : Q :=
  match h with HStd p => cols_cost (pb_cols p) x | HMicro p => cols_cost (mp_vars p) x end.

(** The library is asked the question the network poses. *)
Definition same_problem (l : lp) (h : held) : Prop :=
  forall x, (admits (lp_fmax l) h x <-> allows l x) /\ (cost h x == objective l x)%Q.

(** A library that says "optimal" only of optimal values. *)
Definition sound (inf : Q) (lib : nat -> held -> answer) : Prop :=
  forall n h, an_status (lib n h) = SOptimal ->
    admits inf h (an_values (lib n h)) /\
    forall y, admits inf h y -> (cost h (an_values (lib n h)) <= cost h y)%Q.

(** What a network uses, by its components. *)
Definition uses (net : network) (f : feature) : Prop :=
  match f with
  | FAggNode => exists a, In a (net_aggs net)
  | FAggFactors => exists a fs, In a (net_aggs net) /\ a_rel a = Some (RFactored fs)
  | FAggDynFactors => exists a fs m, In a (net_aggs net) /\ a_rel a = Some (RFactored fs) /\
      (exists i, m = MDyn i) /\
      match fs with
      | FProportion ms | FRatio ms => In m ms
      | FCoefficients ms rhs => In m ms \/ rhs = Some m
      end
  | FVirtualStorage => exists v, In v (net_vss net)
  | FExclusivity => exists a mn mx, In a (net_aggs net) /\ a_rel a = Some (RExclusive mn mx)
  end.

(** The network's programme after a history of time-steps. *)
Definition programme (net : network) (fm : Q) (order : list (list nat)) (ss : list lp_state) (l : lp) : Prop :=
  exists b0 b, create fm order net = Ok b0 /\ updates net b0 ss = Ok b /\ l = bt_lp b.

(** Coefficients HiGHS takes as they are; bounds in the right order and inside
    the number range. *)
Definition moderate (l : lp) : Prop :=
  forall r c v, In r (lp_rows l) -> In (c, v) (l_cols r) -> (- inject_Z 10000000000 <= v <= inject_Z 10000000000)%Q.
Definition ordered (l : lp) : Prop := forall r, In r (lp_rows l) -> (l_lower r <= l_upper r)%Q.
Definition proper (l : lp) : Prop :=
  forall r, In r (lp_rows l) -> (l_lower r < lp_fmax l)%Q /\ (- lp_fmax l < l_upper r)%Q.

(** The members of mutually exclusive sets have constant limits. *)
Definition constant_limit (m : option metric) : Prop := match m with Some (MDyn _) => False | _ => True end.
Definition exclusive_constant (net : network) : Prop :=
  forall i n, in_exclusive_set net i -> nth_error (net_nodes net) i = Some n ->
    n_type n <> TStorage /\ constant_limit (n_min n) /\ constant_limit (n_max n).

(** What a solver does not support. *)
Definition lacks (k : backend) (f : feature) : Prop :=
  (k = Clp /\ f = FExclusivity) \/ (k = Cbc /\ f = FAggDynFactors).
