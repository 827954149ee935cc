(** C84: what a run records for a parameter of a model file is what its type
    defines, whichever implementation it gets. *)
From Coq Require Import QArith Lia Permutation Cantor.
From Verif Require Import Base Calendar Network AggFuncs ControlCurves Formulas ParamsTemporal Profiles SchemaNodes SchemaVirtual MetricSets
  SchemaParams SchemaParamsSpec Props_SchemaParams ParamBuild ParamBuildSpec ParamEval ParamEvalSpec ParamTiers ParamTiersLemmas ParamTiersMain ParamOrderLemmas ParamTiersSpec ParamTiersBuild.
Local Open Scope string_scope.
Local Open Scope list_scope.
Local Open Scope nat_scope.

(** ** The equations *)

(** C84.  A network is built with the parameters of a model file (and any others)
    and simulated.  Whatever the nodes, the solver and the other parameters do:
    if the run succeeds, then there are values of the parameters in each
    time-step, before and after the solve, such that every parameter has the
    value that its type defines from what its metrics read, and the recorders
    record these values.  The definition of [runs] knows nothing about constant,
    simple and general parameters, or about the order in which they are
    evaluated. *)
Theorem C84_equations_partial :
  forall (X Env Net Er : Type) (sm : sem (pvalue X) (pint X) Env Net Er) cd env_date er cps nodes other bs coll mp nd nw,
  implements cd env_date er sm cps -> network_of cd cps bs nd ->
  build nodes other bs = Some (Ok (coll, mp)) -> resolve_network mp nd = Ok nw ->
  forall envs outss, simulate sm nw coll envs = Ok outss ->
  forall date, (forall t env, nth_error envs t = Some env -> date t = env_date env) ->
  exists V other_f other_i nets,
    runs V other_f other_i date (length envs) cps /\
    records cd V other_f other_i (nd_out nd) outss /\
    observes sm cd envs nets other_f other_i.
Proof.
  intros X Env Net Er sm cd env_date er cps nodes other bs coll mp nd nw im (Hin & Hp & Hpn & Hty) Hb Hn envs outss Hs date Hd.
  assert (Hty' : forall b, In b bs -> well_typed b).
  { intros b Hb'. destruct (Hty b Hb') as [(c & <-)|H]; [apply builder_well_typed|exact H]. }
  apply (equations sm _ _ _ _ _ _ _ Hb Hn Hp Hpn Hty') in Hs. destruct Hs as (sh & s0 & H1 & (H2 & _) & H3).
  destruct (run_states sm _ _ _ _ _ _ H3) as (st & net1 & E & Hst). subst s0.
  assert (Hst' : forall t env, nth_error envs t = Some env -> forall b, In b bs -> step_equation sm bs sh env (st t) (st (S t)) (net1 t) b)
    by (intros t env He; exact (proj1 (Hst t env He))).
  exists (vals cd envs st), (others_f sm cd bs envs st net1), (others_i sm cd bs envs st net1),
    (fun mo t => match mo with Before => net1 t | After => nv_net (st (S t)) end).
  assert (Hlen : length outss = length envs) by (clear - H3; induction H3; cbn; congruence).
  split; [|split].
  - exact (all_run sm cd env_date er cps im nodes other bs coll mp Hb Hin sh H1 envs st net1 H2 Hst' date Hd).
  - intros t outs i Ho. assert (Ht : t < length envs) by (rewrite <- Hlen; apply nth_error_Some; congruence).
    destruct (nth_error_lt_Some envs t Ht) as [env He]. destruct (Hst t env He) as (_ & H5 & _). rewrite H5 in Ho. injection Ho as <-. split.
    + intros m q Hm Hq. rewrite nth_error_map, Hm in Hq. cbn [option_map] in Hq. injection Hq as Hq. symmetry.
      exact (agree_f sm cd env_date er cps im bs envs st net1 date After t m q Ht (or_introl eq_refl) Hq).
    + intros m q Hm Hq. rewrite nth_error_map, Hm in Hq. cbn [option_map] in Hq. injection Hq as Hq. symmetry.
      exact (agree_i sm cd env_date er cps im bs envs st net1 date After t m q Ht (or_introl eq_refl) Hq).
  - split; [|split].
    + intros t env He. destruct (Hst t env He) as (_ & _ & H5 & H6). split; [eexists; exact H6|]. intros t' ->. eexists. exact H5.
    + intros mo t m q Ht Hu Hq. unfold others_f. rewrite (proj2 (Nat.ltb_lt _ _) Ht), Hu. destruct mo; cbn [reads read_named ref_target]; rewrite Hq; reflexivity.
    + intros mo t m q Ht Hu Hq. unfold others_i. rewrite (proj2 (Nat.ltb_lt _ _) Ht), Hu. destruct mo; cbn [reads read_named ref_target]; rewrite Hq; reflexivity.
Qed.
Print Assumptions C84_equations_partial.

(** ** The parameters of a model file *)

(** With C70: what is recorded are the values that the parameters of the model
    file mean. *)
Theorem C84_file_partial :
  forall (X Env Net Er : Type) (sm : sem (pvalue X) (pint X) Env Net Er) cd env_date er args f cps nodes other bs coll mp nd nw,
  load_parameters args f = Ok cps -> implements cd env_date er sm cps -> network_of cd cps bs nd ->
  build nodes other bs = Some (Ok (coll, mp)) -> resolve_network mp nd = Ok nw ->
  forall envs outss, simulate sm nw coll envs = Ok outss ->
  forall date, (forall t env, nth_error envs t = Some env -> date t = env_date env) -> (forall t, valid_datetime (date t) = true) ->
  exists V other_f other_i nets,
    records cd V other_f other_i (nd_out nd) outss /\ observes sm cd envs nets other_f other_i /\
    forall sc p, In (sc, p) (in_nodes f ++ in_network f) -> sc = None \/ ~ bare_multi p ->
      SchemaParamsSpec.means args V other_f other_i date (length envs) sc p.
Proof.
  intros X Env Net Er sm cd env_date er args f cps nodes other bs coll mp nd nw Hl im Hno Hb Hn envs outss Hs date Hd Hv.
  destruct (C84_equations_partial X Env Net Er sm cd env_date er cps nodes other bs coll mp nd nw im Hno Hb Hn envs outss Hs date Hd)
    as (V & of & oi & nets & H1 & H2 & H3).
  exists V, of, oi, nets. split; [exact H2|]. split; [exact H3|]. intros sc p Hin Hm.
  exact (C70_values_partial args f cps V of oi date (length envs) Hl Hv H1 sc p Hin Hm).
Qed.
Print Assumptions C84_file_partial.

(** ** Which parameters are accepted *)

(** The parameters of a file can be built if and only if their names are
    different, those they refer to exist and do not depend on them, the values
    they refer to (before or after the solve) are ones that the other parameter
    has by the time they are read, and every date of a drawdown exists.  Missing:
    integer metrics that ask for another value than that before the solve of a
    constant or simple parameter, which the code accepts and the table used here
    refuses (C21_shared_table_exact in Props_ParamIndexRef.v). *)
Theorem C84_accepted_partial : forall cd cps nodes other,
  let bs := map (builder_of cd) cps in
  (forall c, In c cps -> not_made_by_storage (cp_body c)) ->
  (exists coll mp, build nodes other bs = Some (Ok (coll, mp))) <->
  (unique_names bs /\ all_defined bs /\ acyclic bs /\
   forall c, In c cps -> reset_exists (cp_body c) /\
     forall u, In u (body_urefs cd (cp_body c)) -> readable cd cps nodes other (cp_body c) u).
Proof. intros cd cps nodes other. exact (accepted_iff cd cps nodes other). Qed.
Print Assumptions C84_accepted_partial.

(** ** What does not hold *)

(** A run of a network with an offset parameter, in which the file gives a
    meaning to the parameter (C70), never gets through a time-step. *)
Theorem C84_offset_refuted :
  forall (X Env Net Er : Type) (sm : sem (pvalue X) (pint X) Env Net Er) cd env_date er cps nodes other bs coll mp nd nw,
  implements cd env_date er sm cps -> network_of cd cps bs nd ->
  build nodes other bs = Some (Ok (coll, mp)) -> resolve_network mp nd = Ok nw ->
  forall n m o, In (mkCparam n (COffset m o)) cps ->
  forall envs outss, simulate sm nw coll envs = Ok outss -> envs = [].
Proof.
  intros X Env Net Er sm cd env_date er cps nodes other bs coll mp nd nw im (Hin & Hp & Hpn & Hty) Hb Hn n m o Hc envs outss Hs.
  assert (Hty' : forall b, In b bs -> well_typed b).
  { intros b Hb'. destruct (Hty b Hb') as [(c & <-)|H]; [apply builder_well_typed|exact H]. }
  apply (equations sm _ _ _ _ _ _ _ Hb Hn Hp Hpn Hty') in Hs. destruct Hs as (sh & s0 & H1 & (H2 & _) & H3).
  destruct (run_states sm _ _ _ _ _ _ H3) as (st & net1 & E & Hst). subst s0.
  destruct envs as [|env envs]; [reflexivity|]. exfalso.
  assert (Hst' : forall t e, nth_error (env :: envs) t = Some e -> forall b, In b bs -> step_equation sm bs sh e (st t) (st (S t)) (net1 t) b)
    by (intros t e He; exact (proj1 (Hst t e He))).
  set (date := fun t => match nth_error (env :: envs) t with Some e => env_date e | None => env_date env end).
  assert (Hd : forall t e, nth_error (env :: envs) t = Some e -> date t = env_date e) by (intros t e He; unfold date; rewrite He; reflexivity).
  pose proof (no_offset sm cd env_date er cps im nodes other bs coll mp Hb Hin sh H1 (env :: envs) st net1 Hst' date Hd
    (mkCparam n (COffset m o)) Hc m o 0 eq_refl) as H. cbn in H. lia.
Qed.
Print Assumptions C84_offset_refuted.

(** ** An example *)

(** A network for the parameters of a file.  Its only other metric is a number,
    to which the solve adds what the solver reads. *)
Definition zenc (z : Z) : nat := match z with Z0 => 0 | Zpos p => 2 * Pos.to_nat p | Zneg p => 2 * Pos.to_nat p + 1 end.
Definition zdec (n : nat) : Z := if Nat.even n then Z.of_nat (Nat.div2 n) else (- Z.of_nat (Nat.div2 n))%Z.
Definition qenc (q : Q) : nat := Cantor.to_nat (zenc (Qnum q), Pos.to_nat (Qden q)).
Definition qdec (n : nat) : Q := let (a, b) := Cantor.of_nat n in Qmake (zdec a) (Pos.of_nat b).
Lemma zdec_zenc z : zdec (zenc z) = z.
Proof.
  unfold zdec, zenc. destruct z as [|p|p]; [reflexivity| |].
  - rewrite Nat.even_mul. cbn [Nat.even orb]. rewrite Nat.div2_double. apply positive_nat_Z.
  - rewrite Nat.add_1_r, Nat.even_succ, <- Nat.negb_even, Nat.even_mul. cbn [Nat.even orb negb].
    rewrite Nat.div2_succ_double, positive_nat_Z. reflexivity.
Qed.
Lemma qdec_qenc q : qdec (qenc q) = q.
Proof. unfold qdec, qenc. rewrite Cantor.cancel_of_to, zdec_zenc, Pos2Nat.id. destruct q; reflexivity. Qed.

Definition name_is (a b : cname) : bool :=
  String.eqb (cn_name a) (cn_name b) &&
  match cn_sub a, cn_sub b with Some x, Some y => String.eqb x y | None, None => true | _, _ => false end &&
  match cn_parent a, cn_parent b with Some x, Some y => String.eqb x y | None, None => true | _, _ => false end.
Fixpoint number (n : cname) (cps : list cparam) : nat :=
  match cps with [] => 0 | c :: tl => if name_is n (cp_name c) then 0 else S (number n tl) end.
Definition pt_coding (cps : list cparam) : coding := Coding (fun n => number n cps) (fun _ => 0)
  (fun m => match m with LmConst q => 2 * qenc q | _ => 0 end) (fun m => match m with LiConst z => 2 * zenc z + 1 | _ => 0 end).
Definition pt_value := pvalue Empty_set.
Definition pt_body (cps : list cparam) (n : nat) : cbody := match nth_error cps n with Some c => cp_body c | None => CConstant 0 end.
Definition pt_sem (cps : list cparam) : sem pt_value (pint Empty_set) datetime Q calc_error :=
  Sem (fun _ => PvF 0%Q) (fun k => if Nat.even k then PvF (qdec (Nat.div2 k)) else PvI (zdec (Nat.div2 k)))
    (fun a v => match view a v with Some w => Ok w | None => Err (NotRead "metric") end)
    (fun n => body_setup (pt_body cps n))
    (fun n rs s => const_body (pt_body cps n) rs s)
    (fun d n rs s => simple_body d (pt_body cps n) rs s)
    (fun d n rs s => before_body d (pt_body cps n) rs s)
    (fun d n rs s => after_body (pt_body cps n) rs s)
    (fun d n rs s => hook_body (pt_body cps n) rs s)
    (fun net _ => Ok (PvF net)) 0%Q (fun _ _ net => Ok net)
    (fun _ rs net => Ok (Qred (fold_left (fun a r => match r with Ok (PvF q) => (a + q)%Q | _ => a end) rs net)))
    (NotRead "missing").

Lemma pt_implements cps : (forall c, In c cps -> nth_error cps (number (cp_name c) cps) = Some c) ->
  implements (pt_coding cps) (fun d => d) (fun e => e) (pt_sem cps) cps.
Proof.
  intros H.
  assert (L : forall A (r : res calc_error A), lift (fun e => e) r = r) by (intros A [a|e|]; reflexivity).
  assert (B : forall c, In c cps -> pt_body cps (number (cp_name c) cps) = cp_body c) by (intros c Hc; unfold pt_body; rewrite (H c Hc); reflexivity).
  constructor.
  - intros a v _. reflexivity.
  - intros q. unfold pt_sem, pt_coding. cbn [sm_lit cd_f]. rewrite Nat.even_mul, Nat.div2_double, qdec_qenc. reflexivity.
  - intros z. unfold pt_sem, pt_coding. cbn [sm_lit cd_i].
    rewrite Nat.add_1_r, Nat.even_succ, <- Nat.negb_even, Nat.even_mul, Nat.div2_succ_double, zdec_zenc. reflexivity.
  - intros c Hc. cbn. rewrite (B c Hc). reflexivity.
  - intros c Hc rs s. rewrite L. cbn. rewrite (B c Hc). reflexivity.
  - intros c Hc d rs s. rewrite L. cbn. rewrite (B c Hc). reflexivity.
  - intros c Hc d rs s. rewrite L. cbn. rewrite (B c Hc). reflexivity.
  - intros c Hc d rs s. rewrite L. cbn. rewrite (B c Hc). reflexivity.
  - intros c Hc d rs s. rewrite L. cbn. rewrite (B c Hc). reflexivity.
Qed.

Definition pt_names (l : list (option string * string)) : list lmetric :=
  map (fun x => LmParam (fst x) (snd x) None RvBefore) l.
Definition pt_run (f : pfile) (solve out : list lmetric) (dates : list datetime) : option (list (list (res calc_error pt_value))) :=
  match load_parameters no_args f with
  | Ok cps =>
      let cd := pt_coding cps in
      let nd := NetworkDef [] [] (map (uref_f cd) solve) (map (uref_f cd) out) in
      match build [] [0] (map (builder_of cd) cps) with
      | Some (Ok (coll, mp)) =>
          match resolve_network mp nd with
          | Ok nw => match simulate (pt_sem cps) nw coll dates with Ok outss => Some outss | _ => None end
          | _ => None
          end
      | _ => None
      end
  | _ => None
  end.

(** A file with parameters of every kind: constants, an aggregate of constants
    ([k]), profiles and what is made of them alone ([w], [z]), what reads the
    network ([d], [s], [t]) and what is evaluated after the solve ([e]). *)
Definition pt_file : pfile :=
  mkPfile
    [("a", [mkParam "c" (SpConstant (CvLiteral 3%Q)); mkParam "s" (SpAggregated PhBefore AgSum [local "c"; global "d"])])]
    []
    [mkParam "d" (SpDelay (MTransfer "x") 1 10%Q);
     mkParam "k" (SpAggregated PhBefore AgSum [MLiteral 1%Q; MLiteral 2%Q]);
     mkParam "m" (SpMonthly [1; 2; 3; 4; 5; 6; 7; 8; 9; 10; 11; 12]%Q None);
     mkParam "w" (SpAggregated PhBefore AgProduct [global "k"; global "m"]);
     mkParam "z" (SpDelay (global "m") 1 100%Q);
     mkParam "e" (SpAggregated PhAfter AgSum [MTransfer "x"; global "w"]);
     mkParam "t" (SpThreshold (global "d") (MLiteral 12%Q) GE (Some (MLiteral 0%Q, global "d")) true)].
Definition pt_dates : list datetime :=
  [DateTime (Date 2020 1 31) 0; DateTime (Date 2020 2 29) 0; DateTime (Date 2020 3 31) 0].
Definition pt_solve : list lmetric := pt_names [(Some "a", "s")].
Definition pt_out : list lmetric :=
  LmTransfer "x" :: pt_names [(Some "a", "s"); (None, "d"); (None, "k"); (None, "w"); (None, "z"); (None, "t")] ++ [LmParam None "e" None RvAfter].

(** The hypotheses of [C84_file_partial] hold of this file, and what is recorded
    are these values. *)
Example C84_example :
  exists cps coll mp nw outss,
    load_parameters no_args pt_file = Ok cps /\ length cps = 10 /\
    let cd := pt_coding cps in
    let bs := map (builder_of cd) cps in
    let nd := NetworkDef [] [] (map (uref_f cd) pt_solve) (map (uref_f cd) pt_out) in
    implements cd (fun d => d) (fun e => e) (pt_sem cps) cps /\ network_of cd cps bs nd /\
    build [] [0] bs = Some (Ok (coll, mp)) /\ resolve_network mp nd = Ok nw /\
    simulate (pt_sem cps) nw coll pt_dates = Ok outss /\
    outss = map (map (fun q => Ok (PvF q)))
      [[13; 13; 10; 3; 3; 100; 0; 16]; [29; 16; 13; 3; 6; 1; 13; 35]; [61; 32; 29; 3; 9; 2; 29; 70]]%Q /\
    (forall sc p, In (sc, p) (in_nodes pt_file ++ in_network pt_file) -> ~ bare_multi p) /\
    (forall d, In d pt_dates -> valid_datetime d = true) /\
    (** constant, simple and general parameters *)
    map (fun s => length (evaluated s coll)) [StConst; StSimple; StBefore; StAfter] = [2; 3; 4; 2].
Proof.
  eexists _, _, _, _, _. split; [vm_compute; reflexivity|]. split; [reflexivity|]. cbv zeta.
  split; [apply pt_implements; intros c Hc; cbn [In] in Hc; repeat (destruct Hc as [<-|Hc]; [vm_compute; reflexivity|]); destruct Hc|].
  split.
  { split; [intros c Hc; apply in_map; exact Hc|]. split; [|split].
    - intros b u ph Hb. apply in_map_iff in Hb. destruct Hb as (c & <- & Hc). cbn [In] in Hc.
      repeat (destruct Hc as [<-|Hc]; [vm_compute; intros H; decompose [or] H; try contradiction; match goal with E : _ = _ |- _ => injection E as <- _ end; exact I|]).
      destruct Hc.
    - vm_compute. intros u H. decompose [or] H; subst; try contradiction; exact I.
    - intros b Hb. apply in_map_iff in Hb. destruct Hb as (c & <- & Hc). left. exists c. reflexivity. }
  split; [vm_compute; reflexivity|]. split; [vm_compute; reflexivity|]. split; [vm_compute; reflexivity|]. split; [vm_compute; reflexivity|].
  split; [|split].
  - cbn. intros sc p H. decompose [or] H; try contradiction;
      match goal with E : (_, _) = (_, _) |- _ => injection E as <- <-; intros [] end.
  - intros d H. cbn [In pt_dates] in H. decompose [or] H; subst; try contradiction; reflexivity.
  - vm_compute. reflexivity.
Qed.

(** A delay of no time-steps is today's value of a profile, and an error if what
    is delayed is read from the network: the two implementations of the delay
    differ. *)
Definition delay_zero (m : smetric) : pfile :=
  mkPfile [] [] [mkParam "m" (SpMonthly [1; 2; 3; 4; 5; 6; 7; 8; 9; 10; 11; 12]%Q None); mkParam "d" (SpDelay m 0 100%Q)].
Theorem C84_delay_zero_refuted :
  pt_run (delay_zero (global "m")) [] (pt_names [(None, "m"); (None, "d")]) pt_dates =
    Some (map (map (fun q => Ok (PvF q))) [[1; 1]; [2; 2]; [3; 3]]%Q) /\
  pt_run (delay_zero (MTransfer "x")) [] (pt_names [(None, "m"); (None, "d")]) pt_dates = None /\
  pt_run (delay_zero (MTransfer "x")) [] (pt_names [(None, "m"); (None, "d")]) [] = Some [].
Proof. vm_compute. auto. Qed.
Print Assumptions C84_delay_zero_refuted.

(** The file of the example meets the conditions; one whose aggregate before the
    solve refers to what [e] is before the solve does not. *)
Example C84_accepted_example :
  (exists cps coll mp, load_parameters no_args pt_file = Ok cps /\ build [] [0] (map (builder_of (pt_coding cps)) cps) = Some (Ok (coll, mp))) /\
  (exists cps, load_parameters no_args (mkPfile [] []
       [mkParam "e" (SpAggregated PhAfter AgSum [MLiteral 1%Q]); mkParam "s" (SpAggregated PhBefore AgSum [global "e"])]) = Ok cps /\
     forall coll mp, build [] [0] (map (builder_of (pt_coding cps)) cps) <> Some (Ok (coll, mp))).
Proof.
  split.
  - eexists _, _, _. split; [vm_compute; reflexivity|]. vm_compute. reflexivity.
  - eexists. split; [vm_compute; reflexivity|]. intros coll mp. vm_compute. discriminate.
Qed.
