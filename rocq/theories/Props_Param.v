(** * Building and evaluating parameters: C19, C20, C21. *)
From Verif Require Import Base ParamBuild ParamBuildSpec ParamEval ParamEvalSpec ParamOrderLemmas ParamSchedLemmas.
From Coq Require Import Permutation.

(** ** C19: the evaluation order respects dependencies. *)

(** A run succeeds with some outputs exactly when these solve the equations the
    definitions of the parameters make, by name.  Metrics on the maximum flow of
    a node are left out: see [C19_node_max_flow_refuted]. *)
Theorem C19_equations_partial :
  forall (V St Env Net Er : Type) (sm : sem V St Env Net Er) nodes other bs c m nd nw,
  build nodes other bs = Some (Ok (c, m)) -> resolve_network m nd = Ok nw ->
  plain_builders bs -> plain_network nd -> (forall b, In b bs -> well_typed b) ->
  forall envs outss, simulate sm nw c envs = Ok outss <-> means sm bs nd envs outss.
Proof. intros V St Env Net Er. exact equations. Qed.
Print Assumptions C19_equations_partial.

(** What a metric on the maximum flow of a node reads: the present value of the
    node's own limit; and for a node without one the error that says so. *)
Theorem C19_node_max_flow_read :
  forall (V St Env Net Er : Type) (sm : sem V St Env Net Er) nw st,
  (forall node limit, NoDup (map fst (nw_max_flow nw)) -> In (node, limit) (nw_max_flow nw) -> (forall n, limit <> MNodeMaxFlow n) ->
     read_metric sm nw st (MNodeMaxFlow node) = read_metric sm nw st limit) /\
  (forall node, ~ In node (map fst (nw_max_flow nw)) -> read_metric sm nw st (MNodeMaxFlow node) = Err (sm_missing sm)).
Proof.
  intros V St Env Net Er sm nw st. unfold read_metric. cbn [read]. split.
  - intros node limit N I P. assert (E : node_max_flow (nw_max_flow nw) node = Some limit).
    { revert N I. induction (nw_max_flow nw) as [|[k mt] l IH]; cbn [map fst node_max_flow]; intros N I; [destruct I|].
      inversion N as [|? ? N1 N2]; subst. destruct I as [I|I]; [injection I as -> ->; rewrite Nat.eqb_refl; reflexivity|].
      destruct (Nat.eqb_spec k node) as [->|_]; [|exact (IH N2 I)]. destruct N1. apply in_map_iff. exists (node, limit). auto. }
    rewrite E. destruct limit; try (destruct (length (nw_max_flow nw)); reflexivity). edestruct P; reflexivity.
  - intros node N. assert (E : node_max_flow (nw_max_flow nw) node = None).
    { revert N. induction (nw_max_flow nw) as [|[k mt] l IH]; cbn [map fst node_max_flow In]; intros N; [reflexivity|].
      destruct (Nat.eqb_spec k node) as [->|_]; [destruct N; auto|]. apply IH. auto. }
    rewrite E. reflexivity.
Qed.
Print Assumptions C19_node_max_flow_read.

(** Declaring the parameters in another order changes neither whether they
    build nor what a run gives. *)
Theorem C19_declaration_order_partial :
  forall (V St Env Net Er : Type) (sm : sem V St Env Net Er) nodes other bs bs' c m nd nw,
  build nodes other bs = Some (Ok (c, m)) -> resolve_network m nd = Ok nw ->
  plain_builders bs -> plain_network nd -> (forall b, In b bs -> well_typed b) ->
  Permutation bs bs' ->
  exists c' m' nw',
    build nodes other bs' = Some (Ok (c', m')) /\ resolve_network m' nd = Ok nw' /\
    forall envs outss, simulate sm nw c envs = Ok outss <-> simulate sm nw' c' envs = Ok outss.
Proof. intros V St Env Net Er. exact declaration_order. Qed.
Print Assumptions C19_declaration_order_partial.

(** The classes of the parameters are determined by their definitions. *)
Theorem C19_classes_exist : forall nodes other bs c m,
  build nodes other bs = Some (Ok (c, m)) -> exists sh, shapes_ok bs sh.
Proof. exact shapes_exist. Qed.
Print Assumptions C19_classes_exist.

(** In each stage, exactly the parameters that belong to it are evaluated, once
    each. *)
Theorem C19_every_parameter_once : forall nodes other bs c m sh,
  build nodes other bs = Some (Ok (c, m)) -> shapes_ok bs sh ->
  forall k, NoDup (evaluated k c) /\
  (forall n, In n (evaluated k c) <-> exists b, In b bs /\ pb_name b = n /\ in_stage k (sh n)).
Proof. exact schedule_exact. Qed.
Print Assumptions C19_every_parameter_once.

(** A parameter is evaluated after those its definition mentions. *)
Theorem C19_references_first : forall nodes other bs c m,
  build nodes other bs = Some (Ok (c, m)) ->
  forall k x y, depends bs x y -> In x (evaluated k c) -> In y (evaluated k c) ->
  earlier (evaluated k c) y x.
Proof. exact schedule_order. Qed.
Print Assumptions C19_references_first.

(** Every index in the schedule and in a resolved metric is within its
    vector. *)
Theorem C19_indices_in_range : forall nodes other bs c m,
  build nodes other bs = Some (Ok (c, m)) ->
  (exists its, schedule_items c = Some its /\ Forall (item_in_range c) its) /\
  (forall u ph mt, resolve m u ph = Ok mt -> metric_in_range c mt).
Proof. exact indices_in_range. Qed.
Print Assumptions C19_indices_in_range.

(** ** C20: the build succeeds exactly on acyclic complete definitions. *)

Theorem C20_terminates : forall nodes other bs, exists r,
  forall fuel, length bs < fuel -> build_fuel fuel nodes other bs = Some r.
Proof. exact build_terminates. Qed.
Print Assumptions C20_terminates.

Theorem C20_never_panics : forall nodes other bs, build nodes other bs <> Some Panic.
Proof. exact build_no_panic. Qed.
Print Assumptions C20_never_panics.

Theorem C20_success_means_well_formed : forall nodes other bs c m,
  build nodes other bs = Some (Ok (c, m)) -> unique_names bs /\ all_defined bs /\ acyclic bs.
Proof. exact build_success. Qed.
Print Assumptions C20_success_means_well_formed.

(** Unless one of the parameters rejects its own definition.  Missing: the build
    modelled here also refuses integer metrics that ask for another value than
    that before the solve of a constant or simple parameter, which the code
    accepts (C21_shared_table_exact in Props_ParamIndexRef.v). *)
Theorem C20_succeeds_iff_partial : forall nodes other bs,
  (forall n, build nodes other bs <> Some (Err (BuildFailed n))) ->
  ((exists c m, build nodes other bs = Some (Ok (c, m))) <->
   (unique_names bs /\ all_defined bs /\ acyclic bs)).
Proof. exact build_iff. Qed.
Print Assumptions C20_succeeds_iff_partial.

Theorem C20_order_does_not_matter : forall nodes other bs bs' c m,
  build nodes other bs = Some (Ok (c, m)) -> Permutation bs bs' ->
  exists c' m', build nodes other bs' = Some (Ok (c', m')).
Proof. exact build_perm. Qed.
Print Assumptions C20_order_does_not_matter.

Theorem C20_duplicate_iff : forall nodes other bs,
  (exists n, build nodes other bs = Some (Err (DuplicateName n))) <-> ~ unique_names bs.
Proof. exact build_duplicate. Qed.
Print Assumptions C20_duplicate_iff.

Theorem C20_duplicate_name : forall nodes other bs n,
  build nodes other bs = Some (Err (DuplicateName n)) ->
  exists b1 b2 l1 l2 l3, bs = l1 ++ b1 :: l2 ++ b2 :: l3 /\ pb_name b1 = n /\ pb_name b2 = n.
Proof. exact build_duplicate_name. Qed.
Print Assumptions C20_duplicate_name.

Theorem C20_not_found : forall nodes other bs n,
  build nodes other bs = Some (Err (NotFound n)) ->
  exists b u ph, In b bs /\ In (u, ph) (pb_refs b) /\ names_param u n /\ ~ ref_defined bs u.
Proof. exact build_not_found. Qed.
Print Assumptions C20_not_found.

Theorem C20_circular : forall nodes other bs ns,
  build nodes other bs = Some (Err (Circular ns)) ->
  NoDup ns /\ (forall n, In n ns -> In n (map pb_name bs)) /\ cycle_within bs ns.
Proof. exact build_circular. Qed.
Print Assumptions C20_circular.

(** ** C21: nothing before the solve reads a value of the current after phase. *)

(** What a metric used before the solve can be. *)
Theorem C21_before_consumers : forall m u ph mt, resolve m u ph = Ok mt -> ph <> CAfter ->
  match mt with
  | MAfterP _ _ => exists n, ref_target u = Some (n, RVAfterOrInitial)
  | _ => True
  end.
Proof. exact before_metric_phase. Qed.
Print Assumptions C21_before_consumers.

(** Stated for metrics with floating-point values.  Missing: integer metrics, for
    which the code accepts such a request of a constant or simple parameter
    (C21_integer_current_value_refuted in Props_ParamIndexRef.v). *)
Theorem C21_current_value_rejected_partial : forall m n ph,
  ph <> CAfter -> forall mt, resolve m (UF64 n RVAfter) ph <> Ok mt.
Proof. intros m n ph. exact (after_rejected m (UF64 n RVAfter) ph n eq_refl). Qed.
Print Assumptions C21_current_value_rejected_partial.

(** As above, for metrics with floating-point values only. *)
Theorem C21_rejected_at_build_partial : forall nodes other bs c m b ph n,
  build nodes other bs = Some (Ok (c, m)) -> In b bs -> In (UF64 n RVAfter, ph) (pb_refs b) ->
  ph = CAfter.
Proof.
  intros nodes other bs c m b ph n H Hb Hu.
  exact (after_rejected_build nodes other bs c m b (UF64 n RVAfter) ph n H Hb Hu eq_refl).
Qed.
Print Assumptions C21_rejected_at_build_partial.

(** In every state before the solve, an after-phase value is still the one at
    the end of the previous time-step. *)
Theorem C21_previous_value :
  forall (V St Env Net Er : Type) (sm : sem V St Env Net Er) nw c env st st',
  before_solve sm nw c env st st' -> forall a i,
  read_metric sm nw st' (MAfterP a i) = read_metric sm nw st (MAfterP a i).
Proof. intros V St Env Net Er. exact before_solve_after_values. Qed.
Print Assumptions C21_previous_value.

(** And in the first time-step it is the initial one. *)
Theorem C21_initial_value :
  forall (V St Env Net Er : Type) (sm : sem V St Env Net Er) nw c st,
  setup sm nw c = Ok st -> forall a i,
  read_metric sm nw st (MAfterP a i) = sm_view sm a (sm_default sm (access_type a)).
Proof. intros V St Env Net Er. exact setup_after_values. Qed.
Print Assumptions C21_initial_value.

(** ** Examples. *)

Definition shape_by_class (ks : list mclass) : option shape :=
  if forallb (fun k => match k with KConst => true | _ => false end) ks then Some ShConst
  else if forallb (fun k => match k with KGeneral => false | _ => true end) ks then Some ShSimple
  else Some (ShGeneral true None).

(** Declared with users before what they use: [3] adds the simple parameter [2]
    and the value [4] had after the previous solve, [2] adds the environment to
    the constant [1], and [4] observes the network. *)
Definition ex_bs : list pbuilder :=
  [ PBuilder 3 PF64 true [(UF64 2 RVBefore, CBefore); (UF64 4 RVAfterOrInitial, CBefore)] shape_by_class;
    PBuilder 2 PF64 true [(UF64 1 RVBefore, CBefore); (ULit 0, CBefore)]
      (fun ks => if forallb (fun k => match k with KGeneral => false | _ => true end) ks
                 then Some ShSimple else None);
    PBuilder 4 PF64 true [(UOther 7, CAfter)] (fun _ => Some (ShGeneral false (Some OpValue)));
    PBuilder 1 PF64 true [] shape_by_class ].

Definition ex_nd : network_def :=
  NetworkDef [] [UF64 2 RVBefore] [UF64 3 RVBefore] [UF64 3 RVBefore; UF64 4 RVAfter].

Definition total (l : list (res unit Z)) : Z :=
  fold_right (fun r a => match r with Ok v => (v + a)%Z | _ => a end) 0%Z l.

Definition ex_sem : sem Z Z Z Z unit :=
  Sem (fun _ => 0%Z) (fun _ => 0%Z) (fun _ v => Ok v) (fun _ => 0%Z)
    (fun _ l x => Ok ((10 + total l)%Z, x))
    (fun env _ l x => Ok ((env + total l)%Z, (x + 1)%Z))
    (fun _ _ l x => Ok (total l, x))
    (fun _ _ l x => Ok (total l, x))
    (fun _ _ _ x => Ok x)
    (fun net _ => Ok net) 0%Z
    (fun _ _ net => Ok net)
    (fun _ l net => Ok (net + total l)%Z) tt.

Definition ex_build (bs : list pbuilder) : collection * maps :=
  match build [] [7] bs with Some (Ok p) => p | _ => (empty_collection, initial_maps [] []) end.

Definition ex_network (nd : network_def) (bs : list pbuilder) : network :=
  match resolve_network (snd (ex_build bs)) nd with Ok nw => nw | _ => Network [] [] [] [] end.

Example C19_case_builds :
  build [] [7] ex_bs = Some (Ok (ex_build ex_bs)) /\
  resolve_network (snd (ex_build ex_bs)) ex_nd = Ok (ex_network ex_nd ex_bs) /\
  plain_builders ex_bs /\ plain_network ex_nd /\ (forall b, In b ex_bs -> well_typed b).
Proof.
  split; [vm_compute; reflexivity|]. split; [vm_compute; reflexivity|]. split; [|split].
  - intros b u ph Hb Hu. cbn in Hb. destruct Hb as [<-|[<-|[<-|[<-|[]]]]]; cbn in Hu;
      repeat (destruct Hu as [Hu|Hu]; [injection Hu as <- <-; exact I|]); destruct Hu.
  - intros u Hu. cbn in Hu. repeat (destruct Hu as [<-|Hu]; [exact I|]). destruct Hu.
  - assert (Hc : forall ks sh, shape_by_class ks = Some sh ->
              match sh with ShConst => Forall (fun k => k = KConst) ks
                          | ShSimple => Forall (fun k => k <> KGeneral) ks
                          | ShGeneral _ _ => True end).
    { intros ks sh H. unfold shape_by_class in H.
      destruct (forallb _ ks) eqn:E1.
      - injection H as <-. apply Forall_forall. intros k Hk. rewrite forallb_forall in E1. specialize (E1 k Hk).
        destruct k; [reflexivity|discriminate E1|discriminate E1].
      - destruct (forallb (fun k => match k with KGeneral => false | _ => true end) ks) eqn:E2; injection H as <-; [|exact I].
        apply Forall_forall. intros k Hk. rewrite forallb_forall in E2. specialize (E2 k Hk).
        destruct k; [discriminate|discriminate|discriminate E2]. }
    intros b Hb. cbn in Hb. destruct Hb as [<-|[<-|[<-|[<-|[]]]]]; intros ks sh H; cbn [pb_shape] in H.
    + exact (Hc _ _ H).
    + destruct (forallb _ ks) eqn:E2; [|discriminate H]. injection H as <-.
      apply Forall_forall. intros k Hk. rewrite forallb_forall in E2. specialize (E2 k Hk).
      destruct k; [discriminate|discriminate|discriminate E2].
    + injection H as <-. exact I.
    + exact (Hc _ _ H).
Qed.

(** The previous value of [4] is fed back: 0, then the network state. *)
Example C19_case_runs :
  simulate ex_sem (ex_network ex_nd ex_bs) (fst (ex_build ex_bs)) [1; 2; 3]%Z =
  Ok [[Ok 11; Ok 11]; [Ok 23; Ok 34]; [Ok 47; Ok 81]]%Z /\
  evaluated StBefore (fst (ex_build ex_bs)) = [3] /\
  evaluated StAfter (fst (ex_build ex_bs)) = [4] /\
  evaluated StSimple (fst (ex_build ex_bs)) = [2].
Proof. repeat split; vm_compute; reflexivity. Qed.

(** The maximum flow of a node is a metric on a parameter that the schedule does
    not see: [5] reads the maximum flow of node 9, which is the parameter [6].
    Declared first, [5] reads the value of [6] before it is evaluated. *)
Definition flow_user : pbuilder :=
  PBuilder 5 PF64 true [(UNodeMaxFlow 9, CBefore)] (fun _ => Some (ShGeneral true None)).
Definition flow_limit : pbuilder :=
  PBuilder 6 PF64 true [(UOther 7, CBefore)] (fun _ => Some (ShGeneral true None)).
Definition flow_nd : network_def :=
  NetworkDef [(9, UF64 6 RVBefore)] [] [UF64 6 RVBefore] [UF64 5 RVBefore].

Definition flow_run (bs : list pbuilder) (envs : list Z) : res unit (list (list (res unit Z))) :=
  match build [9] [7] bs with
  | Some (Ok (c, m)) =>
      match resolve_network m flow_nd with
      | Ok nw => simulate
          (Sem (fun _ => 0%Z) (fun _ => 0%Z) (fun _ v => Ok v) (fun _ => 0%Z)
             (fun _ l x => Ok (total l, x)) (fun _ _ l x => Ok (total l, x))
             (fun _ _ l x => Ok (total l, x)) (fun _ _ l x => Ok (total l, x))
             (fun _ _ _ x => Ok x) (fun net _ => Ok net) 100%Z
             (fun _ _ net => Ok net) (fun env _ net => Ok (net + env)%Z) tt) nw c envs
      | _ => Panic
      end
  | _ => Panic
  end.

Theorem C19_node_max_flow_refuted :
  exists bs bs' envs o o', Permutation bs bs' /\
    flow_run bs envs = Ok o /\ flow_run bs' envs = Ok o' /\ o <> o'.
Proof.
  exists [flow_user; flow_limit], [flow_limit; flow_user], [1; 1]%Z,
    [[Ok 0]; [Ok 100]]%Z, [[Ok 100]; [Ok 101]]%Z.
  split; [apply perm_swap|]. split; [vm_compute; reflexivity|]. split; [vm_compute; reflexivity|].
  intro H. discriminate H.
Qed.
Print Assumptions C19_node_max_flow_refuted.

Definition general_on (n : pname) (us : list pname) : pbuilder :=
  PBuilder n PF64 true (map (fun k => (UF64 k RVBefore, CBefore)) us) (fun _ => Some (ShGeneral true None)).

Example C20_case_not_found :
  build [] [] [general_on 1 [2]; general_on 2 [3]] = Some (Err (NotFound 3)).
Proof. vm_compute. reflexivity. Qed.

Example C20_case_circular :
  build [] [] [general_on 4 []; general_on 1 [2]; general_on 2 [3; 4]; general_on 3 [1]]
  = Some (Err (Circular [1; 2; 3])).
Proof. vm_compute. reflexivity. Qed.

Example C20_case_duplicate :
  build [] [] [general_on 1 []; general_on 2 []; general_on 1 [2]] = Some (Err (DuplicateName 1)).
Proof. vm_compute. reflexivity. Qed.

(** A circular reference is reported even if there is an undefined reference as
    well. *)
Theorem C20_missing_masked_refuted :
  exists bs ns, build [] [] bs = Some (Err (Circular ns)) /\ ~ all_defined bs.
Proof.
  exists [general_on 1 [2; 3]; general_on 2 [1]], [1; 2]. split; [vm_compute; reflexivity|].
  intro H.
  destruct (H (general_on 1 [2; 3]) (UF64 3 RVBefore) CBefore (or_introl eq_refl)
              (or_intror (or_introl eq_refl)) 3 eq_refl) as (b & Hb & Hn & _).
  cbn in Hb. destruct Hb as [<-|[<-|[]]]; discriminate Hn.
Qed.
Print Assumptions C20_missing_masked_refuted.

(** A reference to a previous value is a dependency like any other: feedback
    from one time-step to the next is rejected as circular. *)
Theorem C20_feedback_rejected_refuted :
  exists bs ns, build [] [] bs = Some (Err (Circular ns)) /\
    forall b u ph n, In b bs -> In (u, ph) (pb_refs b) -> pb_name b = 1 ->
      names_param u n -> ref_target u = Some (n, RVAfterOrInitial).
Proof.
  exists [PBuilder 1 PF64 true [(UF64 2 RVAfterOrInitial, CBefore)] (fun _ => Some (ShGeneral true None));
          PBuilder 2 PF64 true [(UF64 1 RVBefore, CAfter)] (fun _ => Some (ShGeneral false (Some OpValue)))], [1; 2].
  split; [vm_compute; reflexivity|].
  intros b u ph n Hb Hu Hn Hp. cbn in Hb. destruct Hb as [<-|[<-|[]]]; [|discriminate Hn].
  cbn in Hu. destruct Hu as [Hu|[]]. injection Hu as <- <-. cbn in Hp. subst n. reflexivity.
Qed.
Print Assumptions C20_feedback_rejected_refuted.

(** In the run of [C19_case_runs], the second time-step starts in a state in
    which [4] had the value 11, and this is what is read before the solve. *)
Definition ex_c : collection := fst (ex_build ex_bs).
Definition ex_nw : network := ex_network ex_nd ex_bs.
Definition or_state (r : res unit (pstate Z Z Z)) : pstate Z Z Z :=
  match r with Ok st => st | _ => initial_state ex_sem ex_c end.
Definition ex_st0 : pstate Z Z Z := or_state (setup ex_sem ex_nw ex_c).
Definition ex_st1 : pstate Z Z Z :=
  or_state (rbind (step ex_sem ex_nw ex_c 1%Z ex_st0) (fun p => Ok (fst p))).
Definition ex_simple : pstate Z Z Z := or_state (compute_simple ex_sem ex_nw ex_c 2%Z ex_st1).
Definition ex_before : pstate Z Z Z :=
  or_state (before_general ex_sem ex_nw ex_c 2%Z (set_net 11%Z ex_simple)).

Example C21_case :
  setup ex_sem ex_nw ex_c = Ok ex_st0 /\
  step ex_sem ex_nw ex_c 1%Z ex_st0 = Ok (ex_st1, [Ok 11; Ok 11]%Z) /\
  before_solve ex_sem ex_nw ex_c 2%Z ex_st1 ex_before /\
  read_metric ex_sem ex_nw ex_before (MAfterP AcF64 0) = Ok 11%Z /\
  read_metric ex_sem ex_nw ex_before (MBeforeP AcF64 0) = Ok 23%Z.
Proof.
  split; [vm_compute; reflexivity|]. split; [vm_compute; reflexivity|].
  split; [|split; vm_compute; reflexivity].
  right. exists ex_simple, 11%Z, 1. split; vm_compute; reflexivity.
Qed.
