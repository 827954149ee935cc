(** * What the parameters of a network mean, by name.

    The definitions of the parameters are a system of equations: the value of
    each parameter is what it computes from the values of the parameters it
    refers to.  Nothing here mentions indices, schedules or the order in which
    parameters are declared. *)
From Verif Require Import Base ParamBuild ParamBuildSpec ParamEval.

(** The type of the parameter called [n]. *)
Definition type_of (bs : list pbuilder) (n : pname) : option ptype :=
  match find (fun b => pb_name b =? n) bs with
  | Some b => Some (pb_type b)
  | None => None
  end.

(** The parameter and the value of it a reference asks for. *)
Definition ref_target (u : uref) : option (pname * return_value) :=
  match u with
  | UF64 n rv | UU64 n rv | UMulti n _ rv => Some (n, rv)
  | ULit _ | UNodeMaxFlow _ | UOther _ => None
  end.

(** How the referenced value is converted: an index is read as a float by a
    float metric. *)
Definition conversion (u : uref) (t : ptype) : access :=
  match u with
  | UF64 _ _ => match t with PU64 => AcU64asF64 | _ => AcF64 end
  | UU64 _ _ => AcU64
  | UMulti _ k _ => AcMulti k
  | ULit _ | UNodeMaxFlow _ | UOther _ => AcF64
  end.

(** No reference to the maximum flow of a node. *)
Definition plain (u : uref) : Prop :=
  match u with UNodeMaxFlow _ => False | _ => True end.

Definition plain_builders (bs : list pbuilder) : Prop :=
  forall b u ph, In b bs -> In (u, ph) (pb_refs b) -> plain u.

Definition plain_network (nd : network_def) : Prop :=
  forall u, In u (nd_simple nd ++ nd_solve nd ++ nd_out nd) -> plain u.

(** The names of the parameters evaluated in one stage, in the order in which
    they are evaluated. *)
Definition evaluated (k : stage) (c : collection) : list pname :=
  match k with
  | StConst =>
      flat_map (fun p => match nth_error (c_const c (fst p)) (snd p) with
                         | Some e => [e_name e] | None => [] end) (c_const_order c)
  | StSimple =>
      flat_map (fun p => match nth_error (c_simple c (fst p)) (snd p) with
                         | Some e => [e_name e] | None => [] end) (c_simple_order c)
  | StBefore => map (fun b => e_name (bs_entry b)) (c_before_order c)
  | StAfter => map (fun a => e_name (as_entry a)) (c_after_order c)
  end.

(** The stages a parameter takes part in. *)
Definition in_stage (k : stage) (sh : shape) : Prop :=
  match k, sh with
  | StConst, ShConst => True
  | StSimple, ShSimple => True
  | StBefore, ShGeneral bf _ => bf = true
  | StAfter, ShGeneral _ af => af <> None
  | _, _ => False
  end.

(** [y] is somewhere before [x]. *)
Definition earlier (l : list pname) (y x : pname) : Prop :=
  exists l1 l2 l3, l = l1 ++ y :: l2 ++ x :: l3.

(** A metric reads within the vectors the collection allocates. *)
Definition metric_in_range (c : collection) (mt : metric) : Prop :=
  match mt with
  | MConstP a i => i < length (c_const c (access_type a))
  | MSimpleP a i => i < length (c_simple c (access_type a))
  | MBeforeP a i => i < c_num_before c (access_type a)
  | MAfterP a i => i < c_num_after c (access_type a)
  | _ => True
  end.

(** The indices of an evaluation are within the vectors. *)
Definition item_in_range (c : collection) (it : item) : Prop :=
  Forall (metric_in_range c) (it_metrics it) /\
  match it_class it with
  | ClConst => it_index it < length (c_const c (it_type it))
  | ClSimple => it_index it < length (c_simple c (it_type it))
  | ClGeneral => it_index it < length (c_general c (it_type it))
  end /\
  match it_out it with
  | None => True
  | Some o =>
      match it_stage it with
      | StConst => o < length (c_const c (it_type it))
      | StSimple => o < length (c_simple c (it_type it))
      | StBefore => o < c_num_before c (it_type it)
      | StAfter => o < c_num_after c (it_type it)
      end
  end.

(** Rust's types guarantee that a constant parameter holds constant metrics
    only, and a simple parameter constant or simple ones. *)
Definition well_typed (b : pbuilder) : Prop :=
  forall ks sh, pb_shape b ks = Some sh ->
  match sh with
  | ShConst => Forall (fun k => k = KConst) ks
  | ShSimple => Forall (fun k => k <> KGeneral) ks
  | ShGeneral _ _ => True
  end.

(** The class of what a reference reads, given what each parameter is. *)
Definition ref_class (sh : pname -> shape) (u : uref) : mclass :=
  match u with
  | ULit _ => KConst
  | UNodeMaxFlow _ | UOther _ => KGeneral
  | UF64 n _ | UU64 n _ | UMulti n _ _ =>
      match sh n with
      | ShConst => KConst
      | ShSimple => KSimple
      | ShGeneral _ _ => KGeneral
      end
  end.

(** Every parameter is what its definition makes of the classes of its
    references. *)
Definition shapes_ok (bs : list pbuilder) (sh : pname -> shape) : Prop :=
  forall b, In b bs ->
  pb_shape b (map (fun r => ref_class sh (fst r)) (pb_refs b)) = Some (sh (pb_name b)).

(** The references a parameter reads before the solve. *)
Definition refs_before (b : pbuilder) : list uref :=
  map fst (filter (fun r => match snd r with CAfter => false | _ => true end) (pb_refs b)).

Definition refs_all (b : pbuilder) : list uref := map fst (pb_refs b).

(** Every evaluation of the whole schedule. *)
Definition schedule_items (c : collection) : option (list item) :=
  match options (map (const_item c) (c_const_order c)), options (map (simple_item c) (c_simple_order c)) with
  | Some a, Some b => Some (a ++ b ++ map before_item (c_before_order c) ++ map after_item (c_after_order c))
  | _, _ => None
  end.

Section Equations.

Context {V St Env Net Er : Type}.
Variable sm : sem V St Env Net Er.

(** The values at the end of a time-step, by name: the value before the solve
    (also that of constant and simple parameters), the value after it, the
    internal state, and the network state. *)
Record nstore := NStore {
  nv_val : pname -> option V;
  nv_after : pname -> option V;
  nv_int : pname -> option St;
  nv_net : Net }.

(** What a reference reads, when [vals] and [afters] are the values of the
    parameters before and after the solve, and [net] is the network state. *)
Definition read_named (bs : list pbuilder) (vals afters : pname -> option V)
    (net : Net) (u : uref) : res Er V :=
  match ref_target u with
  | Some (n, rv) =>
      match type_of bs n, (match rv with RVBefore => vals n | _ => afters n end) with
      | Some t, Some v => sm_view sm (conversion u t) v
      | _, _ => Err (sm_missing sm)
      end
  | None =>
      match u with
      | ULit k => Ok (sm_lit sm k)
      | UOther k => sm_observe sm net k
      | _ => Err (sm_missing sm)
      end
  end.

(** The equations of one parameter at the set-up of the network. *)
Definition setup_equation (bs : list pbuilder) (sh : pname -> shape) (s0 : nstore)
    (b : pbuilder) : Prop :=
  let n := pb_name b in
  match sh n with
  | ShConst =>
      exists v x,
        sm_const sm n (map (read_named bs (nv_val s0) (nv_after s0) (nv_net s0)) (refs_all b))
          (sm_init sm n) = Ok (v, x) /\
        nv_val s0 n = Some v /\ nv_after s0 n = None /\ nv_int s0 n = Some x
  | ShSimple =>
      nv_val s0 n = Some (sm_default sm (pb_type b)) /\ nv_after s0 n = None /\
      nv_int s0 n = Some (sm_init sm n)
  | ShGeneral bf af =>
      nv_val s0 n = (if bf then Some (sm_default sm (pb_type b)) else None) /\
      nv_after s0 n =
        (match af with Some OpValue => Some (sm_default sm (pb_type b)) | _ => None end) /\
      nv_int s0 n = Some (sm_init sm n)
  end.

Definition setup_equations (bs : list pbuilder) (sh : pname -> shape) (s0 : nstore) : Prop :=
  (forall b, In b bs -> setup_equation bs sh s0 b) /\ nv_net s0 = sm_net0 sm.

(** The equations of one parameter in one time-step.  [net1] is the network
    state before the solve and [nv_net cur] the one after it. *)
Definition step_equation (bs : list pbuilder) (sh : pname -> shape) (env : Env)
    (prev cur : nstore) (net1 : Net) (b : pbuilder) : Prop :=
  let n := pb_name b in
  let before := read_named bs (nv_val cur) (nv_after prev) net1 in
  let after := read_named bs (nv_val cur) (nv_after cur) (nv_net cur) in
  match sh n with
  | ShConst =>
      nv_val cur n = nv_val prev n /\ nv_after cur n = None /\ nv_int cur n = nv_int prev n
  | ShSimple =>
      exists x v x',
        nv_int prev n = Some x /\
        sm_simple sm env n (map before (refs_all b)) x = Ok (v, x') /\
        nv_val cur n = Some v /\ nv_after cur n = None /\ nv_int cur n = Some x'
  | ShGeneral bf af =>
      exists x x1 x2,
        nv_int prev n = Some x /\ nv_int cur n = Some x2 /\
        (if bf
         then exists v, sm_before sm env n (map before (refs_before b)) x = Ok (v, x1) /\
                nv_val cur n = Some v
         else x1 = x /\ nv_val cur n = None) /\
        match af with
        | None => x2 = x1 /\ nv_after cur n = None
        | Some OpHook =>
            sm_hook sm env n (map after (refs_all b)) x1 = Ok x2 /\ nv_after cur n = None
        | Some OpValue =>
            exists v, sm_after sm env n (map after (refs_all b)) x1 = Ok (v, x2) /\
              nv_after cur n = Some v
        end
  end.

(** The equations of a whole time-step of a network with the metrics [nd]. *)
Definition step_equations (bs : list pbuilder) (nd : network_def) (sh : pname -> shape)
    (env : Env) (prev cur : nstore) (outs : list (res Er V)) : Prop :=
  exists net1,
    (forall b, In b bs -> step_equation bs sh env prev cur net1 b) /\
    sm_nodes_before sm env
      (map (read_named bs (nv_val cur) (nv_after prev) (nv_net prev)) (nd_simple nd))
      (nv_net prev) = Ok net1 /\
    sm_solve sm env
      (map (read_named bs (nv_val cur) (nv_after prev) net1) (nd_solve nd)) net1
      = Ok (nv_net cur) /\
    outs = map (read_named bs (nv_val cur) (nv_after cur) (nv_net cur)) (nd_out nd).

(** A whole run of the equations. *)
Inductive run_equations (bs : list pbuilder) (nd : network_def) (sh : pname -> shape)
    : nstore -> list Env -> list (list (res Er V)) -> Prop :=
| re_nil : forall s, run_equations bs nd sh s [] []
| re_cons : forall s s' env envs outs outss,
    step_equations bs nd sh env s s' outs ->
    run_equations bs nd sh s' envs outss ->
    run_equations bs nd sh s (env :: envs) (outs :: outss).

(** The network with parameters [bs] and metrics [nd] can produce [outss]. *)
Definition means (bs : list pbuilder) (nd : network_def) (envs : list Env)
    (outss : list (list (res Er V))) : Prop :=
  exists sh s0, shapes_ok bs sh /\ setup_equations bs sh s0 /\
    run_equations bs nd sh s0 envs outss.

(** A state in which something is evaluated before the solve of a time-step
    that starts in [st]. *)
Definition before_solve (nw : network) (c : collection) (env : Env) (st st' : (pstate V St Net)) : Prop :=
  (exists its j, options (map (simple_item c) (c_simple_order c)) = Some its /\
     run_items sm nw (fun _ n l x => with_value (sm_simple sm env n l x)) (firstn j its) st = Ok st') \/
  (exists st1 net1 j, compute_simple sm nw c env st = Ok st1 /\
     run_items sm nw (fun _ n l x => with_value (sm_before sm env n l x))
       (firstn j (map before_item (c_before_order c))) (set_net net1 st1) = Ok st').

End Equations.

Arguments nstore : clear implicits.
