(** * Evaluating parameters in a network.

    Models how a [ParameterCollection] is evaluated over a run: constants when
    the network is set up, and in every time-step the simple parameters, the
    general parameters before the solve and after it
    (pywr-core/src/parameters/mod.rs:2443-2945, pywr-core/src/network.rs:588-629,
    758-814, 995-1074).

    What each parameter computes, what the nodes do before the solve, the solver
    and the metrics that read the network state are parameters of the model
    ([sem]): any functions of the values they read.  One scenario is modelled;
    scenarios have separate states. *)
From Verif Require Import Base ParamBuild.

(** The stores of [State]: constant, simple, and general values before and
    after the solve (pywr-core/src/state/mod.rs:822-1063). *)
Inductive stage := StConst | StSimple | StBefore | StAfter.

(** The stores of [ParameterStates]
    (pywr-core/src/parameters/mod.rs:512-627). *)
Inductive pclass := ClConst | ClSimple | ClGeneral.

Section Eval.

Context {V St Env Net Er : Type}.

(** The behaviours the model leaves open.  A parameter is given what each of
    its metrics reads as a list of results, so that it may ignore a metric that
    cannot be read. *)
Record sem := Sem {
  sm_default : ptype -> V;              (** initial content of the value stores *)
  sm_lit : nat -> V;
  sm_view : access -> V -> res Er V;
  sm_init : pname -> St;                (** [Parameter::setup] *)
  sm_const : pname -> list (res Er V) -> St -> res Er (V * St);
  sm_simple : Env -> pname -> list (res Er V) -> St -> res Er (V * St);
  sm_before : Env -> pname -> list (res Er V) -> St -> res Er (V * St);
  sm_after : Env -> pname -> list (res Er V) -> St -> res Er (V * St);
  sm_hook : Env -> pname -> list (res Er V) -> St -> res Er St;
  sm_observe : Net -> nat -> res Er V;  (** metrics on the network state *)
  sm_net0 : Net;
  sm_nodes_before : Env -> list (res Er V) -> Net -> res Er Net;
  sm_solve : Env -> list (res Er V) -> Net -> res Er Net;
  sm_missing : Er }.

(** [State] and [ParameterStates] of one scenario.  The vectors are functions
    of the index here; [C19_indices_in_range] shows that the indices used are
    within the lengths the code allocates. *)
Record pstate := PState {
  ps_val : stage -> ptype -> nat -> V;
  ps_int : pclass -> ptype -> nat -> St;
  ps_net : Net }.

Definition stage_eqb (a b : stage) : bool :=
  match a, b with
  | StConst, StConst | StSimple, StSimple | StBefore, StBefore | StAfter, StAfter => true
  | _, _ => false
  end.

Definition pclass_eqb (a b : pclass) : bool :=
  match a, b with
  | ClConst, ClConst | ClSimple, ClSimple | ClGeneral, ClGeneral => true
  | _, _ => false
  end.

(** [set_const_parameter_f64], [set_simple_parameter_f64],
    [set_general_parameter_f64_before], [set_general_parameter_f64_after] and
    their copies (pywr-core/src/state/mod.rs:822-1063). *)
Definition set_val (s : stage) (t : ptype) (i : nat) (v : V) (st : pstate) : pstate :=
  PState (fun s' t' i' =>
            if stage_eqb s s' && ptype_eqb t t' && (i =? i') then v else ps_val st s' t' i')
         (ps_int st) (ps_net st).

Definition set_int (k : pclass) (t : ptype) (i : nat) (x : St) (st : pstate) : pstate :=
  PState (ps_val st)
         (fun k' t' i' =>
            if pclass_eqb k k' && ptype_eqb t t' && (i =? i') then x else ps_int st k' t' i')
         (ps_net st).

Definition set_net (n : Net) (st : pstate) : pstate :=
  PState (ps_val st) (ps_int st) n.

(** The metrics of the network that are not those of parameters, resolved: the
    maximum flow of each node, what the nodes read before the solve (simple
    metrics only: initial and maximum volumes), what the solver reads, and what
    the recorders and metric sets read after it. *)
Record network := Network {
  nw_max_flow : list (nat * metric);
  nw_simple : list metric;
  nw_solve : list metric;
  nw_out : list metric }.

Fixpoint node_max_flow (l : list (nat * metric)) (nd : nat) : option metric :=
  match l with
  | [] => None
  | (k, mt) :: tl => if k =? nd then Some mt else node_max_flow tl nd
  end.

(** pywr-core/src/metric.rs:182-322 [MetricF64::get_value] and 1360-1381.  The
    maximum flow of a node is read by evaluating the node's own metric now
    (189-193); following more such metrics than there are nodes means that they
    lead back to where they started, and the call never returns (the stack
    overflows). *)
Fixpoint read (sm : sem) (nw : network) (depth : nat) (st : pstate) (mt : metric)
    : res Er V :=
  match mt with
  | MLit k => Ok (sm_lit sm k)
  | MConstP a i => sm_view sm a (ps_val st StConst (access_type a) i)
  | MSimpleP a i => sm_view sm a (ps_val st StSimple (access_type a) i)
  | MBeforeP a i => sm_view sm a (ps_val st StBefore (access_type a) i)
  | MAfterP a i => sm_view sm a (ps_val st StAfter (access_type a) i)
  | MOther k => sm_observe sm (ps_net st) k
  | MNodeMaxFlow nd =>
      match depth with
      | 0 => Panic
      | S d =>
          match node_max_flow (nw_max_flow nw) nd with
          | Some mt' => read sm nw d st mt'
          | None => Err (sm_missing sm)
          end
      end
  end.

Definition read_metric (sm : sem) (nw : network) (st : pstate) (mt : metric) : res Er V :=
  read sm nw (S (length (nw_max_flow nw))) st mt.

(** One evaluation of one parameter: which metrics it reads, where its value
    goes, and where its internal state is. *)
Record item := Item {
  it_name : pname;
  it_metrics : list metric;
  it_stage : stage;
  it_type : ptype;
  it_out : option nat;
  it_class : pclass;
  it_index : nat }.

(** The body of the four evaluation loops
    (pywr-core/src/parameters/mod.rs:2461-2492, 2603-2642, 2758-2790,
    2867-2891): evaluate the parameter with its internal state, then store its
    value. *)
Definition eval_item (sm : sem) (nw : network)
    (f : pname -> list (res Er V) -> St -> res Er (option V * St))
    (it : item) (st : pstate) : res Er pstate :=
  match f (it_name it) (map (read_metric sm nw st) (it_metrics it))
          (ps_int st (it_class it) (it_type it) (it_index it)) with
  | Ok (v, x) =>
      let st1 := set_int (it_class it) (it_type it) (it_index it) x st in
      match v, it_out it with
      | Some v, Some o => Ok (set_val (it_stage it) (it_type it) o v st1)
      | _, _ => Ok st1
      end
  | Err e => Err e
  | Panic => Panic
  end.

Fixpoint run_items (sm : sem) (nw : network)
    (f : item -> pname -> list (res Er V) -> St -> res Er (option V * St))
    (its : list item) (st : pstate) : res Er pstate :=
  match its with
  | [] => Ok st
  | it :: tl =>
      match eval_item sm nw (f it) it st with
      | Ok st' => run_items sm nw f tl st'
      | Err e => Err e
      | Panic => Panic
      end
  end.

Definition with_value (r : res Er (V * St)) : res Er (option V * St) :=
  match r with
  | Ok (v, x) => Ok (Some v, x)
  | Err e => Err e
  | Panic => Panic
  end.

Definition no_value (r : res Er St) : res Er (option V * St) :=
  match r with
  | Ok x => Ok (None, x)
  | Err e => Err e
  | Panic => Panic
  end.

(** The parameter a constant or simple schedule entry stands for: the one at
    that index of the vector
    (pywr-core/src/parameters/mod.rs:2760-2763, 2869-2872). *)
Definition const_item (c : collection) (p : ptype * nat) : option item :=
  match nth_error (c_const c (fst p)) (snd p) with
  | Some e => Some (Item (e_name e) (map fst (e_metrics e)) StConst (fst p) (Some (snd p)) ClConst (snd p))
  | None => None
  end.

Definition simple_item (c : collection) (p : ptype * nat) : option item :=
  match nth_error (c_simple c (fst p)) (snd p) with
  | Some e => Some (Item (e_name e) (map fst (e_metrics e)) StSimple (fst p) (Some (snd p)) ClSimple (snd p))
  | None => None
  end.

(** The metrics a parameter reads before the solve: not those it resolved for
    use after it only. *)
Definition before_metrics (e : entry) : list metric :=
  map fst (filter (fun p => match snd p with CAfter => false | _ => true end) (e_metrics e)).

Definition before_item (b : before_sched) : item :=
  Item (e_name (bs_entry b)) (before_metrics (bs_entry b)) StBefore (bs_type b)
       (Some (bs_output b)) ClGeneral (bs_index b).

Definition after_item (a : after_sched) : item :=
  Item (e_name (as_entry a)) (map fst (e_metrics (as_entry a))) StAfter (as_type a)
       (as_output a) ClGeneral (as_index a).

Fixpoint options {A : Type} (l : list (option A)) : option (list A) :=
  match l with
  | [] => Some []
  | Some x :: tl => match options tl with Some r => Some (x :: r) | None => None end
  | None :: _ => None
  end.

(** pywr-core/src/parameters/mod.rs:2859-2944 [compute_const]. *)
Definition compute_const (sm : sem) (nw : network) (c : collection) (st : pstate)
    : res Er pstate :=
  match options (map (const_item c) (c_const_order c)) with
  | Some its => run_items sm nw (fun _ n l x => with_value (sm_const sm n l x)) its st
  | None => Err (sm_missing sm)
  end.

(** pywr-core/src/parameters/mod.rs:2750-2856 [compute_simple]. *)
Definition compute_simple (sm : sem) (nw : network) (c : collection) (env : Env) (st : pstate)
    : res Er pstate :=
  match options (map (simple_item c) (c_simple_order c)) with
  | Some its => run_items sm nw (fun _ n l x => with_value (sm_simple sm env n l x)) its st
  | None => Err (sm_missing sm)
  end.

(** pywr-core/src/parameters/mod.rs:2443-2582 [before_general]. *)
Definition before_general (sm : sem) (nw : network) (c : collection) (env : Env) (st : pstate)
    : res Er pstate :=
  run_items sm nw (fun _ n l x => with_value (sm_before sm env n l x))
    (map before_item (c_before_order c)) st.

(** pywr-core/src/parameters/mod.rs:2585-2748 [after_general]. *)
Definition after_general (sm : sem) (nw : network) (c : collection) (env : Env) (st : pstate)
    : res Er pstate :=
  run_items sm nw
    (fun it n l x =>
       match it_out it with
       | Some _ => with_value (sm_after sm env n l x)
       | None => no_value (sm_hook sm env n l x)
       end)
    (map after_item (c_after_order c)) st.

(** [StateBuilder] (pywr-core/src/state/mod.rs:1176-1266) and [ParameterStates::from_collection]
    (pywr-core/src/parameters/mod.rs:526-540): the value stores hold their initial
    content, and each parameter has the internal state it set up. *)
Definition initial_state (sm : sem) (c : collection) : pstate :=
  PState (fun _ t _ => sm_default sm t)
         (fun k t i =>
            let vec := match k with
                       | ClConst => c_const c t
                       | ClSimple => c_simple c t
                       | ClGeneral => c_general c t
                       end in
            sm_init sm (match nth_error vec i with Some e => e_name e | None => 0 end))
         (sm_net0 sm).

(** pywr-core/src/network.rs:588-629 [setup_network]. *)
Definition setup (sm : sem) (nw : network) (c : collection) : res Er pstate :=
  compute_const sm nw c (initial_state sm c).

(** pywr-core/src/network.rs:758-814 [step], 995-1034 [compute_components],
    1043-1074 [after]: the values the outputs read at the end of the time-step
    are returned with the new state. *)
Definition step (sm : sem) (nw : network) (c : collection) (env : Env) (st : pstate)
    : res Er (pstate * list (res Er V)) :=
  rbind (compute_simple sm nw c env st) (fun st1 =>
  rbind (sm_nodes_before sm env (map (read_metric sm nw st1) (nw_simple nw)) (ps_net st1)) (fun n1 =>
  rbind (before_general sm nw c env (set_net n1 st1)) (fun st2 =>
  rbind (sm_solve sm env (map (read_metric sm nw st2) (nw_solve nw)) (ps_net st2)) (fun n2 =>
  rbind (after_general sm nw c env (set_net n2 st2)) (fun st3 =>
  Ok (st3, map (read_metric sm nw st3) (nw_out nw))))))).

(** The outputs of every time-step. *)
Fixpoint run (sm : sem) (nw : network) (c : collection) (envs : list Env) (st : pstate)
    : res Er (list (list (res Er V))) :=
  match envs with
  | [] => Ok []
  | env :: tl =>
      rbind (step sm nw c env st) (fun p =>
      rbind (run sm nw c tl (fst p)) (fun outs => Ok (snd p :: outs)))
  end.

Definition simulate (sm : sem) (nw : network) (c : collection) (envs : list Env)
    : res Er (list (list (res Er V))) :=
  rbind (setup sm nw c) (fun st => run sm nw c envs st).

End Eval.

Arguments sem : clear implicits.
Arguments pstate : clear implicits.

(** What the network declares, before it is resolved. *)
Record network_def := NetworkDef {
  nd_max_flow : list (nat * uref);
  nd_simple : list uref;
  nd_solve : list uref;
  nd_out : list uref }.

Definition resolve_all (m : maps) (ph : consumer_phase) (us : list uref)
    : res resolve_err (list metric) :=
  rmap (fun u => resolve m u ph) us.

Definition simple_metric (mt : metric) : res resolve_err metric :=
  match metric_class mt with
  | KGeneral => Err ROtherErr
  | _ => Ok mt
  end.

(** pywr-core/src/network.rs:2102-2224: nodes, virtual storages and aggregated
    nodes resolve their metrics for use before the solve, recorders and metric
    sets for use after it; initial and maximum volumes must be simple. *)
Definition resolve_network (m : maps) (nd : network_def) : res resolve_err network :=
  rbind (rmap (fun p => rbind (resolve m (snd p) CBefore) (fun mt => Ok (fst p, mt)))
           (nd_max_flow nd)) (fun mf =>
  rbind (rmap (fun u => rbind (resolve m u CBefore) simple_metric) (nd_simple nd)) (fun si =>
  rbind (resolve_all m CBefore (nd_solve nd)) (fun so =>
  rbind (resolve_all m CAfter (nd_out nd)) (fun ou =>
  Ok (Network mf si so ou))))).
