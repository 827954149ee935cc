(** A parameter with a memory in a network: how it is built from its metric and
    which functions give its behaviour. *)
From Verif Require Import Base ParamBuild ParamBuildSpec ParamEval ParamEvalSpec ParamsTemporal.

Section InModel.
Context {V St Env Net Er S : Type}.
Variable sm : sem V St Env Net Er.

(** The parameter [d] is built by the builder [b] from one metric, which it
    reads after the solve, or before it if the metric is simple
    (parameters/delay.rs 252-285, parameters/rolling.rs 311-343). *)
Definition memory_builder (b : pbuilder) (u : uref) : Prop :=
  pb_refs b = [(u, CAfter)] /\
  pb_shape b [KGeneral] = Some (ShGeneral true (Some OpHook)) /\
  pb_shape b [KSimple] = Some ShSimple /\
  pb_shape b [KConst] = Some ShSimple.

(** The behaviour of the parameter [d] is given by its functions. *)
Record behaves (d : pname) (emb : S -> St) (setup : S) (before : S -> res Er (V * S))
    (after : V -> S -> S) (compute : V -> S -> res Er (V * S)) : Prop := {
  bh_init : sm_init sm d = emb setup;
  bh_before : forall env s, sm_before sm env d [] (emb s)
    = rbind (before s) (fun p => Ok (fst p, emb (snd p)));
  bh_hook : forall env r s, sm_hook sm env d [r] (emb s)
    = rbind r (fun v => Ok (emb (after v s)));
  bh_simple : forall env r s, sm_simple sm env d [r] (emb s)
    = rbind r (fun v => rbind (compute v s) (fun p => Ok (fst p, emb (snd p)))) }.

End InModel.

(** An error of a parameter as an error of the network. *)
Definition map_err {E Er A : Type} (e : Er) (r : res E A) : res Er A :=
  match r with
  | Ok a => Ok a
  | Err _ => Err e
  | Panic => Panic
  end.

(** The parameter [d] is a delay of [n] time-steps. *)
Definition delay_parameter {V St Env Net Er : Type} (sm : sem V St Env Net Er) (d : pname)
    (n : nat) (initial : V) : Prop :=
  exists (emb : list V -> St) (e : Er),
    behaves sm d emb (delay_setup n initial) (fun q => map_err e (delay_before q)) delay_after
      (fun v q => map_err e (delay_compute v q)).

(** The parameter [d] is a rolling aggregation. *)
Definition rolling_parameter {V St Env Net Er : Type} (sm : sem V St Env Net Er) (d : pname)
    (agg : list V -> res Er V) (window min_values : nat) (initial : V) : Prop :=
  exists emb : list V -> St,
    behaves sm d emb rolling_setup (rolling_before agg min_values initial) (rolling_after window)
      (rolling_compute agg window min_values initial).
