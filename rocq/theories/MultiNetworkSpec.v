(** Specification vocabulary for C35. *)
From Coq Require Import QArith.
From Verif Require Import Base Scenario Calendar Timestep Run MultiNetwork.
Local Open Scope nat_scope.

(** Scenario [j] of network [k]. *)
Definition place {X} (states : list (list (local (X := X)))) (k j : nat) : option (local (X := X)) :=
  match nth_error states k with
  | Some row => nth_error row j
  | None => None
  end.

(** The scenarios are numbered by their places, as in every scenario domain
    (C01, C02, C04). *)
Definition numbered (scs : list scenario_index) : Prop :=
  map simulation_id scs = seq 0 (length scs).

Section Spec.
Context {E Builder Net Maps Unresolved Metric X : Type}.
Variable build_network : Builder -> list (string * nat) -> res E (Net * Maps).
Variable resolve : Maps -> Unresolved -> res E Metric.
Variable get_value : Metric -> Net -> local (X := X) -> res E Q.
Variable operations : Net -> list (timestep -> scenario_index -> list Q -> X -> res E X).
Notation entry_builder := (entry_builder (Builder := Builder) (Unresolved := Unresolved)).
Notation transfer_builder := (transfer_builder (Unresolved := Unresolved)).
Notation entry := (entry (Net := Net) (Metric := Metric)).

(** Each network has data for every scenario and room for every transfer. *)
Definition shaped (es : list entry) (scs : list scenario_index) (states : list (list (local (X := X)))) : Prop :=
  Forall2 (fun e row => length row = length scs /\
                        Forall (fun l => length (lo_values l) = length (en_transfers e)) row) es states.

(** Network [e] was built from [b], with [m] as its maps, knowing each of its
    transfers by its place in the list. *)
Definition built_from (b : entry_builder) (e : entry) (m : Maps) : Prop :=
  en_name e = eb_name b /\
  exists numbers, build_network (eb_network b) numbers = Ok (en_network e, m) /\
    forall i t, nth_error (eb_transfers b) i = Some t -> lookup (tb_name t) numbers = Some i.

(** The value [v] that transfer [t] must deliver to scenario [j] of network [k] in
    a time-step that takes the model from [old] to [new]. *)
Definition delivers (bs : list entry_builder) (es : list entry) (first : bool) (k j : nat) (t : transfer_builder)
  (old new : list (list (local (X := X)))) (v : Q) : Prop :=
  match tb_initial t, first with
  | Some x, true => v = x
  | _, _ =>
      exists m b e maps metric source,
        nth_error bs m = Some b /\ eb_name b = tb_from t /\ m <> k /\
        nth_error es m = Some e /\ built_from b e maps /\ resolve maps (tb_metric t) = Ok metric /\
        (m < k -> place new m j = Some source) /\ (k < m -> place old m j = Some source) /\
        get_value metric (en_network e) source = Ok v
  end.

(** A network's operations on one scenario, the received values being [vals]. *)
Fixpoint operate (ops : list (timestep -> scenario_index -> list Q -> X -> res E X)) (t : timestep)
  (s : scenario_index) (vals : list Q) (x : X) : res E X :=
  match ops with
  | [] => Ok x
  | op :: rest => rbind (op t s vals x) (operate rest t s vals)
  end.

(** One time-step from [old] to [new]: every network works, in every scenario, on
    its own old data with exactly the delivered values. *)
Definition right_step (bs : list entry_builder) (es : list entry) (scs : list scenario_index) (t : timestep)
  (old new : list (list (local (X := X)))) : Prop :=
  forall k b e j s l, nth_error bs k = Some b -> nth_error es k = Some e -> nth_error scs j = Some s ->
    place old k j = Some l ->
    exists l', place new k j = Some l' /\
      operate (operations (en_network e)) t s (lo_values l') (lo_rest l) = Ok (lo_rest l') /\
      length (lo_values l') = length (eb_transfers b) /\
      forall i tr, nth_error (eb_transfers b) i = Some tr ->
        exists v, nth_error (lo_values l') i = Some v /\ delivers bs es (is_first t) k j tr old new v.
End Spec.
