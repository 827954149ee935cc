(** C21 for integer metrics, and where the shared table departs from them. *)
From Verif Require Import Base ParamBuild ParamIndexRef.
Import ListNotations.
Local Open Scope list_scope.

(** What an integer metric refers to, as registered, and the value it asks for. *)
Definition target (m : maps) (u : iref) : option (pindex * return_value) :=
  match u with
  | IValue n rv => option_map (fun i => (i, rv)) (lookup (mp_u64 m) n)
  | IMulti n _ rv => option_map (fun i => (i, rv)) (lookup (mp_multi m) n)
  | ITransfer _ | ILit _ => None
  end.
Definition no_after_value (i : pindex) : Prop :=
  match i with IConst _ | ISimple _ => True | IGeneral r => reg_after r = None end.
Definition not_general (i : pindex) : Prop :=
  match i with IConst _ | ISimple _ => True | IGeneral _ => False end.

(** An integer metric used before the solve reads a value of the after phase only
    when it asks for one with an initial fallback, and never one it did not name. *)
Theorem C21_integer_before_consumers : forall m u ph mt,
  resolve_u64 m u ph = Ok mt -> ph <> CAfter ->
  match mt with
  | MAfterP _ o => exists r, target m u = Some (IGeneral r, RVAfterOrInitial) /\ reg_after r = Some o
  | MBeforeP _ b => exists r, target m u = Some (IGeneral r, RVBefore) /\ reg_before r = Some b
  | _ => True
  end.
Proof.
  intros m u ph mt H Hp.
  destruct u as [n rv|n k rv|k|k]; cbn [resolve_u64 target] in *.
  3: destruct (existsb _ _); [|discriminate H]; injection H as <-; exact I.
  3: injection H as <-; exact I.
  - destruct (lookup (mp_u64 m) n) as [idx|]; [|discriminate H]. cbn [option_map].
    destruct idx as [i|i|r]; cbn in H; [injection H as <-; exact I|injection H as <-; exact I|].
    destruct rv, ph; try (exfalso; apply Hp; reflexivity); try discriminate H;
      first [destruct (reg_before r) eqn:E; [|discriminate H]; injection H as <-; eauto
            |destruct (reg_after r) eqn:E; [|discriminate H]; injection H as <-; eauto].
  - destruct (lookup (mp_multi m) n) as [idx|]; [|discriminate H]. cbn [option_map].
    destruct idx as [i|i|r]; cbn in H; [injection H as <-; exact I|injection H as <-; exact I|].
    destruct rv, ph; try (exfalso; apply Hp; reflexivity); try discriminate H;
      first [destruct (reg_before r) eqn:E; [|discriminate H]; injection H as <-; eauto
            |destruct (reg_after r) eqn:E; [|discriminate H]; injection H as <-; eauto].
Qed.
Print Assumptions C21_integer_before_consumers.

(** A request for the current after-phase value is refused before the solve if
    the parameter is a general one.  Missing: constant and simple parameters, for
    which it is not (below). *)
Theorem C21_integer_rejected_partial : forall m u ph r,
  target m u = Some (IGeneral r, RVAfter) -> ph <> CAfter -> forall mt, resolve_u64 m u ph <> Ok mt.
Proof.
  intros m u ph r Ht Hp mt H. destruct u as [n rv|n k rv|k|k]; cbn [resolve_u64 target] in *; try discriminate Ht.
  - destruct (lookup (mp_u64 m) n) as [idx|]; [|discriminate Ht]. injection Ht as -> ->. cbn in H.
    destruct ph; try discriminate H. apply Hp. reflexivity.
  - destruct (lookup (mp_multi m) n) as [idx|]; [|discriminate Ht]. injection Ht as -> ->. cbn in H.
    destruct ph; try discriminate H. apply Hp. reflexivity.
Qed.
Print Assumptions C21_integer_rejected_partial.

(** An integer metric that asks for the after-phase value of a parameter that has
    none is accepted, before the solve too, where a metric with floating-point
    values that asks the same of the same parameter is refused. *)
Theorem C21_integer_current_value_refuted :
  exists m n idx, lookup (mp_u64 m) n = Some idx /\ no_after_value idx /\
    (exists mt, resolve_u64 m (IValue n RVAfter) CBefore = Ok mt) /\
    (forall mt, resolve m (UF64 n RVAfter) CBefore <> Ok mt).
Proof.
  exists (Maps [] [(3, IConst 7)] [] [] []), 3, (IConst 7). split; [reflexivity|]. split; [exact I|].
  split; [eexists; reflexivity|]. intros mt. vm_compute. discriminate.
Qed.
Print Assumptions C21_integer_current_value_refuted.

(** The table that the models of C19, C20 and C84 use for integer metrics departs
    from the code exactly there: it refuses what the code accepts if the parameter
    is constant or simple and a value other than that before the solve is asked
    for, and gives the same result for every other metric. *)
Theorem C21_shared_table_exact : forall m u ph,
  resolve m (as_uref u) ph <> resolve_u64 m u ph <->
  exists i rv, target m u = Some (i, rv) /\ not_general i /\ rv <> RVBefore.
Proof.
  intros m u ph. destruct u as [n rv|n k rv|k|k]; cbn [resolve_u64 as_uref resolve target].
  3,4: split; [intros H; exfalso; apply H; reflexivity|intros (i & rv & H & _); discriminate H].
  - destruct (lookup (mp_u64 m) n) as [idx|]; cbn [option_map].
    2: split; [intros H; exfalso; apply H; reflexivity|intros (i & rv' & H & _); discriminate H].
    destruct idx as [i|i|r].
    3: { split; [intros H; exfalso; apply H; destruct rv, ph; reflexivity|intros (i & rv' & H & G & _)].
         injection H as <- <-. contradiction G. }
    all: split.
    all: try (intros (j & rv' & H & _ & G); injection H as <- <-; destruct rv; [contradiction (G eq_refl)| |]; cbn; discriminate).
    all: intros H; destruct rv; cbn in H; try (exfalso; apply H; reflexivity).
    all: eexists _, _; split; [reflexivity|split; [exact I|discriminate]].
  - destruct (lookup (mp_multi m) n) as [idx|]; cbn [option_map].
    2: split; [intros H; exfalso; apply H; reflexivity|intros (i & rv' & H & _); discriminate H].
    destruct idx as [i|i|r].
    3: { split; [intros H; exfalso; apply H; destruct rv, ph; reflexivity|intros (i & rv' & H & G & _)].
         injection H as <- <-. contradiction G. }
    all: split.
    all: try (intros (j & rv' & H & _ & G); injection H as <- <-; destruct rv; [contradiction (G eq_refl)| |]; cbn; discriminate).
    all: intros H; destruct rv; cbn in H; try (exfalso; apply H; reflexivity).
    all: eexists _, _; split; [reflexivity|split; [exact I|discriminate]].
Qed.
Print Assumptions C21_shared_table_exact.

(** And what the code does there is to give the value before the solve: an integer
    metric of a constant or simple parameter resolves, whatever it asks for and in
    whatever phase it is used, as it would in the shared table had it asked for
    that value. *)
Definition asking_before (u : iref) : iref :=
  match u with
  | IValue n _ => IValue n RVBefore
  | IMulti n k _ => IMulti n k RVBefore
  | ITransfer k => ITransfer k
  | ILit k => ILit k
  end.
Theorem C21_integer_as_before : forall m u ph i rv,
  target m u = Some (i, rv) -> not_general i ->
  resolve_u64 m u ph = resolve m (as_uref (asking_before u)) ph /\
  exists mt, resolve_u64 m u ph = Ok mt /\
    match i, mt with IConst k, MConstP _ k' | ISimple k, MSimpleP _ k' => k' = k | _, _ => False end.
Proof.
  intros m u ph i rv Ht Hi. destruct u as [n rv'|n k rv'|k|k]; cbn [target] in Ht; try discriminate Ht;
    cbn [resolve_u64 asking_before as_uref resolve].
  - destruct (lookup (mp_u64 m) n) as [idx|]; [|discriminate Ht]. injection Ht as -> ->.
    destruct i as [j|j|r]; [| |contradiction Hi]; (split; [reflexivity|eexists; split; reflexivity]).
  - destruct (lookup (mp_multi m) n) as [idx|]; [|discriminate Ht]. injection Ht as -> ->.
    destruct i as [j|j|r]; [| |contradiction Hi]; (split; [reflexivity|eexists; split; reflexivity]).
Qed.
Print Assumptions C21_integer_as_before.

(** A general integer parameter with a value in both phases, a constant one and a
    multi-valued one. *)
Example C21_integer_example :
  let m := Maps [] [(1, IGeneral (Reg 0 (Some 0) (Some 2))); (2, IConst 5)] [(4, ISimple 1)] [] [8] in
  resolve_u64 m (IValue 1 RVAfterOrInitial) CBefore = Ok (MAfterP AcU64 2) /\
  resolve_u64 m (IValue 1 RVAfter) CBoth = Err (RWrongPhase 1) /\
  resolve_u64 m (IValue 2 RVAfter) CBefore = Ok (MConstP AcU64 5) /\
  resolve_u64 m (IMulti 4 6 RVAfter) CBefore = Ok (MSimpleP (AcMulti 6) 1) /\
  resolve_u64 m (ITransfer 8) CBefore = Ok (MOther 8) /\
  resolve_u64 m (IValue 9 RVBefore) CBefore = Err (RNotFound 9).
Proof. cbn zeta. repeat split; reflexivity. Qed.
