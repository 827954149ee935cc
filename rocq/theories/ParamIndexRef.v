(** How integer metrics find the parameters they refer to.  The shared table of
    [ParamBuild.resolve_index] is that of metrics with floating-point values;
    the two functions for metrics with integer values are written out here. *)
From Verif Require Import Base ParamBuild.

(** pywr-core/src/metric.rs:1479-1491 [UnresolvedMetricU64].  [ITransfer] stands
    for a transfer between networks, and [ILit] for a literal constant. *)
Inductive iref :=
| IValue (n : pname) (rv : return_value)
| IMulti (n : pname) (key : nat) (rv : return_value)
| ITransfer (k : nat)
| ILit (k : nat).

(** pywr-core/src/metric.rs:1555-1677 [resolve_parameter_index_u64_to_metric_u64]
    and 1684-1834 [resolve_parameter_index_multi_to_metric_u64], which have the
    same table: a constant or simple parameter is accepted whatever the return
    value. *)
Definition resolve_index_u64 (n : pname) (a : access) (idx : pindex)
    (rv : return_value) (ph : consumer_phase) : res resolve_err metric :=
  match idx with
  | IConst i => Ok (MConstP a i)
  | ISimple i => Ok (MSimpleP a i)
  | IGeneral r =>
      match rv, ph with
      | RVBefore, CBefore | RVBefore, CAfter | RVBefore, CBoth =>
          match reg_before r with
          | Some b => Ok (MBeforeP a b)
          | None => Err (RWrongPhase n)
          end
      | RVAfter, CBefore | RVAfter, CBoth => Err (RWrongPhase n)
      | RVAfter, CAfter | RVAfterOrInitial, CBefore | RVAfterOrInitial, CAfter
      | RVAfterOrInitial, CBoth =>
          match reg_after r with
          | Some o => Ok (MAfterP a o)
          | None => Err (RWrongPhase n)
          end
      end
  end.

(** pywr-core/src/metric.rs:1500-1541 [UnresolvedMetricU64::resolve].  As in
    [ParamBuild.resolve], the transfers are among [mp_other]. *)
Definition resolve_u64 (m : maps) (u : iref) (ph : consumer_phase) : res resolve_err metric :=
  match u with
  | IValue n rv =>
      match lookup (mp_u64 m) n with
      | Some idx => resolve_index_u64 n AcU64 idx rv ph
      | None => Err (RNotFound n)
      end
  | IMulti n k rv =>
      match lookup (mp_multi m) n with
      | Some idx => resolve_index_u64 n (AcMulti k) idx rv ph
      | None => Err (RNotFound n)
      end
  | ITransfer k => if existsb (Nat.eqb k) (mp_other m) then Ok (MOther k) else Err ROtherErr
  | ILit k => Ok (MLit k)
  end.

(** The reference of [ParamBuild] that stands for an integer metric. *)
Definition as_uref (u : iref) : uref :=
  match u with
  | IValue n rv => UU64 n rv
  | IMulti n k rv => UMulti n k rv
  | ITransfer k => UOther k
  | ILit k => ULit k
  end.
