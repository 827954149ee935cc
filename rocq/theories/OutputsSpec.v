(** What the output files should hold. *)
From Coq Require Import QArith.
From Verif Require Import Base Calendar Timestep Network AggFuncs Aggregator AggregatorSpec Memory MemorySpec.
Open Scope nat_scope.

(** The series a metric set records of one metric: its history, or what the
    aggregator makes of it, with what the aggregator still holds at the end. *)
Definition recorded (ms : metric_set) (h vs : list pvalue) : Prop :=
  match ms_aggregator ms with
  | None => vs = h
  | Some a => exists outs st fin st', append_all a (setup a) h = Ok (outs, st) /\ finalise a st = Ok (fin, st') /\ vs = emitted outs ++ if_any fin
  end.

(** A cell of a CSV record. *)
Definition cell (c : nat) (record : list string) : string := nth c record ""%string.

(** The record of the long format belongs to a scenario, a metric set and a metric. *)
Definition belongs (sc : scenario_id) (set_name : string) (m : string * string) (r : long_record) : bool :=
  ((lr_simulation r =? si_simulation sc) && String.eqb (lr_metric_set r) set_name && String.eqb (lr_name r) (fst m) && String.eqb (lr_attribute r) (snd m))%bool.
