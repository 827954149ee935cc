(** What a time series says about a time-step. *)
From Coq Require Import QArith Permutation.
From Verif Require Import Base Timeseries.
Local Open Scope list_scope.
Local Open Scope Z_scope.

(** All rows of a table have a cell for every column. *)
Definition whole_rows (f : frame) : Prop := forall r, In r (fr_rows f) -> length (snd r) = length (fr_columns f).

(** The rows from [start] on are [spacing] apart. *)
Definition evenly (start spacing : Z) (l : list ts_row) : Prop :=
  exists t0 n, Permutation (map fst (filter (fun r => start <=? fst r) l)) (map (fun i => t0 + Z.of_nat i * spacing) (seq 0 n)).

(** The rows in the period from [a] up to but without [b]. *)
Definition within (a b : Z) (l : list ts_row) : list ts_row := filter (fun r => (a <=? fst r) && (fst r <? b)) l.
(** The values of column [j] in some rows. *)
Definition values_of (j : nat) (l : list ts_row) : list Q :=
  flat_map (fun r : ts_row => match nth_error (snd r) j with Some (Some q) => [q] | _ => [] end) l.
(** [o] is the mean of the values, if there are any. *)
Definition is_mean (vs : list Q) (o : option Q) : Prop :=
  match o with
  | Some q => vs <> [] /\ (q * inject_Z (Z.of_nat (length vs)) == fold_right Qplus 0 vs)%Q
  | None => vs = []
  end.
(** [o] is the value of column [j] in the last row, from [start] to [t], that
    has one. *)
Definition last_known (start t : Z) (j : nat) (l : list ts_row) (o : option Q) : Prop :=
  match o with
  | Some q => exists r, In r l /\ start <= fst r <= t /\ nth_error (snd r) j = Some (Some q) /\
      forall r', In r' l -> fst r < fst r' <= t -> nth_error (snd r') j = Some None
  | None => forall r, In r l -> start <= fst r <= t -> nth_error (snd r) j = Some None
  end.
