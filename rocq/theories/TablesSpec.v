(** Which cell of a CSV file a key addresses. *)
From Coq Require Import QArith.
From Verif Require Import Base Tables.
Local Open Scope string_scope.
Local Open Scope list_scope.
Local Open Scope nat_scope.

(** Column [j] is headed [key] in the records [hs]. *)
Definition headed (hs : list csv_record) (j : nat) (key : list string) : Prop :=
  Forall2 (fun r k => nth_error r j = Some k) hs key.

(** In a file with the given layout the cell addressed by [key] reads [s].  By
    row: the first [n] columns hold the key, the next one the value.  By column:
    the first [n] records (the header is one of them) hold the key, the next one
    the value.  By both: the key of the row, in the first [cols] columns, is
    followed by the key of the column, in the first [rows] records. *)
Definition cell (l : lookup) (f : list csv_record) (key : list string) (s : string) : Prop :=
  match l with
  | LookupRow n => exists r, In r (tl f) /\ firstn n r = key /\ nth_error r n = Some s
  | LookupCol n => exists j r, headed (firstn n f) j key /\ nth_error f n = Some r /\ nth_error r j = Some s
  | LookupBoth rows cols => exists r j k, In r (skipn rows f) /\ cols <= j /\ headed (firstn rows f) j k /\
      key = firstn cols r ++ k /\ nth_error r j = Some s
  end.
(** The cells of the vector addressed by [key]: the rest of its row or of its
    column. *)
Definition vector (l : lookup) (f : list csv_record) (key : list string) (ss : list string) : Prop :=
  match l with
  | LookupRow n => exists r, In r (tl f) /\ n <= length r /\ firstn n r = key /\ skipn n r = ss
  | LookupCol n => exists j, headed (firstn n f) j key /\ Forall2 (fun r s => nth_error r j = Some s) (skipn n f) ss
  | LookupBoth _ _ => False
  end.

(** No key addresses two cells that read differently. *)
Definition unambiguous {A} (addresses : list string -> A -> Prop) : Prop :=
  forall k s s', addresses k s -> addresses k s' -> s = s'.

(** The number of strings in a key. *)
Definition key_size (l : lookup) : nat :=
  match l with LookupRow n | LookupCol n => n | LookupBoth rows cols => rows + cols end.

(** The number a cell holds. *)
Definition number (parse_f64 : string -> option Q) (parse_i64 : string -> option Z) (s : string) (q : Q) : Prop :=
  parse_f64 s = Some q \/ parse_f64 s = None /\ exists z, parse_i64 s = Some z /\ q = inject_Z z.

(** Every record is as long as the header. *)
Definition rectangular (f : list csv_record) : Prop := forall r, In r f -> length r = length (hd [] f).
