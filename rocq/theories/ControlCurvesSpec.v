(** What zones, control curves and interpolation mean. *)
From Coq Require Import QArith.
From Verif Require Import Base Network ControlCurves.
Local Open Scope nat_scope.

(** Curves from the top down. *)
Fixpoint descending (l : list Q) : Prop :=
  match l with
  | a :: (b :: _) as rest => (b <= a)%Q /\ descending rest
  | _ => True
  end.
Fixpoint strictly_increasing (l : list (Q * Q)) : Prop :=
  match l with
  | a :: (b :: _) as rest => (fst a < fst b)%Q /\ strictly_increasing rest
  | _ => True
  end.

(** How many curves lie strictly above a volume. *)
Definition curves_above (x : Q) (curves : list Q) : nat :=
  length (filter (fun c => negb (Qle_bool c x)) curves).

(** Zone [k] is the first whose lower curve is not above the volume. *)
Definition in_zone (x : Q) (curves : list Q) (k : nat) : Prop :=
  k <= length curves /\
  (forall i c, i < k -> nth_error curves i = Some c -> (x < c)%Q) /\
  (forall c, nth_error curves k = Some c -> (c <= x)%Q).

(** The top and the bottom of zone [k] between [top] and [bottom]. *)
Definition zone_top (top : Q) (curves : list Q) (k : nat) : Q := nth k (top :: curves) top.
Definition zone_bottom (bottom : Q) (curves : list Q) (k : nat) : Q := nth k curves bottom.

Definition between (a b y : Q) : Prop := (a <= y <= b)%Q \/ (b <= y <= a)%Q.

(** The height at [x] of the line through [(x0, y0)] and [(x1, y1)]. *)
Definition on_line (x x0 x1 y0 y1 y : Q) : Prop := ((y - y0) * (x1 - x0) == (y1 - y0) * (x - x0))%Q.

(** The volumes between neighbouring curves, from the top of the storage to its
    bottom. *)
Fixpoint zone_volumes (total : Q) (upper : option reading) (curves : list Q) : list (res curve_error Q) :=
  match curves with
  | [] => [volume_between (Ok total) upper None]
  | c :: rest => volume_between (Ok total) upper (Some (Ok c)) :: zone_volumes total (Some (Ok c)) rest
  end.
