(** Vocabulary for the profile properties: positions in the year, neighbouring
    values, drawdown periods. *)
From Coq Require Import QArith.
From Verif Require Import Base Calendar Timestep Network.
Local Open Scope Z_scope.

(** The place of a calendar day in a year that has a 29 February, from zero. *)
Definition day_place (t : date) : Z := days_before_month true (d_month t) + d_day t - 1.

(** [v] is the [i]th configured value. *)
Definition configured (values : list Q) (i : Z) (v : Q) : Prop :=
  0 <= i < Z.of_nat (length values) /\ nth_error values (Z.to_nat i) = Some v.

(** [v] is a point of the segment from [a] to [b], at the fraction [num / den]. *)
Definition at_fraction (a b : Q) (num den : Z) (v : Q) : Prop :=
  0 < den /\ (v == a + (b - a) * (inject_Z num / inject_Z den))%Q.
Definition convex_of (a b v : Q) : Prop :=
  exists w, (0 <= w)%Q /\ (w <= 1)%Q /\ (v == (1 - w) * a + w * b)%Q.

(** Two date-times at the same time of the same calendar day, in any years. *)
Definition same_calendar_day (t u : datetime) : Prop :=
  d_month (dt_date t) = d_month (dt_date u) /\ d_day (dt_date t) = d_day (dt_date u) /\ dt_ns t = dt_ns u.

(** The reset date of year [y]. *)
Definition reset_date (month day y : Z) : date := Date y month day.

(** [t] falls in the drawdown period that starts with the reset of year [y]:
    [total] days from that reset to the next, [into] days of them gone. *)
Definition in_period (month day y : Z) (t : date) (into total : Z) : Prop :=
  valid_date (reset_date month day y) = true /\ valid_date (reset_date month day (y + 1)) = true /\
  into = day_number t - day_number (reset_date month day y) /\
  total = day_number (reset_date month day (y + 1)) - day_number (reset_date month day y) /\
  0 <= into < total.

(** Matrix times vector. *)
Definition dot (a b : list Q) : Q := qsum (map (fun p => (fst p * snd p)%Q) (combine a b)).

(** A linear solver that answers only with solutions. *)
Definition sound_solver (solve : list (list Q) -> list Q -> option (list Q)) : Prop :=
  forall m b w, solve m b = Some w ->
    length w = length b /\ Forall2 (fun row r => (dot row w == r)%Q) m b.

(** The place of a calendar day other than 29 February in a year without one,
    from zero. *)
Definition short_place (t : date) : Z := days_before_month false (d_month t) + d_day t - 1.
Definition feb29 (t : date) : Prop := d_month t = 2 /\ d_day t = 29.
