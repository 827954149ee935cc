(** Hydropower, as physics has it. *)
From Coq Require Import QArith Qminmax.
From Verif Require Import Base Formulas.
Local Open Scope Q_scope.

(** Energy per time from a flow over a head: density times gravity times flow
    times head, less the turbine's losses, in the units of the model. *)
Definition produces (h : hydro) (flow head power : Q) : Prop :=
  power == hy_density h * (981 # 100) * head * (flow * hy_flow_conversion h) * hy_efficiency h * hy_energy_conversion h.

(** The working head: from the water's surface to the turbine, never negative.
    Without a water level the turbine's elevation is taken for the head. *)
Definition working_head (h : hydro) (water_elevation : option Q) (head : Q) : Prop :=
  let d := match water_elevation with Some w => w - hy_elevation h | None => hy_elevation h end in
  head == Qmax d 0.

(** A turbine that can turn water into power. *)
Definition proper (h : hydro) : Prop :=
  0 < hy_density h /\ 0 < hy_flow_conversion h /\ 0 < hy_efficiency h /\ 0 < hy_energy_conversion h /\ 0 <= hy_min_head h.
