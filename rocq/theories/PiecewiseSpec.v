(** A reservoir divided into stores, one on top of the other. *)
From Coq Require Import QArith.
From Verif Require Import Base Network NetworkBuild NetworkSpec SchemaNodes.
Local Open Scope nat_scope.

(** An amount of water distributed over stores with the given capacities: no
    store holds more than it can, nothing is lost, and water is in a store only
    if those below it are full. *)
Record filled (capacities levels : list Q) (amount : Q) : Prop := {
  fl_within : Forall2 (fun c l => 0 <= l /\ l <= c)%Q capacities levels;
  fl_total : (qsum levels == amount)%Q;
  fl_bottom_up : forall i j ci li lj, i < j -> nth_error capacities i = Some ci -> nth_error levels i = Some li ->
    nth_error levels j = Some lj -> (0 < lj)%Q -> (li == ci)%Q }.

(** Control curves in order, between [lo] and [hi]. *)
Fixpoint ascending (lo : Q) (curves : list Q) (hi : Q) : Prop :=
  match curves with
  | [] => (lo <= hi)%Q
  | c :: r => (lo <= c)%Q /\ ascending c r hi
  end.

(** The stores of the piecewise storage called [name], which has [n] control
    curves: their indices and nodes, from the bottom. *)
Record stores_of (a : added) (net : network) (name : string) (n : nat) (indices : list nat) (stores : list node) : Prop := {
  so_indices : length indices = S n;
  so_stores : length stores = S n;
  so_store : forall i k s, nth_error indices i = Some k -> nth_error stores i = Some s ->
    declared (declaration a) k (store_name name i) /\ nth_error (net_nodes net) k = Some s }.

(** The initial volume the file asks for. *)
Definition initial_amount (i : sinit) (total : Q) : Q :=
  match i with SIAbsolute v => v | SIProportional p => (p * total)%Q end.
