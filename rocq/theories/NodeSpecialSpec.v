(** What the parameters of Muskingum routing and of turbines do in a run. *)
From Coq Require Import Ascii String.
From Coq Require Import QArith.
From Verif Require Import Base Timestep Formulas Network NetworkBuild NetworkSpec Lp LpSpec SchemaNodes SchemaVirtual MetricSets SchemaParams ParamBuild ParamEval ParamTiers
  ParamTiersSpec NetState NetStateSpec WholeRun WholeRunSpec NodeParams NodeSpecial.
Local Open Scope string_scope.
Local Open Scope list_scope.
Local Open Scope nat_scope.

Section Runs.
Variables (V : valuation) (other_f : moment -> nat -> lmetric -> Q).

(** In each time-step the values of [s] are those of its formula, from what its
    metrics read. *)
Definition special_runs (T : nat) (s : special) : Prop :=
  forall t, t < T ->
  let rd mo m := read_f V other_f mo t m in
  match s with
  | SpMuskingum p i o k w ini =>
      muskingum_before (t =? 0) ini (Ok (rd Before i)) (Ok (rd Before o)) (Ok (rd Before k)) (Ok (rd Before w)) =
      Ok (rd Before (LmParam (Some (fst p)) (snd p) (Some "inflow_factor") RvBefore), rd Before (LmParam (Some (fst p)) (snd p) (Some "rhs") RvBefore))
  | SpHydropower p fl tg el h =>
      (tg <> None ->
       hydropower_before h (option_map (fun m => Ok (rd Before m)) tg) (option_map (fun m => Ok (rd Before m)) el) None None =
       Ok (rd Before (LmParam (Some (fst p)) (snd p) None RvBefore))) /\
      hydropower_after h (Some (Ok (rd After fl))) (option_map (fun m => Ok (rd After m)) el) =
      Ok (rd After (LmParam (Some (fst p)) (snd p) None RvAfter))
  | SpDeficit p fl mx =>
      deficit (Ok (rd After fl)) (Ok (rd After mx)) = Ok (rd After (LmParam (Some (fst p)) (snd p) None RvAfter))
  end.

(** What one of several values of a parameter was before the solve can be read
    after it too. *)
Definition keyed_values : Prop :=
  forall t parent name k, other_f Before t (LmParam parent name (Some k) RvBefore) = other_f After t (LmParam parent name (Some k) RvBefore).
End Runs.

(** A network that has been set up ([set_up] of WholeRunSpec.v) and in which the
    parameters [sps] are too. *)
Record set_up_with {X : Type} (a : added) (net : Network.network) (solver : list lp_state -> lp -> option (nat -> Q)) (fm : Q) (order : list (list nat))
    (cd : coding) (sm : sem (pvalue X) (pint X) timestep whole run_error) (cps : list cparam) (sps : list special) (ms : list lmetric) (nd : network_def)
    (nw : ParamEval.network) (coll : collection) : Prop := {
  sw_net : build_network (declaration a) = Ok net;
  sw_order : valid_order net order;
  sw_solver : forall ss l x, solver ss l = Some x -> feasible l x;
  sw_drives : exists b0, create fm order net = Ok b0 /\ drives a net solver cd b0 sm;
  sw_params : exists er multi, implements cd ts_date er sm cps /\ implements_special cd er sm sps multi;
  sw_metrics : network_metrics net cd ms nd;
  sw_build : exists nodes other bs mp, network_of cd cps bs nd /\ (forall s, In s sps -> In (special_builder cd s) bs) /\
    build nodes other bs = Some (Ok (coll, mp)) /\ resolve_network mp nd = Ok nw }.
