(** The parameters of Muskingum routing and of turbines in a run of the model
    file. *)
From Coq Require Import Ascii String.
From Coq Require Import QArith Lia.
From Verif Require Import Base Calendar Timestep Network NetworkBuild NetworkBuildLemmas NetworkSpec Lp LpSpec NetState NetStateSpec NetHistLemmas Formulas AggFuncs ParamsTemporal
  ParamsTemporalLemmas ControlCurves SchemaNodes SchemaMetrics SchemaSpec SchemaLemmas SchemaRun MetricSets SchemaParams WholeRun WholeRunSpec WholeRunFacts LpEnv
  NodeParams NodeParamsSpec NodeParamsLemmas NodeSpecial NodeSpecialSpec.
Local Open Scope string_scope.
Local Open Scope list_scope.
Local Open Scope nat_scope.

Section File.
Variables (key : umetric -> nat) (step : option Z) (sc : schema) (a : added) (net : Network.network) (fm : Q) (order : list (list nat))
  (ms : list lmetric) (name : nat -> lmetric) (V : valuation) (other_f : moment -> nat -> lmetric -> Q) (other_i : moment -> nat -> lindex -> Z)
  (date : nat -> datetime) (ts : list timestep) (steps : list sim_step) (cps : list cparam) (sps : list special).
Hypothesis Hload : load_schema key step sc = Ok a.
Hypothesis Hbuild : build_network (declaration a) = Ok net.
Hypothesis wr : whole_run a net fm order ms V other_f ts steps.
Hypothesis nu : numbering key name ms a net.
Hypothesis Hkeyed : keyed_values other_f.
Hypothesis Hruns : forall s, In s sps -> special_runs V other_f (length ts) s.
Hypothesis Hreg : forall d s, In d (ad_params a) -> registered_special name d = Some s -> In s sps.

Let tr := seen_run key name V other_f steps.

(** What a parameter reads after the solve. *)
Lemma after_read d j p m : In d (ad_params a) -> In m (reads d) -> rs_after (seen key name V other_f j p) m = read_f V other_f After j (metric_of name m).
Proof.
  intros Hd Hm. destruct m; try reflexivity.
  change (rs_after (seen key name V other_f j p) (UParam p0 key0)) with (before key (seen key name V other_f j p) (UParam p0 key0)).
  rewrite (before_read key a net ms name V other_f nu d j p _ Hd Hm). cbn [metric_of]. destruct key0 as [k|]; cbn [read_f]; [apply Hkeyed|reflexivity].
Qed.

Lemma special_follows d s : In d (ad_params a) -> registered_special name d = Some s -> follows key tr d.
Proof.
  intros Hd Hs. pose proof (Hruns s (Hreg d s Hd Hs)) as HR.
  destruct d as [| p i o k w ini| | | | | | |p fl tg el h|]; try discriminate Hs; injection Hs as <-; cbn [follows].
  - intros j t Ht. destruct (seen_inv key name V other_f ts steps j t Ht) as (p0 & Hp & ->).
    pose proof (HR j (step_lt a net fm order ms V other_f ts steps wr j p0 Hp)) as E. cbv beta zeta in E.
    rewrite !(before_read key a net ms name V other_f nu _ j p0 _ Hd) by (cbn; auto 6).
    eexists _, _. split; [exact E|].
    rewrite !(before_own key a net ms name V other_f nu _ j p0 _ Hd) by (cbn; auto 6). split; reflexivity.
  - intros t Ht. destruct (seen_in key name V other_f ts steps t Ht) as (j & p0 & Hp & ->).
    destruct (HR j (step_lt a net fm order ms V other_f ts steps wr j p0 Hp)) as [E1 E2]. cbv beta zeta in E1, E2.
    assert (RB : forall m, In m (reads (PHydropower p fl tg el h)) -> before key (seen key name V other_f j p0) m = read_f V other_f Before j (metric_of name m))
      by (intros m; exact (before_read key a net ms name V other_f nu _ j p0 m Hd)).
    split.
    + intros Htg. destruct tg as [tg|]; [|congruence]. eexists. split; [|rewrite (before_own key a net ms name V other_f nu _ j p0 _ Hd (or_introl eq_refl)); reflexivity].
      unfold befores. cbn [option_map] in E1 |- *. rewrite (RB tg) by (cbn; auto).
      destruct el as [el|]; cbn [option_map] in E1 |- *; [rewrite (RB el) by (cbn; auto)|]; apply E1; discriminate.
    + destruct (made_kind key step sc a Hload _ Hd) as (u & ->). eexists. split; [|reflexivity].
      unfold afters. destruct el as [el|]; cbn [option_map] in E2 |- *; [rewrite (after_read _ j p0 el Hd) by (cbn; apply in_app_iff; right; left; reflexivity)|]; exact E2.
Qed.
End File.
