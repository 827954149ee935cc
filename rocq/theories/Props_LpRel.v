(** C38, C39: factors and mutual exclusivity of aggregated nodes. *)
From Verif Require Import Base Calendar Network NetworkBuild NetworkSpec NetworkBuildLemmas Lp LpSpec
  LpColLemmas LpRowLemmas LpUpdateLemmas LpLemmas LpRelLemmas LpDynLemmas Props_Network Props_Lp.
Open Scope nat_scope.

(** *** C38, constant factors *)
Theorem C38_constant_proportions : forall net fm order ss s x a shares, wf_network net -> solved net fm order ss s x ->
  In a (net_aggs net) -> a_rel a = Some (RFactored (FProportion (map MConst shares))) ->
  S (length shares) = length (a_nodes a) -> Forall (fun v => 0 <= v)%Q shares -> (qsum shares < 1)%Q ->
  proportions_hold net (edge_flow net x) (a_nodes a) shares.
Proof.
  intros net fm order ss s x a shares wf H. destruct (solved_unfold _ _ _ _ _ _ H) as (Ho & b0 & b & V & F & _ & Hcr & Hu & Hf).
  exact (const_proportions net wf fm order b0 V F Hcr s b Hu x Hf a shares).
Qed.
Print Assumptions C38_constant_proportions.

Theorem C38_constant_ratios : forall net fm order ss s x a ratios, wf_network net -> solved net fm order ss s x ->
  In a (net_aggs net) -> a_rel a = Some (RFactored (FRatio (map MConst ratios))) ->
  length ratios = length (a_nodes a) -> ratios <> [] -> Forall (fun v => 0 <= v)%Q ratios ->
  ratios_hold net (edge_flow net x) (a_nodes a) ratios.
Proof.
  intros net fm order ss s x a ratios wf H. destruct (solved_unfold _ _ _ _ _ _ H) as (Ho & b0 & b & V & F & _ & Hcr & Hu & Hf).
  exact (const_ratios net wf fm order b0 V F Hcr s b Hu x Hf a ratios).
Qed.
Print Assumptions C38_constant_ratios.

Theorem C38_constant_coefficients : forall net fm order ss s x a c0 c1 rhs, wf_network net -> solved net fm order ss s x ->
  In a (net_aggs net) ->
  (a_rel a = Some (RFactored (FCoefficients [MConst c0; MConst c1] (Some (MConst rhs)))) \/
   (a_rel a = Some (RFactored (FCoefficients [MConst c0; MConst c1] None)) /\ rhs = 0%Q)) ->
  length (a_nodes a) = 2 -> coefficients_hold net (edge_flow net x) (a_nodes a) [c0; c1] rhs.
Proof.
  intros net fm order ss s x a c0 c1 rhs wf H. destruct (solved_unfold _ _ _ _ _ _ H) as (Ho & b0 & b & V & F & _ & Hcr & Hu & Hf).
  exact (const_coefficients net wf fm order b0 V F Hcr s b Hu x Hf a c0 c1 rhs).
Qed.
Print Assumptions C38_constant_coefficients.

(** *** C38, factors that vary in time.  Full statement: the same as above with
    the factors' current values, for every aggregated node.  Proved when the
    groups hold no storage and share no decision variable among themselves or
    with another factored node ([factors_separate]); the refutations below show
    that these conditions cannot be dropped. *)
Theorem C38_dynamic_proportions_partial : forall net fm order ss s x k a fs, wf_network net -> solved net fm order ss s x ->
  nth_error (net_aggs net) k = Some a -> factors_separate net k a -> a_rel a = Some (RFactored (FProportion fs)) ->
  S (length fs) = length (a_nodes a) -> Forall (fun m => 0 <= metric_value (st_env s) m)%Q fs ->
  (qsum (map (metric_value (st_env s)) fs) < 1)%Q ->
  proportions_hold net (edge_flow net x) (a_nodes a) (map (metric_value (st_env s)) fs).
Proof.
  intros net fm order ss s x k a fs wf H. destruct (solved_unfold _ _ _ _ _ _ H) as (Ho & b0 & b & V & F & _ & Hcr & Hu & Hf).
  exact (dyn_proportions net wf fm order b0 V F Hcr s b Hu x Hf k a fs).
Qed.
Print Assumptions C38_dynamic_proportions_partial.

Theorem C38_dynamic_ratios_partial : forall net fm order ss s x k a fs, wf_network net -> solved net fm order ss s x ->
  nth_error (net_aggs net) k = Some a -> factors_separate net k a -> a_rel a = Some (RFactored (FRatio fs)) ->
  length fs = length (a_nodes a) -> fs <> [] -> Forall (fun m => 0 <= metric_value (st_env s) m)%Q fs ->
  ratios_hold net (edge_flow net x) (a_nodes a) (map (metric_value (st_env s)) fs).
Proof.
  intros net fm order ss s x k a fs wf H. destruct (solved_unfold _ _ _ _ _ _ H) as (Ho & b0 & b & V & F & _ & Hcr & Hu & Hf).
  exact (dyn_ratios net wf fm order b0 V F Hcr s b Hu x Hf k a fs).
Qed.
Print Assumptions C38_dynamic_ratios_partial.

Theorem C38_dynamic_coefficients_partial : forall net fm order ss s x k a m0 m1 rhs, wf_network net -> solved net fm order ss s x ->
  nth_error (net_aggs net) k = Some a -> factors_separate net k a ->
  a_rel a = Some (RFactored (FCoefficients [m0; m1] rhs)) -> length (a_nodes a) = 2 ->
  (metric_const m0 = None \/ metric_const m1 = None \/ match rhs with Some m => metric_const m <> None | None => True end) ->
  coefficients_hold net (edge_flow net x) (a_nodes a) [metric_value (st_env s) m0; metric_value (st_env s) m1]
    (match rhs with Some m => metric_value (st_env s) m | None => 0%Q end).
Proof.
  intros net fm order ss s x k a m0 m1 rhs wf H. destruct (solved_unfold _ _ _ _ _ _ H) as (Ho & b0 & b & V & F & _ & Hcr & Hu & Hf).
  exact (dyn_coefficients net wf fm order b0 V F Hcr s b Hu x Hf k a m0 m1 rhs).
Qed.
Print Assumptions C38_dynamic_coefficients_partial.

(** *** Concrete networks: an input feeding two outputs, optionally also a
    storage that empties into a third. *)
Definition rel_builder (mn mx : option metric) (aggs : list (list (list uname) * relationship)) : net_builder :=
  mkNetB [mkNb (nm "in") TInput None None None None None None None;
          mkNb (nm "x") TOutput None None mn mx None None None;
          mkNb (nm "y") TOutput None None mn mx None None None;
          mkNb (nm "st") TStorage None None None None (Some (IVAbsolute 50)) None (Some (MConst 100));
          mkNb (nm "z") TOutput None None None None None None None]
         [(nm "in", nm "x"); (nm "in", nm "y"); (nm "in", nm "st"); (nm "st", nm "z")]
         (map (fun ia => mkAb ("agg"%string, Some (fst ia)) (fst (snd ia)) None None (Some (snd (snd ia))))
              (combine (map (fun k => String.string_of_list_ascii (repeat Ascii.zero k)) (seq 0 (length aggs))) aggs)) [].
Definition rel_net mn mx aggs : network := match build_network (rel_builder mn mx aggs) with Ok n => n | _ => mkNet [] [] [] [] end.
Definition rel_state (v0 v1 : Q) : lp_state :=
  mkSt (fun k => match k with 0 => v0 | _ => v1 end)%nat (fun _ => 50%Q) (fun _ => 0%Q) (Date 2021 6 1) 1.
Definition rel_x (vs : list Q) (c : nat) : Q := nth c vs 0%Q.
Lemma rel_wf mn mx aggs net : build_network (rel_builder mn mx aggs) = Ok net -> wf_network net.
Proof. apply C37_built_well_formed. Qed.
Definition xy := [[nm "x"]; [nm "y"]].

Definition C38_net := rel_net None None [(xy, RFactored (FProportion [MConst (1#4)]))].
Example C38_constant_example : wf_network C38_net /\ solved C38_net F64_MAX [] [] (rel_state 0 0) (rel_x [3; 1; 7; 2]%Q) /\
  proportions_hold C38_net (edge_flow C38_net (rel_x [3; 1; 7; 2]%Q)) [[1]; [2]] [1#4]%Q /\
  solved_check C38_net F64_MAX [] [] (rel_state 0 0) (rel_x [3; 2; 7; 2]%Q) = false.
Proof.
  split; [apply (rel_wf None None [(xy, RFactored (FProportion [MConst (1#4)]))]); vm_compute; reflexivity|].
  split; [apply solved_check_sound; [apply valid_order_nil|]; vm_compute; reflexivity|].
  split; [|vm_compute; reflexivity]. split; [vm_compute; reflexivity|]. constructor; [vm_compute; reflexivity | constructor].
Qed.
Definition C38_dyn_net := rel_net None None [(xy, RFactored (FProportion [MDyn 0]))].
Example C38_dynamic_example : wf_network C38_dyn_net /\
  solved C38_dyn_net F64_MAX [] [rel_state (1#2) 0] (rel_state (1#4) 0) (rel_x [3; 1; 7; 2]%Q) /\
  (exists a, nth_error (net_aggs C38_dyn_net) 0 = Some a /\ a_rel a = Some (RFactored (FProportion [MDyn 0])) /\ factors_separate C38_dyn_net 0 a) /\
  solved_check C38_dyn_net F64_MAX [] [rel_state (1#4) 0] (rel_state (1#2) 0) (rel_x [3; 1; 7; 2]%Q) = false.
Proof.
  split; [apply (rel_wf None None [(xy, RFactored (FProportion [MDyn 0]))]); vm_compute; reflexivity|].
  split; [apply solved_check_sound; [apply valid_order_nil|]; vm_compute; reflexivity|]. split; [|vm_compute; reflexivity].
  eexists. split; [vm_compute; reflexivity|]. split; [reflexivity|]. constructor.
  - cbn [a_nodes concat app]. intros i n [<-|[<-|[]]] Hn; vm_compute in Hn; injection Hn as <-; discriminate.
  - cbn [a_nodes]. intros g [<-|[<-|[]]]; discriminate.
  - vm_compute. repeat constructor; cbn; intuition discriminate.
  - intros [|k'] a' fs Hk Ha'; [congruence|]. vm_compute in Ha'. destruct k'; discriminate.
Qed.

(** *** What does not hold *)

(** Invalid constant factors (here: shares adding up to 3/2) are not rejected:
    the programme is built without the constraint. *)
Theorem C38_invalid_factors_rejected_refuted :
  exists net s x a shares, wf_network net /\ solved net F64_MAX [] [] s x /\ In a (net_aggs net) /\
    a_rel a = Some (RFactored (FProportion (map MConst shares))) /\ (1 < qsum shares)%Q /\
    ~ proportions_hold net (edge_flow net x) (a_nodes a) shares.
Proof.
  set (agg := [(xy, RFactored (FProportion [MConst (3#2)]))]).
  exists (rel_net None None agg), (rel_state 0 0), (rel_x [1; 5; 0; 0]%Q). eexists. exists [3#2]%Q.
  split; [apply (rel_wf None None agg); vm_compute; reflexivity|].
  split; [apply solved_check_sound; [apply valid_order_nil|]; vm_compute; reflexivity|].
  split; [vm_compute; left; reflexivity|]. split; [reflexivity|]. split; [vm_compute; reflexivity|].
  intros [H _]. vm_compute in H. discriminate.
Qed.
Print Assumptions C38_invalid_factors_rejected_refuted.

(** With a varying share, a storage's outflow counts with the wrong sign. *)
Theorem C38_dynamic_storage_refuted :
  exists net s x a, wf_network net /\ solved net F64_MAX [] [] s x /\ In a (net_aggs net) /\
    a_rel a = Some (RFactored (FProportion [MDyn 0])) /\ (metric_value (st_env s) (MDyn 0) == 1#2)%Q /\
    length (a_nodes a) = 2 /\ ~ proportions_hold net (edge_flow net x) (a_nodes a) [1#2]%Q.
Proof.
  set (agg := [([[nm "x"]; [nm "st"]], RFactored (FProportion [MDyn 0]))]).
  exists (rel_net None None agg), (rel_state (1#2) 0), (rel_x [5; 0; 2; 3]%Q). eexists.
  split; [apply (rel_wf None None agg); vm_compute; reflexivity|].
  split; [apply solved_check_sound; [apply valid_order_nil|]; vm_compute; reflexivity|].
  split; [vm_compute; left; reflexivity|]. split; [reflexivity|]. split; [reflexivity|]. split; [reflexivity|].
  intros [H _]. vm_compute in H. discriminate.
Qed.
Print Assumptions C38_dynamic_storage_refuted.

(** Two aggregated nodes with varying shares over the same nodes get one row;
    only the later one's factors are applied. *)
Theorem C38_dynamic_shared_row_refuted :
  exists net s x a, wf_network net /\ solved net F64_MAX [] [] s x /\ In a (net_aggs net) /\
    a_rel a = Some (RFactored (FProportion [MDyn 0])) /\ (metric_value (st_env s) (MDyn 0) == 1#2)%Q /\
    length (a_nodes a) = 2 /\ ~ proportions_hold net (edge_flow net x) (a_nodes a) [1#2]%Q.
Proof.
  set (agg := [(xy, RFactored (FProportion [MDyn 0])); (xy, RFactored (FProportion [MDyn 1]))]).
  exists (rel_net None None agg), (rel_state (1#2) (1#4)), (rel_x [3; 1; 0; 0]%Q). eexists.
  split; [apply (rel_wf None None agg); vm_compute; reflexivity|].
  split; [apply solved_check_sound; [apply valid_order_nil|]; vm_compute; reflexivity|].
  split; [vm_compute; left; reflexivity|]. split; [reflexivity|]. split; [reflexivity|]. split; [reflexivity|].
  intros [H _]. vm_compute in H. discriminate.
Qed.
Print Assumptions C38_dynamic_shared_row_refuted.

(** Constant coefficients with a varying right-hand side: the right-hand side
    stays 0. *)
Theorem C38_dynamic_rhs_refuted :
  exists net s x a, wf_network net /\ solved net F64_MAX [] [] s x /\ In a (net_aggs net) /\
    a_rel a = Some (RFactored (FCoefficients [MConst 1; MConst 1] (Some (MDyn 0)))) /\ (metric_value (st_env s) (MDyn 0) == 10)%Q /\
    ~ coefficients_hold net (edge_flow net x) (a_nodes a) [1; 1]%Q 10.
Proof.
  set (agg := [(xy, RFactored (FCoefficients [MConst 1; MConst 1] (Some (MDyn 0))))]).
  exists (rel_net None None agg), (rel_state 10 0), (rel_x [0; 0; 0; 0]%Q). eexists.
  split; [apply (rel_wf None None agg); vm_compute; reflexivity|].
  split; [apply solved_check_sound; [apply valid_order_nil|]; vm_compute; reflexivity|].
  split; [vm_compute; left; reflexivity|]. split; [reflexivity|]. split; [reflexivity|].
  intros H. vm_compute in H. discriminate.
Qed.
Print Assumptions C38_dynamic_rhs_refuted.

(** *** C39 *)

(** At most the configured number of sets carry flow (constant limits). *)
Theorem C39_at_most_max_active : forall net fm order ss s x a mn mx, wf_network net -> solved net fm order ss s x ->
  In a (net_aggs net) -> a_rel a = Some (RExclusive mn mx) -> constant_limits net (a_nodes a) (fun _ _ => True) ->
  sets_active net (edge_flow net x) (a_nodes a) <= mx.
Proof.
  intros net fm order ss s x a mn mx wf H. destruct (solved_unfold _ _ _ _ _ _ H) as (Ho & b0 & b & V & F & _ & Hcr & Hu & Hf).
  exact (exclusivity_max net wf fm order b0 V F Hcr s b Hu x Hf Ho a mn mx).
Qed.
Print Assumptions C39_at_most_max_active.

(** At least the configured number of sets carry flow, in all their nodes.
    Full statement: for all limits; proved for constant limits with minimum
    flows other than 0. *)
Theorem C39_at_least_min_active_partial : forall net fm order ss s x a mn mx, wf_network net -> solved net fm order ss s x ->
  In a (net_aggs net) -> a_rel a = Some (RExclusive mn mx) -> constant_limits net (a_nodes a) (fun lo _ => ~ (lo == 0)%Q) ->
  mn <= sets_fully_active net (edge_flow net x) (a_nodes a).
Proof.
  intros net fm order ss s x a mn mx wf H. destruct (solved_unfold _ _ _ _ _ _ H) as (Ho & b0 & b & V & F & _ & Hcr & Hu & Hf).
  exact (exclusivity_min net wf fm order b0 V F Hcr s b Hu x Hf Ho a mn mx).
Qed.
Print Assumptions C39_at_least_min_active_partial.

Lemma node_flow_nonneg net f i n : (forall e, e < length (net_edges net) -> (0 <= f e)%Q) -> nth_error (net_nodes net) i = Some n ->
  n_type n <> TStorage -> (0 <= node_flow net f i)%Q.
Proof.
  intros H Hn Ht. unfold node_flow. rewrite Hn.
  assert (Hs : forall l, (forall e, In e l -> e < length (net_edges net)) -> (0 <= qsum (map f l))%Q).
  { induction l as [|e l IH]; intros Hl; cbn [map]; [cbn; lra|]. rewrite qsum_cons. pose proof (H e (Hl e (or_introl eq_refl))).
    specialize (IH (fun d Hd => Hl d (or_intror Hd))). lra. }
  destruct (n_type n); try congruence; apply Hs; intros e He; [exact (out_edges_lt net i e He) | exact (in_edges_lt net i e He) | exact (out_edges_lt net i e He)].
Qed.

(** A member keeps to its constant limits whenever it carries flow. *)
Theorem C39_member_limits : forall net fm order ss s x a mn mx ns i n lo hi, wf_network net -> solved net fm order ss s x ->
  In a (net_aggs net) -> a_rel a = Some (RExclusive mn mx) -> In ns (a_nodes a) -> In i ns ->
  nth_error (net_nodes net) i = Some n -> n_type n <> TStorage ->
  (n_min n = Some (MConst lo) \/ (n_min n = None /\ lo = 0%Q)) ->
  (n_max n = Some (MConst hi) \/ (n_max n = None /\ hi = F64_MAX)) -> (0 <= hi)%Q ->
  (0 <= node_flow net (edge_flow net x) i <= hi)%Q /\
  ((0 < node_flow net (edge_flow net x) i)%Q -> (0 <= lo)%Q -> (lo <= node_flow net (edge_flow net x) i)%Q).
Proof.
  intros net fm order ss s x a mn mx ns i n lo hi wf H Ha Hr Hns Hi Hn Ht Hlo Hhi Hp.
  assert (Hnn : (0 <= node_flow net (edge_flow net x) i)%Q).
  { apply (node_flow_nonneg net _ i n); [|exact Hn | exact Ht]. intros e He. apply (C09_edge_flows_non_negative net fm order ss s x e wf H He). }
  destruct (solved_unfold _ _ _ _ _ _ H) as (Ho & b0 & b & V & F & _ & Hcr & Hu & Hf).
  destruct (exclusivity_limits net wf fm order b0 V F Hcr s b Hu x Hf Ho a mn mx ns i n lo hi Ha Hr Hns Hi Hn Ht Hlo Hhi Hp Hnn) as [H1 H2].
  split; [split; assumption|]. intros Hpos Hl. destruct H2 as [H2|H2]; [lra | exact (H2 Hl)].
Qed.
Print Assumptions C39_member_limits.

Lemma valid_order_xy net a mn mx : net_aggs net = [a] -> a_rel a = Some (RExclusive mn mx) -> a_nodes a = [[1]; [2]] -> valid_order net [[1]; [2]].
Proof.
  intros Hn Hr Ha. split; [repeat constructor; cbn; intuition discriminate|]. intros t. unfold exclusive_set. rewrite Hn. split.
  - intros H. exists a. split; [left; reflexivity|]. split; [unfold has_exclusivity; rewrite Hr; reflexivity | rewrite Ha; exact H].
  - intros (a' & [<-|[]] & _ & H). rewrite Ha in H. exact H.
Qed.

Definition C39_net := rel_net (Some (MConst 1)) (Some (MConst 5)) [(xy, RExclusive 1 1)].
Example C39_example : wf_network C39_net /\ solved C39_net F64_MAX [[1]; [2]] [] (rel_state 0 0) (rel_x [3; 0; 0; 0; 1; 0]%Q) /\
  (exists a, net_aggs C39_net = [a] /\ a_rel a = Some (RExclusive 1 1) /\
     constant_limits C39_net (a_nodes a) (fun lo hi => (lo == 1)%Q /\ (hi == 5)%Q)) /\
  solved_check C39_net F64_MAX [[1]; [2]] [] (rel_state 0 0) (rel_x [3; 1; 0; 0; 1; 1]%Q) = false.
Proof.
  split; [apply (rel_wf (Some (MConst 1)) (Some (MConst 5)) [(xy, RExclusive 1 1)]); vm_compute; reflexivity|]. split.
  { apply solved_check_sound; [|vm_compute; reflexivity]. eapply valid_order_xy; vm_compute; reflexivity. }
  split; [|vm_compute; reflexivity]. eexists. split; [vm_compute; reflexivity|]. split; [reflexivity|].
  cbn [a_nodes]. intros ns i [<-|[<-|[]]] [<-|[]]; (eexists; exists 1%Q, 5%Q; split; [vm_compute; reflexivity|]; cbn;
    split; [discriminate|]; split; [left; reflexivity|]; split; [left; reflexivity | split; reflexivity]).
Qed.

(** With varying limits the group is not exclusive at all: both members carry
    flow although at most one may. *)
Theorem C39_dynamic_limits_refuted :
  exists net order s x a, wf_network net /\ solved net F64_MAX order [] s x /\ In a (net_aggs net) /\
    a_rel a = Some (RExclusive 0 1) /\ sets_active net (edge_flow net x) (a_nodes a) = 2.
Proof.
  set (agg := [(xy, RExclusive 0 1)]).
  exists (rel_net None (Some (MDyn 0)) agg), [[1]; [2]], (rel_state 5 0), (rel_x [1; 1; 0; 0; 0; 0]%Q). eexists.
  split; [apply (rel_wf None (Some (MDyn 0)) agg); vm_compute; reflexivity|].
  split; [apply solved_check_sound; [eapply valid_order_xy; vm_compute; reflexivity | vm_compute; reflexivity]|].
  split; [vm_compute; left; reflexivity|]. split; [reflexivity|]. vm_compute. reflexivity.
Qed.
Print Assumptions C39_dynamic_limits_refuted.

(** With minimum flows of 0 no member needs to carry flow although one must. *)
Theorem C39_min_active_refuted :
  exists net order s x a, wf_network net /\ solved net F64_MAX order [] s x /\ In a (net_aggs net) /\
    a_rel a = Some (RExclusive 1 1) /\ sets_active net (edge_flow net x) (a_nodes a) = 0.
Proof.
  set (agg := [(xy, RExclusive 1 1)]).
  exists (rel_net None (Some (MConst 5)) agg), [[1]; [2]], (rel_state 0 0), (rel_x [0; 0; 0; 0; 1; 0]%Q). eexists.
  split; [apply (rel_wf None (Some (MConst 5)) agg); vm_compute; reflexivity|].
  split; [apply solved_check_sound; [eapply valid_order_xy; vm_compute; reflexivity | vm_compute; reflexivity]|].
  split; [vm_compute; left; reflexivity|]. split; [reflexivity|]. vm_compute. reflexivity.
Qed.
Print Assumptions C39_min_active_refuted.
