(** A network reads the metrics of its own nodes only: what other numbers have
    for a value does not change its linear programmes. *)
From Coq Require Import QArith Lia.
From Verif Require Import Base Network NetworkSpec Lp LpSpec WholeRun.
Local Open Scope list_scope.
Local Open Scope nat_scope.

(** The numbers of the metrics of a network: costs, limits and factors. *)
Definition node_keys (n : node) : list nat :=
  keys_of (n_min n) ++ keys_of (n_max n) ++ keys_of (n_minv n) ++ keys_of (n_maxv n) ++ keys_of (c_local (n_cost n)).
Definition factor_keys (r : option relationship) : list nat :=
  match r with
  | Some (RFactored (FProportion fs)) | Some (RFactored (FRatio fs)) => flat_map key_of fs
  | Some (RFactored (FCoefficients fs rhs)) => flat_map key_of fs ++ keys_of rhs
  | _ => []
  end.
Definition agg_keys (g : agg_node) : list nat := keys_of (a_min g) ++ keys_of (a_max g) ++ factor_keys (a_rel g).
Definition vs_keys (v : vs_node) : list nat := keys_of (v_minv v) ++ keys_of (v_maxv v) ++ keys_of (v_cost v).
Definition network_keys (net : network) : list nat :=
  flat_map node_keys (net_nodes net) ++ flat_map agg_keys (net_aggs net) ++ flat_map vs_keys (net_vss net).

Definition with_env (e : env) (s : lp_state) : lp_state := mkSt e (st_volume s) (st_vs_volume s) (st_date s) (st_days s).

Section Ext.
Variables (net : network) (e e' : env).
Hypothesis same : forall k, In k (network_keys net) -> e k = e' k.

Lemma same_metric m : (forall k, In k (key_of m) -> In k (network_keys net)) -> metric_value e m = metric_value e' m.
Proof. intros H. destruct m as [q|k]; [reflexivity|]. cbn. apply same, H. left. reflexivity. Qed.
Lemma same_min m : (forall k, In k (keys_of m) -> In k (network_keys net)) -> get_min e m = get_min e' m.
Proof. intros H. destruct m; [apply same_metric; exact H|reflexivity]. Qed.
Lemma same_max m : (forall k, In k (keys_of m) -> In k (network_keys net)) -> get_max e m = get_max e' m.
Proof. intros H. destruct m; [apply same_metric; exact H|reflexivity]. Qed.

Lemma keys_node n k : In n (net_nodes net) -> In k (node_keys n) -> In k (network_keys net).
Proof. intros Hn Hk. unfold network_keys. rewrite !in_app_iff. left. apply in_flat_map. eauto. Qed.
Lemma keys_agg g k : In g (net_aggs net) -> In k (agg_keys g) -> In k (network_keys net).
Proof. intros Hn Hk. unfold network_keys. rewrite !in_app_iff. right. left. apply in_flat_map. eauto. Qed.
Lemma keys_vs v k : In v (net_vss net) -> In k (vs_keys v) -> In k (network_keys net).
Proof. intros Hn Hk. unfold network_keys. rewrite !in_app_iff. right. right. apply in_flat_map. eauto. Qed.

Lemma same_cost n : In n (net_nodes net) -> get_cost net e (n_cost n) = get_cost net e' (n_cost n).
Proof.
  intros Hn. unfold get_cost.
  assert (E1 : match c_local (n_cost n) with None => 0%Q | Some m => metric_value e m end = match c_local (n_cost n) with None => 0%Q | Some m => metric_value e' m end).
  { destruct (c_local (n_cost n)) as [m|] eqn:E; [|reflexivity]. apply same_metric. intros k Hk. apply (keys_node n k Hn).
    unfold node_keys. rewrite !in_app_iff, E. do 4 right. exact Hk. }
  rewrite E1. f_equal. set (f e := fun i => match nth_error (net_vss net) i with Some v => [vs_cost e v] | None => [] end).
  assert (E2 : flat_map (f e) (c_vs (n_cost n)) = flat_map (f e') (c_vs (n_cost n))).
  { apply flat_map_ext. intros i. unfold f. destruct (nth_error (net_vss net) i) as [v|] eqn:Ev; [|reflexivity]. f_equal. unfold vs_cost.
    destruct (v_cost v) as [m|] eqn:E; [|reflexivity]. apply same_metric. intros k Hk. apply (keys_vs v k (nth_error_In _ _ Ev)).
    unfold vs_keys. rewrite !in_app_iff, E. right. right. exact Hk. }
  unfold f in E2. rewrite E2. reflexivity.
Qed.

Lemma same_objectives obj : update_edge_objectives net e obj = update_edge_objectives net e' obj.
Proof.
  unfold update_edge_objectives. generalize (map (fun _ : Q => 0%Q) obj) as o. generalize (combine (seq 0 (length (net_edges net))) (net_edges net)) as l.
  induction l as [|ie l IH]; intros o; [reflexivity|]. cbn [fold_left].
  assert (E : edge_cost net e (snd ie) = edge_cost net e' (snd ie)).
  { unfold edge_cost. f_equal.
    - destruct (nth_error (net_nodes net) (e_from (snd ie))) as [n|] eqn:E; [|reflexivity]. unfold outgoing_cost. rewrite (same_cost n (nth_error_In _ _ E)). reflexivity.
    - destruct (nth_error (net_nodes net) (e_to (snd ie))) as [n|] eqn:E; [|reflexivity]. unfold incoming_cost. rewrite (same_cost n (nth_error_In _ _ E)). reflexivity. }
  rewrite E. apply IH.
Qed.

Lemma same_values fs : (forall k, In k (flat_map key_of fs) -> In k (network_keys net)) -> forall m, In m fs -> metric_value e m = metric_value e' m.
Proof. intros H m Hm. apply same_metric. intros k Hk. apply H, in_flat_map. eauto. Qed.

Lemma same_pairs g : In g (net_aggs net) -> norm_factor_pairs e g = norm_factor_pairs e' g.
Proof.
  intros Hg. assert (HK : forall k, In k (factor_keys (a_rel g)) -> In k (network_keys net)).
  { intros k Hk. apply (keys_agg g k Hg). unfold agg_keys. rewrite !in_app_iff. right. right. exact Hk. }
  unfold norm_factor_pairs. destruct (a_rel g) as [[[fs|fs|fs rhs]|lo hi]|]; try reflexivity; f_equal; cbn [factor_keys] in HK.
  - unfold proportion_pairs. destruct (a_nodes g) as [|n0 rest]; [reflexivity|].
    rewrite (map_ext_in _ _ _ (same_values fs HK)). reflexivity.
  - unfold ratio_pairs. destruct (a_nodes g) as [|n0 rest]; [reflexivity|]. destruct fs as [|m0 fs]; [reflexivity|].
    pose proof (same_values _ HK) as S. rewrite (S m0 (or_introl eq_refl)).
    rewrite (map_ext_in (fun n1m => mkFp n0 (Fin 1) (fst n1m) (fdiv (- metric_value e' m0) (metric_value e (snd n1m))) 0)
                        (fun n1m => mkFp n0 (Fin 1) (fst n1m) (fdiv (- metric_value e' m0) (metric_value e' (snd n1m))) 0)); [reflexivity|].
    intros [x m] Hi. cbn. rewrite (S m); [reflexivity|]. right. exact (in_combine_r _ _ _ _ Hi).
  - assert (S := same_values fs (fun k Hk => HK k (proj2 (in_app_iff _ _ _) (or_introl Hk)))).
    assert (R : match rhs with Some m => metric_value e m | None => 0%Q end = match rhs with Some m => metric_value e' m | None => 0%Q end).
    { destruct rhs as [m|]; [|reflexivity]. apply same_metric. intros k Hk. apply HK, in_app_iff. right. exact Hk. }
    unfold coefficient_pairs. destruct (negb (length fs =? length (a_nodes g))); [reflexivity|].
    destruct (a_nodes g) as [|n0 [|n1 [|]]]; try reflexivity. destruct fs as [|m0 [|m1 [|]]]; try reflexivity.
    rewrite R, (S m0), (S m1); [reflexivity|right; left; reflexivity|left; reflexivity].
Qed.

Lemma same_ops b s : st_env s = e -> update_ops net b s = update_ops net b (with_env e' s).
Proof.
  intros Es. unfold update_ops.
  assert (F : rmap (factor_agg_ops net s) (bt_factors b) = rmap (factor_agg_ops net (with_env e' s)) (bt_factors b)).
  { induction (bt_factors b) as [|fi l IH]; [reflexivity|]. cbn [rmap]. rewrite IH.
    assert (E : factor_agg_ops net s fi = factor_agg_ops net (with_env e' s) fi).
    { unfold factor_agg_ops. destruct (nth_error (net_aggs net) (fst fi)) as [g|] eqn:Eg; [|reflexivity].
      cbn [with_env st_env]. rewrite Es, (same_pairs g (nth_error_In _ _ Eg)). reflexivity. }
    rewrite E. reflexivity. }
  rewrite F. destruct (rmap (factor_agg_ops net (with_env e' s)) (bt_factors b)) as [fo|?|]; cbn [rbind]; try reflexivity. f_equal. f_equal; [|f_equal; f_equal].
  - apply flat_map_ext. intros nr. unfold node_row_ops. destruct (nth_error (net_nodes net) (nr_node nr)) as [n|] eqn:En; [|reflexivity].
    assert (Hn := nth_error_In _ _ En).
    assert (E : get_bounds s (nr_node nr) n = get_bounds (with_env e' s) (nr_node nr) n).
    { assert (K : forall k, In k (node_keys n) -> In k (network_keys net)) by (intros k; apply keys_node, Hn). unfold node_keys in K.
      unfold get_bounds. cbn [with_env st_env st_volume]. rewrite Es.
      rewrite (same_min (n_min n)), (same_max (n_max n)), (same_min (n_minv n)), (same_max (n_maxv n)); [reflexivity| | | |];
        intros k Hk; apply K; rewrite !in_app_iff; tauto. }
    rewrite E. reflexivity.
  - apply map_ext_in. intros [r g] Hi. apply in_combine_r in Hi. unfold agg_ops. cbn [fst snd with_env st_env]. rewrite Es.
    assert (K : forall k, In k (agg_keys g) -> In k (network_keys net)) by (intros k; apply keys_agg, Hi). unfold agg_keys in K.
    rewrite (same_min (a_min g)), (same_max (a_max g)); [reflexivity| |]; intros k Hk; apply K; rewrite !in_app_iff; tauto.
  - apply map_ext_in. intros [r [i v]] Hi. apply in_combine_r, in_combine_r in Hi. unfold vs_ops, vs_available_missing. cbn [with_env st_env st_vs_volume st_date st_days]. rewrite Es.
    assert (K : forall k, In k (vs_keys v) -> In k (network_keys net)) by (intros k; apply keys_vs, Hi). unfold vs_keys in K.
    rewrite (same_min (v_minv v)), (same_max (v_maxv v)); [reflexivity| |]; intros k Hk; apply K; rewrite !in_app_iff; tauto.
Qed.

Lemma same_update b s : st_env s = e -> update net b s = update net b (with_env e' s).
Proof.
  intros Es. unfold update. rewrite (same_ops b s Es). cbn [with_env st_env]. rewrite Es, same_objectives. reflexivity.
Qed.

Lemma same_solved fm order ss s x : st_env s = e -> solved net fm order ss s x -> solved net fm order ss (with_env e' s) x.
Proof.
  intros Es (H1 & b0 & b & H2 & H3 & H4). split; [exact H1|]. exists b0, b. split; [exact H2|]. split; [|exact H4].
  clear H2. revert b0 H3. induction ss as [|t ss IH]; intros b0 H3.
  - cbn [app updates] in *. rewrite <- (same_update b0 s Es). exact H3.
  - cbn [app updates] in *. destruct (update net b0 t) as [b1|?|]; cbn [rbind] in *; try discriminate. exact (IH b1 H3).
Qed.
End Ext.
