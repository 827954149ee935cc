(** The balance rows of a network whose links are joined to other nodes are
    linearly independent. *)
From Coq Require Import Reals Qreals Sorted Relations.
From Verif Require Import Base IpmCholesky IpmStep IpmSpec IpmDense IpmSymbolic IpmNumeric IpmStepLemmas.
From Verif Require Import Calendar Network NetworkBuild NetworkSpec NetworkBuildLemmas Lp LpSpec LpColLemmas LpRowLemmas IpmLp IpmLpSpec IpmLpCols IpmLpRows.
From Coq Require Import Lra.
Open Scope nat_scope.

Lemma lsum_filter g P m : lsum (map g (filter P (seq 0 m))) = rsum m (fun e => if P e then g e else 0)%R.
Proof.
  induction m as [|m IH]; [reflexivity|]. rewrite seq_S, filter_app, map_app. cbn [rsum filter Nat.add]. rewrite <- IH.
  unfold lsum. rewrite fold_right_app. destruct (P m); cbn [map fold_right].
  - set (l := map g _). clear. induction l as [|a l IH]; cbn [fold_right]; [lra|]. rewrite IH. lra.
  - lra.
Qed.
Lemma rsum_pick n i f : i < n -> rsum n (fun k => if k =? i then f k else 0)%R = f i.
Proof. intros H. rewrite <- (rsum_one n i (f i) H). apply rsum_ext. intros k _. destruct (Nat.eqb_spec k i) as [->|]; reflexivity. Qed.
Lemma rsum_unique n i f : i < n -> (forall k, k < n -> k <> i -> f k = 0%R) -> rsum n f = f i.
Proof. intros H Hz. rewrite <- (rsum_pick n i f H). apply rsum_ext. intros k Hk. destruct (Nat.eqb_spec k i) as [->|Hne]; [reflexivity | apply Hz; assumption]. Qed.
Lemma rsum_app n m f : rsum (n + m) f = (rsum n f + rsum m (fun k => f (n + k)%nat))%R.
Proof. induction m as [|m IH]; [rewrite Nat.add_0_r; cbn [rsum]; lra|]. rewrite Nat.add_succ_r. cbn [rsum]. rewrite IH. lra. Qed.

Section Indep.
Variable net : network.
Hypothesis wf : wf_network net.
Hypothesis anch : anchored net.
Notation col := (col_for_edge net).
Notation m := (length (net_edges net)).
Notation N := (length (net_nodes net)).
Notation ncols := (cm_ncols (edge_columns net)).

Variable rl : list nat.            (* the links with a row *)
Hypothesis rl_nodup : NoDup rl.
Hypothesis rl_has : forall p, In p rl <-> exists n, nth_error (net_nodes net) p = Some n /\ has_row net n = true.
Variable v : nat -> R.
Definition ind (k c : nat) : R := if c =? k then 1%R else 0%R.
Hypothesis zero : forall k, k < ncols ->
  rsum (length rl) (fun j => v j * (r_inflow net (fun e => ind k (col e)) (nth j rl 0%nat) - r_outflow net (fun e => ind k (col e)) (nth j rl 0%nat)))%R = 0%R.

Let V (p : nat) : R := rsum (length rl) (fun j => if p =? nth j rl 0%nat then v j else 0)%R.
Lemma V_row j : j < length rl -> V (nth j rl 0) = v j.
Proof.
  intros Hj. unfold V. rewrite (rsum_unique _ j); [rewrite Nat.eqb_refl; reflexivity | exact Hj|].
  intros k Hk Hne. destruct (Nat.eqb_spec (nth j rl 0) (nth k rl 0)) as [E|]; [|reflexivity]. exfalso. apply Hne. symmetry. apply (proj1 (NoDup_nth rl 0) rl_nodup); assumption.
Qed.
Lemma V_other p : ~ In p rl -> V p = 0%R.
Proof.
  intros H. unfold V. apply rsum_0. intros j Hj. destruct (Nat.eqb_spec p (nth j rl 0)) as [->|]; [|reflexivity]. exfalso. apply H, nth_In, Hj.
Qed.
Lemma rl_lt p : In p rl -> p < N.
Proof. intros H. apply rl_has in H. destruct H as (n & Hn & _). apply (nth_error_Some_lt _ _ _ Hn). Qed.
Lemma sum_rows F : rsum (length rl) (fun j => v j * F (nth j rl 0%nat))%R = rsum N (fun p => V p * F p)%R.
Proof.
  transitivity (rsum N (fun p => rsum (length rl) (fun j => if p =? nth j rl 0%nat then v j * F p else 0)))%R.
  - rewrite rsum_swap. apply rsum_ext. intros j Hj. symmetry. apply (rsum_pick N (nth j rl 0) (fun p => v j * F p)%R). apply rl_lt, nth_In, Hj.
  - apply rsum_ext. intros p Hp. unfold V. rewrite <- rsum_scal_r. apply rsum_ext. intros j Hj. destruct (p =? nth j rl 0); lra.
Qed.
Lemma head_lt e : e < m -> head net e < N.
Proof. intros He. unfold head. destruct (nth_error_lt_Some _ _ He) as (ed & Hed). rewrite Hed. apply (wf_edges net wf ed (nth_error_In _ _ Hed)). Qed.
Lemma tail_lt e : e < m -> tail net e < N.
Proof. intros He. unfold tail. destruct (nth_error_lt_Some _ _ He) as (ed & Hed). rewrite Hed. apply (wf_edges net wf ed (nth_error_In _ _ Hed)). Qed.
Lemma inflow_sum g p : r_inflow net g p = rsum m (fun e => if p =? head net e then g e else 0)%R.
Proof.
  unfold r_inflow, in_edges, edge_ids. rewrite lsum_filter. apply rsum_ext. intros e He. unfold ends_at, head. destruct (nth_error_lt_Some _ _ He) as (ed & Hed). rewrite Hed, (Nat.eqb_sym p). reflexivity.
Qed.
Lemma outflow_sum g p : r_outflow net g p = rsum m (fun e => if p =? tail net e then g e else 0)%R.
Proof.
  unfold r_outflow, out_edges, edge_ids. rewrite lsum_filter. apply rsum_ext. intros e He. unfold starts_at, tail. destruct (nth_error_lt_Some _ _ He) as (ed & Hed). rewrite Hed, (Nat.eqb_sym p). reflexivity.
Qed.
Lemma sum_edges g : rsum N (fun p => V p * (r_inflow net g p - r_outflow net g p))%R = (rsum m (fun e => g e * V (head net e)) - rsum m (fun e => g e * V (tail net e)))%R.
Proof.
  rewrite (rsum_ext N _ (fun p => V p * r_inflow net g p - V p * r_outflow net g p)%R) by (intros; lra). rewrite rsum_minus. f_equal.
  - transitivity (rsum N (fun p => rsum m (fun e => if p =? head net e then V p * g e else 0)))%R.
    + apply rsum_ext. intros p _. rewrite inflow_sum, <- rsum_scal. apply rsum_ext. intros e _. destruct (p =? head net e); lra.
    + rewrite rsum_swap. apply rsum_ext. intros e He. rewrite (rsum_pick N (head net e) (fun p => V p * g e)%R) by (apply head_lt, He). lra.
  - transitivity (rsum N (fun p => rsum m (fun e => if p =? tail net e then V p * g e else 0)))%R.
    + apply rsum_ext. intros p _. rewrite outflow_sum, <- rsum_scal. apply rsum_ext. intros e _. destruct (p =? tail net e); lra.
    + rewrite rsum_swap. apply rsum_ext. intros e He. rewrite (rsum_pick N (tail net e) (fun p => V p * g e)%R) by (apply tail_lt, He). lra.
Qed.

Lemma V_merged p : mergedb net p = true -> V p = 0%R.
Proof.
  intros H. apply V_other. intros Hin. apply rl_has in Hin. destruct Hin as (n & Hn & Hr). unfold mergedb in H. rewrite Hn in H. unfold has_row in Hr.
  destruct (is_link n); [|discriminate]. cbn [andb] in *. rewrite H in Hr. discriminate.
Qed.
(** The value at the downstream end of a column and at its upstream end. *)
Let w (k : nat) : R := rsum m (fun e => ind k (col e) * V (head net e))%R.
Let u (k : nat) : R := rsum m (fun e => ind k (col e) * V (tail net e))%R.
Lemma w_u k : k < ncols -> w k = u k.
Proof.
  intros Hk. pose proof (zero k Hk) as H. rewrite (sum_rows (fun p => r_inflow net (fun e => ind k (col e)) p - r_outflow net (fun e => ind k (col e)) p)%R) in H.
  rewrite sum_edges in H. unfold w, u. lra.
Qed.
Lemma w_end e : e < m -> mergedb net (head net e) = false -> V (head net e) = w (col e).
Proof.
  intros He Hm. unfold w. rewrite (rsum_unique m e); [unfold ind; rewrite Nat.eqb_refl; lra | exact He|]. intros f Hf Hne. unfold ind. destruct (Nat.eqb_spec (col f) (col e)) as [Ec|]; [|lra].
  destruct (mergedb net (head net f)) eqn:Hmf; [rewrite (V_merged _ Hmf); lra|]. exfalso. apply Hne.
  apply (one_end net wf); try assumption; apply not_merged_end; assumption.
Qed.
Lemma u_start e : e < m -> mergedb net (tail net e) = false -> V (tail net e) = u (col e).
Proof.
  intros He Hm. unfold u. rewrite (rsum_unique m e); [unfold ind; rewrite Nat.eqb_refl; lra | exact He|]. intros f Hf Hne. unfold ind. destruct (Nat.eqb_spec (col f) (col e)) as [Ec|]; [|lra].
  destruct (mergedb net (tail net f)) eqn:Hmf; [rewrite (V_merged _ Hmf); lra|]. exfalso. apply Hne.
  apply (one_start net wf); try assumption; apply not_merged_start; assumption.
Qed.
(** A potential, constant along the edges. *)
Let P (p : nat) : R := if mergedb net p then w (col (hd 0 (in_edges net p))) else V p.
Lemma P_head e : e < m -> P (head net e) = w (col e).
Proof.
  intros He. unfold P. destruct (mergedb net (head net e)) eqn:Hm; [|apply w_end; assumption].
  destruct (merged_shape net wf _ Hm) as (e' & f & Hi & _). rewrite Hi. cbn [hd]. assert (Hin : In e (in_edges net (head net e))) by (apply in_head; auto). rewrite Hi in Hin. destruct Hin as [->|[]]. reflexivity.
Qed.
Lemma P_tail e : e < m -> P (tail net e) = w (col e).
Proof.
  intros He. unfold P. destruct (mergedb net (tail net e)) eqn:Hm.
  - destruct (merged_shape net wf _ Hm) as (e' & f & Hi & Ho & Hc & _). rewrite Hi. cbn [hd]. assert (Hin : In e (out_edges net (tail net e))) by (apply out_tail; auto). rewrite Ho in Hin. destruct Hin as [->|[]]. rewrite Hc. reflexivity.
  - rewrite u_start by assumption. symmetry. apply w_u. apply (edge_column_exists net wf e He).
Qed.
Lemma P_joined i j : clos_refl_sym_trans nat (joined net) i j -> P i = P j.
Proof.
  induction 1 as [i j (ed & Hin & <- & <-)|i|i j _ IH|i j k _ IH1 _ IH2]; [|reflexivity | congruence | congruence].
  apply In_nth_error in Hin. destruct Hin as (e & He). pose proof (nth_error_Some_lt _ _ _ He) as Hlt.
  pose proof (P_head e Hlt) as H1. pose proof (P_tail e Hlt) as H2. unfold head in H1. unfold tail in H2. rewrite He in H1, H2. congruence.
Qed.
Lemma rows_independent j : j < length rl -> v j = 0%R.
Proof.
  intros Hj. rewrite <- (V_row j Hj). set (p := nth j rl 0). assert (Hp : In p rl) by (apply nth_In, Hj). pose proof (proj1 (rl_has p) Hp) as (n & Hn & Hr).
  assert (Hl : n_type n = TLink) by (clear - Hr; unfold has_row, is_link in Hr; destruct (n_type n); try discriminate; reflexivity).
  assert (Hpm : mergedb net p = false).
  { unfold mergedb. rewrite Hn. unfold has_row in Hr. destruct (is_link n); [|reflexivity]. cbn [andb] in *. destruct (length (bcols net n) =? 1); [discriminate | reflexivity]. }
  destruct (anch p n Hn Hl) as (q & n' & Hpq & Hq & Hnl).
  assert (Hqm : mergedb net q = false) by (unfold mergedb, is_link; rewrite Hq; destruct (n_type n'); try reflexivity; congruence).
  pose proof (P_joined p q Hpq) as E. unfold P in E. rewrite Hpm, Hqm in E. rewrite E. apply V_other. intros Hin. apply rl_has in Hin. destruct Hin as (n2 & Hn2 & Hr2).
  assert (n2 = n') by congruence. subst n2. unfold has_row, is_link in Hr2. destruct (n_type n'); try discriminate. congruence.
Qed.
End Indep.
