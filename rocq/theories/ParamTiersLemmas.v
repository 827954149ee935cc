(** Proofs about the implementations of the core parameters: each computes, from
    what it reads, the value that the equations of SchemaParams.v say. *)
From Coq Require Import QArith Lia.
From Verif Require Import Base Calendar Network AggFuncs ControlCurves Formulas ParamsTemporal Profiles SchemaNodes SchemaVirtual MetricSets SchemaParams ParamBuild ParamBuildSpec ParamEval ParamEvalSpec ParamTiers.
From Coq Require Import Permutation.
From Verif Require Import NetworkBuildLemmas ParamBuildLemmas ParamEvalLemmas ParamOrderLemmas.
Local Open Scope list_scope.
Local Open Scope nat_scope.

(** ** Readings that may fail and numbers *)

Definition below {E A : Type} (r : res E A) (a : A) : Prop := forall a', r = Ok a' -> a' = a.

Lemma rbind_inv {E A B} (r : res E A) (k : A -> res E B) b : rbind r k = Ok b -> exists a, r = Ok a /\ k a = Ok b.
Proof. destruct r as [a| |]; cbn [rbind]; intros H; try discriminate. exists a. split; [reflexivity|exact H]. Qed.

Lemma rbind_below {E A B} (r : res E A) a (k : A -> res E B) b : below r a -> rbind r k = Ok b -> k a = Ok b.
Proof. intros H H1. apply rbind_inv in H1. destruct H1 as (a' & E1 & H1). rewrite (H _ E1) in H1. exact H1. Qed.

Lemma rmap_below {E A B} (g : A -> res E B) l bs : Forall2 (fun x b => below (g x) b) l bs ->
  forall vs, rmap g l = Ok vs -> vs = bs.
Proof.
  induction 1 as [|x b l bs Hx H IH]; intros vs E1; cbn [rmap] in E1; [congruence|].
  apply (rbind_below _ _ _ _ Hx) in E1; cbv beta in E1. apply rbind_inv in E1. destruct E1 as (vs' & E1 & E2).
  rewrite <- (IH _ E1). congruence.
Qed.

Lemma rmap_all_ok {E A B} (f : A -> B) (l : list A) : rmap (fun a => Ok (f a) : res E B) l = Ok (map f l).
Proof. induction l as [|a l IH]; [reflexivity|]. cbn [rmap map rbind]. rewrite IH. reflexivity. Qed.

Definition oks {E A : Type} (l : list A) : list (res E A) := map (@Ok E A) l.

Lemma Forall2_nth_below {E A} (rs : list (res E A)) l i : Forall2 below rs l ->
  match nth_error rs i, nth_error l i with
  | Some r, Some a => below r a
  | None, None => True
  | _, _ => False
  end.
Proof.
  intros H. revert i. induction H as [|r a rs l Hr H IH]; intros [|i]; cbn [nth_error]; auto. apply IH.
Qed.

Lemma nth_oks {E A} (l : list A) i : nth_error (@oks E A l) i = match nth_error l i with Some a => Some (Ok a) | None => None end.
Proof. unfold oks. rewrite nth_error_map. destruct (nth_error l i); reflexivity. Qed.

Lemma indexed_below (index : res calc_error nat) k ms l v : below index k -> Forall2 below ms l ->
  indexed_array index ms = Ok v -> indexed_array (Ok k) (oks l) = Ok v.
Proof.
  intros Hi H E1. unfold indexed_array in *. apply (rbind_below _ _ _ _ Hi) in E1; cbv beta in E1. cbn [rbind].
  pose proof (Forall2_nth_below _ _ k H) as Hn. rewrite nth_oks. revert Hn E1. destruct (nth_error ms k) as [r|]; [|intros _ E1; discriminate].
  destruct (nth_error l k) as [a|]; [|contradiction]. intros Hn E1. rewrite (Hn _ E1). reflexivity.
Qed.

Lemma index_below x cs l : Forall2 below cs l -> forall i v, index_loop x cs i = Ok v -> index_loop x (oks l) i = Ok v.
Proof.
  induction 1 as [|c a cs l Hc H IH]; intros i v E1; [exact E1|]. cbn [index_loop oks map rbind] in *.
  apply (rbind_below _ _ _ _ Hc) in E1; cbv beta in E1. destruct (Qle_bool a x); [exact E1|]. apply IH. exact E1.
Qed.

Lemma last_below {E A} (vs : list (res E A)) l : Forall2 below vs l ->
  forall r a, below r a -> below (last vs r) (last l a).
Proof.
  induction 1 as [|y b vs l Hy H IH]; intros r a Hr; [exact Hr|].
  destruct H as [|y' b' vs l Hy' H]; [exact Hy|]. cbn [last]. apply IH. exact Hr.
Qed.

Lemma last_map {A B} (f : A -> B) l d : last (map f l) (f d) = f (last l d).
Proof. induction l as [|a l IH]; [reflexivity|]. cbn [map]. destruct l as [|b l]; [reflexivity|]. exact IH. Qed.

Lemma value_below x cs l : Forall2 below cs l -> forall vs ws, Forall2 below vs ws ->
  forall i v, value_loop x cs vs i = Ok v -> value_loop x (oks l) (oks ws) i = Ok v.
Proof.
  intros Hc vs ws Hv. induction Hc as [|c a cs l Hc H IH]; intros i v E1; cbn [value_loop oks map] in *.
  - unfold last_or_error in *. destruct Hv as [|y b vs ws Hy Hv]; [exact E1|]. cbn [map rbind] in *.
    unfold oks. cbn [map rbind]. rewrite (last_map (@Ok curve_error Q) ws b). rewrite (last_below _ _ Hv _ _ Hy _ E1). reflexivity.
  - apply (rbind_below _ _ _ _ Hc) in E1; cbv beta in E1. cbn [rbind]. destruct (Qle_bool a x).
    + unfold get_or_error in *. pose proof (Forall2_nth_below _ _ i Hv) as Hn. 
      rewrite nth_oks. revert Hn E1. destruct (nth_error vs i) as [r|]; [|intros _ E1; discriminate]. destruct (nth_error ws i) as [w|]; [|contradiction].
      intros Hn E1. cbn [rbind] in *. rewrite (Hn _ E1). reflexivity.
    + apply IH. exact E1.
Qed.

Lemma Forall2_rev' {A B} (P : A -> B -> Prop) l l' : Forall2 P l l' -> Forall2 P (rev l) (rev l').
Proof.
  induction 1 as [|a b l l' Hab H IH]; [constructor|]. cbn [rev]. apply Forall2_app; [exact IH|].
  constructor; [exact Hab|constructor].
Qed.

Lemma interpolated_below x cs l : Forall2 below cs l -> forall vs ws, Forall2 below vs ws ->
  forall p i v, interpolated_loop x p cs vs i = Ok v -> interpolated_loop x p (oks l) (oks ws) i = Ok v.
Proof.
  intros Hc vs ws Hv. induction Hc as [|c a cs l Hc H IH]; intros p i v E1; cbn [interpolated_loop oks map] in *.
  - pose proof (Forall2_rev' _ _ _ Hv) as Hr. change (@oks curve_error Q ws) with (map (@Ok curve_error Q) ws). rewrite <- map_rev.
    destruct Hr as [|lo b1 rs1 ls1 H1 Hr]; [discriminate|].
    destruct Hr as [|up b2 rs2 ls2 H2 Hr]; [apply rbind_inv in E1; destruct E1 as (? & _ & E1); discriminate|].
    cbn [map rbind]. apply (rbind_below _ _ _ _ H1) in E1; cbv beta in E1. apply (rbind_below _ _ _ _ H2) in E1; cbv beta in E1. exact E1.
  - apply (rbind_below _ _ _ _ Hc) in E1; cbv beta in E1. cbn [rbind]. destruct (Qle_bool a x).
    + unfold index_or_panic in *.  rewrite !nth_oks.
      pose proof (Forall2_nth_below _ _ (S i) Hv) as Hn. pose proof (Forall2_nth_below _ _ i Hv) as Hm.
      revert Hn Hm E1.
      destruct (nth_error vs (S i)) as [r|]; [|intros _ _ E1; discriminate]. destruct (nth_error ws (S i)) as [w|]; [|contradiction].
      intros Hn Hm E1. cbn [rbind] in *. apply (rbind_below _ _ _ _ Hn) in E1; cbv beta in E1.
      revert Hm E1. destruct (nth_error vs i) as [r'|]; [|intros _ E1; discriminate]. destruct (nth_error ws i) as [w'|]; [|contradiction].
      intros Hm E1. cbn [rbind] in *. apply (rbind_below _ _ _ _ Hm) in E1; cbv beta in E1. exact E1.
    + apply IH. exact E1.
Qed.

Lemma piecewise_below x lo cs l vs : Forall2 below cs l ->
  forall p i v, piecewise_loop x p lo cs vs i = Ok v -> piecewise_loop x p lo (oks l) vs i = Ok v.
Proof.
  induction 1 as [|c a cs l Hc H IH]; intros p i v E1; [exact E1|]. cbn [piecewise_loop oks map rbind] in *.
  apply (rbind_below _ _ _ _ Hc) in E1; cbv beta in E1. destruct (Qle_bool a x); [exact E1|]. apply IH. exact E1.
Qed.

Lemma position_below p x cs l : Forall2 below cs l ->
  forall i v, position_loop p x cs i = Ok v -> multi_position p x l i = v.
Proof.
  induction 1 as [|c a cs l Hc H IH]; intros i v E1; cbn [position_loop multi_position] in *; [congruence|].
  apply (rbind_below _ _ _ _ Hc) in E1; cbv beta in E1. destruct (predicate_apply p x a); [congruence|]. apply IH. exact E1.
Qed.

Lemma of_curve_inv {A} (r : res curve_error A) v : of_curve r = Ok v -> r = Ok v.
Proof. destruct r; cbn; congruence. Qed.
Lemma of_unit_inv {A} (r : res unit A) v : of_unit r = Ok v -> r = Ok v.
Proof. destruct r; cbn; congruence. Qed.

Lemma firstn_app_len {A} (l l' : list A) n : n = length l -> firstn n (l ++ l') = l.
Proof. intros ->. rewrite firstn_app, Nat.sub_diag, firstn_O, app_nil_r. apply firstn_all. Qed.
Lemma skipn_app_len {A} (l l' : list A) n : n = length l -> skipn n (l ++ l') = l'.
Proof. intros ->. rewrite skipn_app, Nat.sub_diag, skipn_all. reflexivity. Qed.

(** ** One evaluation of a parameter *)

Section Bodies.
Context {X Er : Type}.

(** The value of a parameter without a name for its kind; [VF 0] if it has
    none. *)
Definition val_of (v : option (pvalue X)) : value :=
  match v with Some (PvF q) => VF q | Some (PvI z) => VI z | _ => VF 0 end.

Variables (cd : coding) (date : datetime) (rd : reader) (mo : moment) (t : nat).
Variable rdr : uref -> res Er (pvalue X).

(** What the metrics of [b] are read with is what the equations say. *)
Definition agrees (b : cbody) : Prop :=
  (forall m, In (uref_f cd m) (body_urefs cd b) -> forall q, rdr (uref_f cd m) = Ok (PvF q) -> q = rd_f rd mo t m) /\
  (forall m, In (uref_i cd m) (body_urefs cd b) -> forall z, rdr (uref_i cd m) = Ok (PvI z) -> z = rd_i rd mo t m).

Lemma to_f_below r q : (forall w, r = Ok (PvF w) -> w = q) -> @below calc_error Q (@to_f X Er r) q.
Proof. intros H q' E1. destruct r as [[w|w|w]| |]; cbn in E1; try discriminate. apply H. congruence. Qed.
Lemma to_r_below r q : (forall w, r = Ok (PvF w) -> w = q) -> @below curve_error Q (@to_r X Er r) q.
Proof. intros H q' E1. destruct r as [[w|w|w]| |]; cbn in E1; try discriminate. apply H. congruence. Qed.
Lemma to_i_below r z : (forall w, r = Ok (PvI w) -> w = z) -> @below calc_error Z (@to_i X Er r) z.
Proof. intros H q' E1. destruct r as [[w|w|w]| |]; cbn in E1; try discriminate. apply H. congruence. Qed.

Lemma list_f b ms : agrees b -> (forall m, In m ms -> In (uref_f cd m) (body_urefs cd b)) ->
  Forall2 below (map (@to_f X Er) (map rdr (map (uref_f cd) ms))) (map (rd_f rd mo t) ms).
Proof.
  intros [HF _]. induction ms as [|m ms IH]; intros Hin; cbn [map]; constructor.
  - apply to_f_below. apply HF. apply Hin. left. reflexivity.
  - apply IH. intros m' H. apply Hin. right. exact H.
Qed.
Lemma list_r b ms : agrees b -> (forall m, In m ms -> In (uref_f cd m) (body_urefs cd b)) ->
  Forall2 below (map (@to_r X Er) (map rdr (map (uref_f cd) ms))) (map (rd_f rd mo t) ms).
Proof.
  intros [HF _]. induction ms as [|m ms IH]; intros Hin; cbn [map]; constructor.
  - apply to_r_below. apply HF. apply Hin. left. reflexivity.
  - apply IH. intros m' H. apply Hin. right. exact H.
Qed.
Lemma list_f' b ms : agrees b -> (forall m, In m ms -> In (uref_f cd m) (body_urefs cd b)) ->
  Forall2 (fun r q => below (@to_f X Er r) q) (map rdr (map (uref_f cd) ms)) (map (rd_f rd mo t) ms).
Proof.
  intros [HF _]. induction ms as [|m ms IH]; intros Hin; cbn [map]; constructor.
  - apply to_f_below. apply HF. apply Hin. left. reflexivity.
  - apply IH. intros m' H. apply Hin. right. exact H.
Qed.
Lemma list_i' b ms : agrees b -> (forall m, In m ms -> In (uref_i cd m) (body_urefs cd b)) ->
  Forall2 (fun r q => below (@to_i X Er r) q) (map rdr (map (uref_i cd) ms)) (map (rd_i rd mo t) ms).
Proof.
  intros [_ HI]. induction ms as [|m ms IH]; intros Hin; cbn [map]; constructor.
  - apply to_i_below. apply HI. apply Hin. left. reflexivity.
  - apply IH. intros m' H. apply Hin. right. exact H.
Qed.

Lemma out_f_inv s r v s' : @out_f X s r = Ok (v, s') -> exists q, r = Ok q /\ v = PvF q.
Proof. intros H. apply rbind_inv in H. destruct H as (q & H1 & H2). exists q. split; [exact H1|congruence]. Qed.
Lemma out_i_inv s r v s' : @out_i X s r = Ok (v, s') -> exists q, r = Ok q /\ v = PvI q.
Proof. intros H. apply rbind_inv in H. destruct H as (q & H1 & H2). exists q. split; [exact H1|congruence]. Qed.

(** An aggregation, in any of its implementations. *)
Lemma aggregated_point ph g ms v : agrees (CAggregated ph g ms) ->
  rbind (rmap (@to_f X Er) (map rdr (body_urefs cd (CAggregated ph g ms)))) (fun values => Ok (calc_iter_f64 g values)) = Ok v ->
  point rd mo t (CAggregated ph g ms) = Ok (VF v).
Proof.
  intros A H. apply rbind_inv in H. destruct H as (vs & H1 & H2). cbn [point].
  rewrite (rmap_below _ _ _ (list_f' _ ms A (fun m I => in_map _ _ _ I)) _ H1) in H2. congruence.
Qed.
Lemma aggregated_index_point ph g ms v : agrees (CAggregatedIndex ph g ms) ->
  rbind (rmap (@to_i X Er) (map rdr (body_urefs cd (CAggregatedIndex ph g ms)))) (fun values => of_unit (calc_iter_u64 Checked g values)) = Ok v ->
  point rd mo t (CAggregatedIndex ph g ms) = Ok (VI v).
Proof.
  intros A H. apply rbind_inv in H. destruct H as (vs & H1 & H2). cbn [point].
  rewrite (rmap_below _ _ _ (list_i' _ ms A (fun m I => in_map _ _ _ I)) _ H1) in H2. rewrite H2. reflexivity.
Qed.

Lemma difference_point a b mn mx q : agrees (CDifference a b mn mx) ->
  difference_read mn mx (rdr (uref_f cd a)) (rdr (uref_f cd b))
    (map rdr ((match mn with Some m => [uref_f cd m] | None => [] end) ++ (match mx with Some m => [uref_f cd m] | None => [] end))) = Ok q ->
  point rd mo t (CDifference a b mn mx) = Ok (VF q).
Proof.
  intros A H. assert (B : forall m, In (uref_f cd m) (body_urefs cd (CDifference a b mn mx)) -> below (@to_f X Er (rdr (uref_f cd m))) (rd_f rd mo t m)).
  { intros m Hm. apply to_f_below. apply (proj1 A). exact Hm. }
  cbn [body_urefs] in B. pose proof (B a (or_introl eq_refl)) as Ba. pose proof (B b (or_intror (or_introl eq_refl))) as Bb.
  cbn [point]. unfold difference_read, difference_before, as_f in *.
  destruct mn as [mn|], mx as [mx|]; cbn [app map optional option_map read_option] in *;
    apply (rbind_below _ (rd_f rd mo t a) _ _ Ba) in H; apply (rbind_below _ (rd_f rd mo t b) _ _ Bb) in H.
  - pose proof (B mn ltac:(cbn; auto)) as Bn. pose proof (B mx ltac:(cbn; auto)) as Bx.
    apply rbind_inv in H. destruct H as (n & H1 & H). apply (rbind_below _ (rd_f rd mo t mn) _ _ Bn) in H1. injection H1 as <-.
    apply rbind_inv in H. destruct H as (x & H1 & H). apply (rbind_below _ (rd_f rd mo t mx) _ _ Bx) in H1. injection H1 as <-. cbn [rbind] in *. congruence.
  - pose proof (B mn ltac:(cbn; auto)) as Bn.
    apply rbind_inv in H. destruct H as (n & H1 & H). apply (rbind_below _ (rd_f rd mo t mn) _ _ Bn) in H1. injection H1 as <-. cbn [rbind] in *. congruence.
  - pose proof (B mx ltac:(cbn; auto)) as Bx.
    cbn [rbind] in H. apply rbind_inv in H. destruct H as (x & H1 & H). apply (rbind_below _ (rd_f rd mo t mx) _ _ Bx) in H1. injection H1 as <-. cbn [rbind] in *. congruence.
  - cbn [rbind] in *. congruence.
Qed.
Lemma volume_point total up lo q : agrees (CVolumeBetween total up lo) ->
  volume_read up lo (rdr (uref_f cd total))
    (map rdr ((match up with Some m => [uref_f cd m] | None => [] end) ++ (match lo with Some m => [uref_f cd m] | None => [] end))) = Ok q ->
  point rd mo t (CVolumeBetween total up lo) = Ok (VF q).
Proof.
  intros A H. assert (B : forall m, In (uref_f cd m) (body_urefs cd (CVolumeBetween total up lo)) -> below (@to_r X Er (rdr (uref_f cd m))) (rd_f rd mo t m)).
  { intros m Hm. apply to_r_below. apply (proj1 A). exact Hm. }
  cbn [body_urefs] in B. pose proof (B total (or_introl eq_refl)) as Bt.
  cbn [point]. unfold volume_read, as_f in *.
  destruct up as [up|], lo as [lo|]; cbn [app map optional option_map] in *; apply of_curve_inv in H; unfold volume_between in *;
    apply (rbind_below _ (rd_f rd mo t total) _ _ Bt) in H.
  - pose proof (B up ltac:(cbn; auto)) as Bu. pose proof (B lo ltac:(cbn; auto)) as Bl.
    apply (rbind_below _ (rd_f rd mo t lo) _ _ Bl) in H. apply (rbind_below _ (rd_f rd mo t up) _ _ Bu) in H. cbn [rbind of_curve] in *. congruence.
  - pose proof (B up ltac:(cbn; auto)) as Bu. cbn [rbind] in H. apply (rbind_below _ (rd_f rd mo t up) _ _ Bu) in H. cbn [rbind of_curve] in *. congruence.
  - pose proof (B lo ltac:(cbn; auto)) as Bl. apply (rbind_below _ (rd_f rd mo t lo) _ _ Bl) in H. cbn [rbind of_curve] in *. congruence.
  - cbn [rbind of_curve] in *. congruence.
Qed.

(** The parameters whose value depends on the current readings only. *)
Definition pointwise (b : cbody) : bool :=
  match b with
  | CThreshold _ _ _ _ | CMultiThreshold _ _ _ _ | CSwitch _ _ | CDelay _ _ _ | CDelayIndex _ _ _
  | CRolling _ _ _ _ _ | CRollingIndex _ _ _ _ _ => false
  | _ => true
  end.

Lemma pairs_of {A} (l : list (lmetric * lmetric)) (g : uref -> A) :
  in_pairs (map g (flat_map (fun p => [uref_f cd (fst p); uref_f cd (snd p)]) l))
  = map (fun p => (g (uref_f cd (fst p)), g (uref_f cd (snd p)))) l.
Proof. induction l as [|p l IH]; [reflexivity|]. cbn [flat_map app map in_pairs]. rewrite IH. reflexivity. Qed.

Hypothesis Hdate : rd_date rd t = date.

Ltac one A := apply to_f_below; apply (proj1 A); cbn [body_urefs In]; auto.

Lemma before_point b s v s' : pointwise b = true -> agrees b ->
  before_body date b (map rdr (body_urefs cd b)) s = Ok (v, s') ->
  point rd mo t b = Ok (val_of (Some v)).
Proof.
  intros Hp A H. destruct b; try discriminate Hp; cbn [body_urefs map before_body] in H; try discriminate H.
  - apply out_f_inv in H. destruct H as (q & H & ->). cbn [point val_of]. unfold max_param, as_f in *.
    apply (rbind_below _ (rd_f rd mo t m)) in H; [cbn [rbind] in *; congruence|one A].
  - apply out_f_inv in H. destruct H as (q & H & ->). cbn [point val_of]. unfold min_param, as_f in *.
    apply (rbind_below _ (rd_f rd mo t m)) in H; [cbn [rbind] in *; congruence|one A].
  - apply out_f_inv in H. destruct H as (q & H & ->). cbn [point val_of]. unfold negative_param, as_f in *.
    apply (rbind_below _ (rd_f rd mo t m)) in H; [cbn [rbind] in *; congruence|one A].
  - apply out_f_inv in H. destruct H as (q & H & ->). cbn [point val_of]. unfold negative_max_param, as_f in *.
    apply (rbind_below _ (rd_f rd mo t m)) in H; [cbn [rbind] in *; congruence|one A].
  - apply out_f_inv in H. destruct H as (q & H & ->). cbn [point val_of]. unfold negative_min_param, as_f in *.
    apply (rbind_below _ (rd_f rd mo t m)) in H; [cbn [rbind] in *; congruence|one A].
  - apply out_f_inv in H. destruct H as (q & H & ->). cbn [point val_of]. unfold division, as_f in *.
    apply (rbind_below _ (rd_f rd mo t denominator)) in H; [|one A]. cbn [rbind].
    destruct (Qeq_bool (rd_f rd mo t denominator) 0); [discriminate|].
    apply (rbind_below _ (rd_f rd mo t numerator)) in H; [cbn [rbind] in *; congruence|one A].
  - apply out_f_inv in H. destruct H as (q & H & ->). exact (aggregated_point _ _ _ _ A H).
  - apply out_i_inv in H. destruct H as (q & H & ->). exact (aggregated_index_point _ _ _ _ A H).
  - apply out_f_inv in H. destruct H as (q & H & ->). cbn [point val_of].
    assert (Hi : @below calc_error nat (rbind (to_i (rdr (uref_i cd index))) (fun z => Ok (Z.to_nat z))) (Z.to_nat (rd_i rd mo t index))).
    { intros k Hk. apply rbind_inv in Hk. destruct Hk as (z & Hz & Hk).
      assert (z = rd_i rd mo t index) by (revert Hz; apply to_i_below; apply (proj2 A); cbn [body_urefs In]; auto). congruence. }
    assert (HM : forall m, In m metrics -> In (uref_f cd m) (body_urefs cd (CIndexedArray index metrics))).
    { intros m I. cbn [body_urefs]. right. apply in_map. exact I. }
    apply (indexed_below _ _ _ _ _ Hi (list_f _ metrics A HM)) in H.
    unfold oks in H. rewrite map_map in H. rewrite H. reflexivity.
  - apply out_f_inv in H. destruct H as (q & H & ->). cbn [point val_of]. unfold interpolated in *.
    apply (rbind_below _ (rd_f rd mo t x)) in H; [|one A]. apply rbind_inv in H. destruct H as (ps & H1 & H2). cbn [rbind].
    rewrite map_map, pairs_of in H1.
    assert (HM : forall p, In p points -> In (uref_f cd (fst p)) (body_urefs cd (CInterpolated x points error_on_bounds)) /\
      In (uref_f cd (snd p)) (body_urefs cd (CInterpolated x points error_on_bounds))).
    { intros p I. cbn [body_urefs In]. split; right; apply in_flat_map; exists p; cbn [In]; auto. }
    assert (E1 : ps = map (fun p => (rd_f rd mo t (fst p), rd_f rd mo t (snd p))) points).
    { refine (rmap_below _ _ _ _ _ H1). clear H1 H2. set (bd := CInterpolated x points error_on_bounds) in *. clearbody bd.
      induction points as [|p points IH]; cbn [map]; constructor.
      - intros ab Hab. cbn [fst snd] in Hab. apply (rbind_below _ (rd_f rd mo t (fst p))) in Hab.
        2:{ apply to_f_below. apply (proj1 A). apply HM. left. reflexivity. }
        apply (rbind_below _ (rd_f rd mo t (snd p))) in Hab.
        2:{ apply to_f_below. apply (proj1 A). apply HM. left. reflexivity. }
        congruence.
      - apply IH. intros p' I. apply HM. right. exact I. }
    assert (E2 : rmap (fun p : calc * calc => rbind (fst p) (fun xp => rbind (snd p) (fun fp => Ok (xp, fp))))
      (map (fun p => (Ok (rd_f rd mo t (fst p)) : calc, Ok (rd_f rd mo t (snd p)) : calc)) points) = Ok ps).
    { rewrite E1. clear. induction points as [|p points IH]; [reflexivity|]. cbn [map rmap rbind fst snd]. rewrite IH. reflexivity. }
    rewrite E2. cbn [rbind]. rewrite H2. reflexivity.
  - apply out_f_inv in H. destruct H as (q & H & ->). cbn [point val_of]. unfold polynomial, as_f in *.
    apply (rbind_below _ (rd_f rd mo t m)) in H; [cbn [rbind] in *; congruence|one A].
  - apply out_f_inv in H. destruct H as (q & H & ->). cbn [point val_of]. unfold discount_factor, as_f in *. rewrite Hdate.
    destruct (_ && _)%bool; [|discriminate].
    apply (rbind_below _ (rd_f rd mo t rate)) in H; [cbn [rbind] in *; congruence|one A].
  - apply out_f_inv in H. destruct H as (q & H & ->). apply of_curve_inv in H. cbn [point val_of].
    unfold control_curve_value in *.
    apply (rbind_below _ (rd_f rd mo t m)) in H; [|apply to_r_below; apply (proj1 A); cbn [body_urefs In]; auto].
    rewrite map_app, firstn_app_len, skipn_app_len in H by (rewrite !map_length; reflexivity).
    assert (HM : forall x, In x curves \/ In x values -> In (uref_f cd x) (body_urefs cd (CCurve m curves values))).
    { intros x I. cbn [body_urefs In]. right. apply in_app_iff. destruct I as [I|I]; [left|right]; apply in_map; exact I. }
    apply (value_below _ _ _ (list_r _ curves A (fun x I => HM x (or_introl I))) _ _ (list_r _ values A (fun x I => HM x (or_intror I)))) in H.
    unfold oks in H. rewrite !map_map in H. cbn [rbind]. rewrite H. reflexivity.
  - apply out_i_inv in H. destruct H as (q & H & ->). apply rbind_inv in H. destruct H as (k & H & H').
    apply of_curve_inv in H. cbn [point val_of]. unfold control_curve_index in *.
    apply (rbind_below _ (rd_f rd mo t m)) in H; [|apply to_r_below; apply (proj1 A); cbn [body_urefs In]; auto].
    assert (HM : forall x, In x curves -> In (uref_f cd x) (body_urefs cd (CCurveIndex m curves))).
    { intros x I. cbn [body_urefs In]. right. apply in_map. exact I. }
    apply (index_below _ _ _ (list_r _ curves A HM)) in H.
    unfold oks in H. rewrite !map_map in H. cbn [rbind]. rewrite H. cbn [of_curve rbind]. congruence.
  - apply out_f_inv in H. destruct H as (q & H & ->). apply of_curve_inv in H. cbn [point val_of].
    unfold control_curve_interpolated in *.
    apply (rbind_below _ (rd_f rd mo t m)) in H; [|apply to_r_below; apply (proj1 A); cbn [body_urefs In]; auto].
    rewrite map_app, firstn_app_len, skipn_app_len in H by (rewrite !map_length; reflexivity).
    assert (HM : forall x, In x curves \/ In x values -> In (uref_f cd x) (body_urefs cd (CCurveInterpolated m curves values))).
    { intros x I. cbn [body_urefs In]. right. apply in_app_iff. destruct I as [I|I]; [left|right]; apply in_map; exact I. }
    apply (interpolated_below _ _ _ (list_r _ curves A (fun x I => HM x (or_introl I))) _ _ (list_r _ values A (fun x I => HM x (or_intror I)))) in H.
    unfold oks in H. rewrite !map_map in H. cbn [rbind]. rewrite H. reflexivity.
  - apply out_f_inv in H. destruct H as (q & H & ->). apply of_curve_inv in H. cbn [point val_of].
    unfold piecewise_interpolated in *.
    apply (rbind_below _ (rd_f rd mo t m)) in H; [|apply to_r_below; apply (proj1 A); cbn [body_urefs In]; auto].
    assert (HM : forall x, In x curves -> In (uref_f cd x) (body_urefs cd (CCurvePiecewise m maximum minimum curves values))).
    { intros x I. cbn [body_urefs In]. right. apply in_map. exact I. }
    apply (piecewise_below _ _ _ _ _ (list_r _ curves A HM)) in H.
    unfold oks in H. rewrite !map_map in H. cbn [rbind]. rewrite H. reflexivity.
  - apply out_f_inv in H. destruct H as (q & H & ->). exact (difference_point _ _ _ _ _ A H).
Qed.

Lemma after_point b s v s' : agrees b ->
  after_body b (map rdr (body_urefs cd b)) s = Ok (v, s') -> pointwise b = true /\ point rd mo t b = Ok (val_of (Some v)).
Proof.
  intros A H. destruct b; cbn [body_urefs map after_body] in H; try discriminate H; (split; [reflexivity|]).
  - apply out_f_inv in H. destruct H as (q & H & ->). cbn [point val_of]. unfold division, as_f in *.
    apply (rbind_below _ (rd_f rd mo t denominator)) in H; [|one A]. cbn [rbind].
    destruct (Qeq_bool (rd_f rd mo t denominator) 0); [discriminate|].
    apply (rbind_below _ (rd_f rd mo t numerator)) in H; [cbn [rbind] in *; congruence|one A].
  - apply out_f_inv in H. destruct H as (q & H & ->). exact (aggregated_point _ _ _ _ A H).
  - apply out_i_inv in H. destruct H as (q & H & ->). exact (aggregated_index_point _ _ _ _ A H).
Qed.

Lemma simple_point b s v s' : pointwise b = true -> agrees b ->
  simple_body date b (map rdr (body_urefs cd b)) s = Ok (v, s') -> point rd mo t b = Ok (val_of (Some v)).
Proof.
  intros Hp A H. destruct b; try discriminate Hp; cbn [simple_body] in H; try discriminate H.
  - apply out_f_inv in H. destruct H as (q & H & ->). exact (aggregated_point _ _ _ _ A H).
  - apply out_i_inv in H. destruct H as (q & H & ->). exact (aggregated_index_point _ _ _ _ A H).
  - apply out_f_inv in H. destruct H as (q & H & ->). cbn [point val_of]. rewrite Hdate, H. reflexivity.
  - apply out_f_inv in H. destruct H as (q & H & ->). cbn [point val_of]. rewrite Hdate, H. reflexivity.
  - apply out_f_inv in H. destruct H as (q & H & ->). cbn [point val_of]. rewrite Hdate, H. reflexivity.
  - apply out_f_inv in H. destruct H as (q & H & ->). cbn [point val_of]. rewrite Hdate, H. reflexivity.
  - cbn [point]. rewrite Hdate. destruct (reset_day_of_year day month); [|discriminate]. injection H as <- <-. reflexivity.
  - cbn [body_urefs map] in H. apply out_f_inv in H. destruct H as (q & H & ->). exact (difference_point _ _ _ _ _ A H).
  - cbn [body_urefs map] in H. apply out_f_inv in H. destruct H as (q & H & ->). exact (volume_point _ _ _ _ A H).
Qed.

Lemma const_point b v s' : agrees b ->
  const_body b (map rdr (body_urefs cd b)) (body_setup b) = Ok (v, s') -> point rd mo t b = Ok (val_of (Some v)).
Proof.
  intros A H. destruct b; cbn [const_body body_setup] in H; try discriminate H.
  - injection H as <- <-. reflexivity.
  - apply out_f_inv in H. destruct H as (q & H & ->). exact (aggregated_point _ _ _ _ A H).
  - apply out_i_inv in H. destruct H as (q & H & ->). exact (aggregated_index_point _ _ _ _ A H).
Qed.

End Bodies.
(** ** A whole run *)

Lemma direct_steps {S A B E} (stp : A -> S -> res E (B * S)) (s : nat -> S) (g : nat -> A) (o : nat -> B) T :
  (forall t, t < T -> stp (g t) (s t) = Ok (o t, s (Datatypes.S t))) -> direct_run stp (s 0) (steps T g) = Ok (steps T o).
Proof.
  unfold steps. intros H. assert (H' : forall t, 0 <= t < 0 + T -> stp (g t) (s t) = Ok (o t, s (Datatypes.S t))) by (intros t Ht; apply H; lia).
  clear H. revert H'. generalize 0 as k. induction T as [|T IH]; intros k H; [reflexivity|].
  cbn [seq map direct_run]. rewrite (H k) by lia. cbn [rbind fst snd].
  rewrite IH by (intros t Ht; apply H; lia). reflexivity.
Qed.

Lemma hooked_steps {S A B E} (bef : S -> res E (B * S)) (aft : A -> S -> S) (s : nat -> S) (g : nat -> A) (o : nat -> B) T :
  (forall t, t < T -> exists s', bef (s t) = Ok (o t, s') /\ s (Datatypes.S t) = aft (g t) s') ->
  hooked_run bef aft (s 0) (steps T g) = Ok (steps T o).
Proof.
  unfold steps. intros H. assert (H' : forall t, 0 <= t < 0 + T -> exists s', bef (s t) = Ok (o t, s') /\ s (Datatypes.S t) = aft (g t) s') by (intros t Ht; apply H; lia).
  clear H. revert H'. generalize 0 as k. induction T as [|T IH]; intros k H; [reflexivity|].
  cbn [seq map hooked_run]. destruct (H k) as (s' & H1 & H2); [lia|]. rewrite H1. cbn [rbind fst snd]. rewrite <- H2.
  rewrite IH by (intros t Ht; apply H; lia). reflexivity.
Qed.

Lemma steps_map {A B} (f : A -> B) (o : nat -> A) (h : nat -> B) T : (forall t, t < T -> h t = f (o t)) -> steps T h = map f (steps T o).
Proof. intros H. unfold steps. rewrite map_map. apply map_ext_in. intros t Ht. apply in_seq in Ht. apply H. lia. Qed.

Lemma rmap_steps {E B} (g : nat -> res E B) (o : nat -> B) T : (forall t, t < T -> g t = Ok (o t)) -> rmap g (seq 0 T) = Ok (steps T o).
Proof.
  unfold steps. intros H. assert (H' : forall t, In t (seq 0 T) -> g t = Ok (o t)) by (intros t Ht; apply in_seq in Ht; apply H; lia).
  clear H. induction (seq 0 T) as [|k l IH]; [reflexivity|]. cbn [rmap map]. rewrite (H' k (or_introl eq_refl)). cbn [rbind].
  rewrite IH; [reflexivity|]. intros t Ht. apply H'. right. exact Ht.
Qed.

Lemma lift_inv {Er A} (er : calc_error -> Er) (r : res calc_error A) a : lift er r = Ok a -> r = Ok a.
Proof. destruct r; cbn; congruence. Qed.

Lemma builder_well_typed cd c : well_typed (builder_of cd c).
Proof.
  intros ks s H. cbn [builder_of pb_shape] in H.
  assert (HC : all_constant ks = true -> Forall (fun k => k = KConst) ks).
  { clear H. induction ks as [|k ks IH]; intros H; constructor; cbn in H; destruct k; try discriminate; auto. }
  assert (HS : all_simple ks = true -> Forall (fun k => k <> KGeneral) ks).
  { clear H HC. induction ks as [|k ks IH]; intros H; constructor; cbn in H; destruct k; try discriminate; auto; congruence. }
  destruct (cp_body c); cbn in H; try (injection H as <-; exact I);
    try (destruct ks; [injection H as <-; constructor|discriminate]);
    try (destruct phase); try (injection H as <-; exact I);
    destruct (all_constant ks) eqn:E1; destruct (all_simple ks) eqn:E2; try discriminate H; try (injection H as <-); auto; exact I.
Qed.

Lemma refs_all_of cd c : refs_all (builder_of cd c) = body_urefs cd (cp_body c).
Proof. unfold refs_all. cbn [builder_of pb_refs]. rewrite map_map. apply map_id. Qed.
Lemma refs_before_of cd c : refs_before (builder_of cd c) = match body_consumer (cp_body c) with CAfter => [] | _ => body_urefs cd (cp_body c) end.
Proof.
  unfold refs_before. cbn [builder_of pb_refs]. generalize (body_consumer (cp_body c)) as k. intros k.
  induction (body_urefs cd (cp_body c)) as [|u l IH]; [destruct k; reflexivity|]. cbn [map filter snd].
  destruct k; cbn [map fst]; rewrite ?IH; reflexivity.
Qed.

(** A reference to the value after the solve is only resolved for use after it. *)
Lemma built_after nodes other bs c m b u ph : build nodes other bs = Some (Ok (c, m)) -> In b bs -> In (u, ph) (pb_refs b) ->
  match u with UF64 _ RVAfter | UU64 _ RVAfter => ph = CAfter | _ => True end.
Proof.
  intros Hb Hin Hu. destruct (build_Ok _ _ _ _ _ Hb) as (_ & es & Ht & HP).
  apply (Permutation_in _ HP) in Hin. apply in_map_iff in Hin. destruct Hin as (el & <- & Hel).
  pose proof (trace_metrics _ _ _ _ _ _ Ht Hel) as HF. apply (Forall2_In_l _ _ _ _ HF) in Hu. destruct Hu as (p & _ & Hr & _). cbn [fst snd] in Hr.
  destruct u as [n rv|n rv| | | |]; try exact I; (destruct rv; try exact I); cbn [resolve] in Hr.
  - destruct (lookup (mp_f64 m) n) as [i|]; [|destruct (lookup (mp_u64 m) n) as [i|]; [|discriminate]];
      destruct i; try discriminate; destruct ph; try discriminate; reflexivity.
  - destruct (lookup (mp_u64 m) n) as [i|]; [|discriminate]. destruct i; try discriminate; destruct ph; try discriminate; reflexivity.
Qed.
