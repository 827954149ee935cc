(** Lemmas for C69: the loops over nodes and parameters, and the update of
    references. *)
From Coq Require Import QArith Lia Permutation.
From Verif Require Import Base SchemaNodes LpDynLemmas V1Convert V1ConvertSpec V1ConvertLemmas.
Local Open Scope string_scope.
Local Open Scope list_scope.
Local Open Scope nat_scope.

(** *** Whose name is it *)
Definition belongs (c : string * list string) (x : string) : Prop := In x (snd c) \/ exists k, x = generated (fst c) k.
Record apart (cs : list (string * list string)) : Prop := {
  ap_owners : NoDup (map fst cs);
  ap_names : NoDup (flat_map snd cs);
  ap_generated : forall x o k, In x (flat_map snd cs) -> In o (map fst cs) -> x <> generated o k }.

Lemma belongs_disj before c : apart (before ++ [c]) -> forall b x, In b before -> belongs b x -> belongs c x -> False.
Proof.
  intros [O N G] b x Hb. rewrite map_app in O, G. rewrite flat_map_app in N, G. cbn [map flat_map] in O, N, G. rewrite app_nil_r in N, G.
  assert (In (fst b) (map fst before)) as Hfb by (apply in_map; exact Hb).
  assert (forall y, In y (snd b) -> In y (flat_map snd before)) as Hsb by (intros y Hy; apply in_flat_map; exists b; auto).
  intros [H | (k & ->)] [H' | (k' & E)].
  - exact (NoDup_app_disj _ _ x N (Hsb x H) H').
  - refine (G x (fst c) k' _ _ E); apply in_or_app; [left; auto | right; left; reflexivity].
  - refine (G _ (fst b) k _ _ eq_refl); apply in_or_app; [right; exact H' | left; exact Hfb].
  - apply generated_inj in E. destruct E as [E _]. refine (NoDup_app_disj _ _ (fst b) O Hfb _). rewrite E. left. reflexivity.
Qed.
Lemma apart_app cs cs' : apart (cs ++ cs') -> apart cs.
Proof.
  intros [O N G]. rewrite map_app in O, G. rewrite flat_map_app in N, G. constructor; [exact (NoDup_app_l _ _ O) | exact (NoDup_app_l _ _ N) |].
  intros x o k Hx Ho. apply G; apply in_or_app; auto.
Qed.

(** The state of the conversion: [P] the names of parameters, [R] those of
    parameters that became time series, [S] those of time series. *)
Record state_ok (before : list (string * list string)) (PR : list string) (S : list v2_series) : Prop := {
  so_nodup : NoDup PR;
  so_series : NoDup (map s2_name S);
  so_belongs : forall x, In x (PR ++ map s2_name S) -> exists c, In c before /\ belongs c x }.

Lemma state_step before c PR S PR' n ns : apart (before ++ [c]) -> state_ok before PR S ->
  NoDup n -> NoDup (map s2_name ns) -> (forall x, In x (n ++ map s2_name ns) -> belongs c x) -> Permutation PR' (PR ++ n) ->
  state_ok (before ++ [c]) PR' (S ++ ns).
Proof.
  intros A [N1 N2 B] Hn Hns Hb HP. constructor.
  - apply (Permutation_NoDup (l := PR ++ n)); [symmetry; exact HP|]. apply NoDup_app_intro; [exact N1 | exact Hn|]. intros x Hx Hx'.
    destruct (B x (in_or_app _ _ _ (or_introl Hx))) as (b & Hin & Hbx). exact (belongs_disj _ _ A b x Hin Hbx (Hb x (in_or_app _ _ _ (or_introl Hx')))).
  - rewrite map_app. apply NoDup_app_intro; [exact N2 | exact Hns|]. intros x Hx Hx'.
    destruct (B x (in_or_app _ _ _ (or_intror Hx))) as (b & Hin & Hbx). exact (belongs_disj _ _ A b x Hin Hbx (Hb x (in_or_app _ _ _ (or_intror Hx')))).
  - intros x Hx. rewrite map_app in Hx. rewrite in_app_iff in Hx. destruct Hx as [Hx | Hx].
    + apply (Permutation_in _ HP) in Hx. apply in_app_or in Hx. destruct Hx as [Hx | Hx].
      * destruct (B x (in_or_app _ _ _ (or_introl Hx))) as (b & Hin & Hbx). exists b. split; [apply in_or_app; auto | exact Hbx].
      * exists c. split; [apply in_or_app; right; left; reflexivity|]. apply Hb. apply in_or_app. auto.
    + apply in_app_or in Hx. destruct Hx as [Hx | Hx].
      * destruct (B x (in_or_app _ _ _ (or_intror Hx))) as (b & Hin & Hbx). exists b. split; [apply in_or_app; auto | exact Hbx].
      * exists c. split; [apply in_or_app; right; left; reflexivity|]. apply Hb. apply in_or_app. auto.
Qed.
Lemma state_fresh before c PR d : apart (before ++ [c]) -> state_ok before PR (cd_series d) -> fresh (fst c) (snd c) d.
Proof.
  intros A [N1 N2 B] s Hs. destruct (B (s2_name s) (in_or_app _ _ _ (or_intror (in_map _ _ _ Hs)))) as (b & Hin & Hbx).
  split; [intros H; apply (belongs_disj _ _ A b _ Hin Hbx); left; exact H | intros k _ E; apply (belongs_disj _ _ A b _ Hin Hbx); right; exists k; exact E].
Qed.
Lemma apart_last before c : apart (before ++ [c]) -> NoDup (snd c) /\ no_generated (fst c) (snd c).
Proof.
  intros [O N G]. rewrite flat_map_app in N, G. rewrite map_app in G. cbn [flat_map map] in *. rewrite app_nil_r in *. split; [exact (NoDup_app_r _ _ N)|].
  intros x k Hx. apply G; apply in_or_app; [right; exact Hx | right; left; reflexivity].
Qed.
Lemma mine_belongs o E c c' x : mine o E c c' x -> belongs (o, E) x.
Proof. intros [H | (k & _ & H)]; [left; exact H | right; exists k; exact H]. Qed.

(** *** The nodes *)
Definition node_comp (n : v1_node) : string * list string := (vn_name n, names_vs (vn_values n)).
Definition pre_node (F : list v2_param) (G : list v2_series) (n : v1_node) (n2 : v2_node) : Prop :=
  n2_name n2 = vn_name n /\ n2_kind n2 = vn_kind n /\ n2_other n2 = vn_other n /\ pre_values F G (vn_values n) (n2_values n2).
Definition pre_fate F G (n : v1_node) (f : fate v2_node) : Prop :=
  match f with Kept n2 => pre_node F G n n2 | Dropped e => exists attr, e = ErNode (vn_name n) attr end.

Lemma conv_node_spec is_data before PR n d : apart (before ++ [node_comp n]) -> state_ok before PR (cd_series d) -> tidy_vs is_data (vn_virtual n) (vn_values n) ->
  match conv_node n d with
  | CPanic => True
  | COk n2 d' => exists np ns, grew (vn_name n) (names_vs (vn_values n)) (inside_vs (vn_values n)) d d' np ns /\
      forall F G, incl (cd_params d') F -> incl (cd_series d') G -> pre_node F G n n2
  | CErr e d' => (exists attr, e = ErNode (vn_name n) attr) /\ exists np ns, grew (vn_name n) (names_vs (vn_values n)) (inside_vs (vn_values n)) d d' np ns
  end.
Proof.
  intros A S T. destruct (apart_last _ _ A) as [ND NG]. pose proof (state_fresh _ _ _ _ A S) as Fr. cbn [node_comp fst snd] in *.
  pose proof (values_ok (vn_values n) (ErNode (vn_name n)) (vn_name n) d is_data (vn_virtual n) T ND NG Fr) as H. unfold conv_node.
  assert (forall attr d', (exists np ns, grew (vn_name n) (names_vs (vn_values n)) (inside_vs (vn_values n)) d d' np ns) ->
    (exists attr', ErNode (vn_name n) attr = ErNode (vn_name n) attr') /\ exists np ns, grew (vn_name n) (names_vs (vn_values n)) (inside_vs (vn_values n)) d d' np ns) as Herr by (intros attr d' Hx; split; [exists attr; reflexivity | exact Hx]).
  assert (exists np ns, grew (vn_name n) (names_vs (vn_values n)) (inside_vs (vn_values n)) d d np ns) as Hnone by (exists [], []; apply grew_refl).
  destruct (vn_ending n) as [| | attr | attr | |].
  - destruct (conv_values conv_value (ErNode (vn_name n)) (Some (vn_name n)) (vn_values n) d) as [ms d' | e d' |]; cbn [cbind]; [|exact H|exact I].
    destruct H as (np & ns & Hg & Hm). exists np, ns. split; [exact Hg|]. intros F G HF HG. repeat split. exact (Hm F G HF HG).
  - apply Herr. exact Hnone.
  - apply Herr. exact Hnone.
  - destruct (conv_values conv_value (ErNode (vn_name n)) (Some (vn_name n)) (vn_values n) d) as [ms d' | e d' |]; cbn [cbind]; [|exact H|exact I].
    destruct H as (np & ns & Hg & Hm). apply Herr. exists np, ns. exact Hg.
  - destruct (conv_values conv_value (ErNode (vn_name n)) (Some (vn_name n)) (vn_values n) d) as [ms d' | e d' |]; cbn [cbind]; [|exact H|exact I].
    destruct H as (np & ns & Hg & Hm). exists np, ns. split; [exact Hg|]. intros F G HF HG. repeat split. exact (Hm F G HF HG).
  - exact I.
Qed.

(** The parameters [P] and time series [S] came from [J]. *)
Record came (J : list v1_param) (P : list v2_param) (S : list v2_series) : Prop := {
  cm_params : forall F G, incl P F -> incl S G -> forall p2, In p2 P -> exists p, In p J /\ pre_param F G p p2;
  cm_series : Forall (from_data J) S }.
Lemma came_step J P S o E I d d' np ns P' : came J P S -> cd_series d = S -> grew o E I d d' np ns ->
  incl (cd_params d') P' -> (forall x, In x P' <-> In x P \/ In x np) -> came (J ++ I) P' (cd_series d').
Proof.
  intros [C1 C2] Es [_ Hs _ _ _ U V] HP' HP. constructor.
  - intros F G HF HG p2 Hp2. apply HP in Hp2. destruct Hp2 as [Hp2 | Hp2].
    + assert (incl P F) as H1 by (intros x Hx; apply HF; apply HP; auto).
      assert (incl S G) as H2 by (intros x Hx; apply HG; rewrite Hs, Es; apply in_or_app; auto).
      destruct (C1 F G H1 H2 p2 Hp2) as (p & Hp & Hm). exists p. split; [apply in_or_app; auto | exact Hm].
    + specialize (U F G (incl_tran HP' HF) HG). rewrite Forall_forall in U. destruct (U p2 Hp2) as (p & Hp & Hm). exists p. split; [apply in_or_app; auto | exact Hm].
  - rewrite Hs, Es. apply Forall_app. split; [eapply Forall_impl; [|exact C2] | eapply Forall_impl; [|exact V]]; intros s; apply from_data_mono; intros x Hx; apply in_or_app; auto.
Qed.
Definition reset (d : conv_data) : conv_data := mkData 0 (cd_params d) (cd_series d).

Lemma conv_nodes_spec is_data ns : forall before J o o',
  apart (before ++ map node_comp ns) -> state_ok before (map p2_name (cd_params (no_data o))) (cd_series (no_data o)) -> came J (cd_params (no_data o)) (cd_series (no_data o)) ->
  (forall n, In n ns -> tidy_vs is_data (vn_virtual n) (vn_values n)) ->
  conv_nodes ns o = Some o' -> exists fs,
    (forall F G, incl (cd_params (no_data o')) F -> incl (cd_series (no_data o')) G -> Forall2 (pre_fate F G) ns fs) /\
    length fs = length ns /\
    no_nodes o' = no_nodes o ++ kept (map snd (filter (fun x => negb (vn_virtual (fst x))) (combine ns fs))) /\
    no_virtual o' = no_virtual o ++ kept (map snd (filter (fun x => vn_virtual (fst x)) (combine ns fs))) /\
    no_errors o' = no_errors o ++ dropped fs /\
    incl (cd_params (no_data o)) (cd_params (no_data o')) /\ incl (cd_series (no_data o)) (cd_series (no_data o')) /\
    state_ok (before ++ map node_comp ns) (map p2_name (cd_params (no_data o'))) (cd_series (no_data o')) /\
    came (J ++ flat_map (fun n => inside_vs (vn_values n)) ns) (cd_params (no_data o')) (cd_series (no_data o')).
Proof.
  induction ns as [|n ns IH]; intros before J o o' A S C T E.
  - cbn in E. injection E as <-. exists []. cbn. rewrite !app_nil_r in *. repeat split; auto; try apply incl_refl; try (destruct S; assumption); destruct C; assumption.
  - cbn [conv_nodes] in E. cbn [map] in A. change (node_comp n :: map node_comp ns) with ([node_comp n] ++ map node_comp ns) in A. rewrite app_assoc in A.
    change (mkData 0 (cd_params (no_data o)) (cd_series (no_data o))) with (reset (no_data o)) in E.
    pose proof (conv_node_spec is_data before _ n (reset (no_data o)) (apart_app _ _ A) S (T n (or_introl eq_refl))) as H.
    assert (forall d' np ns', grew (vn_name n) (names_vs (vn_values n)) (inside_vs (vn_values n)) (reset (no_data o)) d' np ns' ->
       state_ok (before ++ [node_comp n]) (map p2_name (cd_params d')) (cd_series d') /\ came (J ++ inside_vs (vn_values n)) (cd_params d') (cd_series d') /\
       incl (cd_params (no_data o)) (cd_params d') /\ incl (cd_series (no_data o)) (cd_series d')) as Hstep.
    { intros d' np ns' Hg. assert (came (J ++ inside_vs (vn_values n)) (cd_params d') (cd_series d')) as HC.
      { refine (came_step _ _ _ _ _ _ (reset (no_data o)) _ _ _ _ C eq_refl Hg (incl_refl _) _). intros x. rewrite (gr_params _ _ _ _ _ _ _ Hg). apply in_app_iff. }
      destruct Hg as [P Q _ N M _ _]. cbn [reset cd_params cd_series] in *. split; [|split; [exact HC|split]].
      - rewrite Q. refine (state_step _ _ _ _ _ (map p2_name np) ns' (apart_app _ _ A) S (NoDup_app_l _ _ N) (NoDup_app_r _ _ N) _ _).
        + intros x Hx. exact (mine_belongs _ _ _ _ _ (M x Hx)).
        + rewrite P, map_app. reflexivity.
      - rewrite P. intros x Hx. apply in_or_app. auto.
      - rewrite Q. intros x Hx. apply in_or_app. auto. }
    destruct (conv_node n (reset (no_data o))) as [n2 d' | e d' |]; [| |discriminate E].
    + destruct H as (np & ns' & Hg & Hm). destruct (Hstep _ _ _ Hg) as (HS & HC & HI1 & HI2).
      set (o1 := if vn_virtual n then mkNodeOut (no_nodes o) (no_virtual o ++ [n2]) (no_errors o) d' else mkNodeOut (no_nodes o ++ [n2]) (no_virtual o) (no_errors o) d') in E.
      assert (no_data o1 = d') as Ed by (unfold o1; destruct (vn_virtual n); reflexivity). rewrite <- Ed in HS, HC, HI1, HI2, Hm.
      destruct (IH _ _ _ _ A HS HC (fun m Hm => T m (or_intror Hm)) E) as (fs & Hf & Hl & K1 & K2 & K3 & J1 & J2 & J3 & J4).
      exists (Kept n2 :: fs). repeat match goal with |- _ /\ _ => split end.
      * intros F G HF HG. constructor; [|exact (Hf F G HF HG)]. cbn [pre_fate]. apply Hm; [exact (incl_tran J1 HF) | exact (incl_tran J2 HG)].
      * cbn. rewrite Hl. reflexivity.
      * rewrite K1. unfold o1. cbn [combine filter fst]. destruct (vn_virtual n); cbn [negb no_nodes]; [reflexivity|]. rewrite <- app_assoc. reflexivity.
      * rewrite K2. unfold o1. cbn [combine filter fst]. destruct (vn_virtual n); cbn [no_virtual]; [|reflexivity]. rewrite <- app_assoc. reflexivity.
      * rewrite K3. unfold o1. destruct (vn_virtual n); reflexivity.
      * exact (incl_tran HI1 J1).
      * exact (incl_tran HI2 J2).
      * cbn [map]. rewrite <- app_assoc in J3. exact J3.
      * cbn [flat_map]. rewrite app_assoc. exact J4.
    + destruct H as ((attr & ->) & np & ns' & Hg). destruct (Hstep _ _ _ Hg) as (HS & HC & HI1 & HI2).
      destruct (IH _ _ (mkNodeOut (no_nodes o) (no_virtual o) (no_errors o ++ [ErNode (vn_name n) attr]) d') _ A HS HC (fun m Hm => T m (or_intror Hm)) E) as (fs & Hf & Hl & K1 & K2 & K3 & J1 & J2 & J3 & J4).
      cbn [no_nodes no_virtual no_errors no_data] in *.
      exists (Dropped (ErNode (vn_name n) attr) :: fs). repeat match goal with |- _ /\ _ => split end.
      * intros F G HF HG. constructor; [|exact (Hf F G HF HG)]. cbn [pre_fate]. exists attr. reflexivity.
      * cbn. rewrite Hl. reflexivity.
      * rewrite K1. cbn [combine filter fst]. destruct (vn_virtual n); reflexivity.
      * rewrite K2. cbn [combine filter fst]. destruct (vn_virtual n); reflexivity.
      * rewrite K3, <- app_assoc. reflexivity.
      * exact (incl_tran HI1 J1).
      * exact (incl_tran HI2 J2).
      * cbn [map]. rewrite <- app_assoc in J3. exact J3.
      * cbn [flat_map]. rewrite app_assoc. exact J4.
Qed.

(** *** The parameters of the file *)
Definition name_of (p : v1_param) : string := match given_name p with Some n => n | None => "" end.
Definition param_comp (p : v1_param) : string * list string := (name_of p, names_p p).
Definition pre_pfate F G (p : v1_param) (f : fate (v2_param + ts_ref)) : Prop :=
  match f with
  | Kept (inl p2) => pre_param F G p p2
  | Kept (inr r) => locatable p = true /\ reads G p r
  | Dropped e => locatable p = false /\ exists n attr, given_name p = Some n /\ e = ErParameter n attr
  end.
(** The references to data that the fates of parameters give. *)
Definition refs_of (pfs : list (v1_param * fate (v2_param + ts_ref))) : list (string * ts_ref) :=
  flat_map (fun x => match snd x with Kept (inr r) => [(name_of (fst x), r)] | _ => [] end) pfs.

Lemma locatable_ok p parent d : locatable p = true -> exists n r d', conv_param p parent d = COk (IsSeries n r) d'.
Proof.
  destruct p as [kind meta values other e | meta u t c s]; [discriminate|]. cbn [locatable conv_param]. unfold conv_dataframe. intros H.
  destruct (take_name meta parent d) as [name d1]. destruct u as [u|]; [|destruct t as [t|]; [|discriminate H]]; (destruct c as [c|], s as [s|]; [discriminate H|..]); eauto.
Qed.
Lemma own_name_in p n : given_name p = Some n -> In n (names_p p).
Proof.
  destruct p as [kind meta values other e | meta u t c s]; destruct meta as [[m|]|]; cbn [given_name]; try discriminate; intros E; injection E as ->; cbn; auto.
Qed.

Lemma conv_params_spec is_data ps : forall before J o o',
  apart (before ++ map param_comp ps) ->
  state_ok before (map p2_name (po_params o ++ cd_params (po_data o)) ++ map fst (po_refs o)) (cd_series (po_data o)) ->
  came J (po_params o ++ cd_params (po_data o)) (cd_series (po_data o)) ->
  (forall p, In p ps -> tidy_p is_data p /\ given_name p <> None) ->
  conv_params ps o = Some o' -> exists fs,
    (forall F G, incl (cd_params (po_data o')) F -> incl (cd_series (po_data o')) G -> Forall2 (pre_pfate F G) ps fs) /\
    length fs = length ps /\
    po_params o' = po_params o ++ as_params (kept fs) /\ po_refs o' = po_refs o ++ refs_of (combine ps fs) /\
    po_errors o' = po_errors o ++ dropped fs /\
    incl (cd_params (po_data o)) (cd_params (po_data o')) /\ incl (cd_series (po_data o)) (cd_series (po_data o')) /\
    state_ok (before ++ map param_comp ps) (map p2_name (po_params o' ++ cd_params (po_data o')) ++ map fst (po_refs o')) (cd_series (po_data o')) /\
    came (J ++ flat_map inside_p ps) (po_params o' ++ cd_params (po_data o')) (cd_series (po_data o')).
Proof.
  induction ps as [|p ps IH]; intros before J o o' A S C T E.
  - cbn in E. injection E as <-. exists []. cbn. rewrite !app_nil_r in *. repeat split; auto; try apply incl_refl; try (destruct S; assumption); destruct C; assumption.
  - cbn [conv_params] in E. cbn [map] in A. change (param_comp p :: map param_comp ps) with ([param_comp p] ++ map param_comp ps) in A. rewrite app_assoc in A.
    destruct (T p (or_introl eq_refl)) as [Tp Tn]. destruct (given_name p) as [n|] eqn:En; [clear Tn|congruence].
    rewrite (conv_global p n _ En) in E.
    destruct (apart_last _ _ (apart_app _ _ A)) as [ND NG]. pose proof (state_fresh _ _ _ _ (apart_app _ _ A) S) as Fr. unfold param_comp, name_of in ND, NG, Fr. cbn [fst snd] in ND, NG, Fr. rewrite En in NG, Fr.
    pose proof (proj2 conversion_spec p n (po_data o) is_data Tp ND NG Fr) as H.
    assert (param_comp p = (n, names_p p)) as Ec by (unfold param_comp, name_of; rewrite En; reflexivity).
    destruct (conv_param p (Some n) (po_data o)) as [[p2 | m r] d' | e d' |] eqn:Ep; [| | |discriminate E].
    + destruct H as (np & ns & Hg & Hp & Hm).
      assert (came (J ++ inside_p p) ((po_params o ++ [p2]) ++ cd_params d') (cd_series d')) as HC'.
      { refine (came_step _ _ _ _ _ _ (po_data o) (mkData (cd_count d') (cd_params d' ++ [p2]) (cd_series d')) _ _ _ C eq_refl Hg _ _).
        - cbn [cd_params]. intros x Hx. rewrite !in_app_iff in *. tauto.
        - intros x. rewrite Hp, !in_app_iff. tauto. }
      destruct Hg as [P Q _ N M _ _]. cbn [cd_params cd_series] in P, Q.
      assert (state_ok (before ++ [param_comp p]) (map p2_name ((po_params o ++ [p2]) ++ cd_params d') ++ map fst (po_refs o)) (cd_series d')) as HS.
      { rewrite Q, Hp. refine (state_step _ _ _ _ _ (map p2_name (np ++ [p2])) ns (apart_app _ _ A) S (NoDup_app_l _ _ N) (NoDup_app_r _ _ N) _ _).
        - intros x Hx. rewrite Ec. exact (mine_belongs _ _ _ _ _ (M x Hx)).
        - rewrite !map_app, <- !app_assoc. apply Permutation_app_head. cbn [map app].
          refine (Permutation_trans (Permutation_app_comm [p2_name p2] _) _). rewrite <- !app_assoc. apply Permutation_app_head. rewrite !app_assoc.
          apply Permutation_app_tail. apply Permutation_app_comm. }
      destruct (IH _ _ (mkParamOut (po_params o ++ [p2]) (po_refs o) (po_errors o) d') _ A HS HC' (fun q Hq => T q (or_intror Hq)) E) as (fs & Hf & Hl & K1 & K2 & K3 & J1 & J2 & J3 & J4).
      cbn [po_params po_refs po_errors po_data] in *. exists (Kept (inl p2) :: fs). repeat match goal with |- _ /\ _ => split end.
      * intros F G HF HG. constructor; [|exact (Hf F G HF HG)]. cbn [pre_pfate]. apply Hm; [exact (incl_tran J1 HF) | exact (incl_tran J2 HG)].
      * cbn. rewrite Hl. reflexivity.
      * rewrite K1, <- app_assoc. reflexivity.
      * rewrite K2. reflexivity.
      * rewrite K3. reflexivity.
      * refine (incl_tran _ J1). rewrite Hp. intros x Hx. apply in_or_app. auto.
      * refine (incl_tran _ J2). rewrite Q. intros x Hx. apply in_or_app. auto.
      * cbn [map]. rewrite <- app_assoc in J3. exact J3.
      * cbn [flat_map]. rewrite app_assoc. exact J4.
    + destruct H as (Hl0 & (ns & Hg) & Hn & Hr). specialize (Hn n En). subst m.
      assert (came (J ++ inside_p p) (po_params o ++ cd_params d') (cd_series d')) as HC.
      { refine (came_step _ _ _ _ _ _ (po_data o) _ _ _ _ C eq_refl Hg (incl_appr _ (incl_refl _)) _). intros x. rewrite (gr_params _ _ _ _ _ _ _ Hg), !in_app_iff. tauto. }
      destruct Hg as [P Q _ N M _ _]. rewrite app_nil_r in P.
      assert (state_ok (before ++ [param_comp p]) (map p2_name (po_params o ++ cd_params d') ++ map fst (po_refs o ++ [(n, r)])) (cd_series d')) as HS.
      { rewrite Q, P. refine (state_step _ _ _ _ _ [n] ns (apart_app _ _ A) S _ (NoDup_app_r _ _ N) _ _).
        - repeat constructor. intros [].
        - intros x [<- | Hx]; [rewrite Ec; left; exact (own_name_in p n En) | rewrite Ec; exact (mine_belongs _ _ _ _ _ (M x Hx))].
        - rewrite (map_app fst), app_assoc. reflexivity. }
      destruct (IH _ _ (mkParamOut (po_params o) (po_refs o ++ [(n, r)]) (po_errors o) d') _ A HS HC (fun q Hq => T q (or_intror Hq)) E) as (fs & Hf & Hl & K1 & K2 & K3 & J1 & J2 & J3 & J4).
      cbn [po_params po_refs po_errors po_data] in *. exists (Kept (inr r) :: fs). repeat match goal with |- _ /\ _ => split end.
      * intros F G HF HG. constructor; [|exact (Hf F G HF HG)]. cbn [pre_pfate]. split; [exact Hl0|]. apply Hr. exact (incl_tran J2 HG).
      * cbn. rewrite Hl. reflexivity.
      * rewrite K1. reflexivity.
      * rewrite K2, <- app_assoc. unfold refs_of. cbn [combine flat_map snd fst app]. unfold name_of at 2. rewrite En. reflexivity.
      * rewrite K3. reflexivity.
      * refine (incl_tran _ J1). rewrite P. apply incl_refl.
      * refine (incl_tran _ J2). rewrite Q. intros x Hx. apply in_or_app. auto.
      * cbn [map]. rewrite <- app_assoc in J3. exact J3.
      * cbn [flat_map]. rewrite app_assoc. exact J4.
    + destruct H as (He & np & ns & Hg). destruct (He n En) as (attr & ->).
      assert (locatable p = false) as Hloc by (destruct (locatable p) eqn:Hl; [destruct (locatable_ok p (Some n) (po_data o) Hl) as (? & ? & ? & Hx); congruence | reflexivity]).
      assert (came (J ++ inside_p p) (po_params o ++ cd_params d') (cd_series d')) as HC.
      { refine (came_step _ _ _ _ _ _ (po_data o) _ _ _ _ C eq_refl Hg (incl_appr _ (incl_refl _)) _). intros x. rewrite (gr_params _ _ _ _ _ _ _ Hg), !in_app_iff. tauto. }
      destruct Hg as [P Q _ N M _ _].
      assert (state_ok (before ++ [param_comp p]) (map p2_name (po_params o ++ cd_params d') ++ map fst (po_refs o)) (cd_series d')) as HS.
      { rewrite Q, P. refine (state_step _ _ _ _ _ (map p2_name np) ns (apart_app _ _ A) S (NoDup_app_l _ _ N) (NoDup_app_r _ _ N) _ _).
        - intros x Hx. rewrite Ec. exact (mine_belongs _ _ _ _ _ (M x Hx)).
        - rewrite !map_app, <- !app_assoc. apply Permutation_app_head. apply Permutation_app_head. apply Permutation_app_comm. }
      destruct (IH _ _ (mkParamOut (po_params o) (po_refs o) (po_errors o ++ [ErParameter n attr]) d') _ A HS HC (fun q Hq => T q (or_intror Hq)) E) as (fs & Hf & Hl & K1 & K2 & K3 & J1 & J2 & J3 & J4).
      cbn [po_params po_refs po_errors po_data] in *. exists (Dropped (ErParameter n attr) :: fs). repeat match goal with |- _ /\ _ => split end.
      * intros F G HF HG. constructor; [|exact (Hf F G HF HG)]. cbn [pre_pfate]. split; [exact Hloc|]. exists n, attr. auto.
      * cbn. rewrite Hl. reflexivity.
      * rewrite K1. reflexivity.
      * rewrite K2. reflexivity.
      * rewrite K3, <- app_assoc. reflexivity.
      * refine (incl_tran _ J1). rewrite P. intros x Hx. apply in_or_app. auto.
      * refine (incl_tran _ J2). rewrite Q. intros x Hx. apply in_or_app. auto.
      * cbn [map]. rewrite <- app_assoc in J3. exact J3.
      * cbn [flat_map]. rewrite app_assoc. exact J4.
Qed.
