(** C69: converting a Pywr v1 model file keeps every component with its meaning
    or reports it. *)
From Coq Require Import QArith Lia Permutation.
From Verif Require Import Base SchemaNodes LpDynLemmas V1Convert V1ConvertSpec V1ConvertLemmas V1ConvertNetLemmas.
Local Open Scope string_scope.
Local Open Scope list_scope.
Local Open Scope nat_scope.

(** *** References to data are updated *)
Section Update.
  Variables (refs : list (string * ts_ref)) (F : list v2_param) (G : list v2_series) (is_data : string -> Prop) (data_of : string -> ts_ref -> Prop).
  Hypothesis (Hrefs : forall n r, In (n, r) refs -> data_of n r) (Hdata : forall n, is_data n -> In n (map fst refs))
    (Hnames : NoDup (map p2_name F ++ map fst refs)).
  Let F' := map (update_param refs) F.

  Lemma find_ref n r : find (fun x => String.eqb (fst x) n) refs = Some r -> In (n, snd r) refs.
  Proof. intros E. apply find_some in E. destruct E as [Hin E]. apply String.eqb_eq in E. subst n. destruct r as [n r]. exact Hin. Qed.
  Lemma find_no_ref n : find (fun x => String.eqb (fst x) n) refs = None -> ~ In n (map fst refs).
  Proof. intros E H. apply in_map_iff in H. destruct H as (r & <- & Hin). pose proof (find_none _ _ E r Hin) as H. cbn in H. rewrite String.eqb_refl in H. discriminate H. Qed.
  Lemma update_plain s n : ~ In n (map fst refs) -> update_metric refs s (M2Parameter n) = M2Parameter n.
  Proof.
    intros H. destruct s; [|reflexivity]. cbn [update_metric]. destruct (find _ refs) as [r|] eqn:E; [|reflexivity]. exfalso. apply H.
    apply find_ref in E. apply (in_map fst) in E. exact E.
  Qed.

  Lemma update_ok :
    (forall v s (top : bool) m, tidy_v is_data top s v -> pre_value F G v m -> same_value is_data data_of F' G v (if top then m else update_metric refs s m)) /\
    (forall p p2, tidy_p is_data p -> pre_param F G p p2 -> same_param is_data data_of F' G p (update_param refs p2)).
  Proof.
    apply v1_induction.
    - intros q s top m _ H. inversion H; subst; destruct top, s; constructor; assumption.
    - intros n s top m T H. cbn [tidy_v] in T. inversion H as [| | |n' Hn | ? ? Hd| |]; subst; [|destruct Hd].
      destruct top; [constructor; intros Hi; destruct (T Hi) as [_ T2]; discriminate T2|]. destruct s.
      + cbn [update_metric]. destruct (find _ refs) as [r|] eqn:E.
        * apply same_ref_data. apply Hrefs. exact (find_ref _ _ E).
        * apply same_ref. intros Hi. exact (find_no_ref _ E (Hdata n Hi)).
      + constructor. intros Hi. destruct (T Hi) as [T1 _]. discriminate T1.
    - intros t ok s top m _ H. inversion H; subst; destruct top, s; constructor.
    - intros p Hp s top m T H. cbn [tidy_v] in T. inversion H as [| | | | |p' p2 Hin Hs | p' r Hr]; subst.
      + assert (same_value is_data data_of F' G (VInline p) (M2Parameter (p2_name (update_param refs p2)))) as Hsame.
        { apply same_inline; [apply in_map; exact Hin | exact (Hp p2 T Hs)]. }
        cbn [update_param p2_name] in Hsame. destruct top; [exact Hsame|]. rewrite update_plain; [exact Hsame|].
        exact (NoDup_app_disj _ _ _ Hnames (in_map p2_name _ _ Hin)).
      + destruct top, s; apply same_inline_data; exact Hr.
    - intros kind meta values other e Hvs p2 T H. apply tidy_core in T. destruct T as (_ & _ & T). inversion H as [k m vs ot q Hn Hk Ho Hv]; subst. constructor; [exact Hn | reflexivity | reflexivity |].
      cbn [update_param p2_values]. revert Hv. generalize (p2_values p2) as ms. clear H Hn p2. induction Hvs as [|[[a s] v] vs Hv _ IH]; intros ms H; inversion H as [|a' s' v' m' vs' ms' Hvm Hrest]; subst; cbn [update_values map]; [constructor|].
      unfold tidy_vs in T. rewrite Forall_cons_iff in T. destruct T as [T1 T2]. constructor; [exact (Hv s false _ T1 Hvm) | apply IH; assumption].
    - intros meta u t c s p2 _ H. inversion H.
  Qed.
  Lemma update_values_ok (top : bool) vs : forall ms, tidy_vs is_data top vs -> pre_values F G vs ms ->
    same_values is_data data_of F' G vs (if top then ms else update_values refs ms).
  Proof.
    induction vs as [|[[a s] v] vs IH]; intros ms T H; inversion H as [|a' s' v' m' vs' ms' Hvm Hrest]; subst; cbn [update_values map]; [destruct top; constructor|].
    unfold tidy_vs in T. rewrite Forall_cons_iff in T. destruct T as [T1 T2]. pose proof (proj1 update_ok v s top _ T1 Hvm) as H1.
    pose proof (IH _ T2 Hrest) as H2. destruct top; constructor; assumption.
  Qed.
End Update.

(** *** The file as a whole *)
Lemma names_apart ps : (forall p, In p ps -> given_name p <> None) -> NoDup (flat_map names_p ps) -> NoDup (map name_of ps).
Proof.
  induction ps as [|p ps IH]; intros Hn ND; [constructor|]. cbn [flat_map map] in *. constructor.
  - intros Hin. apply in_map_iff in Hin. destruct Hin as (q & Eq & Hq).
    assert (forall r, In r (p :: ps) -> In (name_of r) (names_p r)) as Hown.
    { intros r Hr. pose proof (Hn r Hr) as H. unfold name_of. destruct (given_name r) as [m|] eqn:E; [exact (own_name_in r m E) | congruence]. }
    refine (NoDup_app_disj _ _ (name_of p) ND (Hown p (or_introl eq_refl)) _). apply in_flat_map. exists q. split; [exact Hq|]. rewrite <- Eq. exact (Hown q (or_intror Hq)).
  - apply IH; [intros q Hq; apply Hn; right; exact Hq | exact (NoDup_app_r _ _ ND)].
Qed.
Lemma flat_map_map {A B C} (f : A -> B) (g : B -> list C) l : flat_map g (map f l) = flat_map (fun x => g (f x)) l.
Proof. induction l as [|a l IH]; [reflexivity|]. cbn. rewrite IH. reflexivity. Qed.
Lemma tidy_apart v1 : tidy v1 -> apart (map node_comp (v1_nodes v1) ++ map param_comp (v1_params v1)).
Proof.
  intros [T1 T2 T3 T4 T5 _ _]. constructor.
  - rewrite map_app, !map_map. cbn [node_comp param_comp fst]. apply NoDup_app_intro; [exact T1 | exact (names_apart _ T2 (NoDup_app_r _ _ T3)) |].
    intros x Hx Hy. apply in_map_iff in Hx, Hy. destruct Hx as (n & <- & Hn), Hy as (p & E & Hp). apply (T4 n p Hn Hp). unfold name_of in E. pose proof (T2 p Hp). destruct (given_name p); congruence.
  - rewrite flat_map_app, !flat_map_map. exact T3.
  - intros x o k Hx Ho. rewrite flat_map_app, !flat_map_map in Hx. apply (T5 x o k); [exact Hx|]. rewrite map_app, !map_map in Ho. apply in_app_or in Ho. destruct Ho as [Ho | Ho]; [left; exact Ho|].
    right. apply in_map_iff in Ho. destruct Ho as (p & E & Hp). exists p. split; [exact Hp|]. cbn [param_comp fst] in E. unfold name_of in E. pose proof (T2 p Hp). destruct (given_name p); congruence.
Qed.

Lemma conv_edges_spec es : exists fs, Forall2 edge_fate es fs /\ fst (conv_edges es) = kept fs /\ snd (conv_edges es) = dropped fs.
Proof.
  assert (forall w, match conv_opt_slot w with Some s => same_slot w s | None => unknown_slot w end) as Hslot.
  { intros [w|]; [|exact I]. cbn [conv_opt_slot]. unfold conv_slot.
    destruct (String.eqb_spec w "abstraction") as [-> |N1]; [constructor|]. destruct (String.eqb_spec w "river") as [-> |N2]; [constructor|].
    destruct (String.eqb_spec w "storage") as [-> |N3]; [constructor|]. destruct (String.eqb_spec w "spill") as [-> |N4]; [constructor|].
    destruct (String.eqb_spec w "compensation") as [-> |N5]; [constructor|]. cbn. intros s H. inversion H; congruence. }
  induction es as [|e es (fs & Hf & Hk & Hd)]; [exists []; repeat split; constructor|]. cbn [conv_edges]. destruct (conv_edges es) as [oks errs]. cbn [fst snd] in Hk, Hd. unfold conv_edge.
  pose proof (Hslot (ve_from_slot e)) as H1. pose proof (Hslot (ve_to_slot e)) as H2.
  destruct (conv_opt_slot (ve_from_slot e)) as [f|]; [destruct (conv_opt_slot (ve_to_slot e)) as [t|]|].
  - exists (Kept (mkSedge (ve_from e) f (ve_to e) t) :: fs). split; [constructor; [cbn; auto | exact Hf]|]. cbn. split; [f_equal; exact Hk | exact Hd].
  - exists (Dropped (ErEdge (ve_from e) (ve_to e)) :: fs). split; [constructor; [cbn; auto | exact Hf]|]. cbn. split; [exact Hk | f_equal; exact Hd].
  - exists (Dropped (ErEdge (ve_from e) (ve_to e)) :: fs). split; [constructor; [cbn; auto | exact Hf]|]. cbn. split; [exact Hk | f_equal; exact Hd].
Qed.

Definition map_fate {A B} (f : A -> B) (x : fate A) : fate B := match x with Kept a => Kept (f a) | Dropped e => Dropped e end.
Lemma dropped_map {A B} (f : A -> B) fs : dropped (map (map_fate f) fs) = dropped fs.
Proof. unfold dropped. rewrite flat_map_map. apply flat_map_ext. intros [a|e]; reflexivity. Qed.
Lemma kept_map {A B} (f : A -> B) fs : kept (map (map_fate f) fs) = map f (kept fs).
Proof. induction fs as [|[a|e] fs IH]; cbn; [reflexivity | f_equal; exact IH | exact IH]. Qed.

Definition updated refs (n : v1_node) (f : fate v2_node) : fate v2_node := if vn_virtual n then f else map_fate (update_node refs) f.
Fixpoint zip_with {A B C} (f : A -> B -> C) (l : list A) (m : list B) : list C := match l, m with a :: l, b :: m => f a b :: zip_with f l m | _, _ => [] end.
Lemma updated_plain refs ns : forall fs, kept (map snd (filter (fun x => negb (vn_virtual (fst x))) (combine ns (zip_with (updated refs) ns fs)))) =
  map (update_node refs) (kept (map snd (filter (fun x => negb (vn_virtual (fst x))) (combine ns fs)))).
Proof.
  induction ns as [|n ns IH]; intros [|f fs]; cbn [zip_with combine filter map fst]; try reflexivity. unfold updated at 1. destruct (vn_virtual n); cbn [negb]; [apply IH|].
  cbn [map snd]. destruct f as [a|e]; cbn [map_fate]; cbn [kept flat_map app map]; [f_equal|]; apply IH.
Qed.
Lemma updated_virtual refs ns : forall fs, kept (map snd (filter (fun x => vn_virtual (fst x)) (combine ns (zip_with (updated refs) ns fs)))) =
  kept (map snd (filter (fun x => vn_virtual (fst x)) (combine ns fs))).
Proof.
  induction ns as [|n ns IH]; intros [|f fs]; cbn [zip_with combine filter map fst]; try reflexivity. unfold updated at 1. destruct (vn_virtual n); [|apply IH].
  cbn [map snd]. destruct f as [a|e]; cbn [kept flat_map app]; [f_equal|]; apply IH.
Qed.
Lemma updated_dropped refs ns : forall fs, length fs = length ns -> dropped (zip_with (updated refs) ns fs) = dropped fs.
Proof.
  induction ns as [|n ns IH]; intros [|f fs] Hl; cbn in Hl; try discriminate Hl; [reflexivity|]. cbn [zip_with]. unfold updated at 1.
  assert (dropped (zip_with (updated refs) ns fs) = dropped fs) as H by (apply IH; congruence).
  destruct (vn_virtual n), f as [a|e]; cbn [map_fate].
  - exact H.
  - change (e :: dropped (zip_with (updated refs) ns fs) = e :: dropped fs). f_equal. exact H.
  - exact H.
  - change (e :: dropped (zip_with (updated refs) ns fs) = e :: dropped fs). f_equal. exact H.
Qed.
Lemma Forall2_zip {A B} (R R' : A -> B -> Prop) (f : A -> B -> B) l m : Forall2 R l m -> (forall a b, In a l -> R a b -> R' a (f a b)) -> Forall2 R' l (zip_with f l m).
Proof. induction 1 as [|a b l m H _ IH]; intros Hf; cbn [zip_with]; constructor; [apply Hf; [left; reflexivity | exact H] | apply IH; intros; apply Hf; [right|]; assumption]. Qed.
Lemma Forall2_map_r {A B C} (R : A -> B -> Prop) (R' : A -> C -> Prop) (f : B -> C) l m : Forall2 R l m -> (forall a b, In a l -> R a b -> R' a (f b)) -> Forall2 R' l (map f m).
Proof. induction 1 as [|a b l m H _ IH]; intros Hf; cbn [map]; constructor; [apply Hf; [left; reflexivity | exact H] | apply IH; intros; apply Hf; [right|]; assumption]. Qed.
Lemma In_refs_of F G ps fs n r : Forall2 (pre_pfate F G) ps fs -> (forall p, In p ps -> given_name p <> None) -> In (n, r) (refs_of (combine ps fs)) ->
  exists p, In p ps /\ given_name p = Some n /\ reads G p r.
Proof.
  induction 1 as [|p f ps fs H _ IH]; intros Hn Hin; [destruct Hin|]. cbn [combine] in Hin. unfold refs_of in Hin. cbn [flat_map snd fst] in Hin. apply in_app_or in Hin. destruct Hin as [Hin | Hin].
  - destruct f as [[p2|r']|e]; try destruct Hin as [E | []]; try destruct Hin. injection E as E ->. exists p. split; [left; reflexivity|]. split; [|apply H].
    unfold name_of in E. pose proof (Hn p (or_introl eq_refl)). destruct (given_name p); congruence.
  - destruct (IH (fun q Hq => Hn q (or_intror Hq)) Hin) as (q & Hq & H'). exists q. split; [right; exact Hq | exact H'].
Qed.
Lemma refs_complete F G ps fs p n : Forall2 (pre_pfate F G) ps fs -> In p ps -> given_name p = Some n -> locatable p = true -> In n (map fst (refs_of (combine ps fs))).
Proof.
  induction 1 as [|q f ps fs H _ IH]; intros Hin En Hl; [destruct Hin|]. cbn [combine]. unfold refs_of. cbn [flat_map snd fst]. rewrite map_app. apply in_or_app. destruct Hin as [-> | Hin].
  - left. destruct f as [[p2|r]|e]; cbn [pre_pfate] in H.
    + inversion H; subst. discriminate Hl.
    + left. cbn [fst]. unfold name_of. rewrite En. reflexivity.
    + destruct H as [H _]. congruence.
  - right. exact (IH Hin En Hl).
Qed.
Lemma reads_mono G G' p r : incl G G' -> reads G p r -> reads G' p r.
Proof. intros HI. destruct p as [|meta [u|] [t|] c s]; cbn; auto; intros (H & H'); split; auto. Qed.

Definition update_own refs (x : v2_param + ts_ref) : v2_param + ts_ref := match x with inl p => inl (update_param refs p) | inr r => inr r end.
Lemma as_params_update refs ks : as_params (map (update_own refs) ks) = map (update_param refs) (as_params ks).
Proof. induction ks as [|[p|r] ks IH]; cbn; [reflexivity | f_equal; exact IH | exact IH]. Qed.
Lemma map_p2_name_update refs ps : map p2_name (map (update_param refs) ps) = map p2_name ps.
Proof. rewrite map_map. reflexivity. Qed.

Lemma tidy_inside is_data :
  (forall v s top p, tidy_v is_data top s v -> In p (inside_v v) -> tidy_p is_data p) /\
  (forall q p, tidy_p is_data q -> In p (inside_p q) -> tidy_p is_data p).
Proof.
  apply v1_induction.
  - intros q s top p _ [].
  - intros n s top p _ [].
  - intros t ok s top p _ [].
  - intros q Hq s top p T Hp. exact (Hq p T Hp).
  - intros kind meta values other e Hvs p T Hp. rewrite inside_core in Hp. destruct Hp as [<- | Hp]; [exact T|]. apply tidy_core in T. destruct T as (_ & _ & T).
    unfold inside_vs in Hp. apply in_flat_map in Hp. destruct Hp as (x & Hx & Hp). rewrite Forall_forall in Hvs. unfold tidy_vs in T. rewrite Forall_forall in T. exact (Hvs x Hx _ _ p (T x Hx) Hp).
  - intros meta u t c s p T [<- | []]. exact T.
Qed.
Lemma tidy_all v1 p : tidy v1 -> In p (all_params v1) -> tidy_p (dataframe v1) p.
Proof.
  intros T Hp. unfold all_params in Hp. apply in_app_or in Hp. destruct Hp as [Hp | Hp]; apply in_flat_map in Hp.
  - destruct Hp as (n & Hn & Hp). unfold inside_vs in Hp. apply in_flat_map in Hp. destruct Hp as (x & Hx & Hp).
    pose proof (td_values_nodes _ T n Hn) as H. unfold tidy_vs in H. rewrite Forall_forall in H. exact (proj1 (tidy_inside _) _ _ _ p (H x Hx) Hp).
  - destruct Hp as (q & Hq & Hp). exact (proj2 (tidy_inside _) q p (td_values_params _ T q Hq) Hp).
Qed.

(** Everything about one conversion. *)
Lemma converted v1 o : tidy v1 -> from_v1 v1 = Some o ->
  (NoDup (map p2_name (v2_params o)) /\ NoDup (map s2_name (v2_timeseries o))) /\
  (exists nodes edges params, Forall2 (node_fate v1 o) (v1_nodes v1) nodes /\ Forall2 edge_fate (v1_edges v1) edges /\ Forall2 (param_fate v1 o) (v1_params v1) params /\
    v2_nodes o = kept (map snd (filter (fun x => negb (vn_virtual (fst x))) (combine (v1_nodes v1) nodes))) /\
    v2_virtual o = kept (map snd (filter (fun x => vn_virtual (fst x)) (combine (v1_nodes v1) nodes))) /\
    v2_edges o = kept edges /\
    (exists inline, v2_params o = as_params (kept params) ++ inline) /\
    v2_errors o = dropped nodes ++ dropped edges ++ dropped params ++ map ErTable (v1_tables v1)) /\
  (forall p2, In p2 (v2_params o) -> exists p, In p (all_params v1) /\ same_param (dataframe v1) (data_reference v1 o) (v2_params o) (v2_timeseries o) p p2) /\
  (forall s, In s (v2_timeseries o) -> from_data (all_params v1) s).
Proof.
  intros T E. pose proof (tidy_apart v1 T) as A. unfold from_v1 in E.
  destruct (conv_nodes (v1_nodes v1) (mkNodeOut [] [] [] (mkData 0 [] []))) as [no|] eqn:En; [|discriminate E].
  destruct (conv_edges_spec (v1_edges v1)) as (efs & Hefs & Hek & Hed).
  destruct (conv_edges (v1_edges v1)) as [es ees]. cbn [fst snd] in Hek, Hed.
  destruct (conv_params (v1_params v1) (mkParamOut [] [] [] (mkData 0 (cd_params (no_data no)) (cd_series (no_data no))))) as [po|] eqn:Ep; [|discriminate E].
  injection E as E.
  assert (state_ok [] (map p2_name (cd_params (mkData 0 [] []))) (cd_series (mkData 0 [] []))) as S0 by (constructor; cbn; [constructor | constructor | intros x []]).
  assert (came [] (cd_params (mkData 0 [] [])) (cd_series (mkData 0 [] []))) as C0 by (constructor; cbn; [intros ? ? _ _ p2 [] | constructor]).
  destruct (conv_nodes_spec (dataframe v1) (v1_nodes v1) [] [] (mkNodeOut [] [] [] (mkData 0 [] [])) no (apart_app _ _ A) S0 C0 (td_values_nodes _ T) En)
    as (nfs & Hnf & Hnl & Kn & Kv & Ke & _ & _ & S1 & C1).
  cbn [no_nodes no_virtual no_errors app] in Kn, Kv, Ke. cbn [app] in S1, C1.
  assert (forall p, In p (v1_params v1) -> tidy_p (dataframe v1) p /\ given_name p <> None) as Tp by (intros p Hp; split; [exact (td_values_params _ T p Hp) | exact (td_named _ T p Hp)]).
  set (d1 := mkData 0 (cd_params (no_data no)) (cd_series (no_data no))) in Ep.
  assert (state_ok (map node_comp (v1_nodes v1)) (map p2_name (po_params (mkParamOut [] [] [] d1) ++ cd_params d1) ++ map fst (po_refs (mkParamOut [] [] [] d1))) (cd_series d1)) as S1' by (cbn; rewrite app_nil_r; exact S1).
  destruct (conv_params_spec (dataframe v1) (v1_params v1) (map node_comp (v1_nodes v1)) _ (mkParamOut [] [] [] d1) po A S1' C1 Tp Ep)
    as (pfs & Hpf & Hpl & Kp & Kr & Kpe & I1 & I2 & S2 & C2).
  cbn [po_params po_refs po_errors po_data app] in Kp, Kr, Kpe, I1, I2. 
  set (refs := po_refs po) in *. set (F := po_params po ++ cd_params (po_data po)) in *. set (G := cd_series (po_data po)) in *.
  assert (incl (cd_params (po_data po)) F) as HF by (apply incl_appr; apply incl_refl).
  assert (incl (cd_params (no_data no)) F) as HF1 by exact (incl_tran I1 HF).
  specialize (Hpf F G HF (incl_refl _)). specialize (Hnf F G HF1 I2).
  assert (v2_timeseries o = G) as Eg by (subst o; reflexivity).
  assert (v2_params o = map (update_param refs) F) as Ef by (subst o; reflexivity).
  assert (forall n r, In (n, r) refs -> data_reference v1 o n r) as Hrefs.
  { intros n r Hin. rewrite Kr in Hin. destruct (In_refs_of F G _ _ n r Hpf (td_named _ T) Hin) as (p & Hp & Hg & Hr). exists p. rewrite Eg. auto. }
  assert (forall n, dataframe v1 n -> In n (map fst refs)) as Hdata.
  { intros n (p & Hp & Hg & Hl). rewrite Kr. exact (refs_complete F G _ _ p n Hpf Hp Hg Hl). }
  assert (NoDup (map p2_name F ++ map fst refs)) as Hnames by exact (so_nodup _ _ _ S2).
  split; [|split; [|split]].
  - rewrite Ef, Eg, map_p2_name_update. split; [exact (NoDup_app_l _ _ Hnames) | exact (so_series _ _ _ S2)].
  - exists (zip_with (updated refs) (v1_nodes v1) nfs), efs, (map (map_fate (update_own refs)) pfs).
    split; [|split; [exact Hefs|split; [|split; [|split; [|split; [|split]]]]]].
    + refine (Forall2_zip _ _ _ _ _ Hnf _). intros n f Hn Hf. unfold updated.
      pose proof (td_values_nodes _ T n Hn) as Tn. destruct f as [n2|e].
      * destruct Hf as (H1 & H2 & H3 & H4).
        pose proof (update_values_ok refs F G (dataframe v1) (data_reference v1 o) Hrefs Hdata Hnames (vn_virtual n) (vn_values n) _ Tn H4) as H5. rewrite <- Ef, <- Eg in H5.
        destruct (vn_virtual n); cbn [map_fate node_fate]; (split; [exact H1|split; [exact H2|split; [exact H3|exact H5]]]).
      * destruct (vn_virtual n); exact Hf.
    + refine (Forall2_map_r _ _ _ _ _ Hpf _). intros p f Hp Hf. destruct f as [[p2|r]|e]; cbn [map_fate update_own param_fate pre_pfate] in *.
      * pose proof (proj2 (update_ok refs F G (dataframe v1) (data_reference v1 o) Hrefs Hdata Hnames) p p2 (td_values_params _ T p Hp) Hf) as H. rewrite <- Ef, <- Eg in H. exact H.
      * rewrite Eg. apply Hf.
      * exact (proj2 Hf).
    + rewrite updated_plain, <- Kn. subst o. reflexivity.
    + rewrite updated_virtual, <- Kv. subst o. reflexivity.
    + rewrite <- Hek. subst o. reflexivity.
    + exists (map (update_param refs) (cd_params (po_data po))). rewrite Ef, kept_map, as_params_update, <- Kp. unfold F. apply map_app.
    + rewrite (updated_dropped refs _ _ Hnl), dropped_map, <- Ke, <- Hed, <- Kpe. subst o. reflexivity.
  - intros p2 Hin. rewrite Ef in Hin. apply in_map_iff in Hin. destruct Hin as (q2 & <- & Hq2).
    destruct (cm_params _ _ _ C2 F G (incl_refl _) (incl_refl _) q2 Hq2) as (p & Hp & Hs). exists p. split; [exact Hp|].
    assert (tidy_p (dataframe v1) p) as Htp by exact (tidy_all v1 p T Hp).
    pose proof (proj2 (update_ok refs F G (dataframe v1) (data_reference v1 o) Hrefs Hdata Hnames) p q2 Htp Hs) as H. rewrite <- Ef, <- Eg in H. exact H.
  - intros s Hs. rewrite Eg in Hs. pose proof (cm_series _ _ _ C2) as H. rewrite Forall_forall in H. exact (H s Hs).
Qed.

(** *** Theorems *)

(** No two parameters and no two time series of the new file share a name. *)
Theorem C69_names_unique v1 o : tidy v1 -> from_v1 v1 = Some o ->
  NoDup (map p2_name (v2_params o)) /\ NoDup (map s2_name (v2_timeseries o)).
Proof. intros T E. apply (converted v1 o T E). Qed.
Print Assumptions C69_names_unique.

(** Every node, edge and parameter of the old file is kept in order with the
    same meaning, or reported by name; every table is reported; and nothing else
    is. *)
Theorem C69_nothing_lost v1 o : tidy v1 -> from_v1 v1 = Some o ->
  exists nodes edges params,
    Forall2 (node_fate v1 o) (v1_nodes v1) nodes /\ Forall2 edge_fate (v1_edges v1) edges /\ Forall2 (param_fate v1 o) (v1_params v1) params /\
    v2_nodes o = kept (map snd (filter (fun x => negb (vn_virtual (fst x))) (combine (v1_nodes v1) nodes))) /\
    v2_virtual o = kept (map snd (filter (fun x => vn_virtual (fst x)) (combine (v1_nodes v1) nodes))) /\
    v2_edges o = kept edges /\
    (exists inline, v2_params o = as_params (kept params) ++ inline) /\
    v2_errors o = dropped nodes ++ dropped edges ++ dropped params ++ map ErTable (v1_tables v1).
Proof. intros T E. apply (converted v1 o T E). Qed.
Print Assumptions C69_nothing_lost.

(** Every parameter of the new file means what some parameter of the old file
    means, and every time series reads what some [DataFrame] reads. *)
Theorem C69_nothing_invented v1 o : tidy v1 -> from_v1 v1 = Some o ->
  (forall p2, In p2 (v2_params o) -> exists p, In p (all_params v1) /\
     same_param (dataframe v1) (data_reference v1 o) (v2_params o) (v2_timeseries o) p p2) /\
  (forall s, In s (v2_timeseries o) -> exists meta t c sc, In (PData meta (Some (s2_url s)) t c sc) (all_params v1) /\
     forall n, meta = Some (Some n) -> s2_name s = n).
Proof. intros T E. apply (converted v1 o T E). Qed.
Print Assumptions C69_nothing_invented.

Lemma completes_inside :
  (forall v s parent d, (forall kind meta vs other e, In (PCore kind meta vs other e) (inside_v v) -> e <> EndTodo) -> conv_value v s parent d <> CPanic) /\
  (forall p parent d, (forall kind meta vs other e, In (PCore kind meta vs other e) (inside_p p) -> e <> EndTodo) -> conv_param p parent d <> CPanic).
Proof.
  assert (forall vs, Forall (fun x => forall s parent d, (forall kind meta vs other e, In (PCore kind meta vs other e) (inside_v (snd x)) -> e <> EndTodo) -> conv_value (snd x) s parent d <> CPanic) vs ->
    forall mk parent d, (forall kind meta ws other e, In (PCore kind meta ws other e) (inside_vs vs) -> e <> EndTodo) -> conv_values conv_value mk parent vs d <> CPanic) as Hvs.
  { induction 1 as [|[[a s] v] vs Hv _ IH]; intros mk parent d H; cbn [conv_values]; [discriminate|]. cbn [snd] in Hv.
    assert (conv_value v s parent d <> CPanic) as H1 by (apply Hv; intros; eapply H; unfold inside_vs; cbn [flat_map snd]; apply in_or_app; left; eassumption).
    destruct (conv_value v s parent d) as [m d1 | e d1 |]; cbn [wrap cbind]; [|discriminate|congruence].
    assert (conv_values conv_value mk parent vs d1 <> CPanic) as H2 by (apply IH; intros; eapply H; unfold inside_vs; cbn [flat_map snd]; apply in_or_app; right; eassumption).
    destruct (conv_values conv_value mk parent vs d1); cbn [cbind]; congruence. }
  apply v1_induction.
  - intros q [|] parent d _; cbn [conv_value]; [discriminate|]. destruct (is_whole q); discriminate.
  - intros n s parent d _. discriminate.
  - intros t [|] s parent d _; discriminate.
  - intros p Hp s parent d H. cbn [conv_value]. specialize (Hp parent d H). destruct (conv_param p parent d) as [[p2|n r] d1 | e d1 |]; cbn [cbind]; congruence.
  - intros kind meta values other e H parent d HT. rewrite inside_core in HT. pose proof (HT _ _ _ _ _ (or_introl eq_refl)) as He.
    assert (forall mk pn d, conv_values conv_value mk pn values d <> CPanic) as Hv by (intros mk pn d0; apply Hvs; [exact H | intros; eapply HT; right; eassumption]).
    cbn [conv_param]. destruct e; try congruence; destruct (take_name meta parent d) as [name d1].
    + specialize (Hv (ErParameter name) (or_name parent name) d1). destruct (conv_values _ _ _ values d1); cbn [cbind]; congruence.
    + congruence.
    + specialize (Hv (ErParameter name) (or_name parent name) d1). destruct (conv_values _ _ _ values d1); cbn [cbind]; congruence.
    + pose proof (Hv (ErParameter name) (or_name parent name) d1) as Hv1. destruct (conv_values _ _ _ values d1) as [x d2|x d2|]; [| |congruence];
        (destruct (take_name meta parent d2) as [name2 d3]; specialize (Hv (ErParameter name2) (or_name parent name2) d3); destruct (conv_values _ _ _ values d3); cbn [cbind]; congruence).
  - intros meta u t c s parent d _. cbn [conv_param]. unfold conv_dataframe. destruct (take_name meta parent d) as [name d1].
    destruct u as [u|]; [|destruct t as [t|]; [|discriminate]]; destruct c, s; discriminate.
Qed.

(** The conversion always completes unless a component of a type it does not
    implement yet ([todo!()]) is in the file. *)
Theorem C69_completes v1 :
  (forall n, In n (v1_nodes v1) -> vn_ending n <> EndTodo) ->
  (forall kind meta vs other e, In (PCore kind meta vs other e) (all_params v1) -> e <> EndTodo) ->
  exists o, from_v1 v1 = Some o.
Proof.
  intros Hn Hp. unfold from_v1. unfold all_params in Hp.
  assert (forall ns o, (forall n, In n ns -> vn_ending n <> EndTodo) -> (forall kind meta vs other e, In (PCore kind meta vs other e) (flat_map (fun n => inside_vs (vn_values n)) ns) -> e <> EndTodo) ->
    exists o', conv_nodes ns o = Some o') as Hnodes.
  { clear. induction ns as [|n ns IH]; intros o Hn Hp; cbn [conv_nodes]; [eauto|]. set (d := mkData _ _ _).
    assert (forall mk, conv_values conv_value mk (Some (vn_name n)) (vn_values n) d <> CPanic) as Hv.
    { intros mk. assert (forall vs d, (forall kind meta ws other e, In (PCore kind meta ws other e) (inside_vs vs) -> e <> EndTodo) -> conv_values conv_value mk (Some (vn_name n)) vs d <> CPanic) as H.
      { clear. induction vs as [|[[a s] v] vs IH]; intros d H; cbn [conv_values]; [discriminate|].
        assert (conv_value v s (Some (vn_name n)) d <> CPanic) as H1 by (apply completes_inside; intros; eapply H; unfold inside_vs; cbn [flat_map snd]; apply in_or_app; left; eassumption).
        destruct (conv_value v s (Some (vn_name n)) d) as [m d1 | e d1 |]; cbn [wrap cbind]; [|discriminate|congruence].
        assert (conv_values conv_value mk (Some (vn_name n)) vs d1 <> CPanic) as H2 by (apply IH; intros; eapply H; unfold inside_vs; cbn [flat_map snd]; apply in_or_app; right; eassumption).
        destruct (conv_values conv_value mk (Some (vn_name n)) vs d1); cbn [cbind]; congruence. }
      apply H. intros; eapply Hp; cbn [flat_map]; apply in_or_app; left; eassumption. }
    assert (conv_node n d <> CPanic) as Hc.
    { unfold conv_node. pose proof (Hn n (or_introl eq_refl)) as He. specialize (Hv (ErNode (vn_name n))). destruct (vn_ending n); try congruence;
        destruct (conv_values conv_value (ErNode (vn_name n)) (Some (vn_name n)) (vn_values n) d); cbn [cbind]; congruence. }
    destruct (conv_node n d) as [n2 d'|e d'|]; [| |congruence]; apply IH; try (intros m Hm; apply Hn; right; exact Hm); (intros; eapply Hp; cbn [flat_map]; apply in_or_app; right; eassumption). }
  assert (forall ps o, (forall kind meta vs other e, In (PCore kind meta vs other e) (flat_map inside_p ps) -> e <> EndTodo) -> exists o', conv_params ps o = Some o') as Hparams.
  { clear. induction ps as [|p ps IH]; intros o Hp; cbn [conv_params]; [eauto|].
    assert (conv_param p None (po_data o) <> CPanic) as Hc by (apply completes_inside; intros; eapply Hp; cbn [flat_map]; apply in_or_app; left; eassumption).
    destruct (conv_param p None (po_data o)) as [[p2|n r] d'|e d'|]; [| | |congruence]; apply IH; (intros; eapply Hp; cbn [flat_map]; apply in_or_app; right; eassumption). }
  destruct (Hnodes (v1_nodes v1) (mkNodeOut [] [] [] (mkData 0 [] [])) Hn) as (no & ->); [intros; eapply Hp; apply in_or_app; left; eassumption|].
  destruct (conv_edges (v1_edges v1)) as [es ees].
  destruct (Hparams (v1_params v1) (mkParamOut [] [] [] (mkData 0 (cd_params (no_data no)) (cd_series (no_data no))))) as (po & ->); [intros; eapply Hp; apply in_or_app; right; eassumption|].
  eauto.
Qed.
Print Assumptions C69_completes.

(** ** What fails without the conditions *)

(** A node and a parameter with the same name, each with an unnamed parameter
    inside: two parameters of the new file share a name. *)
Definition inline_const (q : Q) : v1_value := VInline (PCore "Constant" (Some None) [("value", FMetric, VConst q)] "" EndOk).
Definition same_names : v1_network :=
  mkV1Net [mkV1Node "A" false "Input" [("max_flow", FMetric, inline_const 1)] "" EndOk] []
          [PCore "Aggregated" (Some (Some "A")) [("parameters", FMetric, inline_const 2)] "" EndOk] [].
Theorem C69_same_name_refuted : exists v1 o, from_v1 v1 = Some o /\ v2_errors o = [] /\
  (exists p q, In p (v2_params o) /\ In q (v2_params o) /\ p2_name p = p2_name q /\ p2_values p <> p2_values q).
Proof.
  exists same_names. eexists. split; [vm_compute; reflexivity|]. split; [reflexivity|].
  exists (mkV2Param "A-p0" "Constant" [("value", FMetric, M2Literal 1)] ""), (mkV2Param "A-p0" "Constant" [("value", FMetric, M2Literal 2)] "").
  cbn. repeat split; auto. discriminate.
Qed.
Print Assumptions C69_same_name_refuted.

(** The same with data: the file that the parameter reads is dropped without an
    error, and the parameter reads that of the node. *)
Definition inline_data (u : string) : v1_value := VInline (PData (Some None) (Some u) None (Some "flow") None).
Definition same_data : v1_network :=
  mkV1Net [mkV1Node "A" false "Input" [("max_flow", FMetric, inline_data "a.csv")] "" EndOk] []
          [PCore "Aggregated" (Some (Some "A")) [("parameters", FMetric, inline_data "b.csv")] "" EndOk] [].
Theorem C69_series_replaced_refuted : exists v1 o, from_v1 v1 = Some o /\ v2_errors o = [] /\
  (exists p, In p (v1_params v1) /\ In (PData (Some None) (Some "b.csv") None (Some "flow") None) (inside_p p)) /\
  forall s, In s (v2_timeseries o) -> s2_url s <> "b.csv".
Proof.
  exists same_data. eexists. split; [vm_compute; reflexivity|]. split; [reflexivity|]. split.
  - eexists. split; [left; reflexivity|]. cbn. auto.
  - cbn. intros s [<- | []]. discriminate.
Qed.
Print Assumptions C69_series_replaced_refuted.

(** A virtual node that refers to a [DataFrame] by name: the new file has a
    reference to a parameter that does not exist, and no error. *)
Definition virtual_reference : v1_network :=
  mkV1Net [mkV1Node "licence" true "AnnualVirtualStorage" [("max_volume", FMetric, VRef "limit")] "" EndOk] []
          [PData (Some (Some "limit")) (Some "limit.csv") None (Some "v") None] [].
Theorem C69_virtual_reference_refuted : exists v1 o n attr x, from_v1 v1 = Some o /\ v2_errors o = [] /\ In n (v2_virtual o) /\
  In (attr, FMetric, M2Parameter x) (n2_values n) /\ (exists p, In p (v1_params v1) /\ given_name p = Some x) /\ ~ In x (map p2_name (v2_params o)).
Proof.
  exists virtual_reference. do 4 eexists. split; [vm_compute; reflexivity|]. split; [reflexivity|]. split; [left; reflexivity|]. split; [left; reflexivity|].
  split; [eexists; split; [left; reflexivity | reflexivity]|]. cbn. auto.
Qed.
Print Assumptions C69_virtual_reference_refuted.

(** A control curve without values and with a named parameter inside: that
    parameter is in the new file twice. *)
Definition control_curve : v1_network :=
  mkV1Net [] [] [PCore "ControlCurve" (Some (Some "cc")) [("control_curves", FMetric, VInline (PCore "Constant" (Some (Some "curve")) [("value", FMetric, VConst (1 # 2))] "" EndOk))] "" EndFallback] [].
Theorem C69_control_curve_refuted : exists v1 o, from_v1 v1 = Some o /\ v2_errors o = [] /\ ~ NoDup (map p2_name (v2_params o)).
Proof.
  exists control_curve. eexists. split; [vm_compute; reflexivity|]. split; [reflexivity|]. cbn. intros H.
  inversion H as [|? ? _ H1]; subst. inversion H1 as [|? ? H2 _]; subst. apply H2. left. reflexivity.
Qed.
Print Assumptions C69_control_curve_refuted.

(** ** An example: nodes with named and unnamed parameters inside, a reference to
    data, a node that is refused, a slot that does not exist and a table. *)
Definition ex_v1 : v1_network :=
  mkV1Net
    [mkV1Node "in" false "Input" [("max_flow", FMetric, VInline (PCore "Aggregated" (Some None)
        [("parameters", FMetric, inline_const 3); ("parameters", FMetric, VRef "flow"); ("parameters", FMetric, inline_data "other.csv")] "sum" EndOk)); ("cost", FMetric, VRef "price")] "" EndOk;
     mkV1Node "weird" false "Custom" [] "" EndRefused;
     mkV1Node "licence" true "VirtualStorage" [("max_volume", FMetric, VConst 100)] "" EndOk;
     mkV1Node "out" false "Output" [("max_flow", FMetric, VTable "demands" true)] "" EndOk]
    [mkV1Edge "in" "out" None (Some "river"); mkV1Edge "in" "out" (Some "left") None]
    [PData (Some (Some "flow")) (Some "flow.csv") None (Some "gauge") None;
     PCore "Constant" (Some (Some "price")) [("value", FMetric, VConst (1 # 2))] "" EndOk;
     PCore "MonthlyProfile" (Some (Some "broken")) [] "" (EndLate "values")]
    ["demands"].
Definition ex_v2 : v2_network :=
  mkV2Net
    [mkV2Node "in" "Input" [("max_flow", FMetric, M2Parameter "in-p0"); ("cost", FMetric, M2Parameter "price")] "";
     mkV2Node "out" "Output" [("max_flow", FMetric, M2Table "demands")] ""]
    [mkV2Node "licence" "VirtualStorage" [("max_volume", FMetric, M2Literal 100)] ""]
    [mkSedge "in" None "out" (Some SlRiver)]
    [mkV2Param "price" "Constant" [("value", FMetric, M2Literal (1 # 2))] "";
     mkV2Param "in-p1" "Constant" [("value", FMetric, M2Literal 3)] "";
     mkV2Param "in-p0" "Aggregated" [("parameters", FMetric, M2Parameter "in-p1"); ("parameters", FMetric, M2Timeseries (mkTsRef "flow" (Some "gauge") None));
        ("parameters", FMetric, M2Timeseries (mkTsRef "in-p2" (Some "flow") None))] "sum"]
    [mkV2Series "in-p2" "other.csv"; mkV2Series "flow" "flow.csv"]
    [ErNode "weird" ""; ErEdge "in" "out"; ErParameter "broken" "values"; ErTable "demands"].
Example C69_converts_example : from_v1 ex_v1 = Some ex_v2.
Proof. vm_compute. reflexivity. Qed.
Example C69_tidy_example : tidy ex_v1.
Proof.
  constructor.
  - cbn. repeat constructor; cbn; intuition discriminate.
  - intros p Hp. cbn in Hp. destruct Hp as [<- | [<- | [<- | []]]]; discriminate.
  - cbn. repeat constructor; cbn; intuition discriminate.
  - intros n p Hn Hp. cbn in Hn, Hp. destruct Hn as [<- | [<- | [<- | [<- | []]]]], Hp as [<- | [<- | [<- | []]]]; discriminate.
  - intros x owner k Hx Ho E.
    assert (forall y, dash_free y -> y = generated owner k -> False) as H.
    { intros y Hy ->. unfold generated in Hy. apply dash_free_app in Hy. cbn in Hy. destruct Hy as [Hy _]. congruence. }
    refine (H x _ E). clear -Hx. cbn in Hx. destruct Hx as [<- | [<- | [<- | []]]]; cbn; repeat split; discriminate.
  - intros n Hn. cbn in Hn. destruct Hn as [<- | [<- | [<- | [<- | []]]]]; cbn; repeat constructor; cbn; try discriminate; auto.
  - intros p Hp. cbn in Hp. destruct Hp as [<- | [<- | [<- | []]]]; cbn; repeat split; discriminate.
Qed.
