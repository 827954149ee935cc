(** The visitors of Visit.v as traversals of the document of the file. *)
From Coq Require Import String Sorted Lia.
From Verif Require Import Base Visit VisitSpec VisitLemmas.
Local Open Scope string_scope.
Local Open Scope list_scope.
Local Open Scope nat_scope.

Definition sel_m (k : kind) : choice :=
  match k with KMetric _ => Hit | KFixed => Skip | _ => Into end.
Definition sel_n (k : kind) : choice := match k with KName _ => Hit | _ => Into end.
Definition path_sections : list string := ["nodes"; "parameters"; "timeseries"; "outputs"].
Definition sel_p (k : kind) : choice :=
  match k with
  | KPath _ => Hit
  | KSection s => if existsb (String.eqb s) path_sections then Into else Skip
  | _ => Into
  end.

(** ** What is visited. *)
Definition opt_list {A B} (g : A -> list B) (o : option (list A)) : list B :=
  match o with None => [] | Some l => flat_map g l end.
Definition python_metrics_of (p : python) : list metric := opt_list (fun kx => [snd kx]) (py_metrics p).
Fixpoint metrics_of (v : val) : list metric :=
  match v with
  | VMetric m => [m]
  | VIndexMetric _ | VRef _ | VScalar _ | VPath _ | VNone | VUnit _ | VMetricArray _ => []
  | VSome x | VUnnamed _ x => metrics_of x
  | VVec l | VStruct l | VNamed _ l => flat_map metrics_of l
  | VPair a b => metrics_of a ++ metrics_of b
  | VMap l => flat_map (fun kx => metrics_of (snd kx)) l
  | VPython p => python_metrics_of p
  end.
Definition source_paths_of (s : python_source) : list string :=
  match s with PyModule _ => [] | PyPath p => [p] end.
Fixpoint paths_of (v : val) : list string :=
  match v with
  | VPath p => [p]
  | VMetric _ | VIndexMetric _ | VRef _ | VScalar _ | VNone | VUnit _ | VMetricArray _ => []
  | VSome x | VUnnamed _ x => paths_of x
  | VVec l | VStruct l | VNamed _ l => flat_map paths_of l
  | VPair a b => paths_of a ++ paths_of b
  | VMap l => flat_map (fun kx => paths_of (snd kx)) l
  | VPython p => source_paths_of (py_source p)
  end.
Definition edge_names (e : edge) : list string := [e_from e; e_to e].
Definition metric_names (m : metric) : list string :=
  match m with
  | MNode r | MVirtualNode r => [nr_name r]
  | MEdge e => edge_names e
  | MOther _ _ => []
  end.
Definition index_names (m : index_metric) : list string :=
  match m with IMNode r => [nr_name r] | IMOther _ _ => [] end.
Definition python_names (p : python) : list string :=
  opt_list (fun kx => metric_names (snd kx)) (py_metrics p) ++
  opt_list (fun kx => index_names (snd kx)) (py_indices p).
Fixpoint names_of (v : val) : list string :=
  match v with
  | VMetric m => metric_names m
  | VIndexMetric m => index_names m
  | VRef r => [nr_name r]
  | VPath _ | VScalar _ | VNone | VUnit _ => []
  | VMetricArray l => flat_map metric_names l
  | VSome x | VUnnamed _ x => names_of x
  | VVec l | VStruct l | VNamed _ l => flat_map names_of l
  | VPair a b => names_of a ++ names_of b
  | VMap l => flat_map (fun kx => names_of (snd kx)) l
  | VPython p => python_names p
  end.
Fixpoint extra_paths_of (x : extra) : list string :=
  match x with XScalar _ => [] | XPath p => [p] | XMany l => flat_map extra_paths_of l end.

(** ** Reading. *)
Section Read.
Context {M S : Type} (f : M -> S -> S).
Definition over (l : list M) (s : S) : S := fold_left (fun s x => f x s) l s.
Lemma over_app l1 l2 s : over (l1 ++ l2) s = over l2 (over l1 s).
Proof. apply fold_left_app. Qed.
Lemma each_over {A} (g : A -> S -> S) (h : A -> list M) (l : list A) :
  Forall (fun x => forall s, g x s = over (h x) s) l ->
  forall s, each g l s = over (flat_map h l) s.
Proof.
  induction 1 as [|x l Hx _ IH]; intros s; [reflexivity |]. unfold each in *. simpl.
  now rewrite over_app, <- Hx, <- IH.
Qed.
Lemma each_over_all {A} (g : A -> S -> S) (h : A -> list M) :
  (forall x s, g x s = over (h x) s) -> forall l s, each g l s = over (flat_map h l) s.
Proof. intros H l. apply each_over, Forall_forall. intros x _. apply H. Qed.
Lemma option_over {A} (g : A -> S -> S) (h : A -> list M) :
  (forall x s, g x s = over (h x) s) -> forall o s, on_option (each g) o s = over (opt_list h o) s.
Proof. intros H [l|] s; [now apply each_over_all | reflexivity]. Qed.
End Read.

Lemma metrics_read {S} (f : metric -> S -> S) v : forall s, visit_metrics f v s = over f (metrics_of v) s.
Proof.
  induction v using val_ind'; intros s; simpl; try reflexivity; try (now apply each_over); auto.
  - now rewrite over_app, <- IHv1, <- IHv2.
  - unfold python_metrics, python_metrics_of. apply option_over. reflexivity.
Qed.
Lemma paths_read {S} (f : string -> S -> S) v : forall s, visit_paths f v s = over f (paths_of v) s.
Proof.
  induction v using val_ind'; intros s; simpl; try reflexivity; try (now apply each_over); auto.
  - now rewrite over_app, <- IHv1, <- IHv2.
  - unfold python_paths, python_metrics. assert (He : forall (l : list (string * metric)) (s : S),
      each (fun kx => metric_paths (snd kx)) l s = s).
    { unfold each. induction l; intros; simpl; auto. }
    destruct (py_metrics p) as [l|]; simpl; rewrite ?He; now destruct (py_source p).
Qed.
Lemma metric_names_read {S} (f : string -> S -> S) m s : metric_references f m s = over f (metric_names m) s.
Proof. now destruct m. Qed.
Lemma index_names_read {S} (f : string -> S -> S) m s : index_metric_references f m s = over f (index_names m) s.
Proof. now destruct m. Qed.
Lemma names_read {S} (f : string -> S -> S) v : forall s, visit_references f v s = over f (names_of v) s.
Proof.
  induction v using val_ind'; intros s; simpl; try reflexivity; try (now apply each_over); auto.
  - apply metric_names_read.
  - apply index_names_read.
  - now rewrite over_app, <- IHv1, <- IHv2.
  - apply each_over_all, metric_names_read.
  - unfold python_references, python_names. rewrite over_app.
    rewrite (option_over f (fun kx => metric_references f (snd kx)) (fun kx => metric_names (snd kx)))
      by (intros; apply metric_names_read).
    apply option_over. intros; apply index_names_read.
Qed.
Lemma extra_read {S} (f : string -> S -> S) x : forall s, extra_paths f x s = over f (extra_paths_of x) s.
Proof. induction x using extra_ind'; intros s; simpl; try reflexivity. now apply each_over. Qed.

(** ** Writing and seeing together: a value [x] with document [gd x], in which [h x]
    is visited and which [g] rewrites. *)
Section Both.
Context {M : Type} (enc : M -> doc) (sel : kind -> choice).
Definition good {A} (gd : A -> doc) (h : A -> list M)
    (g : forall S, (M -> S -> M * S) -> A -> S -> A * S) (x : A) : Prop :=
  sees enc sel (h x) (gd x) /\ forall S f, @writes M enc sel S f A gd h (g S f) x.
Lemma sees_skip l d cs : no_hits sel d -> sees_list enc sel l cs -> sees_list enc sel l (d :: cs).
Proof. intros Hd H i. destruct (Hd []) as [_ He]. rewrite hits_from_snd, He. apply (H (S i)). Qed.
Lemma sees_last l d : sees enc sel l d -> sees_list enc sel l [d].
Proof. intros H. rewrite <- (app_nil_r l). apply sees_cons; [exact H | apply sees_nil]. Qed.
Lemma good_none {A} (gd : A -> doc) h g (x : A) :
  no_hits sel (gd x) -> h x = [] -> (forall S f s, g S f x s = (x, s)) -> good gd h g x.
Proof.
  intros Hn Hh Hg. split.
  - unfold sees. rewrite Hh. destruct (Hn []) as [_ ->]. reflexivity.
  - intros S f s. rewrite Hg, Hh. simpl. split; [reflexivity |]. intros rest. now destruct (Hn rest).
Qed.
(** A node of the document with one child. *)
Lemma good_one {A B} (gd : A -> doc) h g (gd' : B -> doc) h' g' (x : A) (y : B) k (wrap : A -> B) :
  sel k = Into -> (forall x, gd' (wrap x) = Doc k [gd x]) -> y = wrap x -> h' y = h x ->
  (forall S f s, g' S f y s = let '(x', s1) := g S f x s in (wrap x', s1)) ->
  good gd h g x -> good gd' h' g' y.
Proof.
  intros Hk Hd -> Hh Hg [H1 H2]. split.
  - rewrite Hh, Hd. apply sees_Doc; [exact Hk |]. rewrite <- (app_nil_r (h x)).
    apply sees_cons; [exact H1 | apply sees_nil].
  - intros S f s. rewrite Hg, Hh. specialize (H2 S f s). destruct (g S f x s) as [x' s1].
    destruct (each_mut f (h x) s) as [ys s2]. destruct H2 as [-> H2]. split; [reflexivity |].
    intros rest. rewrite !Hd, fill_Into by exact Hk. simpl each_mut. now rewrite H2.
Qed.
(** A node of the document with a list of children. *)
Lemma good_list {A B} (gd : A -> doc) h g (gd' : B -> doc) h' g' (l : list A) (y : B) k (wrap : list A -> B) :
  sel k = Into -> (forall l, gd' (wrap l) = Doc k (map gd l)) -> y = wrap l -> h' y = flat_map h l ->
  (forall S f s, g' S f y s = let '(l', s1) := each_mut (g S f) l s in (wrap l', s1)) ->
  Forall (good gd h g) l -> good gd' h' g' y.
Proof.
  intros Hk Hd -> Hh Hg Hl. split.
  - rewrite Hh, Hd. apply sees_Doc; [exact Hk |]. apply sees_map. revert Hl. apply Forall_impl. now intros x [H _].
  - intros S f s. rewrite Hg, Hh.
    assert (Hw : Forall (@writes M enc sel S f A gd h (g S f)) l).
    { revert Hl. apply Forall_impl. now intros x [_ H]. }
    apply writes_map in Hw. specialize (Hw s). destruct (each_mut (g S f) l s) as [l' s1].
    destruct (each_mut f (flat_map h l) s) as [ys s2]. destruct Hw as [-> Hw]. split; [reflexivity |].
    intros rest. rewrite !Hd, fill_Into by exact Hk. now rewrite Hw.
Qed.
Lemma good_list_doc {A} (gd : A -> doc) h g (l : list A) :
  sel (KOther 2) = Into -> Forall (good gd h g) l ->
  good (list_doc gd) (flat_map h) (fun S f => each_mut (g S f)) l.
Proof.
  intros Hk Hl. apply (good_list gd h g _ _ _ l _ (KOther 2) (fun l => l)); auto.
  intros. now destruct (each_mut (g S f) l s).
Qed.
Lemma good_option {A} (gd : A -> doc) h g (o : option (list A)) :
  sel (KOther 2) = Into -> sel (KOther 3) = Into -> sel (KOther 4) = Into ->
  (forall x, good gd h g x) ->
  good (option_doc (list_doc gd)) (opt_list h) (fun S f => option_mut (each_mut (g S f))) o.
Proof.
  intros H2 H3 H4 Hg. destruct o as [l|].
  - apply (good_one (list_doc gd) (flat_map h) (fun S f => each_mut (g S f)) _ _ _ l _ (KOther 4) Some); auto.
    apply good_list_doc; [exact H2 |]. apply Forall_forall. auto.
  - apply good_none; try reflexivity. apply no_hits_Doc; [congruence |]. constructor.
Qed.
Lemma good_entry {A} (gd : A -> doc) h g (kx : string * A) :
  sel (KKey (fst kx)) = Into -> good gd h g (snd kx) ->
  good (entry_doc gd) (fun kx => h (snd kx)) (fun S f => value_mut (g S f)) kx.
Proof.
  intros Hk Hg. destruct kx as [key x]. simpl in *. split.
  - destruct Hg as [H1 _]. apply sees_Doc; [exact Hk |]. simpl. rewrite <- (app_nil_r (h x)).
    apply sees_cons; [exact H1 | apply sees_nil].
  - intros S f s. destruct Hg as [_ H2]. specialize (H2 S f s). unfold value_mut. cbn [fst snd].
    destruct (g S f x s) as [x' s1]. destruct (each_mut f (h x) s) as [ys s2]. destruct H2 as [-> H2].
    split; [reflexivity |]. intros rest. unfold entry_doc. cbn [fst snd]. rewrite fill_Into by exact Hk. simpl each_mut.
    now rewrite H2.
Qed.
Lemma good_pair {A B C} (gd : A -> doc) h g (gd2 : B -> doc) h2 g2 (gd' : C -> doc) h' g' (a : A) (b : B) (y : C)
    k (wrap : A -> B -> C) :
  sel k = Into -> (forall a b, gd' (wrap a b) = Doc k [gd a; gd2 b]) -> y = wrap a b -> h' y = h a ++ h2 b ->
  (forall S f s, g' S f y s = let '(a', s1) := g S f a s in let '(b', s2) := g2 S f b s1 in (wrap a' b', s2)) ->
  good gd h g a -> good gd2 h2 g2 b -> good gd' h' g' y.
Proof.
  intros Hk Hd -> Hh Hg [A1 A2] [B1 B2]. split.
  - rewrite Hh, Hd. apply sees_Doc; [exact Hk |]. rewrite <- (app_nil_r (h2 b)).
    apply sees_cons; [exact A1 |]. apply sees_cons; [exact B1 | apply sees_nil].
  - intros S f s. rewrite Hg, Hh, each_mut_app. specialize (A2 S f s). destruct (g S f a s) as [a' s1].
    destruct (each_mut f (h a) s) as [ys s2]. destruct A2 as [-> A2].
    specialize (B2 S f s2). destruct (g2 S f b s2) as [b' s3].
    destruct (each_mut f (h2 b) s2) as [zs s4]. destruct B2 as [-> B2]. split; [reflexivity |].
    intros rest. rewrite !Hd, fill_Into by exact Hk. rewrite map_app, <- app_assoc. simpl each_mut.
    now rewrite A2, B2.
Qed.
(** A part of a document that the visitor does not change. *)
Definition keep {A} (S : Type) (_ : M -> S -> M * S) (x : A) (s : S) : A * S := (x, s).
Lemma good_keep {A} (gd : A -> doc) (x : A) : no_hits sel (gd x) -> good gd (fun _ => []) (@keep A) x.
Proof. intros H. now apply good_none. Qed.
End Both.

Ltac nohits := repeat first
  [ apply no_hits_Doc; [discriminate | intros _] | apply Forall_nil | apply Forall_cons ].
Lemma no_hits_Forall {A} sel (gd : A -> doc) l : (forall x, no_hits sel (gd x)) -> Forall (no_hits sel) (map gd l).
Proof. intros H. apply Forall_forall. intros d Hd. apply in_map_iff in Hd. destruct Hd as (x & <- & _). apply H. Qed.

(** ** [val]. *)
Lemma metric_good m : good metric_doc sel_m metric_doc (fun m => [m]) (fun S f => f) m.
Proof.
  split.
  - now destruct m.
  - intros S f s. simpl. destruct (f m s) as [m' s1]. split; [reflexivity |]. intros rest. simpl.
    destruct m as [| | |]; reflexivity.
Qed.
Lemma index_no_metric m : no_hits sel_m (index_metric_doc m).
Proof. destruct m; nohits. Qed.
Lemma metrics_good v : good metric_doc sel_m val_doc metrics_of (fun S f => visit_metrics_mut f) v.
Proof.
  induction v using val_ind'.
  - destruct (metric_good m) as [H1 H2]. split; [exact H1 |]. intros S f s. specialize (H2 S f s).
    simpl in *. destruct (f m s) as [m' s1]. exact H2.
  - apply good_none; try reflexivity. apply index_no_metric.
  - apply good_none; try reflexivity. nohits.
  - apply good_none; try reflexivity. nohits.
  - apply good_none; try reflexivity. nohits.
  - apply good_none; try reflexivity. nohits.
  - eapply (good_one _ _ val_doc metrics_of (fun S f => visit_metrics_mut f) _ _ _ v _ _ VSome); try reflexivity; auto.
  - eapply (good_list _ _ val_doc metrics_of (fun S f => visit_metrics_mut f) _ _ _ l _ _ VVec); try reflexivity; auto.
  - eapply (good_pair _ _ val_doc metrics_of (fun S f => visit_metrics_mut f) val_doc metrics_of
      (fun S f => visit_metrics_mut f) _ _ _ v1 v2 _ _ VPair); try reflexivity; auto.
  - eapply (good_list _ _ (entry_doc val_doc) (fun kx => metrics_of (snd kx))
      (fun S f => value_mut (visit_metrics_mut f)) _ _ _ l _ _ VMap); try reflexivity; auto.
    revert H. apply Forall_impl. intros kx H. apply (good_entry _ _ val_doc metrics_of (fun S f => visit_metrics_mut f)); auto.
  - apply good_none; try reflexivity. apply no_hits_Doc; [discriminate |]. discriminate.
  - eapply (good_list _ _ val_doc metrics_of (fun S f => visit_metrics_mut f) _ _ _ l _ _ VStruct); try reflexivity; auto.
  - eapply (good_one _ _ val_doc metrics_of (fun S f => visit_metrics_mut f) _ _ _ v _ _ (VUnnamed t)); try reflexivity; auto.
  - eapply (good_list _ _ val_doc metrics_of (fun S f => visit_metrics_mut f) _ _ _ l _ _ (VNamed t)); try reflexivity; auto.
  - apply good_none; try reflexivity. nohits.
  - assert (Hp : good metric_doc sel_m (option_doc (list_doc (entry_doc metric_doc))) (opt_list (fun kx => [snd kx]))
      (fun S f => option_mut (each_mut (value_mut f))) (py_metrics p)).
    { apply (good_option metric_doc sel_m (entry_doc metric_doc) (fun kx => [snd kx]) (fun S f => value_mut f)); auto.
      intros kx. apply (good_entry _ _ metric_doc (fun m => [m]) (fun S f => f)); [reflexivity | apply metric_good]. }
    assert (Hi : no_hits sel_m (option_doc (list_doc (entry_doc index_metric_doc)) (py_indices p))).
    { destruct (py_indices p) as [l|]; nohits. apply no_hits_Forall. intros kx. nohits. apply index_no_metric. }
    assert (Hs : no_hits sel_m (source_doc (py_source p))) by (destruct (py_source p); nohits).
    assert (H0 : no_hits sel_m (scalar_doc (py_fields p))) by nohits.
    destruct Hp as [P1 P2]. split.
    + apply sees_Doc; [reflexivity |]. simpl. apply sees_skip; [exact H0 |]. apply sees_skip; [exact Hs |].
      rewrite <- (app_nil_r (python_metrics_of p)). apply sees_cons; [exact P1 |].
      apply sees_skip; [exact Hi | apply sees_nil].
    + intros S f s. specialize (P2 S f s). cbn [visit_metrics_mut metrics_of val_doc]. unfold python_metrics_mut.
      fold (python_metrics_of p) in P2. destruct (option_mut (each_mut (value_mut f)) (py_metrics p) s) as [ms s1].
      destruct (each_mut f (python_metrics_of p) s) as [ys s2]. destruct P2 as [-> P2]. split; [reflexivity |].
      intros rest. unfold python_doc. rewrite fill_Into by reflexivity. simpl each_mut.
      destruct (H0 (map metric_doc ys ++ rest)) as [H0' _]. simpl in H0'.
      destruct (Hs (map metric_doc ys ++ rest)) as [-> _]. rewrite P2.
      destruct (Hi rest) as [-> _]. reflexivity.
Qed.

Lemma path_good p : good path_doc sel_p path_doc (fun p => [p]) (fun S f => f) p.
Proof.
  split; [reflexivity |]. intros S f s. simpl. destruct (f p s) as [p' s1]. now split.
Qed.
Lemma metric_no_path m : no_hits sel_p (metric_doc m).
Proof. destruct m; nohits. Qed.
Lemma index_no_path m : no_hits sel_p (index_metric_doc m).
Proof. destruct m; nohits. Qed.
Lemma paths_good v : good path_doc sel_p val_doc paths_of (fun S f => visit_paths_mut f) v.
Proof.
  induction v using val_ind'.
  - apply good_none; try reflexivity. apply metric_no_path.
  - apply good_none; try reflexivity. apply index_no_path.
  - apply good_none; try reflexivity. nohits.
  - apply good_none; try reflexivity. nohits.
  - destruct (path_good p) as [H1 H2]. split; [exact H1 |]. intros S f s. specialize (H2 S f s).
    simpl in *. destruct (f p s) as [p' s1]. exact H2.
  - apply good_none; try reflexivity. nohits.
  - eapply (good_one _ _ val_doc paths_of (fun S f => visit_paths_mut f) _ _ _ v _ _ VSome); try reflexivity; auto.
  - eapply (good_list _ _ val_doc paths_of (fun S f => visit_paths_mut f) _ _ _ l _ _ VVec); try reflexivity; auto.
  - eapply (good_pair _ _ val_doc paths_of (fun S f => visit_paths_mut f) val_doc paths_of
      (fun S f => visit_paths_mut f) _ _ _ v1 v2 _ _ VPair); try reflexivity; auto.
  - eapply (good_list _ _ (entry_doc val_doc) (fun kx => paths_of (snd kx))
      (fun S f => value_mut (visit_paths_mut f)) _ _ _ l _ _ VMap); try reflexivity; auto.
    revert H. apply Forall_impl. intros kx H. apply (good_entry _ _ val_doc paths_of (fun S f => visit_paths_mut f)); auto.
  - apply good_none; try reflexivity. nohits. apply no_hits_Forall, metric_no_path.
  - eapply (good_list _ _ val_doc paths_of (fun S f => visit_paths_mut f) _ _ _ l _ _ VStruct); try reflexivity; auto.
  - eapply (good_one _ _ val_doc paths_of (fun S f => visit_paths_mut f) _ _ _ v _ _ (VUnnamed t)); try reflexivity; auto.
  - eapply (good_list _ _ val_doc paths_of (fun S f => visit_paths_mut f) _ _ _ l _ _ (VNamed t)); try reflexivity; auto.
  - apply good_none; try reflexivity. nohits.
  - assert (Hm : no_hits sel_p (option_doc (list_doc (entry_doc metric_doc)) (py_metrics p))).
    { destruct (py_metrics p) as [l|]; nohits. apply no_hits_Forall. intros kx. nohits. apply metric_no_path. }
    assert (Hi : no_hits sel_p (option_doc (list_doc (entry_doc index_metric_doc)) (py_indices p))).
    { destruct (py_indices p) as [l|]; nohits. apply no_hits_Forall. intros kx. nohits. apply index_no_path. }
    assert (H0 : no_hits sel_p (scalar_doc (py_fields p))) by nohits.
    destruct p as [fs src ms is]. simpl in *. split.
    + apply sees_Doc; [reflexivity |]. simpl. apply sees_skip; [exact H0 |].
      rewrite <- (app_nil_r (source_paths_of src)). apply sees_cons; [now destruct src |].
      apply sees_skip; [exact Hm |]. apply sees_skip; [exact Hi | apply sees_nil].
    + intros S f s. simpl. unfold python_paths_mut. simpl. destruct src as [m|x]; simpl.
      * split; [reflexivity |]. intros rest. destruct (Hm rest) as [-> _], (Hi rest) as [-> _]. reflexivity.
      * destruct (f x s) as [x' s1]. split; [reflexivity |]. intros rest. simpl.
        destruct (Hm rest) as [-> _], (Hi rest) as [-> _]. reflexivity.
Qed.

Lemma ref_good r : good name_doc sel_n ref_doc (fun r => [nr_name r]) (fun S f => ref_references_mut f) r.
Proof.
  split; [reflexivity |]. intros S f s. simpl. unfold ref_references_mut. destruct (f (nr_name r) s) as [x s1].
  now split.
Qed.
Lemma edge_good e : good name_doc sel_n edge_doc edge_names (fun S f => edge_references_mut f) e.
Proof.
  split; [reflexivity |]. intros S f s. simpl. unfold edge_references_mut.
  destruct (f (e_from e) s) as [x s1]. destruct (f (e_to e) s1) as [y s2]. now split.
Qed.
Lemma metric_names_good m :
  good name_doc sel_n metric_doc metric_names (fun S f => metric_references_mut f) m.
Proof.
  split; [now destruct m |]. intros S f s. destruct m as [r|r|e|t n]; simpl; unfold ref_references_mut, edge_references_mut.
  - destruct (f (nr_name r) s) as [x s1]. now split.
  - destruct (f (nr_name r) s) as [x s1]. now split.
  - destruct (f (e_from e) s) as [x s1]. destruct (f (e_to e) s1) as [y s2]. now split.
  - now split.
Qed.
Lemma index_names_good m :
  good name_doc sel_n index_metric_doc index_names (fun S f => index_metric_references_mut f) m.
Proof.
  split; [now destruct m |]. intros S f s. destruct m as [r|t n]; simpl; unfold ref_references_mut.
  - destruct (f (nr_name r) s) as [x s1]. now split.
  - now split.
Qed.
Lemma names_good v : good name_doc sel_n val_doc names_of (fun S f => visit_references_mut f) v.
Proof.
  induction v using val_ind'.
  - destruct (metric_names_good m) as [H1 H2]. split; [exact H1 |]. intros S f s. specialize (H2 S f s).
    simpl in *. destruct (metric_references_mut f m s) as [m' s1]. exact H2.
  - destruct (index_names_good m) as [H1 H2]. split; [exact H1 |]. intros S f s. specialize (H2 S f s).
    simpl in *. destruct (index_metric_references_mut f m s) as [m' s1]. exact H2.
  - destruct (ref_good r) as [H1 H2]. split; [exact H1 |]. intros S f s. specialize (H2 S f s).
    cbn [visit_references_mut names_of val_doc]. destruct (ref_references_mut f r s) as [r' s1]. exact H2.
  - apply good_none; try reflexivity. nohits.
  - apply good_none; try reflexivity. nohits.
  - apply good_none; try reflexivity. nohits.
  - eapply (good_one _ _ val_doc names_of (fun S f => visit_references_mut f) _ _ _ v _ _ VSome); try reflexivity; auto.
  - eapply (good_list _ _ val_doc names_of (fun S f => visit_references_mut f) _ _ _ l _ _ VVec); try reflexivity; auto.
  - eapply (good_pair _ _ val_doc names_of (fun S f => visit_references_mut f) val_doc names_of
      (fun S f => visit_references_mut f) _ _ _ v1 v2 _ _ VPair); try reflexivity; auto.
  - eapply (good_list _ _ (entry_doc val_doc) (fun kx => names_of (snd kx))
      (fun S f => value_mut (visit_references_mut f)) _ _ _ l _ _ VMap); try reflexivity; auto.
    revert H. apply Forall_impl. intros kx H. apply (good_entry _ _ val_doc names_of (fun S f => visit_references_mut f)); auto.
  - eapply (good_list _ _ metric_doc metric_names (fun S f => metric_references_mut f) _ _ _ l _ KFixed VMetricArray);
      try reflexivity. apply Forall_forall. intros m _. apply metric_names_good.
  - eapply (good_list _ _ val_doc names_of (fun S f => visit_references_mut f) _ _ _ l _ _ VStruct); try reflexivity; auto.
  - eapply (good_one _ _ val_doc names_of (fun S f => visit_references_mut f) _ _ _ v _ _ (VUnnamed t)); try reflexivity; auto.
  - eapply (good_list _ _ val_doc names_of (fun S f => visit_references_mut f) _ _ _ l _ _ (VNamed t)); try reflexivity; auto.
  - apply good_none; try reflexivity. nohits.
  - assert (Hm : good name_doc sel_n (option_doc (list_doc (entry_doc metric_doc)))
      (opt_list (fun kx => metric_names (snd kx)))
      (fun S f => option_mut (each_mut (value_mut (metric_references_mut f)))) (py_metrics p)).
    { apply (good_option name_doc sel_n (entry_doc metric_doc) (fun kx => metric_names (snd kx))
        (fun S f => value_mut (metric_references_mut f))); auto.
      intros kx. apply (good_entry _ _ metric_doc metric_names (fun S f => metric_references_mut f));
        [reflexivity | apply metric_names_good]. }
    assert (Hi : good name_doc sel_n (option_doc (list_doc (entry_doc index_metric_doc)))
      (opt_list (fun kx => index_names (snd kx)))
      (fun S f => option_mut (each_mut (value_mut (index_metric_references_mut f)))) (py_indices p)).
    { apply (good_option name_doc sel_n (entry_doc index_metric_doc) (fun kx => index_names (snd kx))
        (fun S f => value_mut (index_metric_references_mut f))); auto.
      intros kx. apply (good_entry _ _ index_metric_doc index_names (fun S f => index_metric_references_mut f));
        [reflexivity | apply index_names_good]. }
    assert (Hs : no_hits sel_n (source_doc (py_source p))) by (destruct (py_source p); nohits).
    assert (H0 : no_hits sel_n (scalar_doc (py_fields p))) by nohits.
    destruct Hm as [P1 P2], Hi as [Q1 Q2]. split.
    + apply sees_Doc; [reflexivity |]. simpl. apply sees_skip; [exact H0 |]. apply sees_skip; [exact Hs |].
      unfold python_names. apply sees_cons; [exact P1 | apply sees_last; exact Q1].
    + intros S f s. specialize (P2 S f s). cbn [visit_references_mut names_of val_doc]. unfold python_references_mut, python_names. rewrite each_mut_app.
      destruct (option_mut (each_mut (value_mut (metric_references_mut f))) (py_metrics p) s) as [ms s1].
      destruct (each_mut f (opt_list (fun kx => metric_names (snd kx)) (py_metrics p)) s) as [ys s2].
      destruct P2 as [-> P2]. specialize (Q2 S f s2).
      destruct (option_mut (each_mut (value_mut (index_metric_references_mut f))) (py_indices p) s2) as [is s3].
      destruct (each_mut f (opt_list (fun kx => index_names (snd kx)) (py_indices p)) s2) as [zs s4].
      destruct Q2 as [-> Q2]. split; [reflexivity |].
      intros rest. unfold python_doc. rewrite fill_Into by reflexivity. simpl each_mut.
      rewrite map_app, <- app_assoc.
      destruct (Hs (map name_doc ys ++ map name_doc zs ++ rest)) as [-> _]. now rewrite P2, Q2.
Qed.

Lemma extra_good x : good path_doc sel_p extra_doc extra_paths_of (fun S f => extra_paths_mut f) x.
Proof.
  induction x using extra_ind'.
  - apply good_none; try reflexivity. nohits.
  - destruct (path_good p) as [H1 H2]. split; [exact H1 |]. intros S f s. specialize (H2 S f s).
    simpl in *. destruct (f p s) as [p' s1]. exact H2.
  - eapply (good_list _ _ extra_doc extra_paths_of (fun S f => extra_paths_mut f) _ _ _ l _ _ XMany); try reflexivity; auto.
Qed.
Lemma series_good x : good path_doc sel_p series_doc (fun x => [se_url x]) (fun S f => series_paths_mut f) x.
Proof.
  split; [now destruct x as [[|] ? ? ?] |]. intros S f s. simpl. unfold series_paths_mut.
  destruct (f (se_url x) s) as [u s1]. split; [reflexivity |]. intros rest. now destruct x as [[|] ? ? ?].
Qed.
Lemma extra_no_metric x : no_hits sel_m (extra_doc x).
Proof.
  induction x using extra_ind'; nohits. rewrite Forall_map. exact H.
Qed.
Lemma extra_no_name x : no_hits sel_n (extra_doc x).
Proof.
  induction x using extra_ind'; nohits. rewrite Forall_map. exact H.
Qed.
