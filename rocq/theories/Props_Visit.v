(** C74: the visitors of a model file reach every metric, path and reference to a node
    it holds, once each and in the order of the file; what a writing visitor changes is
    changed in the file, and nothing else. *)
From Coq Require Import String Sorted Lia.
From Verif Require Import Base Visit VisitSpec VisitLemmas VisitVisitors.
Local Open Scope string_scope.
Local Open Scope list_scope.
Local Open Scope nat_scope.

(** ** From traversals of the document to the specification. *)
Lemma each_mut_called {M S} (f : M -> S -> M * S) xs : forall s ys s',
  each_mut f xs s = (ys, s') -> called f xs s ys s' /\ length ys = length xs.
Proof.
  induction xs as [|x xs IH]; intros s ys s' H; simpl in H.
  - injection H as <- <-. split; constructor.
  - destruct (f x s) as [y s1] eqn:Ef. destruct (each_mut f xs s1) as [zs s2] eqn:Ez.
    injection H as <- <-. destruct (IH s1 zs s2 Ez) as [H1 H2]. split; [econstructor; eassumption |].
    simpl. now rewrite H2.
Qed.

Section Visits.
Context {M : Type} (enc : M -> doc) (sel : kind -> choice) (P : doc -> place -> Prop).
Context (h : network -> list M)
  (visit : forall S, (M -> S -> S) -> network -> S -> S)
  (visit_mut : forall S, (M -> S -> M * S) -> network -> S -> network * S).
Context (Hhit : forall x, sel (kind_of (enc x)) = Hit).
Context (Hflat : forall n, flat sel (network_doc n)).
Context (HP : forall d p, P d p <->
  (exists x, at_place d p = Some x /\ sel (kind_of x) = Hit) /\ forall k, on_the_way d p k -> sel k <> Skip).
Lemma hits_reached n xs : map enc xs = map snd (hits sel (network_doc n)) ->
  reached enc P (network_doc n) (places sel (network_doc n)) xs.
Proof.
  intros Hx. split; [apply hits_sorted | split].
  - intros p. rewrite HP. apply hits_places, Hflat.
  - assert (Hall : Forall (fun px => at_place (network_doc n) (fst px) = Some (snd px)) (hits sel (network_doc n))).
    { apply Forall_forall. intros [p x] Hin. apply hits_In in Hin. now destruct Hin. }
    unfold places. revert xs Hx. induction Hall as [|[p x] l Hp _ IH]; intros [|y xs] Hx;
      simpl in Hx; try discriminate; constructor.
    + injection Hx as Hy _. simpl in *. now rewrite Hy.
    + injection Hx as _ Hx. now apply IH.
Qed.
Lemma good_visits n :
  (forall S (f : M -> S -> S) s, visit S f n s = over f (h n) s) ->
  good enc sel network_doc h visit_mut n -> visits enc P visit visit_mut n.
Proof.
  intros Hr [Hs Hw]. exists (places sel (network_doc n)), (h n).
  split; [now apply hits_reached |]. split; [exact Hr |].
  intros S f s n' s' He. specialize (Hw S f s). rewrite He in Hw.
  destruct (each_mut f (h n) s) as [ys s2] eqn:Ey. destruct Hw as [<- Hw].
  destruct (each_mut_called f _ _ _ _ Ey) as [Hc Hl].
  exists ys. split; [exact Hc |].
  assert (Hlen : length (map enc ys) = length (places sel (network_doc n))).
  { unfold places. rewrite !map_length, Hl, <- (map_length enc), Hs. now rewrite map_length. }
  destruct (fill_spec sel (network_doc n) (map enc ys) [] Hlen) as (d' & E & S1 & P1 & U1 & _).
  { rewrite Forall_map. apply Forall_forall. intros x _. apply Hhit. }
  rewrite Hw in E. injection E as <-. split; [| exact U1].
  rewrite <- P1. apply hits_reached. now symmetry.
Qed.
End Visits.

(** ** The sections of the network. *)
Section Sections.
Context {M : Type} (enc : M -> doc) (sel : kind -> choice).
Context (Hother : forall n, sel (KOther n) = Into).
Context (Hscalar : forall n, sel (KScalar n) = Into).
Lemma scalar_no_hits n : no_hits sel (scalar_doc n).
Proof. apply no_hits_Doc; [rewrite Hscalar; discriminate | constructor]. Qed.
Lemma option_no_hits {A} (gd : A -> doc) o : (forall x, no_hits sel (gd x)) -> no_hits sel (option_doc (list_doc gd) o).
Proof.
  intros H. destruct o as [l|].
  - apply no_hits_Doc; [rewrite Hother; discriminate |]. intros _. constructor; [| constructor].
    apply no_hits_Doc; [rewrite Hother; discriminate |]. intros _. now apply no_hits_Forall.
  - apply no_hits_Doc; [rewrite Hother; discriminate |]. constructor.
Qed.
Lemma set_good h g : (forall m, good enc sel metric_doc h g m) -> (forall x, no_hits sel (extra_doc x)) ->
  forall x, good enc sel metric_set_doc (fun x => opt_list h (ms_metrics x))
    (fun S f => set_metrics_mut (g S f)) x.
Proof.
  intros Hg Hx x. assert (Ho : good enc sel (option_doc (list_doc metric_doc)) (opt_list h)
    (fun S f => option_mut (each_mut (g S f))) (ms_metrics x)) by (apply good_option; auto).
  destruct Ho as [P1 P2]. split.
  - apply sees_Doc; [apply Hother |]. apply sees_skip; [apply scalar_no_hits |].
    rewrite <- (app_nil_r (opt_list h (ms_metrics x))). apply sees_cons; [exact P1 |].
    apply sees_skip; [apply Hx |]. apply sees_skip; [apply Hx | apply sees_nil].
  - intros S f s. specialize (P2 S f s). unfold set_metrics_mut.
    destruct (option_mut (each_mut (g S f)) (ms_metrics x) s) as [ms s1].
    destruct (each_mut f (opt_list h (ms_metrics x)) s) as [ys s2]. destruct P2 as [-> P2].
    split; [reflexivity |]. intros rest. unfold metric_set_doc. rewrite fill_Into by apply Hother.
    cbn [each_mut]. destruct (scalar_no_hits (ms_name x) (map enc ys ++ rest)) as [-> _].
    rewrite P2. destruct (Hx (ms_aggregator x) rest) as [-> _], (Hx (ms_filters x) rest) as [-> _]. reflexivity.
Qed.
Definition section_doc (name : string) (d : doc) : doc := Doc (KSection name) [d].
Lemma section_sees name l d : sel (KSection name) = Into -> sees enc sel l d -> sees enc sel l (section_doc name d).
Proof. intros Hk H. apply sees_Doc; [exact Hk |]. now apply sees_last. Qed.
Lemma section_fill name d xs : sel (KSection name) = Into ->
  fill sel (section_doc name d) xs = let '(d', xs') := fill sel d xs in (section_doc name d', xs').
Proof.
  intros Hk. unfold section_doc. rewrite fill_Into by exact Hk. simpl. now destruct (fill sel d xs).
Qed.
Lemma section_no_hits name d : sel (KSection name) <> Hit -> no_hits sel d -> no_hits sel (section_doc name d).
Proof. intros Hk H. apply no_hits_Doc; [exact Hk |]. intros _. constructor; [exact H | constructor]. Qed.
Lemma section_skipped name d : sel (KSection name) = Skip -> no_hits sel (section_doc name d).
Proof. intros Hk. apply no_hits_Doc; rewrite Hk; discriminate. Qed.
End Sections.

Definition network_metrics_of (n : network) : list metric :=
  flat_map metrics_of (nw_nodes n) ++ opt_list metrics_of (nw_virtual_nodes n) ++
  opt_list metrics_of (nw_parameters n) ++
  opt_list (fun x => opt_list (fun m => [m]) (ms_metrics x)) (nw_metric_sets n).
Definition network_paths_of (n : network) : list string :=
  flat_map paths_of (nw_nodes n) ++ opt_list paths_of (nw_parameters n) ++
  opt_list (fun x => [se_url x]) (nw_timeseries n) ++ opt_list extra_paths_of (nw_outputs n).
Definition network_names_of (n : network) : list string :=
  flat_map names_of (nw_nodes n) ++ flat_map edge_names (nw_edges n) ++
  opt_list names_of (nw_virtual_nodes n) ++ opt_list names_of (nw_parameters n) ++
  opt_list (fun x => opt_list metric_names (ms_metrics x)) (nw_metric_sets n).

Lemma network_doc_sections n : network_doc n = Doc (KOther 8)
  [section_doc "nodes" (list_doc val_doc (nw_nodes n));
   section_doc "edges" (list_doc edge_doc (nw_edges n));
   section_doc "virtual_nodes" (option_doc (list_doc val_doc) (nw_virtual_nodes n));
   section_doc "parameters" (option_doc (list_doc val_doc) (nw_parameters n));
   section_doc "tables" (option_doc (list_doc extra_doc) (nw_tables n));
   section_doc "timeseries" (option_doc (list_doc series_doc) (nw_timeseries n));
   section_doc "metric_sets" (option_doc (list_doc metric_set_doc) (nw_metric_sets n));
   section_doc "outputs" (option_doc (list_doc extra_doc) (nw_outputs n))].
Proof. reflexivity. Qed.
Lemma good_all_list {M A} (enc : M -> doc) sel (gd : A -> doc) h g l :
  sel (KOther 2) = Into -> (forall x, good enc sel gd h g x) ->
  good enc sel (list_doc gd) (flat_map h) (fun S f => each_mut (g S f)) l.
Proof. intros H2 H. apply good_list_doc; [exact H2 |]. apply Forall_forall. auto. Qed.
Ltac step_mut P2 := match goal with |- context [each_mut ?f ?l ?s] =>
  specialize (P2 _ f s) end.

Lemma network_metrics_good n :
  good metric_doc sel_m network_doc network_metrics_of (fun S f => network_metrics_mut f) n.
Proof.
  assert (A : good metric_doc sel_m (list_doc val_doc) (flat_map metrics_of)
    (fun S f => each_mut (visit_metrics_mut f)) (nw_nodes n)) by (apply good_all_list; [reflexivity | apply metrics_good]).
  assert (B : good metric_doc sel_m (option_doc (list_doc val_doc)) (opt_list metrics_of)
    (fun S f => option_mut (each_mut (visit_metrics_mut f))) (nw_virtual_nodes n))
    by (apply (good_option _ _ val_doc metrics_of (fun S f => visit_metrics_mut f)); try reflexivity; apply metrics_good).
  assert (C : good metric_doc sel_m (option_doc (list_doc val_doc)) (opt_list metrics_of)
    (fun S f => option_mut (each_mut (visit_metrics_mut f))) (nw_parameters n))
    by (apply (good_option _ _ val_doc metrics_of (fun S f => visit_metrics_mut f)); try reflexivity; apply metrics_good).
  assert (D : good metric_doc sel_m (option_doc (list_doc metric_set_doc))
    (opt_list (fun x => opt_list (fun m => [m]) (ms_metrics x)))
    (fun S f => option_mut (each_mut (set_metrics_mut f))) (nw_metric_sets n)).
  { apply (good_option _ _ metric_set_doc (fun x => opt_list (fun m => [m]) (ms_metrics x))
      (fun S f => set_metrics_mut f)); try reflexivity.
    apply (set_good metric_doc sel_m (fun _ => eq_refl) (fun _ => eq_refl) (fun m => [m]) (fun S f => f));
      [apply metric_good | apply extra_no_metric]. }
  assert (N1 : no_hits sel_m (section_doc "edges" (list_doc edge_doc (nw_edges n)))).
  { apply section_no_hits; [discriminate |]. nohits. apply no_hits_Forall. intros e. nohits. }
  assert (N2 : no_hits sel_m (section_doc "tables" (option_doc (list_doc extra_doc) (nw_tables n)))).
  { apply section_no_hits; [discriminate |]. apply option_no_hits; [reflexivity | apply extra_no_metric]. }
  assert (N3 : no_hits sel_m (section_doc "timeseries" (option_doc (list_doc series_doc) (nw_timeseries n)))).
  { apply section_no_hits; [discriminate |]. apply option_no_hits; [reflexivity | intros x; nohits]. }
  assert (N4 : no_hits sel_m (section_doc "outputs" (option_doc (list_doc extra_doc) (nw_outputs n)))).
  { apply section_no_hits; [discriminate |]. apply option_no_hits; [reflexivity | apply extra_no_metric]. }
  destruct A as [A1 A2], B as [B1 B2], C as [C1 C2], D as [D1 D2]. split.
  - rewrite network_doc_sections. apply sees_Doc; [reflexivity |].
    unfold network_metrics_of. apply sees_cons; [now apply section_sees |]. apply sees_skip; [exact N1 |].
    apply sees_cons; [now apply section_sees |]. apply sees_cons; [now apply section_sees |].
    apply sees_skip; [exact N2 |]. apply sees_skip; [exact N3 |].
    match goal with |- sees_list _ _ ?l _ => rewrite <- (app_nil_r l) end.
    apply sees_cons; [now apply section_sees |]. apply sees_skip; [exact N4 | apply sees_nil].
  - intros S f s. unfold network_metrics_mut, network_metrics_of. rewrite !each_mut_app.
    specialize (A2 S f s). destruct (each_mut (visit_metrics_mut f) (nw_nodes n) s) as [nodes s1].
    destruct (each_mut f (flat_map metrics_of (nw_nodes n)) s) as [a sa]. destruct A2 as [<- A2].
    rewrite !each_mut_app.
    specialize (B2 S f s1). destruct (option_mut (each_mut (visit_metrics_mut f)) (nw_virtual_nodes n) s1) as [vns s2].
    destruct (each_mut f (opt_list metrics_of (nw_virtual_nodes n)) s1) as [b sb]. destruct B2 as [<- B2].
    rewrite !each_mut_app.
    specialize (C2 S f s2). destruct (option_mut (each_mut (visit_metrics_mut f)) (nw_parameters n) s2) as [ps s3].
    destruct (each_mut f (opt_list metrics_of (nw_parameters n)) s2) as [c sc]. destruct C2 as [<- C2].
    specialize (D2 S f s3). destruct (option_mut (each_mut (set_metrics_mut f)) (nw_metric_sets n) s3) as [sets s4].
    destruct (each_mut f (opt_list (fun x => opt_list (fun m => [m]) (ms_metrics x)) (nw_metric_sets n)) s3) as [d sd].
    destruct D2 as [<- D2]. split; [reflexivity |]. intros rest.
    rewrite !network_doc_sections, fill_Into by reflexivity. rewrite !map_app, <- !app_assoc.
    cbn [each_mut nw_nodes nw_edges nw_virtual_nodes nw_parameters nw_tables nw_timeseries nw_metric_sets nw_outputs].
    rewrite section_fill, A2 by reflexivity. rewrite (proj1 (N1 _)).
    rewrite section_fill, B2 by reflexivity. rewrite section_fill, C2 by reflexivity.
    rewrite (proj1 (N2 _)), (proj1 (N3 _)). rewrite section_fill, D2 by reflexivity. now rewrite (proj1 (N4 _)).
Qed.
Lemma network_paths_good n :
  good path_doc sel_p network_doc network_paths_of (fun S f => network_paths_mut f) n.
Proof.
  assert (A : good path_doc sel_p (list_doc val_doc) (flat_map paths_of)
    (fun S f => each_mut (visit_paths_mut f)) (nw_nodes n)) by (apply good_all_list; [reflexivity | apply paths_good]).
  assert (B : good path_doc sel_p (option_doc (list_doc val_doc)) (opt_list paths_of)
    (fun S f => option_mut (each_mut (visit_paths_mut f))) (nw_parameters n))
    by (apply (good_option _ _ val_doc paths_of (fun S f => visit_paths_mut f)); try reflexivity; apply paths_good).
  assert (C : good path_doc sel_p (option_doc (list_doc series_doc)) (opt_list (fun x => [se_url x]))
    (fun S f => option_mut (each_mut (series_paths_mut f))) (nw_timeseries n))
    by (apply (good_option _ _ series_doc (fun x => [se_url x]) (fun S f => series_paths_mut f)); try reflexivity; apply series_good).
  assert (D : good path_doc sel_p (option_doc (list_doc extra_doc)) (opt_list extra_paths_of)
    (fun S f => option_mut (each_mut (extra_paths_mut f))) (nw_outputs n))
    by (apply (good_option _ _ extra_doc extra_paths_of (fun S f => extra_paths_mut f)); try reflexivity; apply extra_good).
  assert (N1 : no_hits sel_p (section_doc "edges" (list_doc edge_doc (nw_edges n)))) by (now apply section_skipped).
  assert (N2 : no_hits sel_p (section_doc "virtual_nodes" (option_doc (list_doc val_doc) (nw_virtual_nodes n))))
    by (now apply section_skipped).
  assert (N3 : no_hits sel_p (section_doc "tables" (option_doc (list_doc extra_doc) (nw_tables n))))
    by (now apply section_skipped).
  assert (N4 : no_hits sel_p (section_doc "metric_sets" (option_doc (list_doc metric_set_doc) (nw_metric_sets n))))
    by (now apply section_skipped).
  destruct A as [A1 A2], B as [B1 B2], C as [C1 C2], D as [D1 D2]. split.
  - rewrite network_doc_sections. apply sees_Doc; [reflexivity |].
    unfold network_paths_of. apply sees_cons; [now apply section_sees |]. apply sees_skip; [exact N1 |].
    apply sees_skip; [exact N2 |]. apply sees_cons; [now apply section_sees |]. apply sees_skip; [exact N3 |].
    apply sees_cons; [now apply section_sees |]. apply sees_skip; [exact N4 |].
    apply sees_last. now apply section_sees.
  - intros S f s. unfold network_paths_mut, network_paths_of. rewrite !each_mut_app.
    specialize (A2 S f s). destruct (each_mut (visit_paths_mut f) (nw_nodes n) s) as [nodes s1].
    destruct (each_mut f (flat_map paths_of (nw_nodes n)) s) as [a sa]. destruct A2 as [<- A2].
    rewrite !each_mut_app.
    specialize (B2 S f s1). destruct (option_mut (each_mut (visit_paths_mut f)) (nw_parameters n) s1) as [vns s2].
    destruct (each_mut f (opt_list paths_of (nw_parameters n)) s1) as [b sb]. destruct B2 as [<- B2].
    rewrite !each_mut_app.
    specialize (C2 S f s2). destruct (option_mut (each_mut (series_paths_mut f)) (nw_timeseries n) s2) as [ps s3].
    destruct (each_mut f (opt_list (fun x => [se_url x]) (nw_timeseries n)) s2) as [c sc]. destruct C2 as [<- C2].
    specialize (D2 S f s3). destruct (option_mut (each_mut (extra_paths_mut f)) (nw_outputs n) s3) as [sets s4].
    destruct (each_mut f (opt_list extra_paths_of (nw_outputs n)) s3) as [d sd].
    destruct D2 as [<- D2]. split; [reflexivity |]. intros rest.
    rewrite !network_doc_sections, fill_Into by reflexivity. rewrite !map_app, <- !app_assoc.
    cbn [each_mut nw_nodes nw_edges nw_virtual_nodes nw_parameters nw_tables nw_timeseries nw_metric_sets nw_outputs].
    rewrite section_fill, A2 by reflexivity. rewrite (proj1 (N1 _)), (proj1 (N2 _)).
    rewrite section_fill, B2 by reflexivity. rewrite (proj1 (N3 _)).
    rewrite section_fill, C2 by reflexivity. rewrite (proj1 (N4 _)). now rewrite section_fill, D2 by reflexivity.
Qed.
Lemma network_names_good n :
  good name_doc sel_n network_doc network_names_of (fun S f => network_references_mut f) n.
Proof.
  assert (A : good name_doc sel_n (list_doc val_doc) (flat_map names_of)
    (fun S f => each_mut (visit_references_mut f)) (nw_nodes n)) by (apply good_all_list; [reflexivity | apply names_good]).
  assert (E : good name_doc sel_n (list_doc edge_doc) (flat_map edge_names)
    (fun S f => each_mut (edge_references_mut f)) (nw_edges n)) by (apply good_all_list; [reflexivity | apply edge_good]).
  assert (B : good name_doc sel_n (option_doc (list_doc val_doc)) (opt_list names_of)
    (fun S f => option_mut (each_mut (visit_references_mut f))) (nw_virtual_nodes n))
    by (apply (good_option _ _ val_doc names_of (fun S f => visit_references_mut f)); try reflexivity; apply names_good).
  assert (C : good name_doc sel_n (option_doc (list_doc val_doc)) (opt_list names_of)
    (fun S f => option_mut (each_mut (visit_references_mut f))) (nw_parameters n))
    by (apply (good_option _ _ val_doc names_of (fun S f => visit_references_mut f)); try reflexivity; apply names_good).
  assert (D : good name_doc sel_n (option_doc (list_doc metric_set_doc))
    (opt_list (fun x => opt_list metric_names (ms_metrics x)))
    (fun S f => option_mut (each_mut (set_metrics_mut (metric_references_mut f)))) (nw_metric_sets n)).
  { apply (good_option _ _ metric_set_doc (fun x => opt_list metric_names (ms_metrics x))
      (fun S f => set_metrics_mut (metric_references_mut f))); try reflexivity.
    apply (set_good name_doc sel_n (fun _ => eq_refl) (fun _ => eq_refl) metric_names (fun S f => metric_references_mut f));
      [apply metric_names_good | apply extra_no_name]. }
  assert (N2 : no_hits sel_n (section_doc "tables" (option_doc (list_doc extra_doc) (nw_tables n)))).
  { apply section_no_hits; [discriminate |]. apply option_no_hits; [reflexivity | apply extra_no_name]. }
  assert (N3 : no_hits sel_n (section_doc "timeseries" (option_doc (list_doc series_doc) (nw_timeseries n)))).
  { apply section_no_hits; [discriminate |]. apply option_no_hits; [reflexivity | intros x; nohits]. }
  assert (N4 : no_hits sel_n (section_doc "outputs" (option_doc (list_doc extra_doc) (nw_outputs n)))).
  { apply section_no_hits; [discriminate |]. apply option_no_hits; [reflexivity | apply extra_no_name]. }
  destruct A as [A1 A2], B as [B1 B2], C as [C1 C2], D as [D1 D2], E as [E1 E2]. split.
  - rewrite network_doc_sections. apply sees_Doc; [reflexivity |].
    unfold network_names_of. apply sees_cons; [now apply section_sees |]. apply sees_cons; [now apply section_sees |].
    apply sees_cons; [now apply section_sees |]. apply sees_cons; [now apply section_sees |].
    apply sees_skip; [exact N2 |]. apply sees_skip; [exact N3 |].
    match goal with |- sees_list _ _ ?l _ => rewrite <- (app_nil_r l) end.
    apply sees_cons; [now apply section_sees |]. apply sees_skip; [exact N4 | apply sees_nil].
  - intros S f s. unfold network_references_mut, network_names_of. rewrite !each_mut_app.
    specialize (A2 S f s). destruct (each_mut (visit_references_mut f) (nw_nodes n) s) as [nodes s1].
    destruct (each_mut f (flat_map names_of (nw_nodes n)) s) as [a sa]. destruct A2 as [<- A2].
    rewrite !each_mut_app.
    specialize (E2 S f s1). destruct (each_mut (edge_references_mut f) (nw_edges n) s1) as [edges s5].
    destruct (each_mut f (flat_map edge_names (nw_edges n)) s1) as [e se]. destruct E2 as [<- E2].
    rewrite !each_mut_app.
    specialize (B2 S f s5). destruct (option_mut (each_mut (visit_references_mut f)) (nw_virtual_nodes n) s5) as [vns s2].
    destruct (each_mut f (opt_list names_of (nw_virtual_nodes n)) s5) as [b sb]. destruct B2 as [<- B2].
    rewrite !each_mut_app.
    specialize (C2 S f s2). destruct (option_mut (each_mut (visit_references_mut f)) (nw_parameters n) s2) as [ps s3].
    destruct (each_mut f (opt_list names_of (nw_parameters n)) s2) as [c sc]. destruct C2 as [<- C2].
    specialize (D2 S f s3).
    destruct (option_mut (each_mut (set_metrics_mut (metric_references_mut f))) (nw_metric_sets n) s3) as [sets s4].
    destruct (each_mut f (opt_list (fun x => opt_list metric_names (ms_metrics x)) (nw_metric_sets n)) s3) as [d sd].
    destruct D2 as [<- D2]. split; [reflexivity |]. intros rest.
    rewrite !network_doc_sections, fill_Into by reflexivity. rewrite !map_app, <- !app_assoc.
    cbn [each_mut nw_nodes nw_edges nw_virtual_nodes nw_parameters nw_tables nw_timeseries nw_metric_sets nw_outputs].
    rewrite section_fill, A2 by reflexivity. rewrite section_fill, E2 by reflexivity.
    rewrite section_fill, B2 by reflexivity. rewrite section_fill, C2 by reflexivity.
    rewrite (proj1 (N2 _)), (proj1 (N3 _)). rewrite section_fill, D2 by reflexivity. now rewrite (proj1 (N4 _)).
Qed.

(** ** No metric stands in a metric, and paths and names have nothing below them. *)
Definition clean (sel : kind -> choice) (d : doc) : Prop :=
  forall p x, at_place d p = Some x -> sel (kind_of x) <> Hit.
Lemma clean_Doc sel k cs : sel k <> Hit -> Forall (clean sel) cs -> clean sel (Doc k cs).
Proof.
  intros Hk Hcs p x Hp. destruct p as [|i p].
  - injection Hp as <-. exact Hk.
  - simpl in Hp. destruct (nth_error cs i) as [c|] eqn:Ei; [| discriminate].
    rewrite Forall_forall in Hcs. exact (Hcs c (nth_error_In _ _ Ei) p x Hp).
Qed.
Lemma flat_clean sel d : clean sel d -> flat sel d.
Proof. intros H p x Hp Hx. now destruct (H p x Hp). Qed.
Lemma flat_below sel k cs : Forall (clean sel) cs -> flat sel (Doc k cs).
Proof.
  intros H. apply flat_Hit. intros [|i q] y Hq Hy; [now destruct Hq |]. simpl in Hy.
  destruct (nth_error cs i) as [c|] eqn:Ei; [| discriminate].
  rewrite Forall_forall in H. exact (H c (nth_error_In _ _ Ei) q y Hy).
Qed.
Ltac cleans := repeat first [apply clean_Doc; [discriminate |] | apply Forall_nil | apply Forall_cons].
Ltac flats := repeat first
  [ apply flat_leaf | apply flat_Doc; [discriminate |] | apply Forall_nil | apply Forall_cons ].
Lemma flat_map_Forall {A} sel (gd : A -> doc) l : (forall x, flat sel (gd x)) -> Forall (flat sel) (map gd l).
Proof. intros H. rewrite Forall_map. apply Forall_forall. auto. Qed.

Section Flat.
Context (sel : kind -> choice).
Context (Hother : forall n, sel (KOther n) <> Hit) (Hkey : forall n, sel (KKey n) <> Hit)
  (Hfixed : sel KFixed <> Hit) (Hsection : forall s, sel (KSection s) <> Hit).
Context (Hmetric : forall m, flat sel (metric_doc m)) (Hindex : forall m, flat sel (index_metric_doc m)).
Lemma flat_option {A} (gd : A -> doc) o : (forall x, flat sel (gd x)) -> flat sel (option_doc (list_doc gd) o).
Proof.
  intros H. destruct o as [l|]; [| apply flat_leaf]. apply flat_Doc; [apply Hother |].
  repeat constructor. apply flat_Doc; [apply Hother |]. now apply flat_map_Forall.
Qed.
Lemma flat_entry {A} (gd : A -> doc) kx : (forall x, flat sel (gd x)) -> flat sel (entry_doc gd kx).
Proof. intros H. apply flat_Doc; [apply Hkey |]. repeat constructor. apply H. Qed.
Lemma flat_edge e : flat sel (edge_doc e).
Proof. apply flat_Doc; [apply Hother |]. repeat apply Forall_cons; try apply flat_leaf. constructor. Qed.
Lemma flat_val v : flat sel (val_doc v).
Proof.
  induction v using val_ind'; simpl; auto; try apply flat_leaf;
    try (apply flat_Doc; [apply Hother |]; rewrite ?Forall_map; auto; fail).
  - apply flat_Doc; [apply Hother |]. repeat apply Forall_cons; try apply flat_leaf. constructor.
  - apply flat_Doc; [apply Hother |]. rewrite Forall_map. revert H. apply Forall_impl.
    intros kx H. apply flat_Doc; [apply Hkey |]. auto.
  - apply flat_Doc; [exact Hfixed |]. now apply flat_map_Forall.
  - apply flat_Doc; [apply Hother |]. repeat apply Forall_cons; try constructor; try apply flat_leaf.
    + destruct (py_source p); apply flat_leaf.
    + apply flat_option. intros kx. now apply flat_entry.
    + apply flat_option. intros kx. now apply flat_entry.
Qed.
Lemma flat_extra x : flat sel (extra_doc x).
Proof.
  induction x using extra_ind'; try apply flat_leaf. apply flat_Doc; [apply Hother |]. now rewrite Forall_map.
Qed.
Lemma flat_series x : flat sel (series_doc x).
Proof.
  apply flat_Doc; [apply Hother |]. repeat apply Forall_cons; try apply flat_leaf. constructor.
Qed.
Lemma flat_set x : flat sel (metric_set_doc x).
Proof.
  apply flat_Doc; [apply Hother |]. repeat apply Forall_cons; try constructor; try apply flat_leaf;
    try apply flat_extra. now apply flat_option.
Qed.
Lemma flat_network n : flat sel (network_doc n).
Proof.
  assert (H1 : forall s d, flat sel d -> flat sel (Doc (KSection s) [d])).
  { intros s d H. apply flat_Doc; [apply Hsection |]. repeat constructor. exact H. }
  assert (H2 : forall A (gd : A -> doc) l, (forall x, flat sel (gd x)) -> flat sel (list_doc gd l)).
  { intros A gd l H. apply flat_Doc; [apply Hother |]. now apply flat_map_Forall. }
  apply flat_Doc; [apply Hother |]. repeat apply Forall_cons; try constructor; apply H1.
  - apply H2, flat_val.
  - apply H2, flat_edge.
  - apply flat_option, flat_val.
  - apply flat_option, flat_val.
  - apply flat_option, flat_extra.
  - apply flat_option, flat_series.
  - apply flat_option, flat_set.
  - apply flat_option, flat_extra.
Qed.
End Flat.

Lemma flat_m n : flat sel_m (network_doc n).
Proof.
  apply flat_network; try discriminate.
  - intros [r|r|e|t x]; apply flat_below; cleans.
  - intros [r|t x]; apply flat_clean; cleans.
Qed.
Lemma flat_n n : flat sel_n (network_doc n).
Proof.
  apply flat_network; try discriminate.
  - intros [r|r|e|t x]; flats.
  - intros [r|t x]; flats.
Qed.
Lemma flat_p n : flat sel_p (network_doc n).
Proof.
  apply flat_network; try discriminate.
  - intros s. unfold sel_p. destruct (existsb (String.eqb s) path_sections); discriminate.
  - intros [r|r|e|t x]; flats.
  - intros [r|t x]; flats.
Qed.

(** ** C74. *)
Theorem C74_metrics_partial n :
  visits metric_doc open_metric_place (@network_metrics) (@network_metrics_mut) n.
Proof.
  apply (good_visits metric_doc sel_m open_metric_place network_metrics_of).
  - now intros [r|r|e|t x].
  - apply flat_m.
  - intros d p. unfold open_metric_place, metric_place. split.
    + intros [(x & v & Hp & Hk) Hw]. split; [exists x; now rewrite Hk |].
      intros k Hon. destruct k; try discriminate. now destruct Hw.
    + intros [(x & Hp & Hk) Hw]. split.
      * exists x. destruct (kind_of x); try discriminate Hk. eauto.
      * intros Hon. now apply (Hw KFixed Hon).
  - intros S f s. unfold network_metrics, network_metrics_of. rewrite !over_app.
    rewrite (each_over_all f _ metrics_of) by apply metrics_read.
    rewrite !(option_over f (visit_metrics f) metrics_of) by apply metrics_read.
    apply option_over. intros x s'. apply option_over. reflexivity.
  - apply network_metrics_good.
Qed.

Theorem C74_node_references n :
  visits name_doc name_place (@network_references) (@network_references_mut) n.
Proof.
  apply (good_visits name_doc sel_n name_place network_names_of).
  - reflexivity.
  - apply flat_n.
  - intros d p. unfold name_place. split.
    + intros (x & v & Hp & Hk). split; [exists x; now rewrite Hk |]. intros k _. destruct k; discriminate.
    + intros [(x & Hp & Hk) _]. exists x. destruct (kind_of x); try discriminate Hk. eauto.
  - intros S f s. unfold network_references, network_names_of. rewrite !over_app.
    rewrite (each_over_all f (visit_references f) names_of) by apply names_read.
    rewrite (each_over_all f (edge_references f) edge_names) by reflexivity.
    rewrite !(option_over f (visit_references f) names_of) by apply names_read.
    apply option_over. intros x s'. apply option_over. apply metric_names_read.
  - apply network_names_good.
Qed.

Theorem C74_paths_partial n :
  visits path_doc (path_place_in ["nodes"; "parameters"; "timeseries"; "outputs"])
    (@network_paths) (@network_paths_mut) n.
Proof.
  apply (good_visits path_doc sel_p _ network_paths_of).
  - reflexivity.
  - apply flat_p.
  - assert (Hin : forall s, In s path_sections <-> existsb (String.eqb s) path_sections = true).
    { intros s. rewrite existsb_exists. split.
      - intros H. exists s. split; [exact H | apply String.eqb_refl].
      - intros (t & H & He). apply String.eqb_eq in He. now subst. }
    fold path_sections. intros d p. unfold path_place_in, path_place. split.
    + intros [(x & v & Hp & Hk) Hw]. split; [exists x; now rewrite Hk |].
      intros k Hon. destruct k as [| | | | | | |s|]; try discriminate. apply Hw, Hin in Hon. unfold sel_p.
      rewrite Hon. discriminate.
    + intros [(x & Hp & Hk) Hw]. split.
      * exists x. destruct (kind_of x) as [| | | | | | |s|]; try discriminate Hk; [eauto |].
        unfold sel_p in Hk. destruct (existsb (String.eqb s) path_sections); discriminate Hk.
      * intros s Hon. apply Hin. specialize (Hw _ Hon). unfold sel_p in Hw.
        destruct (existsb (String.eqb s) path_sections); [reflexivity | now destruct Hw].
  - intros S f s. unfold network_paths, network_paths_of. rewrite !over_app.
    rewrite (each_over_all f (visit_paths f) paths_of) by apply paths_read.
    rewrite (option_over f (visit_paths f) paths_of) by apply paths_read.
    rewrite (option_over f (series_paths f) (fun x => [se_url x])) by reflexivity.
    apply option_over. apply extra_read.
  - apply network_paths_good.
Qed.

(** *** Renaming a node: no place refers to the old name any more, the places that did
    refer to the new one, and the rest of the file is as it was. *)
Lemma leaf_below k d q r : at_place d q = Some (Doc k []) -> r <> [] -> at_place d (q ++ r) = None.
Proof.
  revert d. induction q as [|i q IH]; intros [k' cs] H Hr.
  - injection H as -> ->. destruct r as [|j r]; [now destruct Hr |]. simpl. now destruct j.
  - simpl in *. destruct (nth_error cs i); [now apply IH | reflexivity].
Qed.
Theorem C74_rename n n' (old new : string) (u : unit) :
  old <> new ->
  network_references_mut (fun x u => (if String.eqb x old then new else x, u)) n tt = (n', u) ->
  (forall p, at_place (network_doc n') p <> Some (name_doc old)) /\
  (forall p, at_place (network_doc n) p = Some (name_doc old) ->
     at_place (network_doc n') p = Some (name_doc new)) /\
  (forall p s, s <> old -> at_place (network_doc n) p = Some (name_doc s) ->
     at_place (network_doc n') p = Some (name_doc s)) /\
  (forall p, ~ name_place (network_doc n) p ->
     option_map kind_of (at_place (network_doc n') p) = option_map kind_of (at_place (network_doc n) p)).
Proof.
  intros Hne He. destruct (C74_node_references n) as (ps & xs & (Hs & Hin & Hall) & _ & Hm).
  destruct (Hm unit _ tt n' u He) as (ys & Hc & (Hs' & Hin' & Hall') & Hu).
  assert (Hy : ys = map (fun x => if String.eqb x old then new else x) xs).
  { clear - Hc. remember (fun (x : string) (u : unit) => (if String.eqb x old then new else x, u)) as f.
    induction Hc as [|x y xs ys s s1 s2 Hf Hc IH]; [reflexivity |]. simpl. rewrite IH. subst f. now injection Hf as <- _. }
  assert (Hat : forall p s, at_place (network_doc n) p = Some (name_doc s) ->
    at_place (network_doc n') p = Some (name_doc (if String.eqb s old then new else s))).
  { intros p s Hp. assert (Hi : In p ps) by (apply Hin; exists (name_doc s), s; now split).
    clear - Hp Hi Hall Hall' Hy. subst ys. revert Hall'.
    induction Hall as [|q x ps xs Hq Hall IH]; intros Hall'; [destruct Hi |].
    inversion Hall'; subst. destruct Hi as [-> | Hi]; [| now apply IH].
    assert (x = s) as <- by (rewrite Hp in Hq; now injection Hq). assumption. }
  assert (Hlen : forall p, In p ps -> exists s, at_place (network_doc n) p = Some (name_doc s)).
  { intros p Hp. clear - Hp Hall. induction Hall as [|q x ps xs Hq Hall IH]; [destruct Hp |].
    destruct Hp as [-> | Hp]; eauto. }
  split; [| split; [| split]].
  - intros p Hp. assert (Hi : In p ps) by (apply Hin'; exists (name_doc old), old; now split).
    destruct (Hlen p Hi) as (s & Hps). apply Hat in Hps. rewrite Hp in Hps. injection Hps as Hps.
    destruct (String.eqb s old) eqn:E; [congruence |]. apply String.eqb_neq in E. congruence.
  - intros p Hp. apply Hat in Hp. now rewrite String.eqb_refl in Hp.
  - intros p s Hso Hp. apply Hat in Hp. apply String.eqb_neq in Hso. now rewrite Hso in Hp.
  - intros p Hp. destruct (in_dec (list_eq_dec Nat.eq_dec) p ps) as [Hi | Hi]; [apply Hin in Hi; now destruct Hp |].
    assert (Hd : (exists q r, In q ps /\ p = q ++ r) \/ forall q r, In q ps -> p <> q ++ r).
    { clear. induction ps as [|a ps IH]; [right; easy |]. destruct IH as [(q & r & Hq & ->) | IH].
      - left. exists q, r. simpl. auto.
      - assert (Ha : (exists r, p = a ++ r) \/ forall r, p <> a ++ r).
        { clear. revert p. induction a as [|i a IH]; intros p; [left; now exists p |].
          destruct p as [|j p]; [right; discriminate |]. destruct (Nat.eq_dec i j) as [<- | Hij].
          - destruct (IH p) as [(r & ->) | IHp]; [left; now exists r |].
            right. intros r H. injection H as H. now apply (IHp r).
          - right. intros r H. injection H as H _. congruence. }
        destruct Ha as [(r & ->) | Ha]; [left; exists a, r; simpl; auto |].
        right. intros q r [<- | Hq]; [apply Ha | now apply IH]. }
    destruct Hd as [(q & r & Hq & ->) | Hd]; [| now apply Hu].
    assert (Hr : r <> []) by (intros ->; rewrite app_nil_r in Hi; contradiction).
    destruct (Hlen q Hq) as (s & Hqs). rewrite (leaf_below _ _ _ _ Hqs Hr).
    apply Hat in Hqs. now rewrite (leaf_below _ _ _ _ Hqs Hr).
Qed.

(** *** The document says everything the file says. *)
Lemma map_injective {A} (gd : A -> doc) l : Forall (fun x => forall y, gd x = gd y -> x = y) l ->
  forall l', map gd l = map gd l' -> l = l'.
Proof.
  induction 1 as [|x l Hx _ IH]; intros [|y l'] H; try discriminate H; [reflexivity |].
  injection H as H1 H2. now rewrite (Hx y H1), (IH l' H2).
Qed.
Lemma map_injective_all {A} (gd : A -> doc) : (forall x y, gd x = gd y -> x = y) ->
  forall l l', map gd l = map gd l' -> l = l'.
Proof. intros H l. apply map_injective, Forall_forall. auto. Qed.
Lemma list_doc_injective {A} (gd : A -> doc) : (forall x y, gd x = gd y -> x = y) ->
  forall l l', list_doc gd l = list_doc gd l' -> l = l'.
Proof. intros H l l' He. injection He as He. now apply (map_injective_all gd). Qed.
Lemma option_doc_injective {A} (gd : A -> doc) : (forall x y, gd x = gd y -> x = y) ->
  forall l l', option_doc gd l = option_doc gd l' -> l = l'.
Proof. intros H [x|] [y|] He; try discriminate He; [| reflexivity]. injection He as He. now rewrite (H x y He). Qed.
Lemma entry_doc_injective {A} (gd : A -> doc) : (forall x y, gd x = gd y -> x = y) ->
  forall l l', entry_doc gd l = entry_doc gd l' -> l = l'.
Proof. intros H [k x] [k' y] He. injection He as -> He. now rewrite (H x y He). Qed.
Lemma metric_doc_injective x y : metric_doc x = metric_doc y -> x = y.
Proof.
  destruct x as [[]|[]|[]|], y as [[]|[]|[]|]; intros H; try discriminate H; injection H; intros; subst; reflexivity.
Qed.
Lemma index_doc_injective x y : index_metric_doc x = index_metric_doc y -> x = y.
Proof. destruct x as [[]|], y as [[]|]; intros H; try discriminate H; injection H; intros; subst; reflexivity. Qed.
Lemma python_doc_injective x y : python_doc x = python_doc y -> x = y.
Proof.
  destruct x as [a b c d], y as [a' b' c' d']. unfold python_doc. cbn [py_fields py_source py_metrics py_indices].
  intros H. injection H as -> Hb Hc Hd.
  assert (b = b') as -> by (destruct b, b'; try discriminate Hb; now injection Hb as ->).
  apply (option_doc_injective _ (list_doc_injective _ (entry_doc_injective _ metric_doc_injective))) in Hc.
  apply (option_doc_injective _ (list_doc_injective _ (entry_doc_injective _ index_doc_injective))) in Hd.
  now subst.
Qed.
Lemma val_doc_injective x : forall y, val_doc x = val_doc y -> x = y.
Proof.
  assert (Hm : forall m y, metric_doc m = val_doc y -> y = VMetric m).
  { intros m y H. destruct y as [m'| | | | | | | | | | | | | | |];
      try (destruct m; discriminate H); [| destruct m, m0; discriminate H].
    simpl in H. now apply metric_doc_injective in H as ->. }
  assert (Hi : forall m y, index_metric_doc m = val_doc y -> y = VIndexMetric m).
  { intros m y H. destruct y as [m'|m'| | | | | | | | | | | | | |];
      try (destruct m; discriminate H); [destruct m, m'; discriminate H |].
    simpl in H. now apply index_doc_injective in H as ->. }
  induction x as [m|m|r|n|p| |v IH|l IH|a b IHa IHb|l IH|l|l IH|t v IH|t l IH|t|p] using val_ind'; intros y H.
  - symmetry. now apply Hm.
  - symmetry. now apply Hi.
  - destruct y; simpl in H; try discriminate H; try (destruct m; discriminate H).
    destruct r, r0. injection H as -> ->. reflexivity.
  - destruct y; simpl in H; try discriminate H; try (destruct m; discriminate H). now injection H as ->.
  - destruct y; simpl in H; try discriminate H; try (destruct m; discriminate H). now injection H as ->.
  - destruct y; simpl in H; try discriminate H; try (destruct m; discriminate H). reflexivity.
  - destruct y; simpl in H; try discriminate H; try (destruct m; discriminate H).
    injection H as H. now rewrite (IH _ H).
  - destruct y; simpl in H; try discriminate H; try (destruct m; discriminate H).
    injection H as H. now rewrite (map_injective _ _ IH _ H).
  - destruct y; simpl in H; try discriminate H; try (destruct m; discriminate H).
    injection H as H1 H2. now rewrite (IHa _ H1), (IHb _ H2).
  - destruct y; simpl in H; try discriminate H; try (destruct m; discriminate H).
    injection H as H. f_equal. revert H. apply map_injective. revert IH. apply Forall_impl.
    intros [k x] IH [k' x'] H. simpl in *. injection H as -> H. now rewrite (IH _ H).
  - destruct y; simpl in H; try discriminate H; try (destruct m; discriminate H).
    injection H as H. now rewrite (map_injective_all _ metric_doc_injective _ _ H).
  - destruct y; simpl in H; try discriminate H; try (destruct m; discriminate H).
    injection H as H. now rewrite (map_injective _ _ IH _ H).
  - destruct y; simpl in H; try discriminate H; try (destruct m; discriminate H);
      injection H; intros; try (exfalso; lia).
    assert (t = variant) as -> by lia. match goal with H : val_doc _ = _ |- _ => now rewrite (IH _ H) end.
  - destruct y; simpl in H; try discriminate H; try (destruct m; discriminate H);
      injection H; intros; try (exfalso; lia).
    assert (t = variant) as -> by lia. match goal with H : map _ _ = _ |- _ => now rewrite (map_injective _ _ IH _ H) end.
  - destruct y; simpl in H; try discriminate H; try (destruct m; discriminate H);
      injection H; intros; try (exfalso; lia). assert (t = variant) as -> by lia. reflexivity.
  - destruct y; simpl in H; try discriminate H; try (destruct m; discriminate H).
    change (python_doc p = python_doc p0) in H. now rewrite (python_doc_injective _ _ H).
Qed.
Lemma extra_doc_injective x : forall y, extra_doc x = extra_doc y -> x = y.
Proof.
  induction x using extra_ind'; intros [n'|p'|l'] He; try discriminate He; injection He as He.
  - now subst.
  - now subst.
  - now rewrite (map_injective _ _ H _ He).
Qed.
Theorem C74_document n n' : network_doc n = network_doc n' -> n = n'.
Proof.
  assert (Hs : forall x y, series_doc x = series_doc y -> x = y).
  { intros [[|] ? ? ?] [[|] ? ? ?] H; try discriminate H; injection H; intros; now subst. }
  assert (He : forall x y, edge_doc x = edge_doc y -> x = y).
  { intros [] [] H. injection H; intros; now subst. }
  assert (Hx := extra_doc_injective). assert (Hv := val_doc_injective).
  assert (Ht : forall x y, metric_set_doc x = metric_set_doc y -> x = y).
  { intros [a b c d] [a' b' c' d'] H. unfold metric_set_doc in H.
    cbn [ms_name ms_metrics ms_aggregator ms_filters] in H. injection H as -> Hb Hc Hd.
    apply (option_doc_injective _ (list_doc_injective _ metric_doc_injective)) in Hb.
    apply Hx in Hc. apply Hx in Hd. now subst. }
  destruct n as [a b c d e f g h], n' as [a' b' c' d' e' f' g' h']. unfold network_doc.
  cbn [nw_nodes nw_edges nw_virtual_nodes nw_parameters nw_tables nw_timeseries nw_metric_sets nw_outputs].
  intros H. injection H as Ha Hb Hc Hd Hee Hf Hg Hh.
  apply (map_injective_all _ Hv) in Ha. apply (map_injective_all _ He) in Hb.
  apply (option_doc_injective _ (list_doc_injective _ Hv)) in Hc.
  apply (option_doc_injective _ (list_doc_injective _ Hv)) in Hd.
  apply (option_doc_injective _ (list_doc_injective _ Hx)) in Hee.
  apply (option_doc_injective _ (list_doc_injective _ Hs)) in Hf.
  apply (option_doc_injective _ (list_doc_injective _ Ht)) in Hg.
  apply (option_doc_injective _ (list_doc_injective _ Hx)) in Hh.
  now subst.
Qed.

(** *** What the visitors miss. *)
Definition collect {A} (x : A) (l : list A) : list A := l ++ [x].
(** thresholds.rs 88-104: [meta], [metric], [threshold], [predicate], [returned_metrics],
    [ratchet] of a threshold parameter that returns one of two metrics. *)
Definition threshold_parameter : val :=
  VUnnamed 19 (VStruct [VStruct [VScalar 1; VNone]; VMetric (MNode (NodeRef "reservoir" 0)); VMetric (MOther 0 5);
    VUnit 0; VSome (VMetricArray [MOther 0 7; MNode (NodeRef "river" 1)]); VScalar 0]).
Definition threshold_network : network :=
  Network [] [] None (Some [threshold_parameter]) None None None None.
Theorem C74_fixed_array_refuted :
  exists n p m, at_place (network_doc n) p = Some (metric_doc m) /\
    ~ In m (network_metrics collect n []) /\
    forall S (f : metric -> S -> metric * S) s,
      at_place (network_doc (fst (network_metrics_mut f n s))) p = Some (metric_doc m).
Proof.
  exists threshold_network, [3; 0; 0; 0; 0; 4; 0; 1], (MNode (NodeRef "river" 1)).
  split; [reflexivity |]. split.
  - intros H. repeat (destruct H as [H | H]; [discriminate H |]). destruct H.
  - intros S f s. unfold network_metrics_mut. simpl.
    destruct (f (MNode (NodeRef "reservoir" 0)) s) as [a s1]. destruct (f (MOther 0 5) s1) as [b s2]. reflexivity.
Qed.
(** A table read from a file, a Python parameter of a virtual node and a metric set with
    an aggregation written in Python. *)
Definition files_network : network :=
  Network [] []
    (Some [VUnnamed 2 (VStruct [VScalar 1; VVec [VUnnamed 21 (VPython (Python 0 (PyPath "licence.py") None None))]])])
    None
    (Some [XMany [XScalar 1; XPath "table.csv"]])
    (Some [Series true 1 "inflow.csv" 0])
    (Some [MetricSet 1 None (XMany [XPath "mean.py"]) (XScalar 0)])
    None.
Theorem C74_paths_refuted :
  exists n, network_paths collect n [] = ["inflow.csv"] /\
    forall x, In x ["licence.py"; "table.csv"; "mean.py"] ->
      exists p, at_place (network_doc n) p = Some (path_doc x) /\ ~ In x (network_paths collect n []).
Proof.
  exists files_network. split; [reflexivity |]. intros x Hx.
  assert (Hno : ~ In x (network_paths collect files_network [])).
  { intros [<- | []]. repeat (destruct Hx as [Hx | Hx]; [discriminate Hx |]). destruct Hx. }
  destruct Hx as [<- | [<- | [<- | []]]].
  - exists [2; 0; 0; 0; 0; 1; 0; 0; 1]. now split.
  - exists [4; 0; 0; 0; 1]. now split.
  - exists [6; 0; 0; 0; 2; 0]. now split.
Qed.

(** *** A network on which the visitors have something to do. *)
Definition example_network : network :=
  Network
    [VUnnamed 0 (VStruct [VScalar 1; VNone; VSome (VMetric (MOther 3 1)); VPath "a.csv"]);
     VUnnamed 3 (VStruct [VScalar 2; VSome (VVec [VPair (VMetric (MNode (NodeRef "supply" 0))) (VScalar 0)])])]
    [Edge "supply" "reservoir" 0 0]
    (Some [VUnnamed 0 (VStruct [VScalar 3; VVec [VRef (NodeRef "supply" 0); VRef (NodeRef "demand" 0)]])])
    (Some [VUnnamed 21 (VPython (Python 1 (PyPath "p.py") (Some [("x", MVirtualNode (NodeRef "licence" 0))])
             (Some [("i", IMNode (NodeRef "supply" 2))]))); threshold_parameter;
           VUnnamed 5 (VNamed 1 [VMap [("k", VMetric (MEdge (Edge "supply" "reservoir" 0 1)))]])])
    None (Some [Series false 1 "inflow.csv" 0])
    (Some [MetricSet 1 (Some [MNode (NodeRef "demand" 0)]) (XScalar 0) (XScalar 0)])
    (Some [XMany [XScalar 1; XPath "out.h5"]]).
Example C74_example :
  network_paths collect example_network [] = ["a.csv"; "p.py"; "inflow.csv"; "out.h5"] /\
  length (network_metrics collect example_network []) = 7 /\
  network_references collect example_network [] =
    ["supply"; "supply"; "reservoir"; "supply"; "demand"; "licence"; "supply"; "reservoir"; "river";
     "supply"; "reservoir"; "demand"] /\
  network_references collect (fst (network_references_mut
      (fun x (u : unit) => (if String.eqb x "supply" then "well" else x, u)) example_network tt)) [] =
    ["well"; "well"; "reservoir"; "well"; "demand"; "licence"; "well"; "reservoir"; "river";
     "well"; "reservoir"; "demand"] /\
  (exists p, open_metric_place (network_doc example_network) p).
Proof.
  repeat (split; [reflexivity |]). exists [0; 0; 0; 0; 2; 0]. split.
  - exists (metric_doc (MOther 3 1)), 6. now split.
  - intros (q & r & x & He & Hr & Hq & Hk).
    assert (Hf : q = firstn (length q) [0; 0; 0; 0; 2; 0]).
    { rewrite He, firstn_app, Nat.sub_diag, firstn_all. simpl. now rewrite app_nil_r. }
    assert (Hl : length q < 6).
    { apply (f_equal (@length nat)) in He. rewrite app_length in He. simpl in He. destruct r; [now destruct Hr |]. simpl in He. lia. }
    rewrite Hf in Hq. clear Hf He. revert Hq Hl. generalize (length q). clear q.
    intros [|[|[|[|[|[|l]]]]]] Hq Hl; try lia; injection Hq as <-; discriminate Hk.
Qed.

Print Assumptions C74_metrics_partial.
Print Assumptions C74_node_references.
Print Assumptions C74_paths_partial.
Print Assumptions C74_rename.
Print Assumptions C74_document.
Print Assumptions C74_fixed_array_refuted.
Print Assumptions C74_paths_refuted.
