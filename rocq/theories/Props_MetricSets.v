(** C68: a metric set of a model file records the metrics it lists and, for
    each filter switched on, every component of that kind once, each under a
    label that says what it is. *)
From Coq Require Import QArith.
From Verif Require Import Base Calendar AggFuncs Aggregator Memory Network NetworkBuild Formulas NetState SchemaNodes SchemaVirtual LpDynLemmas
  SchemaEdgeLemmas MetricSets MetricSetsSpec.
Local Open Scope string_scope.
Local Open Scope list_scope.
Local Open Scope nat_scope.

(** *** Loading one metric *)
Lemma default_usual n : default_attribute n = usual_attribute n.
Proof. destruct n; reflexivity. Qed.
Lemma vdefault_usual v : vdefault_attribute v = usual_vattribute v.
Proof. destruct v; reflexivity. Qed.
Lemma create_default n a : create_metric n a = create_metric n (Some (match a with Some a => a | None => usual_attribute n end)).
Proof. destruct a as [a|]; [reflexivity|]. destruct n; reflexivity. Qed.
Lemma vnode_default v a : vnode_metric v a = vnode_metric v (Some (match a with Some a => a | None => usual_vattribute v end)).
Proof. destruct a as [a|]; [reflexivity|]. destruct v; reflexivity. Qed.

Lemma of_schema_Ok {A} (r : SchemaNodes.sres A) x : of_schema r = Ok x -> r = Ok x.
Proof. destruct r; cbn; intros E; [injection E as ->; reflexivity | discriminate E | discriminate E]. Qed.
Lemma rbind_Ok' {E A B} (x : res E A) (f : A -> res E B) y : rbind x f = Ok y -> exists a, x = Ok a /\ f a = Ok y.
Proof. destruct x as [a | e |]; cbn; intros H; [exists a; auto | discriminate H | discriminate H]. Qed.
Lemma lookup_node_Ok args name n : lookup_node args name = Ok n -> In n (sc_nodes (la_schema args)) /\ snode_name n = name.
Proof. intros H. apply of_schema_Ok in H. exact (find_node_Ok _ _ _ H). Qed.
Lemma lookup_vnode_Ok args name v : lookup_vnode args name = Ok v -> In v (sc_vnodes (la_schema args)) /\ vnode_name v = name.
Proof.
  unfold lookup_vnode. destruct (find _ _) as [v'|] eqn:E; [|discriminate]. intros E'. injection E' as <-.
  apply find_some in E. destruct E as [Hin E]. apply String.eqb_eq in E. auto.
Qed.
Lemma lookup_param_Ok args name p : lookup_param args name = Ok p -> In p (la_params args) /\ spa_name p = name.
Proof.
  unfold lookup_param. destruct (find _ _) as [v'|] eqn:E; [|discriminate]. intros E'. injection E' as <-.
  apply find_some in E. destruct E as [Hin E]. apply String.eqb_eq in E. auto.
Qed.

Lemma attribute_str_word a : attribute_str a = attribute_word a.
Proof. destruct a; reflexivity. Qed.
Lemma node_type_word n : node_type_str n = kind_word n.
Proof. destruct n; reflexivity. Qed.
Lemma vnode_type_word v : vnode_type_str v = vkind_word v.
Proof. destruct v; reflexivity. Qed.
Lemma slot_str_word s : slot_str s = slot_word s.
Proof. destruct s; reflexivity. Qed.
Lemma string_app_assoc (a b c : string) : ((a ++ b) ++ c = a ++ (b ++ c))%string.
Proof. induction a as [|x a IH]; [reflexivity|]. cbn [append]. rewrite IH. reflexivity. Qed.
Lemma edge_str_label e : edge_str e = edge_label e.
Proof.
  unfold edge_str, edge_label, end_label. destruct (se_from_slot e) as [f|], (se_to_slot e) as [t|]; rewrite ?slot_str_word, ?string_app_assoc; reflexivity.
Qed.

Lemma load_records args m o : load_as_output args None m = Ok o -> records_listed args o m.
Proof.
  unfold load_as_output. intros H. apply rbind_Ok' in H. destruct H as (lm & Hm & H). apply rbind_Ok' in H. destruct H as (st & Hst & H).
  apply rbind_Ok' in H. destruct H as (nm & Hnm & H). apply rbind_Ok' in H. destruct H as (at_ & Hat & H). injection H as <-.
  destruct m as [q | t key | name a | name a | e | t c | r | r | name]; cbn [load_metric output_sub_type output_name output_attribute output_type records_listed] in *.
  - discriminate Hnm.
  - injection Hnm as <-. destruct (la_tables args t key) as [q|] eqn:Et; [|discriminate Hm]. injection Hm as <-. split; [reflexivity|]. exists q. auto.
  - apply rbind_Ok' in Hm. destruct Hm as (n & Hn & Hm). apply rbind_Ok' in Hm. destruct Hm as (u & Hu & Hm). injection Hm as <-.
    rewrite Hn in Hst, Hat. cbn [rbind] in Hst, Hat. rewrite node_type_word in Hst. rewrite attribute_str_word in Hat. injection Hst as <-. injection Hat as <-. injection Hnm as <-.
    destruct (lookup_node_Ok _ _ _ Hn) as [Hin Hname]. exists n. split; [exact Hin|]. split; [exact Hname|].
    apply of_schema_Ok in Hu. rewrite create_default in Hu. rewrite default_usual.
    repeat split; cbn [om_name om_attribute om_type om_sub_type om_metric]; [symmetry; exact Hname|]. exists u. split; [exact Hu|reflexivity].
  - apply rbind_Ok' in Hm. destruct Hm as (n & Hn & Hm). apply rbind_Ok' in Hm. destruct Hm as (u & Hu & Hm). injection Hm as <-.
    rewrite Hn in Hst, Hat. cbn [rbind] in Hst, Hat. rewrite vnode_type_word in Hst. rewrite attribute_str_word in Hat. injection Hst as <-. injection Hat as <-. injection Hnm as <-.
    destruct (lookup_vnode_Ok _ _ _ Hn) as [Hin Hname]. exists n. split; [exact Hin|]. split; [exact Hname|].
    apply of_schema_Ok in Hu. rewrite vnode_default in Hu. rewrite vdefault_usual.
    repeat split; cbn [om_name om_attribute om_type om_sub_type om_metric]; [symmetry; exact Hname|]. exists u. split; [exact Hu|reflexivity].
  - rewrite edge_str_label in Hnm. injection Hnm as <-. injection Hat as <-. injection Hst as <-. apply rbind_Ok' in Hm. destruct Hm as (u & Hu & Hm). rewrite edge_str_label in Hm. injection Hm as <-.
    apply of_schema_Ok in Hu. unfold edge_metric in Hu. apply rbind_Ok' in Hu. destruct Hu as (ps & Hps & Hu). injection Hu as <-.
    repeat split. exists ps. split; [exact Hps|reflexivity].
  - injection Hnm as <-. destruct (la_timeseries args t c) as [p|] eqn:Et; [|discriminate Hm]. injection Hm as <-. split; [reflexivity|]. exists p. auto.
  - apply rbind_Ok' in Hst. destruct Hst as (p & Hp & Hst). injection Hst as <-. injection Hnm as <-. injection Hat as <-. injection Hm as <-.
    destruct (lookup_param_Ok _ _ _ Hp) as [Hin Hname]. destruct r as [name k rv]. cbn [pr_name] in Hname. destruct k as [k|].
    + repeat split.
    + exists p. split; [exact Hin|]. split; [exact Hname|].
      unfold records_param, load_param_ref, param_attribute. cbn [om_name om_attribute om_type om_sub_type om_metric pr_name pr_key pr_return].
      rewrite Hname. destruct rv as [[| |]|]; repeat split.
  - discriminate Hm.
  - injection Hnm as <-. injection Hm as <-. split; reflexivity.
Qed.

(** *** What is unique *)
Lemma NoDup_key {A B} (f : A -> B) l x y : NoDup (map f l) -> In x l -> In y l -> f x = f y -> x = y.
Proof.
  induction l as [|z l IH]; [intros _ []|]. cbn [map]. intros ND Hx Hy E. inversion ND as [|? ? Hn ND']; subst. destruct Hx as [-> | Hx], Hy as [-> | Hy].
  - reflexivity.
  - exfalso. apply Hn. rewrite E. apply in_map. exact Hy.
  - exfalso. apply Hn. rewrite <- E. apply in_map. exact Hx.
  - exact (IH ND' Hx Hy E).
Qed.
Lemma records_node_det o o' n a : records_node o n a -> records_node o' n a -> o = o'.
Proof.
  destruct o as [o1 o2 o3 o4 o5], o' as [o1' o2' o3' o4' o5']. unfold records_node. cbn [om_name om_attribute om_type om_sub_type om_metric].
  intros (-> & -> & -> & -> & m & E & ->) (-> & -> & -> & -> & m' & E' & ->). rewrite E in E'. injection E' as ->. reflexivity.
Qed.
Lemma records_vnode_det o o' n a : records_vnode o n a -> records_vnode o' n a -> o = o'.
Proof.
  destruct o as [o1 o2 o3 o4 o5], o' as [o1' o2' o3' o4' o5']. unfold records_vnode. cbn [om_name om_attribute om_type om_sub_type om_metric].
  intros (-> & -> & -> & -> & m & E & ->) (-> & -> & -> & -> & m' & E' & ->). rewrite E in E'. injection E' as ->. reflexivity.
Qed.
Lemma records_param_det o o' p r : records_param o p r -> records_param o' p r -> o = o'.
Proof.
  destruct o as [o1 o2 o3 o4 o5], o' as [o1' o2' o3' o4' o5']. unfold records_param. cbn [om_name om_attribute om_type om_sub_type om_metric].
  intros (-> & -> & -> & -> & ->) (-> & -> & -> & -> & ->). reflexivity.
Qed.
Lemma records_edge_det sc o o' e : records_edge sc o e -> records_edge sc o' e -> o = o'.
Proof.
  destruct o as [o1 o2 o3 o4 o5], o' as [o1' o2' o3' o4' o5']. unfold records_edge. cbn [om_name om_attribute om_type om_sub_type om_metric].
  intros (-> & -> & -> & -> & m & E & ->) (-> & -> & -> & -> & m' & E' & ->). rewrite E in E'. injection E' as ->. reflexivity.
Qed.
Lemma exactly_one_intro {A} (P : A -> Prop) l x : NoDup l -> In x l -> P x -> (forall y, P y -> y = x) -> exactly_one P l.
Proof.
  intros ND Hin Hx Hu. destruct (In_nth_error _ _ Hin) as (i & Hi). exists i. intros j. split.
  - intros (y & Hy & Py). apply Hu in Py. subst y. rewrite NoDup_nth_error in ND. apply ND.
    + apply nth_error_Some. rewrite Hy. discriminate.
    + rewrite Hy. symmetry. exact Hi.
  - intros ->. exists x. auto.
Qed.

(** *** [append_new] *)
Lemma contains_In l o : contains l o = true <-> In o l.
Proof.
  unfold contains. rewrite existsb_exists. split.
  - intros (x & Hx & E). destruct (output_eq_dec x o) as [-> | N]; [exact Hx | discriminate E].
  - intros H. exists o. split; [exact H|]. destruct (output_eq_dec o o) as [_ | N]; [reflexivity | congruence].
Qed.
Lemma append_new_spec extra : forall l, exists added,
  append_new l extra = l ++ added /\ (forall o, In o added -> In o extra) /\ (forall o, In o extra -> In o (l ++ added)) /\
  (NoDup l -> NoDup (l ++ added)) /\ (forall o, In o added -> ~ In o l).
Proof.
  induction extra as [|o extra IH]; intros l; cbn [append_new].
  - exists []. rewrite app_nil_r. repeat split; [contradiction | contradiction | auto | contradiction].
  - destruct (contains l o) eqn:E.
    + apply contains_In in E. destruct (IH l) as (ad & Ea & H1 & H2 & H3 & H4). exists ad. repeat split; [exact Ea | right; auto | | exact H3 | exact H4].
      intros x [<- | Hx]; [apply in_or_app; left; exact E | exact (H2 x Hx)].
    + assert (~ In o l) as Hn by (intros H; apply contains_In in H; congruence).
      destruct (IH (l ++ [o])) as (ad & Ea & H1 & H2 & H3 & H4). exists (o :: ad). rewrite <- app_assoc in Ea, H2, H3. cbn [app] in Ea, H2, H3.
      repeat split; [exact Ea | | | |].
      * intros x [<- | Hx]; [left; reflexivity | right; auto].
      * intros x [<- | Hx]; [apply in_or_app; right; left; reflexivity | exact (H2 x Hx)].
      * intros ND. apply H3. apply NoDup_app_intro; [exact ND | constructor; [intros [] | constructor] | intros a Ha [<- | []]; exact (Hn Ha)].
      * intros x [<- | Hx]; [exact Hn|]. intros Hl. apply (H4 x Hx). apply in_or_app. left. exact Hl.
Qed.

(** *** The shape of a set *)
Record set_parts (args : load_args) (ms : smetric_set) (b : built_set) : Type := {
  sp_listed : list output_metric;
  sp_filters : list output_metric;
  sp_added : list output_metric;
  sp_listed_ok : rmap (load_as_output args None) (listed args ms) = Ok sp_listed;
  sp_filters_ok : rmap (load_as_output args None) (create_metrics args (sm_filters ms)) = Ok sp_filters;
  sp_all : bs_metrics b = sp_listed ++ sp_added;
  sp_from : forall o, In o sp_added -> In o sp_filters;
  sp_to : forall o, In o sp_filters -> In o (bs_metrics b);
  sp_none : sm_metrics ms = None -> bs_metrics b = sp_filters;
  sp_nodup : sm_metrics ms <> None -> NoDup sp_listed -> NoDup (bs_metrics b);
  sp_new : sm_metrics ms <> None -> forall o, In o sp_added -> ~ In o sp_listed }.
Lemma set_parts_of args ms b : add_metric_set args ms = Ok b -> set_parts args ms b.
Proof.
  unfold add_metric_set. intros H.
  destruct (rmap (load_as_output args None) (create_metrics args (sm_filters ms))) as [fs | e |] eqn:Ef; cbn [rbind] in H; [|discriminate H|discriminate H].
  destruct (sm_metrics ms) as [l|] eqn:El.
  - destruct (rmap (load_as_output args None) l) as [ls | e |] eqn:Els; cbn [rbind] in H; [|discriminate H|discriminate H].
    assert (bs_metrics b = append_new ls fs) as Eb.
    { destruct (append_new ls fs); [discriminate H|]. injection H as <-. reflexivity. }
    set (T := append_new_spec fs ls).
    apply (Build_set_parts args ms b ls fs (skipn (length ls) (append_new ls fs))).
    + unfold listed. rewrite El. exact Els.
    + exact Ef.
    + rewrite Eb. destruct T as (ad & Ea & _). rewrite Ea, skipn_app, skipn_all, Nat.sub_diag. reflexivity.
    + intros o Ho. destruct T as (ad & Ea & H1 & _). rewrite Ea, skipn_app, skipn_all, Nat.sub_diag in Ho. cbn [app skipn] in Ho. exact (H1 o Ho).
    + intros o Ho. rewrite Eb. destruct T as (ad & Ea & _ & H2 & _). rewrite Ea. exact (H2 o Ho).
    + intros E; congruence.
    + intros _ ND. rewrite Eb. destruct T as (ad & Ea & _ & _ & H3 & _). rewrite Ea. exact (H3 ND).
    + intros _ o Ho. destruct T as (ad & Ea & _ & _ & _ & H4). rewrite Ea, skipn_app, skipn_all, Nat.sub_diag in Ho. exact (H4 o Ho).
  - cbn [rbind] in H. assert (bs_metrics b = fs) as Eb by (destruct fs; [discriminate H|]; injection H as <-; reflexivity).
    apply (Build_set_parts args ms b [] fs fs); auto.
    + unfold listed. rewrite El. reflexivity.
    + intros o Ho. rewrite Eb. exact Ho.
    + congruence.
Qed.

(** *** The metrics that filters create *)
Lemma created_node args f m : In m (create_metrics args f) -> match m with
  | MNode name a => a = None /\ fi_nodes f = true
  | MVirtual name a => a = None /\ fi_virtual f = true
  | MParameter (mkPref name k r) => fi_params f = true /\ k = None /\ exists p v, r = Some v /\ In p (la_params args) /\ name = spa_name p /\ spa_dict p = false /\ has_value p v
  | MEdge e => fi_edges f = true /\ In e (sc_edges (la_schema args))
  | _ => False
  end.
Proof.
  unfold create_metrics. intros H. repeat (apply in_app_or in H; destruct H as [H | H]).
  - destruct (fi_nodes f); [|destruct H]. apply in_map_iff in H. destruct H as (n & <- & _). auto.
  - destruct (fi_virtual f); [|destruct H]. apply in_map_iff in H. destruct H as (n & <- & _). auto.
  - destruct (fi_params f); [|destruct H]. apply in_flat_map in H. destruct H as (p & Hp & H). unfold param_metrics in H.
    destruct (spa_dict p) eqn:Ed; [destruct H|]. destruct (spa_phase p) eqn:Eph; cbn in H;
    repeat (destruct H as [<- | H]; [split; [reflexivity|]; split; [reflexivity|]; exists p; eexists; split; [reflexivity|]; unfold has_value; rewrite Eph; auto|]); destruct H.
  - destruct (fi_edges f); [|destruct H]. apply in_map_iff in H. destruct H as (n & <- & Hn). auto.
Qed.

Lemma created_nodup args f : well_named args -> (fi_edges f = true -> NoDup (map edge_label (sc_edges (la_schema args)))) -> NoDup (create_metrics args f).
Proof.
  intros [Hv Hp] He. destruct (validate_names _ Hv) as (Nn & Nv & _). unfold create_metrics.
  assert (forall A (g : A -> smetric) (k : A -> string) l, (forall x y, g x = g y -> k x = k y) -> NoDup (map k l) -> NoDup (map g l)) as Hinj.
  { intros A g k l Hg. induction l as [|x l IH]; [constructor|]. cbn [map]. intros ND. inversion ND as [|? ? Hn ND']; subst. constructor; [|exact (IH ND')].
    intros H. apply Hn. apply in_map_iff in H. destruct H as (y & E & Hy). apply in_map_iff. exists y. split; [symmetry; exact (Hg _ _ (eq_sym E)) | exact Hy]. }
  assert (NoDup (flat_map param_metrics (la_params args))) as Np.
  { revert Hp. induction (la_params args) as [|p l IH]; [constructor|]. cbn [map flat_map]. intros ND. inversion ND as [|? ? Hn ND']; subst.
    apply NoDup_app_intro; [| exact (IH ND') |].
    - unfold param_metrics. destruct (spa_dict p); [constructor|]. destruct (spa_phase p); repeat constructor; cbn; intuition discriminate.
    - intros m Hm Hm'. apply in_flat_map in Hm'. destruct Hm' as (p' & Hp' & Hm'). apply Hn. apply in_map_iff. exists p'. split; [|exact Hp'].
      unfold param_metrics in Hm, Hm'. destruct (spa_dict p); [destruct Hm|]. destruct (spa_dict p'); [destruct Hm'|].
      destruct (spa_phase p), (spa_phase p'); cbn in Hm, Hm'; intuition congruence. }
  apply NoDup_app_intro; [| |].
  - destruct (fi_nodes f); [|constructor]. apply (Hinj _ _ snode_name); [congruence | exact Nn].
  - apply NoDup_app_intro; [| |].
    + destruct (fi_virtual f); [|constructor]. apply (Hinj _ _ vnode_name); [congruence | exact Nv].
    + apply NoDup_app_intro; [destruct (fi_params f); [exact Np | constructor] | |].
      * destruct (fi_edges f); [|constructor]. apply (Hinj _ _ edge_label); [congruence | exact (He eq_refl)].
      * intros m H H'. destruct (fi_params f); [|destruct H]. destruct (fi_edges f); [|destruct H']. apply in_map_iff in H'. destruct H' as (e & <- & _).
        apply in_flat_map in H. destruct H as (p & _ & H). unfold param_metrics in H. destruct (spa_dict p); [destruct H|]. destruct (spa_phase p); cbn in H; intuition discriminate.
    + intros m H H'. destruct (fi_virtual f); [|destruct H]. apply in_map_iff in H. destruct H as (v & <- & _). apply in_app_or in H'. destruct H' as [H' | H'].
      * destruct (fi_params f); [|destruct H']. apply in_flat_map in H'. destruct H' as (p & _ & H). unfold param_metrics in H. destruct (spa_dict p); [destruct H|].
        destruct (spa_phase p); cbn in H; intuition discriminate.
      * destruct (fi_edges f); [|destruct H']. apply in_map_iff in H'. destruct H' as (e & E & _). discriminate E.
  - intros m H H'. destruct (fi_nodes f); [|destruct H]. apply in_map_iff in H. destruct H as (v & <- & _). apply in_app_or in H'. destruct H' as [H' | H'].
    + destruct (fi_virtual f); [|destruct H']. apply in_map_iff in H'. destruct H' as (e & E & _). discriminate E.
    + apply in_app_or in H'. destruct H' as [H' | H'].
      * destruct (fi_params f); [|destruct H']. apply in_flat_map in H'. destruct H' as (p & _ & H). unfold param_metrics in H. destruct (spa_dict p); [destruct H|].
        destruct (spa_phase p); cbn in H; intuition discriminate.
      * destruct (fi_edges f); [|destruct H']. apply in_map_iff in H'. destruct H' as (e & E & _). discriminate E.
Qed.

Lemma created_inj args f m m' o : (fi_edges f = true -> NoDup (map edge_label (sc_edges (la_schema args)))) -> In m (create_metrics args f) -> In m' (create_metrics args f) ->
  load_as_output args None m = Ok o -> load_as_output args None m' = Ok o -> m = m'.
Proof.
  intros He Hm Hm' E E'. apply created_node in Hm. apply created_node in Hm'. apply load_records in E. apply load_records in E'.
  destruct m as [q | t key | name a | name a | e | t c | [name k r] | r | name]; try (destruct Hm; fail);
  destruct m' as [q' | t' key' | name' a' | name' a' | e' | t' c' | [name' k' r'] | r' | name']; try (destruct Hm'; fail); cbn [records_listed] in E, E'.
  - destruct Hm as [-> _], Hm' as [-> _]. destruct E as (n & _ & E0 & E & _), E' as (n' & _ & E0' & E' & _). congruence.
  - destruct E as (n & _ & _ & _ & _ & E & _), E' as (n' & _ & _ & _ & _ & E' & _). congruence.
  - destruct E as (n & _ & _ & _ & _ & E & _), E' as (_ & _ & E' & _). congruence.
  - destruct Hm' as (_ & -> & _). destruct E as (n & _ & _ & _ & _ & E & _), E' as (p' & _ & _ & _ & _ & E' & _). congruence.
  - destruct E as (n & _ & _ & _ & _ & E & _), E' as (n' & _ & _ & _ & _ & E' & _). congruence.
  - destruct Hm as [-> _], Hm' as [-> _]. destruct E as (n & _ & E0 & E & _), E' as (n' & _ & E0' & E' & _). congruence.
  - destruct E as (n & _ & _ & _ & _ & E & _), E' as (_ & _ & E' & _). congruence.
  - destruct Hm' as (_ & -> & _). destruct E as (n & _ & _ & _ & _ & E & _), E' as (p' & _ & _ & _ & _ & E' & _). congruence.
  - destruct E' as (n & _ & _ & _ & _ & E' & _), E as (_ & _ & E & _). congruence.
  - destruct E' as (n & _ & _ & _ & _ & E' & _), E as (_ & _ & E & _). congruence.
  - destruct Hm as [Hf Hin], Hm' as [_ Hin']. destruct E as (E & _), E' as (E' & _). f_equal. apply (NoDup_key edge_label _ e e' (He Hf) Hin Hin'). congruence.
  - destruct Hm' as (_ & -> & _). destruct E' as (p' & _ & _ & _ & _ & E' & _), E as (_ & _ & E & _). congruence.
  - destruct Hm as (_ & -> & _). destruct E as (n & _ & _ & _ & _ & E & _), E' as (p' & _ & _ & _ & _ & E' & _). congruence.
  - destruct Hm as (_ & -> & _). destruct E as (n & _ & _ & _ & _ & E & _), E' as (p' & _ & _ & _ & _ & E' & _). congruence.
  - destruct Hm as (_ & -> & _). destruct E as (p' & _ & _ & _ & _ & E & _), E' as (_ & _ & E' & _). congruence.
  - destruct Hm as (_ & -> & p0 & v & -> & _), Hm' as (_ & -> & p0' & v' & -> & _).
    destruct E as (p & _ & E0 & _ & _ & _ & _ & E), E' as (p' & _ & E0' & _ & _ & _ & _ & E'). congruence.
Qed.

Lemma Forall2_In_l {A B} (P : A -> B -> Prop) l l' x : Forall2 P l l' -> In x l -> exists y, In y l' /\ P x y.
Proof. induction 1; [intros [] |]. intros [<- | H1]; [eexists; split; [left; reflexivity | assumption] | destruct (IHForall2 H1) as (z & ? & ?); exists z; split; [right|]; assumption]. Qed.
Lemma Forall2_In_r {A B} (P : A -> B -> Prop) l l' y : Forall2 P l l' -> In y l' -> exists x, In x l /\ P x y.
Proof. induction 1; [intros [] |]. intros [<- | H1]; [eexists; split; [left; reflexivity | assumption] | destruct (IHForall2 H1) as (z & ? & ?); exists z; split; [right|]; assumption]. Qed.
Lemma Forall2_NoDup {A B} (P : A -> B -> Prop) l l' : Forall2 P l l' -> NoDup l -> (forall x x' y, In x l -> In x' l -> P x y -> P x' y -> x = x') -> NoDup l'.
Proof.
  induction 1 as [|x y l l' Hp HF IH]; intros ND Hinj; [constructor|]. inversion ND as [|? ? Hn ND']; subst. constructor.
  - intros Hy. destruct (Forall2_In_r _ _ _ _ HF Hy) as (x' & Hx' & Hp'). apply Hn. rewrite (Hinj x x' y); [exact Hx' | left; reflexivity | right; exact Hx' | exact Hp | exact Hp'].
  - apply IH; [exact ND'|]. intros a b c Ha Hb. apply Hinj; right; assumption.
Qed.


(** *** Nothing a filter creates is refused *)
Lemma usual_metric n : (forall nm, n <> SPlaceholder nm) -> exists m, create_metric n (Some (usual_attribute n)) = Ok m.
Proof.
  intros Hn. destruct n; cbn [usual_attribute is_demand stores_water is_abstraction orb create_metric attribute_or storage_metric]; try (eexists; reflexivity).
  exfalso. exact (Hn _ eq_refl).
Qed.
Lemma usual_vmetric v : exists m, vnode_metric v (Some (usual_vattribute v)) = Ok m.
Proof. destruct v; cbn; eexists; reflexivity. Qed.
Lemma find_unique {A} (k : A -> string) l x : NoDup (map k l) -> In x l -> find (fun y => String.eqb (k y) (k x)) l = Some x.
Proof.
  intros ND Hin. destruct (find (fun y => String.eqb (k y) (k x)) l) as [y|] eqn:E.
  - apply find_some in E. destruct E as [Hy E]. apply String.eqb_eq in E. f_equal. exact (NoDup_key k _ _ _ ND Hy Hin E).
  - exfalso. pose proof (find_none _ _ E x Hin) as H. cbn in H. rewrite String.eqb_refl in H. discriminate H.
Qed.

Definition edges_resolve (args : load_args) : Prop := forall e, In e (sc_edges (la_schema args)) -> exists ps, connection_pairs (la_schema args) e = Ok ps.
Definition no_placeholder (args : load_args) : Prop := forall n nm, In n (sc_nodes (la_schema args)) -> n <> SPlaceholder nm.
Lemma loaded_args key step args a : load_schema key step (la_schema args) = Ok a -> validate (la_schema args) = true /\ edges_resolve args /\ no_placeholder args.
Proof.
  unfold load_schema. destruct (validate (la_schema args)); [|discriminate]. intros H. split; [reflexivity|].
  apply rbind_Ok' in H. destruct H as (ns & Hns & H). apply rbind_Ok' in H. destruct H as (vs & Hvs & H). apply rbind_Ok' in H. destruct H as (es & Hes & H).
  split.
  - intros e He. apply rmap_Ok_Forall2 in Hes. destruct (Forall2_In_l _ _ _ _ Hes He) as (x & _ & Hx). unfold add_edge in Hx.
    apply rbind_Ok' in Hx. destruct Hx as (ps & Hps & _). exists ps. exact Hps.
  - intros n nm Hn ->. apply rmap_Ok_Forall2 in Hns. destruct (Forall2_In_l _ _ _ _ Hns Hn) as (x & _ & Hx). discriminate Hx.
Qed.
Lemma created_loads args f m : well_named args -> edges_resolve args -> no_placeholder args -> In m (create_metrics args f) -> exists o, load_as_output args None m = Ok o.
Proof.
  intros [Hv Hp] He Hph. destruct (validate_names _ Hv) as (Nn & Nv & _). unfold create_metrics. intros H. repeat (apply in_app_or in H; destruct H as [H | H]).
  - destruct (fi_nodes f); [|destruct H]. apply in_map_iff in H. destruct H as (n & <- & Hn).
    assert (lookup_node args (snode_name n) = Ok n) as Hl.
    { unfold lookup_node, find_node, get_node_by_name. rewrite (find_unique snode_name _ _ Nn Hn). reflexivity. }
    destruct (usual_metric n (fun nm => Hph n nm Hn)) as (m & Hm).
    unfold load_as_output. cbn [load_metric output_sub_type output_name output_attribute output_type]. rewrite Hl. cbn [rbind]. rewrite create_default, Hm. cbn. eexists; reflexivity.
  - destruct (fi_virtual f); [|destruct H]. apply in_map_iff in H. destruct H as (n & <- & Hn).
    assert (lookup_vnode args (vnode_name n) = Ok n) as Hl.
    { unfold lookup_vnode. rewrite (find_unique vnode_name _ _ Nv Hn). reflexivity. }
    destruct (usual_vmetric n) as (m & Hm).
    unfold load_as_output. cbn [load_metric output_sub_type output_name output_attribute output_type]. rewrite Hl. cbn [rbind]. rewrite vnode_default, Hm. cbn. eexists; reflexivity.
  - destruct (fi_params f); [|destruct H]. apply in_flat_map in H. destruct H as (p & Hin & H).
    assert (lookup_param args (spa_name p) = Ok p) as Hl.
    { unfold lookup_param. rewrite (find_unique spa_name _ _ Hp Hin). reflexivity. }
    unfold param_metrics in H. destruct (spa_dict p); [destruct H|].
    destruct (spa_phase p); cbn in H; repeat (destruct H as [<- | H]); try (destruct H; fail);
      unfold load_as_output; cbn [load_metric output_sub_type output_name output_attribute output_type pr_name]; rewrite Hl; cbn; eexists; reflexivity.
  - destruct (fi_edges f); [|destruct H]. apply in_map_iff in H. destruct H as (e & <- & Hin). destruct (He e Hin) as (ps & Hps).
    unfold load_as_output. cbn [load_metric output_sub_type output_name output_attribute output_type]. unfold edge_metric. rewrite Hps. cbn. eexists; reflexivity.
Qed.
Lemma rmap_total {E A B} (g : A -> res E B) l : (forall x, In x l -> exists y, g x = Ok y) -> exists ys, rmap g l = Ok ys.
Proof.
  induction l as [|x l IH]; intros H; cbn [rmap]; [eexists; reflexivity|]. destruct (H x (or_introl eq_refl)) as (y & Hy). rewrite Hy. cbn [rbind].
  destruct (IH (fun z Hz => H z (or_intror Hz))) as (ys & Hys). rewrite Hys. cbn. eexists; reflexivity.
Qed.
Lemma wn_param args p p' : well_named args -> In p (la_params args) -> In p' (la_params args) -> spa_name p = spa_name p' -> p = p'.
Proof. intros [_ Hp]. exact (NoDup_key spa_name _ p p' Hp). Qed.

(** ** Theorems *)

(** The metrics listed in the file come first, in the order of the file, each
    holding what the file asks for.  Whatever follows was asked for by a filter,
    and is not a repetition of what is already there. *)
Theorem C68_listed_then_filters : forall args ms b,
  well_named args -> add_metric_set args ms = Ok b ->
  exists ls more, bs_name b = sm_name ms /\ bs_metrics b = ls ++ more /\
    Forall2 (fun m o => records_listed args o m) (listed args ms) ls /\
    (forall o, In o more -> asked_for args (sm_filters ms) o) /\
    (sm_metrics ms <> None -> forall o, In o more -> ~ In o ls).
Proof.
  intros args ms b W H. assert (bs_name b = sm_name ms) as Hnm.
  { unfold add_metric_set in H. apply rbind_Ok' in H. destruct H as (fs & _ & H). apply rbind_Ok' in H. destruct H as (l & _ & H).
    destruct l; [discriminate H|]. injection H as <-. reflexivity. }
  destruct (set_parts_of _ _ _ H) as [ls fs more Hl Hf Hall Hfrom _ _ _ Hdis]. exists ls, more. split; [exact Hnm|]. split; [exact Hall|]. split; [|split; [|exact Hdis]].
  - apply rmap_Ok_Forall2 in Hl. clear - Hl. induction Hl as [|m o l l' Hm _ IH]; constructor; [exact (load_records _ _ _ Hm) | exact IH].
  - intros o Ho. apply Hfrom in Ho. apply rmap_Ok_Forall2 in Hf. destruct (Forall2_In_r _ _ _ _ Hf Ho) as (m & Hin & Hm). apply load_records in Hm.
    apply created_node in Hin. unfold asked_for. destruct m as [q | t key | name a | name a | e | t c | [name k r] | r | name]; try (destruct Hin; fail); cbn [records_listed] in Hm.
    + left. destruct Hin as [-> Hf']. split; [exact Hf'|]. destruct Hm as (n & Hn & _ & Hm). exists n. auto.
    + right. left. destruct Hin as [-> Hf']. split; [exact Hf'|]. destruct Hm as (n & Hn & _ & Hm). exists n. auto.
    + right. right. right. destruct Hin as [Hf' Hin]. split; [exact Hf'|]. exists e. auto.
    + right. right. left. destruct Hin as (Hf' & -> & p & v & -> & Hp & -> & Hd & Hv). split; [exact Hf'|].
      destruct Hm as (p' & Hp' & E & Hm). rewrite (wn_param _ _ _ W Hp' Hp E) in *. exists p, v. auto.
Qed.
Print Assumptions C68_listed_then_filters.

(** Every component that a filter asks for is recorded, and exactly once, also
    if the file lists it as well.  The list of the file must not repeat itself,
    and the edges must have different labels (see [C68_edge_labels_refuted]). *)
Theorem C68_every_component_once : forall args ms b,
  well_named args -> add_metric_set args ms = Ok b ->
  (fi_edges (sm_filters ms) = true -> NoDup (map edge_label (sc_edges (la_schema args)))) ->
  NoDup (firstn (length (listed args ms)) (bs_metrics b)) ->
  NoDup (bs_metrics b) /\
  (fi_nodes (sm_filters ms) = true -> forall n, In n (sc_nodes (la_schema args)) ->
     exactly_one (fun o => records_node o n (usual_attribute n)) (bs_metrics b)) /\
  (fi_virtual (sm_filters ms) = true -> forall v, In v (sc_vnodes (la_schema args)) ->
     exactly_one (fun o => records_vnode o v (usual_vattribute v)) (bs_metrics b)) /\
  (fi_params (sm_filters ms) = true -> forall p r, In p (la_params args) -> spa_dict p = false -> has_value p r ->
     exactly_one (fun o => records_param o p r) (bs_metrics b)) /\
  (fi_edges (sm_filters ms) = true -> forall e, In e (sc_edges (la_schema args)) ->
     exactly_one (fun o => records_edge (la_schema args) o e) (bs_metrics b)).
Proof.
  intros args ms b W H He Hnd. destruct (set_parts_of _ _ _ H) as [ls fs more Hl Hf Hall _ Hto Hnone Hsome _].
  apply rmap_Ok_Forall2 in Hl. apply rmap_Ok_Forall2 in Hf.
  assert (NoDup (bs_metrics b)) as ND.
  { destruct (sm_metrics ms) as [l|] eqn:El.
    - apply Hsome; [discriminate|]. rewrite (Forall2_length' _ _ _ Hl), Hall, firstn_app, firstn_all, Nat.sub_diag in Hnd. cbn [firstn] in Hnd. rewrite app_nil_r in Hnd. exact Hnd.
    - rewrite (Hnone eq_refl). refine (Forall2_NoDup _ _ _ Hf (created_nodup _ _ W He) _). intros x x' y Hx Hx'. exact (created_inj _ _ _ _ _ He Hx Hx'). }
  assert (forall m, In m (create_metrics args (sm_filters ms)) -> exists o, In o (bs_metrics b) /\ records_listed args o m) as Hrec.
  { intros m Hm. destruct (Forall2_In_l _ _ _ _ Hf Hm) as (o & Ho & E). exists o. split; [exact (Hto o Ho) | exact (load_records _ _ _ E)]. }
  destruct (validate_names _ (wn_nodes _ W)) as (Nn & Nv & _). split; [exact ND|].
  repeat split; intros Hfi.
  - intros n Hn. destruct (Hrec (MNode (snode_name n) None)) as (o & Ho & n' & Hn' & E & Hr).
    { unfold create_metrics. rewrite Hfi. apply in_or_app. left. apply in_map_iff. exists n. auto. }
    rewrite (NoDup_key snode_name _ _ _ Nn Hn' Hn E) in Hr. refine (exactly_one_intro _ _ _ ND Ho Hr _). intros y Hy. exact (records_node_det _ _ _ _ Hy Hr).
  - intros n Hn. destruct (Hrec (MVirtual (vnode_name n) None)) as (o & Ho & n' & Hn' & E & Hr).
    { unfold create_metrics. rewrite Hfi. apply in_or_app. right. apply in_or_app. left. apply in_map_iff. exists n. auto. }
    rewrite (NoDup_key vnode_name _ _ _ Nv Hn' Hn E) in Hr. refine (exactly_one_intro _ _ _ ND Ho Hr _). intros y Hy. exact (records_vnode_det _ _ _ _ Hy Hr).
  - intros p r Hp Hd Hv. destruct (Hrec (MParameter (mkPref (spa_name p) None (Some r)))) as (o & Ho & p' & Hp' & E & Hr).
    { unfold create_metrics. rewrite Hfi. apply in_or_app. right. apply in_or_app. right. apply in_or_app. left. apply in_flat_map. exists p. split; [exact Hp|].
      unfold param_metrics, has_value in *. rewrite Hd. destruct (spa_phase p), r; cbn; try (destruct Hv; fail); auto. }
    rewrite (wn_param _ _ _ W Hp' Hp E) in Hr. refine (exactly_one_intro _ _ _ ND Ho Hr _). intros y Hy. exact (records_param_det _ _ _ _ Hy Hr).
  - intros e Hin. destruct (Hrec (MEdge e)) as (o & Ho & Hr).
    { unfold create_metrics. rewrite Hfi. apply in_or_app. right. apply in_or_app. right. apply in_or_app. right. apply in_map_iff. exists e. auto. }
    refine (exactly_one_intro _ _ _ ND Ho Hr _). intros y Hy. exact (records_edge_det _ _ _ _ Hy Hr).
Qed.
Print Assumptions C68_every_component_once.

(** What filters record can be told apart by type, name and attribute. *)
Theorem C68_labels_tell_apart : forall args f o o',
  well_named args -> NoDup (map edge_label (sc_edges (la_schema args))) ->
  asked_for args f o -> asked_for args f o' ->
  om_type o = om_type o' -> om_name o = om_name o' -> om_attribute o = om_attribute o' -> o = o'.
Proof.
  intros args f o o' W He H H' Et En Ea. destruct (validate_names _ (wn_nodes _ W)) as (Nn & Nv & _).
  destruct H as [(_ & n & Hn & R) | [(_ & v & Hv & R) | [(_ & p & r & Hp & _ & Hr & R) | (_ & e & Hin & R)]]];
  destruct H' as [(_ & n' & Hn' & R') | [(_ & v' & Hv' & R') | [(_ & p' & r' & Hp' & _ & Hr' & R') | (_ & e' & Hin' & R')]]];
  try (exfalso; unfold records_node, records_vnode, records_param, records_edge in *; destruct R as (_ & _ & R & _), R' as (_ & _ & R' & _); rewrite R, R' in Et; discriminate Et).
  - assert (n = n') as -> by (apply (NoDup_key snode_name _ _ _ Nn Hn Hn'); destruct R as (R & _), R' as (R' & _); congruence). exact (records_node_det _ _ _ _ R R').
  - assert (v = v') as -> by (apply (NoDup_key vnode_name _ _ _ Nv Hv Hv'); destruct R as (R & _), R' as (R' & _); congruence). exact (records_vnode_det _ _ _ _ R R').
  - assert (p = p') as -> by (apply (wn_param _ _ _ W Hp Hp'); destruct R as (R & _), R' as (R' & _); congruence).
    assert (r = r') as ->. { destruct R as (_ & R & _), R' as (_ & R' & _). rewrite R, R' in Ea. destruct r, r'; cbn in Ea; try discriminate Ea; reflexivity. }
    exact (records_param_det _ _ _ _ R R').
  - assert (e = e') as -> by (apply (NoDup_key edge_label _ _ _ He Hin Hin'); destruct R as (R & _), R' as (R' & _); congruence). exact (records_edge_det _ _ _ _ R R').
Qed.
Print Assumptions C68_labels_tell_apart.

(** A metric set without a list is accepted exactly if its filters ask for
    something, whatever the file holds, once the network itself loads.  With a
    list it is accepted exactly if every entry can be loaded and something is
    recorded. *)
Theorem C68_accepted : forall args ms key step a,
  well_named args -> load_schema key step (la_schema args) = Ok a ->
  (exists b, add_metric_set args ms = Ok b) <->
  (forall m, In m (listed args ms) -> exists o, load_as_output args None m = Ok o) /\
  (listed args ms <> [] \/
   (fi_nodes (sm_filters ms) = true /\ sc_nodes (la_schema args) <> []) \/
   (fi_virtual (sm_filters ms) = true /\ sc_vnodes (la_schema args) <> []) \/
   (fi_params (sm_filters ms) = true /\ exists p, In p (la_params args) /\ spa_dict p = false) \/
   (fi_edges (sm_filters ms) = true /\ sc_edges (la_schema args) <> [])).
Proof.
  intros args ms key step a W Hload. destruct (loaded_args _ _ _ _ Hload) as (_ & Her & Hph).
  destruct (rmap_total (load_as_output args None) (create_metrics args (sm_filters ms)) (fun m Hm => created_loads _ _ m W Her Hph Hm)) as (fs & Hfs).
  pose proof (proj1 (rmap_Ok_Forall2 _ _ _) Hfs) as HF.
  assert ((create_metrics args (sm_filters ms) <> []) <->
    (fi_nodes (sm_filters ms) = true /\ sc_nodes (la_schema args) <> []) \/
    (fi_virtual (sm_filters ms) = true /\ sc_vnodes (la_schema args) <> []) \/
    (fi_params (sm_filters ms) = true /\ exists p, In p (la_params args) /\ spa_dict p = false) \/
    (fi_edges (sm_filters ms) = true /\ sc_edges (la_schema args) <> [])) as Hne.
  { unfold create_metrics. split.
    - intros Hc. destruct (fi_nodes (sm_filters ms)); [destruct (sc_nodes (la_schema args)); [|left; split; [reflexivity|discriminate]]|];
      (destruct (fi_virtual (sm_filters ms)); [destruct (sc_vnodes (la_schema args)); [|right; left; split; [reflexivity|discriminate]]|]);
      (destruct (fi_edges (sm_filters ms)); [destruct (sc_edges (la_schema args)); [|right; right; right; split; [reflexivity|discriminate]]|]);
      (right; right; left; cbn [app map] in Hc; rewrite ?app_nil_r in Hc; destruct (fi_params (sm_filters ms)); [|exfalso; exact (Hc eq_refl)]; split; [reflexivity|];
       destruct (flat_map param_metrics (la_params args)) as [|m l] eqn:Efm; [exfalso; exact (Hc eq_refl)|];
       assert (In m (flat_map param_metrics (la_params args))) as Hm by (rewrite Efm; left; reflexivity);
       apply in_flat_map in Hm; destruct Hm as (p & Hp & Hm); exists p; split; [exact Hp|]; unfold param_metrics in Hm; destruct (spa_dict p); [destruct Hm|reflexivity]).
    - intros [(-> & Hx) | [(-> & Hx) | [(-> & p & Hp & Hd) | (-> & Hx)]]] E.
      + destruct (sc_nodes (la_schema args)); [exact (Hx eq_refl) | discriminate E].
      + apply app_eq_nil in E. destruct E as [_ E]. destruct (sc_vnodes (la_schema args)); [exact (Hx eq_refl) | discriminate E].
      + apply app_eq_nil in E. destruct E as [_ E]. apply app_eq_nil in E. destruct E as [_ E]. apply app_eq_nil in E. destruct E as [E _].
        assert (In (hd (MLiteral 0) (param_metrics p)) []) as []. rewrite <- E. apply in_flat_map. exists p. split; [exact Hp|].
        unfold param_metrics. rewrite Hd. destruct (spa_phase p); left; reflexivity.
      + apply app_eq_nil in E. destruct E as [_ E]. apply app_eq_nil in E. destruct E as [_ E]. apply app_eq_nil in E. destruct E as [_ E].
        destruct (sc_edges (la_schema args)); [exact (Hx eq_refl) | discriminate E]. }
  rewrite <- Hne. clear Hne. assert (fs <> [] <-> create_metrics args (sm_filters ms) <> []) as Hn.
  { destruct HF; split; intros Hx; congruence. }
  rewrite <- Hn. unfold add_metric_set. rewrite Hfs. cbn [rbind]. unfold listed. destruct (sm_metrics ms) as [l|] eqn:El.
  - split.
    + intros (b & H). apply rbind_Ok' in H. destruct H as (out & H & H'). apply rbind_Ok' in H. destruct H as (ls & Hls & H). injection H as <-.
      apply rmap_Ok_Forall2 in Hls. split.
      * intros m Hm. destruct (Forall2_In_l _ _ _ _ Hls Hm) as (o & _ & Ho). exists o. exact Ho.
      * destruct l; [right | left; discriminate]. inversion Hls; subst. intros ->. discriminate H'.
    + intros [Hls Hx]. destruct (rmap_total _ _ Hls) as (ls & Els). rewrite Els. cbn [rbind].
      destruct (append_new_spec fs ls) as (ad & Ea & _ & H2 & _). rewrite Ea. destruct (ls ++ ad) as [|o out] eqn:Eo; [|eexists; reflexivity].
      exfalso. apply app_eq_nil in Eo. destruct Eo as [-> ->]. destruct Hx as [Hx | Hx].
      * apply rmap_Ok_Forall2 in Els. inversion Els. subst. exact (Hx eq_refl).
      * destruct fs as [|o fs]; [exact (Hx eq_refl) | exact (H2 o (or_introl eq_refl))].
  - split.
    + intros (b & H). split; [intros m [] |]. right. intros ->. discriminate H.
    + intros [_ [Hx | Hx]]; [exfalso; exact (Hx eq_refl)|]. destruct fs; [exfalso; exact (Hx eq_refl) | eexists; reflexivity].
Qed.
Print Assumptions C68_accepted.

(** The aggregator of the file, level by level. *)
Theorem C68_aggregator : forall args ms b,
  add_metric_set args ms = Ok b ->
  match sm_aggregator ms, bs_aggregator b with
  | None, None => True
  | Some a, Some a' => Forall2 (fun s l =>
        (match fst s, fst l with
         | None, None => True
         | Some SfMonthly, Some GMonthly | Some SfAnnual, Some GAnnual => True
         | Some (SfDays d), Some (GDays d') => d = d'
         | _, _ => False
         end) /\
        (match snd s, snd l with
         | AgSum, FSum | AgMax, FMax | AgMin, FMin | AgProduct, FProduct | AgMean, FMean | AgCountNonZero, FCountNonZero => True
         | AgAnyNonZero (Some t), FAnyNonZero t' => t = t'
         | AgAnyNonZero None, FAnyNonZero t' => (t' == 1 # 1000000)%Q
         | _, _ => False
         end)) (slevels a) (levels a')
  | _, _ => False
  end.
Proof.
  intros args ms b H. assert (bs_aggregator b = option_map load_agg (sm_aggregator ms)) as ->.
  { unfold add_metric_set in H. apply rbind_Ok' in H. destruct H as (fs & _ & H). apply rbind_Ok' in H. destruct H as (l & _ & H).
    destruct l; [discriminate H|]. injection H as <-. reflexivity. }
  destruct (sm_aggregator ms) as [s|]; cbn [option_map]; [|exact I].
  revert s. fix IH 1. intros [freq func c].
  assert (forall x : (option sagg_freq * sagg_func) * (option agg_freq * agg_f64), x = ((freq, func), (option_map load_freq freq, load_func func)) ->
    (match fst (fst x), fst (snd x) with
         | None, None => True
         | Some SfMonthly, Some GMonthly | Some SfAnnual, Some GAnnual => True
         | Some (SfDays d), Some (GDays d') => d = d'
         | _, _ => False
         end) /\
        (match snd (fst x), snd (snd x) with
         | AgSum, FSum | AgMax, FMax | AgMin, FMin | AgProduct, FProduct | AgMean, FMean | AgCountNonZero, FCountNonZero => True
         | AgAnyNonZero (Some t), FAnyNonZero t' => t = t'
         | AgAnyNonZero None, FAnyNonZero t' => (t' == 1 # 1000000)%Q
         | _, _ => False
         end)) as Hlev.
  { intros x ->. cbn [fst snd]. split; [destruct freq as [[| |]|]; cbn; auto | destruct func as [| | | | | | [t|]]; cbn; auto; reflexivity]. }
  destruct c as [c|]; cbn [slevels load_agg levels lv_freq lv_func].
  - constructor; [exact (Hlev _ eq_refl) | exact (IH c)].
  - constructor; [exact (Hlev _ eq_refl) | constructor].
Qed.
Print Assumptions C68_aggregator.

(** An entry of the list can be loaded exactly if what it names exists and, for
    a node, has the attribute asked for. *)
Definition can_load (args : load_args) (m : smetric) : Prop :=
  match m with
  | MNode name a =>
      exists n u, In n (sc_nodes (la_schema args)) /\ snode_name n = name /\
                  create_metric n (Some (match a with Some a => a | None => usual_attribute n end)) = Ok u
  | MVirtual name a =>
      exists v u, In v (sc_vnodes (la_schema args)) /\ vnode_name v = name /\
                  vnode_metric v (Some (match a with Some a => a | None => usual_vattribute v end)) = Ok u
  | MParameter r => exists p, In p (la_params args) /\ spa_name p = pr_name r
  | MEdge e => exists ps, connection_pairs (la_schema args) e = Ok ps
  | MTable t key => exists q, la_tables args t key = Some q
  | MTimeseries t c => exists p, la_timeseries args t c = Some p
  | MTransfer _ => True
  | MLiteral _ | MLocalParameter _ => False
  end.
Theorem C68_entry_accepted : forall args m, well_named args ->
  (exists o, load_as_output args None m = Ok o) <-> can_load args m.
Proof.
  intros args m W. destruct (validate_names _ (wn_nodes _ W)) as (Nn & Nv & _). split.
  - intros (o & H). pose proof (load_records _ _ _ H) as R.
    destruct m as [q | t key | name a | name a | e | t c | [name k r] | r | name]; cbn [can_load records_listed pr_name] in *.
    + exact R.
    + destruct R as (_ & q & E & _). exists q. exact E.
    + destruct R as (n & Hn & E & _ & _ & _ & _ & u & Hu & _). exists n, u. auto.
    + destruct R as (n & Hn & E & _ & _ & _ & _ & u & Hu & _). exists n, u. auto.
    + destruct R as (_ & _ & _ & _ & ps & Hps & _). exists ps. exact Hps.
    + destruct R as (_ & p & E & _). exists p. exact E.
    + unfold load_as_output in H. apply rbind_Ok' in H. destruct H as (lm & _ & H). apply rbind_Ok' in H. destruct H as (st & Hst & _).
      cbn [output_sub_type pr_name] in Hst. apply rbind_Ok' in Hst. destruct Hst as (p & Hp & _). exists p. exact (lookup_param_Ok _ _ _ Hp).
    + exact R.
    + exact I.
  - unfold load_as_output. destruct m as [q | t key | name a | name a | e | t c | r | r | name]; cbn [can_load load_metric output_sub_type output_name output_attribute output_type].
    + intros [].
    + intros (q & ->). cbn. eexists; reflexivity.
    + intros (n & u & Hn & <- & Hu). unfold lookup_node, find_node, get_node_by_name. rewrite (find_unique snode_name _ _ Nn Hn). cbn [of_schema rbind].
      rewrite create_default, Hu. cbn. eexists; reflexivity.
    + intros (n & u & Hn & <- & Hu). unfold lookup_vnode. rewrite (find_unique vnode_name _ _ Nv Hn). cbn [rbind].
      rewrite vnode_default, Hu. cbn. eexists; reflexivity.
    + intros (ps & Hps). unfold edge_metric. rewrite Hps. cbn. eexists; reflexivity.
    + intros (p & ->). destruct c as [[c|c]|]; cbn; eexists; reflexivity.
    + intros (p & Hp & E). unfold lookup_param. rewrite <- E, (find_unique spa_name _ _ (wn_params _ W) Hp). cbn. eexists; reflexivity.
    + intros [].
    + intros _. cbn. eexists; reflexivity.
Qed.
Print Assumptions C68_entry_accepted.

(** ** Examples *)
Definition ms_schema : schema :=
  mkSchema [SInput "in" None None None; SRiverSplit "split" None None [mkSplit (UConst (1#2)) None; mkSplit (UConst (1#3)) None]; SOutput "out" None None None; SLink "link" None None None None None]
           [VAggregated "agg" [mkRef "in" None; mkRef "link" None] None None None]
           [mkSedge "in" None "split" None; mkSedge "split" (Some (SlSplit 0)) "out" None; mkSedge "split" (Some (SlSplit 1)) "link" None; mkSedge "link" None "out" None].
Definition ms_args : load_args :=
  mkArgs ms_schema [mkSparam "p" "Constant" PhBefore false; mkSparam "q" "Aggregated" PhBoth false; mkSparam "d" "Python" PhBefore true]
         (fun t k => if String.eqb t "tbl" then Some (5#1) else None) (fun t c => if String.eqb t "ts" then Some "ts-col" else None).
Definition ms_set : smetric_set :=
  mkSms "all" (Some [MNode "out" (Some AtDeficit); MNode "in" (Some AtOutflow); MTable "tbl" ["k"]; MParameter (mkPref "p" None None)])
        (Some (mkSagg (Some SfAnnual) AgMax (Some (mkSagg (Some SfMonthly) AgSum None)))) (mkFilters true true true true).
Definition ms_labels (r : mres built_set) : list (string * string * string) :=
  match r with Ok b => map (fun o => (om_type o, om_name o, om_attribute o)) (bs_metrics b) | _ => [] end.

(** The input and the first parameter are listed and asked for by a filter:
    they are recorded once. *)
Example C68_example : ms_labels (add_metric_set ms_args ms_set) =
  [("Node", "out", "Deficit"); ("Node", "in", "Outflow"); ("Table", "tbl", "k"); ("Parameter", "p", "before");
   ("Node", "split", "Outflow"); ("Node", "out", "Inflow"); ("Node", "link", "Outflow");
   ("VirtualNode", "agg", "Outflow");
   ("Parameter", "q", "before"); ("Parameter", "q", "after");
   ("Edge", "in->split", "Flow"); ("Edge", "split[Split]->out", "Flow"); ("Edge", "split[Split]->link", "Flow"); ("Edge", "link->out", "Flow")].
Proof. vm_compute. reflexivity. Qed.

Example C68_example_hypotheses : well_named ms_args /\ NoDup (map edge_label (sc_edges (la_schema ms_args))) /\
  (exists a, load_schema (fun _ => 0) None ms_schema = Ok a) /\ Forall (can_load ms_args) (listed ms_args ms_set).
Proof.
  split; [constructor; [reflexivity | repeat constructor; cbn; intuition discriminate]|]. split; [repeat constructor; vm_compute; intuition discriminate|].
  split; [eexists; vm_compute; reflexivity|].
  repeat constructor; cbn.
  - exists (SOutput "out" None None None). eexists. repeat split; cbn; auto.
  - exists (SInput "in" None None None). eexists. repeat split; cbn; auto.
  - eexists; reflexivity.
  - eexists. split; [left; reflexivity | reflexivity].
Qed.

(** The label of an edge says which kind of slot it leaves from but not which
    one.  Two edges from different slots of a river split to the same node are
    recorded under one label, so nobody who reads the results can tell them
    apart. *)
Definition ms_split : load_args :=
  mkArgs (mkSchema [SRiverSplit "split" None None [mkSplit (UConst (1#2)) None; mkSplit (UConst (1#3)) None]; SOutput "out" None None None] []
                   [mkSedge "split" (Some (SlSplit 0)) "out" None; mkSedge "split" (Some (SlSplit 1)) "out" None]) [] (fun _ _ => None) (fun _ _ => None).
Theorem C68_edge_labels_refuted : exists args ms b o o' key a,
  well_named args /\ load_schema key None (la_schema args) = Ok a /\ add_metric_set args ms = Ok b /\
  bs_metrics b = [o; o'] /\ om_metric o <> om_metric o' /\
  om_type o = om_type o' /\ om_name o = om_name o' /\ om_attribute o = om_attribute o'.
Proof.
  exists ms_split, (mkSms "edges" None None (mkFilters false false false true)). do 3 eexists. exists (fun _ => 0). eexists.
  split; [constructor; [reflexivity | constructor]|]. split; [vm_compute; reflexivity|]. split; [vm_compute; reflexivity|].
  split; [reflexivity|]. split; [discriminate|]. repeat split.
Qed.
Print Assumptions C68_edge_labels_refuted.
