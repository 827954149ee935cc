(** C70: the parameters of a model file mean what they say. *)
From Coq Require Import QArith Lia.
From Verif Require Import Base Calendar Network AggFuncs AggFuncsSpec ControlCurves Formulas ParamsTemporal Profiles LpDynLemmas
  SchemaNodes SchemaVirtual MetricSets SchemaParams SchemaParamsSpec SchemaParamsLemmas SchemaParamsMeaning.
Local Open Scope string_scope.
Local Open Scope list_scope.
Local Open Scope nat_scope.

(** ** Loading the whole file *)

Definition considered (f : pfile) : list (option string * sparameter) := in_nodes f ++ in_network f.

Lemma rmap_flat {E A B} (g : A -> res E (list B)) sc l css : rmap g l = Ok css ->
  Forall2 (fun x cs => g (snd x) = Ok cs) (map (fun p => (sc : option string, p)) l) css.
Proof. intros H. apply rmap_Ok_Forall2 in H. induction H; cbn [map]; constructor; assumption. Qed.

Lemma load_split args f cps : load_parameters args f = Ok cps ->
  exists css, Forall2 (fun x cs => load_parameter args (fst x) (snd x) = Ok cs) (considered f) css /\ cps = concat css.
Proof.
  unfold load_parameters. intros H. apply bind_Ok in H as (locals & H1 & H). apply bind_Ok in H as (globals & H2 & H). injection H as <-.
  apply rmap_Ok_Forall2 in H1. exists (concat locals ++ globals). split.
  - unfold considered. apply Forall2_app.
    + unfold in_nodes. clear -H1. induction H1 as [|np css nodes rest H _ IH]; cbn [flat_map concat]; [constructor|].
      apply Forall2_app; [|exact IH]. apply rmap_Ok_Forall2 in H. clear -H. induction H; cbn [map]; constructor; assumption.
    + unfold in_network. apply rmap_Ok_Forall2 in H2. clear -H2. induction H2; cbn [map]; constructor; assumption.
  - rewrite concat_app. f_equal. clear. induction locals as [|l locals IH]; cbn; [reflexivity|]. rewrite concat_app, IH. reflexivity.
Qed.
Lemma load_split_conv args f css : Forall2 (fun x cs => load_parameter args (fst x) (snd x) = Ok cs) (considered f) css ->
  exists cps, load_parameters args f = Ok cps.
Proof.
  intros H. apply Forall2_app_inv_l in H as (l & g & H1 & H2 & _).
  assert (L : exists locals, rmap (fun np => rmap (load_parameter args (Some (fst np))) (snd np)) (pf_nodes f) = Ok locals).
  { unfold in_nodes in H1. clear -H1. revert l H1. induction (pf_nodes f) as [|np nodes IH]; intros l H1; [exists []; reflexivity|].
    cbn [flat_map] in H1. apply Forall2_app_inv_l in H1 as (a & b & A & B & _). destruct (IH b B) as (r & Hr).
    exists (a :: r). cbn [rmap].
    assert (X : rmap (load_parameter args (Some (fst np))) (snd np) = Ok a).
    { clear -A. apply rmap_Ok_Forall2. revert a A. induction (snd np) as [|p l IH]; cbn [map]; intros a A; inversion A; subst; constructor; [assumption|]. apply IH. assumption. }
    rewrite X. cbn [rbind]. rewrite Hr. reflexivity. }
  assert (G : rmap (load_parameter args None) (pf_globals f) = Ok g).
  { unfold in_network in H2. clear -H2. apply rmap_Ok_Forall2. revert g H2.
    induction (pf_globals f) as [|p l IH]; cbn [map]; intros a A; inversion A; subst; constructor; [assumption|]. apply IH. assumption. }
  destruct L as (locals & L). unfold load_parameters. rewrite L, G. cbn [rbind]. eexists. reflexivity.
Qed.
Lemma part {A B} (P : A -> list B -> Prop) l css x : Forall2 P l css -> In x l -> exists cs, In cs css /\ P x cs.
Proof.
  intros H. induction H as [|a cs l css H _ IH]; intros I; [destruct I|]. destruct I as [<- | I]; [exists cs; split; [left; reflexivity | exact H]|].
  destruct (IH I) as (c & C & D). exists c. split; [right; exact C | exact D].
Qed.

(** ** C70: values *)

(** C70.  In every run of the parameters of a model file, every parameter of a
    node and of the network has in every time-step the value its type defines
    from the metrics it names, with the defaults of what is left out.  A
    reference to a local parameter means the parameter of that name of the same
    node.  This leaves out the multi-thresholds of nodes that return their
    position (see C70_multi_threshold_refuted) and the parameters of virtual
    nodes (see C70_virtual_node_refuted). *)
Theorem C70_values_partial : forall args f cps V other_f other_i date T,
  load_parameters args f = Ok cps -> (forall t, valid_datetime (date t) = true) -> runs V other_f other_i date T cps ->
  forall sc p, In (sc, p) (in_nodes f ++ in_network f) -> sc = None \/ ~ bare_multi p ->
  means args V other_f other_i date T sc p.
Proof.
  intros args f cps V other_f other_i date T H D R sc p I B. apply load_split in H as (css & F & ->).
  destruct (part _ _ _ _ F I) as (cs & Ics & L). cbn [fst snd] in L. unfold load_parameter in L. unfold means.
  apply (body_meaning args V other_f other_i date T D sc (sp_name p) (sp_body p) cs L).
  - intros c mo Ic M. apply R; [|exact M]. apply in_concat. exists cs. split; assumption.
  - destruct p as [n b]. exact B.
Qed.
Print Assumptions C70_values_partial.

(** ** C70: loading *)

Lemma load_global args sc m : ~ is_local m -> load_metric args None m = load_metric args sc m.
Proof. destruct m; cbn [is_local load_metric]; intros H; try reflexivity. contradiction (H I). Qed.
Lemma load_ok args sc m : (exists lm, load_metric args sc m = Ok lm) -> exists lm, of_metric (load_metric args sc m) = Ok lm.
Proof. intros (lm & E). exists lm. rewrite E. reflexivity. Qed.
Lemma load_ok_None args sc m : (exists lm, load_metric args sc m = Ok lm) -> ~ is_local m -> exists lm, of_metric (load_metric args None m) = Ok lm.
Proof. intros H N. apply load_ok. rewrite (load_global args sc m N). exact H. Qed.
Lemma loads_ok {E A B} (g : A -> res E B) ms : (forall m, In m ms -> exists b, g m = Ok b) -> exists bs, rmap g ms = Ok bs.
Proof.
  induction ms as [|m ms IH]; intros H; [exists []; reflexivity|]. destruct (H m (or_introl eq_refl)) as (b & Hb).
  destruct IH as (bs & Hbs); [intros x X; apply H; right; exact X|]. exists (b :: bs). cbn [rmap]. rewrite Hb. cbn [rbind]. rewrite Hbs. reflexivity.
Qed.
Lemma index_ok sc m : (is_local_i m -> sc <> None) -> exists lm, load_index sc m = Ok lm.
Proof. destruct m; cbn [is_local_i load_index]; intros H; try (eexists; reflexivity). destruct sc; [eexists; reflexivity|]. contradiction (H I eq_refl). Qed.
Lemma index_ok_None m : ~ is_local_i m -> exists lm, load_index None m = Ok lm.
Proof. intros H. apply index_ok. intros K. contradiction. Qed.
Lemma value_ok args v : (exists q, constant args v q) -> exists q, load_value args v = Ok q.
Proof.
  destruct v as [c | tb key]; cbn; intros (q & H); [exists c; reflexivity|]. rewrite H. exists q. reflexivity.
Qed.

Lemma load_total args sc p : well_formed args sc p -> scoped p -> exists cs, load_parameter args sc p = Ok cs.
Proof.
  destruct p as [name b]. unfold well_formed, scoped, load_parameter. cbn [sp_name sp_body]. intros (F & G & W) (S1 & S2).
  assert (LN : forall m, In m (fst (metrics_of b)) -> In m (fst (network_only b)) -> exists lm, of_metric (load_metric args None m) = Ok lm).
  { intros m M N. apply (load_ok_None args sc); [apply F; exact M | apply S1; exact N]. }
  assert (LS : forall m, In m (fst (metrics_of b)) -> exists lm, of_metric (load_metric args sc m) = Ok lm) by (intros m M; apply load_ok, F, M).
  assert (IN : forall m, In m (snd (network_only b)) -> exists lm, load_index None m = Ok lm) by (intros m M; apply index_ok_None, S2, M).
  assert (IS : forall m, In m (snd (metrics_of b)) -> exists lm, load_index sc m = Ok lm) by (intros m M; apply index_ok, G, M).
  clear F G S1 S2.
  destruct b as [v | m th | m th | m | m th | m th | ph n d | ph f ms | ph f ms | ms i | x xp fp e | m co s o | o m | r y
      | m th p [[ra rb]|] ra' | m ts p [vs|] ra | a b | curves m vs | m curves | curves m vs | curves m vs lo hi
      | m n i | m n i | m w i mn f | m w i mn f | vs | vs | vs i | vs i | dd mm rr |]; cbn [metrics_of network_only both given fst snd] in *; cbn [load_body].
  all: repeat match goal with
    | LN : forall m, In m ?l -> In m ?l -> _ |- context [of_metric (load_metric ?ar None ?m)] =>
        let q := fresh "lm" in let E := fresh in
        assert (exists lm, of_metric (load_metric ar None m) = Ok lm) as [q E] by (apply LN; cbn; auto); rewrite E; cbn [rbind]
    end.
  - destruct (value_ok args v W) as (q & ->). eexists. reflexivity.
  - eexists. reflexivity.
  - eexists. reflexivity.
  - eexists. reflexivity.
  - eexists. reflexivity.
  - eexists. reflexivity.
  - eexists. reflexivity.
  - destruct (loads_ok _ ms LS) as (lms & ->). eexists. reflexivity.
  - destruct (loads_ok _ ms IS) as (lms & ->). eexists. reflexivity.
  - destruct (IN i (or_introl eq_refl)) as (li & ->). cbn [rbind]. destruct (loads_ok _ ms LS) as (lms & ->). eexists. reflexivity.
  - rewrite W, Nat.eqb_refl. cbn [negb].
    destruct (loads_ok (fun m => of_metric (load_metric args None m)) xp) as (l1 & ->); [intros m M; apply LN; right; apply in_or_app; left; exact M|]. cbn [rbind].
    destruct (loads_ok (fun m => of_metric (load_metric args None m)) fp) as (l2 & ->); [intros m M; apply LN; right; apply in_or_app; right; exact M|].
    eexists. reflexivity.
  - eexists. reflexivity.
  - destruct (value_ok args o W) as (q & ->). eexists. reflexivity.
  - eexists. reflexivity.
  - eexists. reflexivity.
  - eexists. reflexivity.
  - destruct (LN m (or_introl eq_refl) (or_introl eq_refl)) as (lm & ->). cbn [rbind].
    destruct (loads_ok (fun m => of_metric (load_metric args sc m)) ts) as (l1 & ->); [intros x X; apply LS; right; apply in_or_app; left; exact X|]. cbn [rbind].
    destruct (loads_ok (fun m => of_metric (load_metric args None m)) vs) as (l2 & ->).
    { intros x X. apply LN; [right; apply in_or_app; right; exact X | right; exact X]. }
    eexists. reflexivity.
  - destruct (LN m (or_introl eq_refl) (or_introl eq_refl)) as (lm & ->). cbn [rbind].
    destruct (loads_ok (fun m => of_metric (load_metric args sc m)) ts) as (l1 & ->); [intros x X; apply LS; right; apply in_or_app; left; exact X|].
    eexists. reflexivity.
  - destruct (IN a (or_introl eq_refl)) as (la & ->). cbn [rbind]. destruct (IN b (or_intror (or_introl eq_refl))) as (lb & ->). eexists. reflexivity.
  - destruct (LN m (or_introl eq_refl) (or_introl eq_refl)) as (lm & ->). cbn [rbind].
    destruct (loads_ok (fun m => of_metric (load_metric args sc m)) curves) as (l1 & ->); [intros x X; apply LS; right; apply in_or_app; left; exact X|]. cbn [rbind].
    destruct (loads_ok (fun m => of_metric (load_metric args sc m)) vs) as (l2 & ->); [intros x X; apply LS; right; apply in_or_app; right; exact X|].
    eexists. reflexivity.
  - destruct (LS m (or_introl eq_refl)) as (lm & ->). cbn [rbind].
    destruct (loads_ok (fun m => of_metric (load_metric args sc m)) curves) as (l1 & ->); [intros x X; apply LS; right; exact X|]. eexists. reflexivity.
  - destruct (loads_ok (fun m => of_metric (load_metric args None m)) curves) as (l1 & ->); [intros x X; apply LN; right; apply in_or_app; left; exact X|]. cbn [rbind].
    destruct (loads_ok (fun m => of_metric (load_metric args None m)) vs) as (l2 & ->); [intros x X; apply LN; right; apply in_or_app; right; exact X|].
    eexists. reflexivity.
  - destruct (LS m (or_introl eq_refl)) as (lm & ->). cbn [rbind].
    destruct (loads_ok (fun m => of_metric (load_metric args sc m)) curves) as (l1 & ->); [intros x X; apply LS; right; exact X|]. eexists. reflexivity.
  - eexists. reflexivity.
  - destruct (IN m (or_introl eq_refl)) as (lm & ->). eexists. reflexivity.
  - eexists. reflexivity.
  - destruct (IN m (or_introl eq_refl)) as (lm & ->). eexists. reflexivity.
  - destruct W as [W | W]; rewrite W; cbn [Nat.eqb]; eexists; reflexivity.
  - rewrite W. cbn [Nat.eqb]. eexists. reflexivity.
  - unfold weekly_try_from. destruct W as [W | W]; rewrite W; cbn; eexists; reflexivity.
  - rewrite W. cbn [Nat.eqb]. eexists. reflexivity.
  - eexists. reflexivity.
  - contradiction.
Qed.

(** C70.  A file loads if its references resolve and its numbers of values
    agree, provided local parameters are referred to only where the code looks
    for them (see C70_local_reference_refuted). *)
Theorem C70_loads_partial : forall args f,
  (forall sc p, In (sc, p) (in_nodes f ++ in_network f) -> well_formed args sc p /\ scoped p) ->
  exists cps, load_parameters args f = Ok cps.
Proof.
  intros args f H. unfold considered in *.
  assert (X : exists css, Forall2 (fun x cs => load_parameter args (fst x) (snd x) = Ok cs) (considered f) css).
  { unfold considered. revert H. generalize (in_nodes f ++ in_network f). induction l as [|[sc p] l IH]; intros H; [exists []; constructor|].
    destruct (H sc p (or_introl eq_refl)) as [W S]. destruct (load_total args sc p W S) as (cs & E).
    destruct IH as (css & F); [intros sc' p' I'; apply H; right; exact I'|]. exists (cs :: css). constructor; [exact E | exact F]. }
  destruct X as (css & F). exact (load_split_conv args f css F).
Qed.
Print Assumptions C70_loads_partial.

(** ** C70: names *)

Definition registered (sc : option string) (p : sparameter) : list cname :=
  let n := sp_name p in
  match sp_body p with
  | SpThreshold _ _ _ (Some _) _ | SpMultiThreshold _ _ _ (Some _) _ => [mkCname n (Some "threshold") (Some n); mkCname n None sc]
  | SpMultiThreshold _ _ _ None _ => [mkCname n None None]
  | _ => [mkCname n None sc]
  end.
Lemma load_names args sc p cs : load_parameter args sc p = Ok cs -> map cp_name cs = registered sc p.
Proof.
  destruct p as [name b]. unfold load_parameter, registered. cbn [sp_name sp_body]. intros H.
  destruct b as [v | m th | m th | m | m th | m th | ph n d | ph f ms | ph f ms | ms i | x xp fp e | m co s o | o m | r y
      | m th p [[ra rb]|] ra' | m ts p [vs|] ra | a b | curves m vs | m curves | curves m vs | curves m vs lo hi
      | m n i | m n i | m w i mn f | m w i mn f | vs | vs | vs i | vs i | dd mm rr |]; cbn [load_body] in H;
    repeat match type of H with
    | rbind _ _ = Ok _ => let x := fresh in let E := fresh in apply bind_Ok in H as (x & E & H)
    | (if ?c then _ else _) = Ok _ => destruct c
    | (match ?o with Some _ => _ | None => _ end) = Ok _ => destruct o
    end; first [discriminate H | injection H as <-; reflexivity].
Qed.

Lemma NoDup_flat {A B K} (key : A -> K) (g : A -> list B) l : NoDup (map key l) -> (forall x, In x l -> NoDup (g x)) ->
  (forall x y b, In x l -> In y l -> key x <> key y -> In b (g x) -> In b (g y) -> False) -> NoDup (flat_map g l).
Proof.
  induction l as [|a l IH]; intros N D X; cbn [flat_map]; [constructor|]. cbn [map] in N. apply NoDup_cons_iff in N as [Na N].
  apply NoDup_app_intro.
  - apply D. left. reflexivity.
  - apply IH; [exact N | intros x I; apply D; right; exact I | intros x y b I J; apply X; right; assumption].
  - intros b I J. apply in_flat_map in J as (y & Iy & J). apply (X a y b (or_introl eq_refl) (or_intror Iy)); [|exact I | exact J].
    intros E. apply Na. rewrite E. apply in_map. exact Iy.
Qed.

(** C70.  Every parameter of a node and of the network is registered under its
    own name in its own scope (the multi-thresholds of nodes that return their
    position again left out). *)
Theorem C70_registered_partial : forall args f cps, load_parameters args f = Ok cps ->
  forall sc p, In (sc, p) (in_nodes f ++ in_network f) -> sc = None \/ ~ bare_multi p ->
  exists c, In c cps /\ cp_name c = mkCname (sp_name p) None sc.
Proof.
  intros args f cps H sc p I B. apply load_split in H as (css & F & ->). destruct (part _ _ _ _ F I) as (cs & Ics & L). cbn [fst snd] in L.
  apply load_names in L.
  assert (X : In (mkCname (sp_name p) None sc) (map cp_name cs)).
  { rewrite L. unfold registered. unfold bare_multi in B.
    destruct (sp_body p) as [v | m th | m th | m | m th | m th | ph n d | ph f' ms | ph f' ms | ms i | x xp fp e | m co s o | o m | r y
      | m th q [[ra rb]|] ra' | m ts q [vs|] ra | a b | curves m vs | m curves | curves m vs | curves m vs lo hi
      | m n i | m n i | m w i mn f' | m w i mn f' | vs | vs | vs i | vs i | dd mm rr |]; try (left; reflexivity).
    - right; left; reflexivity.
    - right; left; reflexivity.
    - destruct B as [-> | B]; [left; reflexivity | contradiction (B Logic.I)]. }
  apply in_map_iff in X as (c & E & Ic). exists c. split; [|exact E]. apply in_concat. exists cs. split; assumption.
Qed.
Print Assumptions C70_registered_partial.

(** C70.  No two parameters are registered under the same name if no two of the
    same scope have the same name, so that parameters of different nodes never
    clash; provided that thresholds returning other metrics have different names
    in the whole file and multi-thresholds of nodes that return their position
    are named as if they belonged to the network (see
    C70_threshold_clash_refuted and C70_multi_threshold_refuted). *)
Theorem C70_names_partial : forall args f cps, load_parameters args f = Ok cps ->
  NoDup (map (fun x => (fst x, sp_name (snd x))) (in_nodes f ++ in_network f)) ->
  (forall x y, In x (in_nodes f ++ in_network f) -> In y (in_nodes f ++ in_network f) -> sp_name (snd x) = sp_name (snd y) ->
     returning (snd x) -> returning (snd y) -> fst x = fst y) ->
  (forall x y, In x (in_nodes f ++ in_network f) -> In y (in_nodes f ++ in_network f) -> sp_name (snd x) = sp_name (snd y) ->
     bare_multi (snd x) -> fst y = None \/ bare_multi (snd y) -> fst x = fst y) ->
  NoDup (map cp_name cps).
Proof.
  intros args f cps H N R M. apply load_split in H as (css & F & ->). unfold considered in F.
  assert (E : map cp_name (concat css) = flat_map (fun x => registered (fst x) (snd x)) (in_nodes f ++ in_network f)).
  { clear -F. induction F as [|x cs l css H _ IH]; [reflexivity|]. cbn [concat flat_map]. rewrite (map_app cp_name), IH, (load_names _ _ _ _ H). reflexivity. }
  rewrite E. apply (NoDup_flat (fun x => (fst x, sp_name (snd x)))); [exact N | |].
  - intros [sc [n b]] _. unfold registered. cbn [fst snd sp_name sp_body].
    destruct b as [v | m th | m th | m | m th | m th | ph n' d | ph f' ms | ph f' ms | ms i | x xp fp e | m co s o | o m | r y
      | m th q [[ra rb]|] ra' | m ts q [vs|] ra | a b | curves m vs | m curves | curves m vs | curves m vs lo hi
      | m n' i | m n' i | m w i mn f' | m w i mn f' | vs | vs | vs i | vs i | dd mm rr |]; try (repeat constructor; intros []; fail).
    + repeat constructor; [intros [K | []]; discriminate K | intros []].
    + repeat constructor; [intros [K | []]; discriminate K | intros []].
  - intros x y c Ix Iy K Cx Cy.
    assert (P : forall x, In c (registered (fst x) (snd x)) ->
      c = mkCname (sp_name (snd x)) None (fst x) \/
      (c = mkCname (sp_name (snd x)) (Some "threshold") (Some (sp_name (snd x))) /\ returning (snd x)) \/
      (c = mkCname (sp_name (snd x)) None None /\ bare_multi (snd x))).
    { clear. intros [sc [n b]]. unfold registered, returning, bare_multi. cbn [fst snd sp_name sp_body].
      destruct b as [v | m th | m th | m | m th | m th | ph n' d | ph f' ms | ph f' ms | ms i | x xp fp e | m co s o | o m | r y
      | m th q [[ra rb]|] ra' | m ts q [vs|] ra | a b | curves m vs | m curves | curves m vs | curves m vs lo hi
      | m n' i | m n' i | m w i mn f' | m w i mn f' | vs | vs | vs i | vs i | dd mm rr |]; intros I';
      repeat match type of I' with _ \/ _ => destruct I' as [<- | I'] | In _ _ => destruct I' as [<- | I'] end;
      first [left; reflexivity | right; left; split; [reflexivity | exact I] | right; right; split; [reflexivity | exact I] | destruct I']. }
    destruct (P x Cx) as [E1 | [[E1 Rx] | [E1 Mx]]]; destruct (P y Cy) as [E2 | [[E2 Ry] | [E2 My]]]; rewrite E1 in E2; try discriminate E2.
    + injection E2 as A B. apply K. rewrite A, B. reflexivity.
    + injection E2 as A B. apply K. rewrite A. f_equal. symmetry. apply (M y x Iy Ix); [symmetry; exact A | exact My | left; exact B].
    + injection E2 as A B. apply K. rewrite A. f_equal. exact (R x y Ix Iy A Rx Ry).
    + injection E2 as A B. apply K. rewrite A. f_equal. apply (M x y Ix Iy A Mx). left. symmetry. exact B.
    + injection E2 as A. apply K. rewrite A. f_equal. apply (M x y Ix Iy A Mx). right. exact My.
Qed.
Print Assumptions C70_names_partial.

(** ** Where the code departs *)

Definition no_args : load_args := mkArgs (mkSchema [] [] []) [] (fun _ _ => None) (fun _ _ => None).
Definition local (n : string) : smetric := MLocalParameter (mkPref n None None).
Definition global (n : string) : smetric := MParameter (mkPref n None None).

(** Most types of parameters look for a local parameter in no node: a file whose
    references all name a parameter of the same node is refused. *)
Definition local_reference_file : pfile :=
  mkPfile [("n", [mkParam "a" (SpConstant (CvLiteral 1%Q)); mkParam "b" (SpNegative (local "a"))])] [] [].
Theorem C70_local_reference_refuted :
  (forall sc p, In (sc, p) (in_nodes local_reference_file ++ in_network local_reference_file) -> well_formed no_args sc p) /\
  load_parameters no_args local_reference_file = Err (PlMetric (MsLocalRequiresParent "a")).
Proof.
  split; [|reflexivity]. intros sc p [E | [E | []]]; injection E as <- <-; unfold well_formed; cbn [metrics_of sp_body fst snd].
  - split; [intros m []|]. split; [intros m []|]. exists 1%Q. reflexivity.
  - split; [|split; [intros m [] | exact I]]. intros m [<- | []]. eexists. reflexivity.
Qed.
Print Assumptions C70_local_reference_refuted.

(** Thresholds of the same name in two nodes clash when they return other
    metrics. *)
Definition returning_threshold : sparameter := mkParam "t" (SpThreshold (MTransfer "x") (MLiteral 1%Q) GT (Some (MLiteral 0%Q, MLiteral 1%Q)) false).
Theorem C70_threshold_clash_refuted :
  let f := mkPfile [("n", [returning_threshold]); ("m", [returning_threshold])] [] [] in
  NoDup (map (fun x => (fst x, sp_name (snd x))) (in_nodes f ++ in_network f)) /\
  exists cps, load_parameters no_args f = Ok cps /\ ~ NoDup (map cp_name cps).
Proof.
  cbn zeta. split.
  - cbn. repeat constructor; [intros [E | []]; discriminate E | intros []].
  - eexists. split; [reflexivity|]. cbn. intros N. apply NoDup_cons_iff in N as [N _]. apply N. right. left. reflexivity.
Qed.
Print Assumptions C70_threshold_clash_refuted.

(** A multi-threshold of a node that returns its position is registered in the
    network: in the node its name means nothing. *)
Definition bare_multi_file : pfile := mkPfile [("n", [mkParam "m" (SpMultiThreshold (MLiteral 1%Q) [MLiteral 0%Q] GT None false)])] [] [].
Theorem C70_multi_threshold_refuted :
  exists cps, load_parameters no_args bare_multi_file = Ok cps /\
    (forall c, In c cps -> cp_name c = mkCname "m" None None) /\
    exists V, forall other_f other_i date, runs V other_f other_i date 1 cps /\
      forall p, In (Some "n", p) (in_nodes bare_multi_file) -> ~ means no_args V other_f other_i date 1 (Some "n") p.
Proof.
  eexists. split; [reflexivity|]. split; [intros c [<- | []]; reflexivity|].
  exists (fun _ _ n => match cn_parent n with None => VI 0 | Some _ => VF 7%Q end). intros other_f other_i date. split.
  - intros c mo [<- | []] M. destruct mo; [|discriminate M]. exists [0]. split; reflexivity.
  - intros p [E | []]. injection E as <-. unfold means, bare_multi_file. cbn [sp_name sp_body body_means].
    intros (xs & thss & _ & _ & H). destruct (H 0 Nat.lt_0_1) as (k & _ & K). discriminate K.
Qed.
Print Assumptions C70_multi_threshold_refuted.

(** The parameters of virtual nodes are not registered at all. *)
Definition virtual_file : pfile := mkPfile [] [("v", [mkParam "a" (SpConstant (CvLiteral 1%Q))])] [].
Theorem C70_virtual_node_refuted :
  In (Some "v", mkParam "a" (SpConstant (CvLiteral 1%Q))) (in_vnodes virtual_file) /\
  load_parameters no_args virtual_file = Ok [] /\
  exists V, forall other_f other_i date, runs V other_f other_i date 1 [] /\
    ~ means no_args V other_f other_i date 1 (Some "v") (mkParam "a" (SpConstant (CvLiteral 1%Q))).
Proof.
  split; [left; reflexivity|]. split; [reflexivity|]. exists (fun _ _ _ => VF 7%Q). intros other_f other_i date. split; [intros c mo []|].
  unfold means. cbn [sp_name sp_body body_means constant]. intros (q & -> & H). specialize (H 0 Nat.lt_0_1). discriminate H.
Qed.
Print Assumptions C70_virtual_node_refuted.

(** ** An example *)

(** Two nodes with local parameters of the same names, a delay and a ratcheting
    threshold. *)
Definition sp_file : pfile :=
  mkPfile
    [("a", [mkParam "c" (SpConstant (CvLiteral 3%Q)); mkParam "s" (SpAggregated PhBefore AgSum [local "c"; global "d"])]);
     ("b", [mkParam "c" (SpConstant (CvLiteral 4%Q)); mkParam "s" (SpAggregated PhBefore AgProduct [local "c"; global "d"])])]
    []
    [mkParam "d" (SpDelay (MTransfer "x") 1 10%Q);
     mkParam "t" (SpThreshold (global "d") (MLiteral 1%Q) GE (Some (MLiteral 0%Q, global "d")) true)].
Definition sp_delayed (t : nat) : Q := match t with O => 10 | S O => 0 | _ => 1 end%Q.
Definition sp_V : valuation := fun _ t n =>
  match cn_name n, cn_sub n, cn_parent n with
  | "c", _, Some "a" => VF 3%Q
  | "c", _, _ => VF 4%Q
  | "s", _, Some "a" => VF (3 + sp_delayed t)%Q
  | "s", _, _ => VF (4 * sp_delayed t)%Q
  | "t", Some _, _ => VI 1
  | _, _, _ => VF (sp_delayed t)
  end.
Definition sp_other (_ : moment) (t : nat) (_ : lmetric) : Q := inject_Z (Z.of_nat t).

Example C70_example :
  exists cps, load_parameters no_args sp_file = Ok cps /\ length cps = 7 /\ NoDup (map cp_name cps) /\
    (forall sc p, In (sc, p) (in_nodes sp_file ++ in_network sp_file) -> ~ bare_multi p) /\
    forall other_i date, runs sp_V sp_other other_i date 3 cps.
Proof.
  eexists. split; [reflexivity|]. split; [reflexivity|]. split; [|split].
  - cbn. repeat (constructor; [cbn; intuition discriminate|]). constructor.
  - cbn. intros sc p H. decompose [or] H; try contradiction;
      match goal with E : (_, _) = (_, _) |- _ => injection E as <- <-; intros [] end.
  - intros other_i date c mo I M. cbn [In] in I.
    destruct mo; [|repeat (destruct I as [<- | I]; [discriminate M|]); destruct I].
    repeat (destruct I as [<- | I]; [|]); [..|destruct I].
    + vm_compute. reflexivity.
    + vm_compute. reflexivity.
    + vm_compute. reflexivity.
    + vm_compute. reflexivity.
    + exists [10; 0; 1]%Q. split; [left; vm_compute; reflexivity | reflexivity].
    + exists [1; 1; 1]%Z. split; [vm_compute; reflexivity | reflexivity].
    + vm_compute. reflexivity.
Qed.
