(** C89: nodes are built with the metrics they were declared with, and an error says
    which attribute it is about. *)
From Coq Require Import String.
From Coq Require Import QArith List.
From Verif Require Import Base NodeAttrs.
Import ListNotations.
Local Open Scope string_scope.
Local Open Scope list_scope.

(** ** What is declared. *)

(** The metrics of a declaration with the names of their attributes. *)
Definition given {U} (attr : string) (o : option U) : list (string * U) := match o with Some u => [(attr, u)] | None => [] end.
Definition initial_attrs {U} (i : option (initial U)) : list (string * U) :=
  match i with
  | Some (IDistributedAbsolute _ p) => [("prior_max_volume", p)]
  | Some (IDistributedProportional t _ p) => [("total_volume", t); ("prior_max_volume", p)]
  | _ => []
  end.
Definition store_attrs {U} (d : store U U) : list (string * U) :=
  given "cost" (st_cost d) ++ initial_attrs (st_initial d) ++ given "min_volume" (st_min d) ++ given "max_volume" (st_max d).
Definition relation_attrs {U} (r : relation U) : list (string * U) :=
  match r with
  | RelProportion fs | RelRatio fs => map (pair "factors") fs
  | RelCoefficients fs rhs => map (pair "factors") fs ++ given "rhs" rhs
  | RelExclusive _ _ => []
  end.

(** The same declaration with one metric in the place of each other. *)
Definition same_option {A B} (P : A -> B -> Prop) (a : option A) (b : option B) : Prop :=
  match a, b with Some a, Some b => P a b | None, None => True | _, _ => False end.
Definition same_initial {A B} (P : A -> B -> Prop) (a : initial A) (b : initial B) : Prop :=
  match a, b with
  | IAbsolute v, IAbsolute w | IProportional v, IProportional w => v = w
  | IDistributedAbsolute v p, IDistributedAbsolute w q => v = w /\ P p q
  | IDistributedProportional t v p, IDistributedProportional s w q => P t s /\ v = w /\ P p q
  | _, _ => False
  end.
Definition same_relation {A B} (P : A -> B -> Prop) (a : relation A) (b : relation B) : Prop :=
  match a, b with
  | RelProportion f, RelProportion g | RelRatio f, RelRatio g => Forall2 P f g
  | RelCoefficients f r, RelCoefficients g s => Forall2 P f g /\ same_option P r s
  | RelExclusive a b, RelExclusive c d => a = c /\ b = d
  | _, _ => False
  end.

Section Attrs.
Context {U M S RE SE : Type}.
Variable resolve : U -> res RE M.
Variable simplify : M -> res SE S.

Definition is_metric (u : U) (m : M) : Prop := resolve u = Ok m.
Definition is_simple (u : U) (s : S) : Prop := exists m, resolve u = Ok m /\ simplify m = Ok s.

(** An error is about one of the metrics of [attrs], under its name. *)
Definition about (attrs : list (string * U)) (e : attr_error RE SE) : Prop :=
  match e with
  | AResolve a x => exists u, In (a, u) attrs /\ resolve u = Err x
  | ASimplify a x => exists u m, In (a, u) attrs /\ resolve u = Ok m /\ simplify m = Err x
  | ANoInitialVolume => False
  end.

Lemma about_mono l l' e : about l e -> (forall x, In x l -> In x l') -> about l' e.
Proof. intros H I. destruct e; cbn [about] in *; [destruct H as (u & H & H1)|destruct H as (u & m & H & H1)|exact H]; eauto. Qed.

Lemma get_ok a u m : get (SE := SE) resolve a u = Ok m <-> is_metric u m.
Proof. unfold get, is_metric. destruct (resolve u); split; congruence. Qed.
Lemma get_err a u e : get (SE := SE) resolve a u = Err e -> about [(a, u)] e.
Proof. unfold get. destruct (resolve u) eqn:E; try discriminate. intros H. injection H as <-. exists u. split; [left; reflexivity|exact E]. Qed.

Lemma get_simple_ok a a' u s : get_simple resolve simplify a a' u = Ok s <-> is_simple u s.
Proof.
  unfold get_simple, get, is_simple. destruct (resolve u) as [m|x|]; cbn [rbind].
  - destruct (simplify m) as [y|y|] eqn:E; split; try discriminate; try (intros (m' & H & H'); congruence). intros H. exists m. split; congruence.
  - split; [discriminate|]. intros (m & H & _). discriminate.
  - split; [discriminate|]. intros (m & H & _). discriminate.
Qed.
Lemma get_simple_err a u e : get_simple resolve simplify a a u = Err e -> about [(a, u)] e.
Proof.
  unfold get_simple. destruct (get resolve a u) as [m|x|] eqn:E; cbn [rbind]; [| |discriminate].
  - destruct (simplify m) as [y|y|] eqn:F; try discriminate. intros H. injection H as <-. exists u, m. split; [left; reflexivity|]. split; [exact (proj1 (get_ok _ _ _) E)|exact F].
  - intros H. injection H as <-. exact (get_err _ _ _ E).
Qed.
(** The one that names the wrong attribute if [simplify] fails. *)
Lemma get_simple_err' a a' u e : get_simple resolve simplify a a' u = Err e ->
  about [(a, u)] e \/ exists m x, resolve u = Ok m /\ simplify m = Err x /\ e = ASimplify a' x.
Proof.
  unfold get_simple. destruct (get resolve a u) as [m|x|] eqn:E; cbn [rbind]; [| |discriminate].
  - destruct (simplify m) as [y|y|] eqn:F; try discriminate. intros H. injection H as <-. right. exists m, y. split; [exact (proj1 (get_ok _ _ _) E)|auto].
  - intros H. injection H as <-. left. exact (get_err _ _ _ E).
Qed.

Lemma optional_ok {A B} (f : A -> res (attr_error RE SE) B) (P : A -> B -> Prop) : (forall a b, f a = Ok b <-> P a b) ->
  forall o o', optional f o = Ok o' <-> same_option P o o'.
Proof.
  intros H [a|] o'; cbn [optional same_option].
  - destruct (f a) as [b|e|] eqn:E; cbn [rbind].
    + split; [intros F; injection F as <-; apply H; exact E|]. destruct o' as [b'|]; [|intros []]. intros F. apply H in F. congruence.
    + split; [discriminate|]. destruct o' as [b'|]; [|intros []]. intros F. apply H in F. congruence.
    + split; [discriminate|]. destruct o' as [b'|]; [|intros []]. intros F. apply H in F. congruence.
  - split; [intros F; injection F as <-; exact I|]. destruct o'; [intros []|reflexivity].
Qed.
Lemma optional_err {B} (f : U -> res (attr_error RE SE) B) a : (forall u e, f u = Err e -> about [(a, u)] e) ->
  forall o e, optional f o = Err e -> about (given a o) e.
Proof.
  intros H [u|] e; cbn [optional given]; [|discriminate]. destruct (f u) as [b|x|] eqn:E; cbn [rbind]; try discriminate.
  intros F. injection F as <-. exact (H _ _ E).
Qed.

Lemma build_initial_ok i j : build_initial resolve simplify i = Ok j <-> exists i0, i = Some i0 /\ same_initial is_simple i0 j.
Proof.
  destruct i as [i|]; cbn [build_initial]; [|split; [discriminate|intros (? & ? & _); discriminate]].
  assert (X : forall P : Prop, (exists i0, Some i = Some i0 /\ same_initial is_simple i0 j) <-> same_initial is_simple i j).
  { intros _. split; [intros (i0 & E & H); injection E as <-; exact H|eauto]. }
  rewrite (X True). clear X. destruct i as [v|v|v p|t v p]; cbn [same_initial].
  - destruct j; split; try discriminate; try tauto; congruence.
  - destruct j; split; try discriminate; try tauto; congruence.
  - pose proof (get_simple_ok "prior_max_volume" "prior_max_volume" p) as G. destruct (get_simple resolve simplify _ _ p) as [s|e|]; cbn [rbind].
    + split; [intros E; injection E as <-; split; [reflexivity|apply G; reflexivity]|]. destruct j; try tauto. intros [-> H]. apply G in H. congruence.
    + split; [discriminate|]. destruct j; try tauto. intros [_ H]. apply G in H. discriminate.
    + split; [discriminate|]. destruct j; try tauto. intros [_ H]. apply G in H. discriminate.
  - pose proof (get_simple_ok "total_volume" "total_volume" t) as F. pose proof (get_simple_ok "prior_max_volume" "prior_max_volume" p) as G.
    destruct (get_simple resolve simplify "total_volume" _ t) as [r|e|]; cbn [rbind].
    + destruct (get_simple resolve simplify _ _ p) as [s|e|]; cbn [rbind].
      * split; [intros E; injection E as <-; split; [apply F; reflexivity|]; split; [reflexivity|apply G; reflexivity]|].
        destruct j; try tauto. intros (H & -> & H'). apply F in H. apply G in H'. congruence.
      * split; [discriminate|]. destruct j; try tauto. intros (_ & _ & H). apply G in H. discriminate.
      * split; [discriminate|]. destruct j; try tauto. intros (_ & _ & H). apply G in H. discriminate.
    + split; [discriminate|]. destruct j; try tauto. intros (H & _). apply F in H. discriminate.
    + split; [discriminate|]. destruct j; try tauto. intros (H & _). apply F in H. discriminate.
Qed.

Lemma build_initial_err i e : build_initial resolve simplify i = Err e -> (i = None /\ e = ANoInitialVolume) \/ about (initial_attrs i) e.
Proof.
  destruct i as [[v|v|v p|t v p]|]; cbn [build_initial initial_attrs]; try discriminate.
  - destruct (get_simple resolve simplify _ _ p) as [s|x|] eqn:E; cbn [rbind]; try discriminate. intros F. injection F as <-. right. exact (get_simple_err _ _ _ E).
  - destruct (get_simple resolve simplify "total_volume" _ t) as [r|x|] eqn:E; cbn [rbind]; try discriminate.
    + destruct (get_simple resolve simplify _ _ p) as [s|y|] eqn:E2; cbn [rbind]; try discriminate. intros F. injection F as <-. right.
      apply (about_mono _ _ _ (get_simple_err _ _ _ E2)). intros z [<-|[]]. right. left. reflexivity.
    + intros F. injection F as <-. right. apply (about_mono _ _ _ (get_simple_err _ _ _ E)). intros z [<-|[]]. left. reflexivity.
  - intros F. injection F as <-. auto.
Qed.

Lemma rmap_err a fs e : rmap (get (SE := SE) resolve a) fs = Err e -> about (map (pair a) fs) e.
Proof.
  induction fs as [|f fs IH]; cbn [rmap map]; [discriminate|]. destruct (get resolve a f) as [m|x|] eqn:E; try discriminate.
  - destruct (rmap _ fs) as [ms|x|]; try discriminate. intros F. injection F as <-. apply (about_mono _ _ _ (IH eq_refl)). intros z I. right. exact I.
  - intros F. injection F as <-. apply (about_mono _ _ _ (get_err _ _ _ E)). intros z [<-|[]]. left. reflexivity.
Qed.

Lemma rmap_ok a fs ms : rmap (get (SE := SE) resolve a) fs = Ok ms <-> Forall2 is_metric fs ms.
Proof.
  rewrite rmap_Ok_Forall2. split; intros F; induction F; constructor; auto; apply (get_ok a); assumption.
Qed.
End Attrs.

Lemma limits_ok {U M S RE SE} (resolve : U -> res RE M) (simplify : M -> res SE S) a b c d mn mx l :
  rbind (optional (get_simple resolve simplify a b) mn) (fun mn => rbind (optional (get_simple resolve simplify c d) mx) (fun mx => Ok (mn, mx))) = Ok l <->
  same_option (is_simple resolve simplify) mn (fst l) /\ same_option (is_simple resolve simplify) mx (snd l).
Proof.
  pose proof (optional_ok _ _ (get_simple_ok resolve simplify a b) mn) as F. pose proof (optional_ok _ _ (get_simple_ok resolve simplify c d) mx) as G.
  destruct (optional (get_simple resolve simplify a b) mn) as [x|e|]; cbn [rbind];
    [|split; [discriminate|]; intros [H _]; apply F in H; discriminate|split; [discriminate|]; intros [H _]; apply F in H; discriminate].
  destruct (optional (get_simple resolve simplify c d) mx) as [y|e|]; cbn [rbind];
    [|split; [discriminate|]; intros [_ H]; apply G in H; discriminate|split; [discriminate|]; intros [_ H]; apply G in H; discriminate].
  destruct l as [l1 l2]. cbn [fst snd]. split.
  - intros E. injection E as <- <-. split; [apply F|apply G]; reflexivity.
  - intros [H1 H2]. apply F in H1. apply G in H2. congruence.
Qed.

(** C89.  A storage node is built exactly if it has an initial volume and each of its
    metrics is found (and is a simple one, other than the cost); it then has these
    metrics, and the cost 0 if none is declared. *)
Theorem C89_storage_built : forall (U M S RE SE : Type) (resolve : U -> res RE M) (simplify : M -> res SE S) zero d b,
  build_node_store resolve simplify zero d = Ok b <->
  exists cost i j, st_cost b = Some cost /\ (match st_cost d with Some u => resolve u = Ok cost | None => cost = zero end) /\
    st_initial d = Some i /\ st_initial b = Some j /\ same_initial (is_simple resolve simplify) i j /\
    same_option (is_simple resolve simplify) (st_min d) (st_min b) /\ same_option (is_simple resolve simplify) (st_max d) (st_max b).
Proof.
  intros U M S RE SE resolve simplify zero [dc di dn dx] [bc bi bn bx]. cbn [st_cost st_initial st_min st_max]. unfold build_node_store. cbn [st_cost st_initial st_min st_max]. split.
  - destruct (match dc with Some u => get resolve "cost" u | None => Ok zero end) as [c|e|] eqn:Ec; cbn [rbind]; try discriminate.
    destruct (build_initial resolve simplify di) as [j|e|] eqn:Ei; cbn [rbind]; try discriminate.
    destruct (node_limits resolve simplify dn dx) as [l|e|] eqn:El; cbn [rbind]; try discriminate.
    intros E. injection E as <- <- <- <-. apply build_initial_ok in Ei. destruct Ei as (i & -> & Hi). apply limits_ok in El. destruct El as [L1 L2].
    exists c, i, j. repeat split; auto. destruct dc as [u|]; [exact (proj1 (get_ok _ _ _ _) Ec)|congruence].
  - intros (c & i & j & -> & Hc & -> & -> & Hi & Hn & Hx).
    assert (Ec : match dc with Some u => get (SE := SE) resolve "cost" u | None => Ok zero end = Ok c) by (destruct dc; [apply get_ok; exact Hc|congruence]).
    rewrite Ec. cbn [rbind]. rewrite (proj2 (build_initial_ok resolve simplify (Some i) j)) by eauto. cbn [rbind].
    unfold node_limits. rewrite (proj2 (limits_ok resolve simplify _ _ _ _ dn dx (bn, bx))) by auto. reflexivity.
Qed.
Print Assumptions C89_storage_built.

(** The same of a virtual storage, which has no cost if none is declared. *)
Theorem C89_virtual_storage_built : forall (U M S RE SE : Type) (resolve : U -> res RE M) (simplify : M -> res SE S) d b,
  build_vs_store resolve simplify d = Ok b <->
  same_option (fun u m => resolve u = Ok m) (st_cost d) (st_cost b) /\
  exists i j, st_initial d = Some i /\ st_initial b = Some j /\ same_initial (is_simple resolve simplify) i j /\
    same_option (is_simple resolve simplify) (st_min d) (st_min b) /\ same_option (is_simple resolve simplify) (st_max d) (st_max b).
Proof.
  intros U M S RE SE resolve simplify [dc di dn dx] [bc bi bn bx]. cbn [st_cost st_initial st_min st_max]. unfold build_vs_store. cbn [st_cost st_initial st_min st_max].
  pose proof (optional_ok (get (SE := SE) resolve "cost") _ (get_ok resolve "cost") dc) as C. split.
  - destruct (optional (get resolve "cost") dc) as [c|e|]; cbn [rbind]; try discriminate.
    destruct (build_initial resolve simplify di) as [j|e|] eqn:Ei; cbn [rbind]; try discriminate.
    destruct (vs_limits resolve simplify dn dx) as [l|e|] eqn:El; cbn [rbind]; try discriminate.
    intros E. injection E as <- <- <- <-. apply build_initial_ok in Ei. destruct Ei as (i & -> & Hi). apply limits_ok in El. destruct El as [L1 L2].
    split; [apply C; reflexivity|]. exists i, j. repeat split; auto.
  - intros (Hc & i & j & -> & -> & Hi & Hn & Hx). apply C in Hc. rewrite Hc. cbn [rbind].
    rewrite (proj2 (build_initial_ok resolve simplify (Some i) j)) by eauto. cbn [rbind].
    unfold vs_limits. rewrite (proj2 (limits_ok resolve simplify _ _ _ _ dn dx (bn, bx))) by auto. reflexivity.
Qed.
Print Assumptions C89_virtual_storage_built.

(** Flow limits and relationships between nodes are built exactly if all their metrics
    are found, and an error is about one of these under its name. *)
Theorem C89_flow_limits : forall (U M RE SE : Type) (resolve : U -> res RE M) (simplify : M -> res SE unit) min_flow max_flow,
  (forall mn mx, build_flow_limits (SE := SE) resolve min_flow max_flow = Ok (mn, mx) <->
     same_option (fun u m => resolve u = Ok m) min_flow mn /\ same_option (fun u m => resolve u = Ok m) max_flow mx) /\
  (forall e, build_flow_limits resolve min_flow max_flow = Err e -> about resolve simplify (given "min_flow" min_flow ++ given "max_flow" max_flow) e).
Proof.
  intros U M RE SE resolve simplify min_flow max_flow. unfold build_flow_limits.
  pose proof (optional_ok (get (SE := SE) resolve "min_flow") _ (get_ok resolve "min_flow") min_flow) as F.
  pose proof (optional_ok (get (SE := SE) resolve "max_flow") _ (get_ok resolve "max_flow") max_flow) as G. unfold is_metric in F, G.
  pose proof (optional_err resolve simplify _ _ (get_err resolve simplify "min_flow") min_flow) as F'.
  pose proof (optional_err resolve simplify _ _ (get_err resolve simplify "max_flow") max_flow) as G'.
  destruct (optional (get resolve "min_flow") min_flow) as [x|e|]; cbn [rbind].
  - destruct (optional (get resolve "max_flow") max_flow) as [y|e|]; cbn [rbind].
    + split; [|discriminate]. intros mn mx. split; [intros E; injection E as <- <-; split; [apply F|apply G]; reflexivity|].
      intros [H1 H2]. apply F in H1. apply G in H2. congruence.
    + split; [intros mn mx; split; [discriminate|]; intros [_ H]; apply G in H; discriminate|].
      intros e' E. injection E as <-. apply (about_mono _ _ _ _ _ (G' _ eq_refl)). intros z I. apply in_or_app. auto.
    + split; [|discriminate]. intros mn mx; split; [discriminate|]; intros [_ H]; apply G in H; discriminate.
  - split; [intros mn mx; split; [discriminate|]; intros [H _]; apply F in H; discriminate|].
    intros e' E. injection E as <-. apply (about_mono _ _ _ _ _ (F' _ eq_refl)). intros z I. apply in_or_app. auto.
  - split; [|discriminate]. intros mn mx; split; [discriminate|]; intros [H _]; apply F in H; discriminate.
Qed.
Print Assumptions C89_flow_limits.

Theorem C89_relationship : forall (U M RE SE : Type) (resolve : U -> res RE M) (simplify : M -> res SE unit) r,
  (forall b, build_relation (SE := SE) resolve r = Ok b <-> same_relation (fun u m => resolve u = Ok m) r b) /\
  (forall e, build_relation resolve r = Err e -> about resolve simplify (relation_attrs r) e).
Proof.
  intros U M RE SE resolve simplify r. destruct r as [fs|fs|fs rhs|a c]; cbn [build_relation relation_attrs].
  1, 2: (pose proof (rmap_ok (SE := SE) resolve "factors" fs) as F; pose proof (rmap_err resolve simplify "factors" fs) as F'; unfold is_metric in F;
    destruct (rmap (get resolve "factors") fs) as [x|e|]; cbn [rbind]; (split; [intros b|intros e' E; try discriminate]);
    [split; [intros E; injection E as <-; apply F; reflexivity|]; destruct b; cbn [same_relation]; try tauto; intros H; apply F in H; congruence
    |split; [discriminate|]; destruct b; cbn [same_relation]; try tauto; intros H; apply F in H; discriminate
    |injection E as <-; exact (F' _ eq_refl)
    |split; [discriminate|]; destruct b; cbn [same_relation]; try tauto; intros H; apply F in H; discriminate]).
  - pose proof (rmap_ok (SE := SE) resolve "factors" fs) as F; pose proof (rmap_err resolve simplify "factors" fs) as F'.
    pose proof (optional_ok (get (SE := SE) resolve "rhs") _ (get_ok resolve "rhs") rhs) as G. unfold is_metric in F, G.
    pose proof (optional_err resolve simplify _ _ (get_err resolve simplify "rhs") rhs) as G'.
    destruct (rmap (get resolve "factors") fs) as [x|e|]; cbn [rbind].
    + destruct (optional (get resolve "rhs") rhs) as [y|e|]; cbn [rbind].
      * split; [|discriminate]. intros b. split; [intros E; injection E as <-; split; [apply F|apply G]; reflexivity|].
        destruct b; cbn [same_relation]; try tauto. intros [H1 H2]. apply F in H1. apply G in H2. congruence.
      * split; [intros b; split; [discriminate|]; destruct b; cbn [same_relation]; try tauto; intros [_ H]; apply G in H; discriminate|].
        intros e' E. injection E as <-. apply (about_mono _ _ _ _ _ (G' _ eq_refl)). intros z I. apply in_or_app. auto.
      * split; [|discriminate]. intros b; split; [discriminate|]; destruct b; cbn [same_relation]; try tauto; intros [_ H]; apply G in H; discriminate.
    + split; [intros b; split; [discriminate|]; destruct b; cbn [same_relation]; try tauto; intros [H _]; apply F in H; discriminate|].
      intros e' E. injection E as <-. apply (about_mono _ _ _ _ _ (F' _ eq_refl)). intros z I. apply in_or_app. auto.
    + split; [|discriminate]. intros b; split; [discriminate|]; destruct b; cbn [same_relation]; try tauto; intros [H _]; apply F in H; discriminate.
  - split; [|discriminate]. intros b. split; [intros E; injection E as <-; split; reflexivity|]. destruct b; cbn [same_relation]; try tauto. intros [-> ->]. reflexivity.
Qed.
Print Assumptions C89_relationship.

(** An error in building a storage node is about one of its metrics under its name,
    or says that there is no initial volume. *)
Theorem C89_storage_error : forall (U M S RE SE : Type) (resolve : U -> res RE M) (simplify : M -> res SE S) zero d e,
  build_node_store resolve simplify zero d = Err e -> (e = ANoInitialVolume /\ st_initial d = None) \/ about resolve simplify (store_attrs d) e.
Proof.
  intros U M S RE SE resolve simplify zero [dc di dn dx] e. unfold build_node_store, store_attrs, node_limits. cbn [st_cost st_initial st_min st_max].
  destruct dc as [u|]; [destruct (get resolve "cost" u) as [c|x|] eqn:Ec; cbn [rbind]; try discriminate|cbn [rbind]].
  2: { intros E. injection E as <-. right. apply (about_mono _ _ _ _ _ (get_err resolve simplify _ _ _ Ec)). intros z [<-|[]]. left. reflexivity. }
  all: (destruct (build_initial resolve simplify di) as [j|x|] eqn:Ei; cbn [rbind]; try discriminate;
    [|intros E; injection E as <-; destruct (build_initial_err _ _ _ _ Ei) as [[-> ->]|H]; [auto|]; right;
      apply (about_mono _ _ _ _ _ H); intros z I; rewrite !in_app_iff; auto]).
  all: (destruct (optional (get_simple resolve simplify "min_volume" "min_volume") dn) as [x|x|] eqn:En; cbn [rbind]; try discriminate;
    [|intros E; injection E as <-; right; apply (about_mono _ _ _ _ _ (optional_err _ _ _ _ (get_simple_err resolve simplify "min_volume") _ _ En)); intros z I; rewrite !in_app_iff; auto]).
  all: (destruct (optional (get_simple resolve simplify "max_volume" "max_volume") dx) as [y|y|] eqn:Ex; cbn [rbind]; try discriminate;
    intros E; injection E as <-; right; apply (about_mono _ _ _ _ _ (optional_err _ _ _ _ (get_simple_err resolve simplify "max_volume") _ _ Ex)); intros z I; rewrite !in_app_iff; auto).
Qed.
Print Assumptions C89_storage_error.

(** So it is for a virtual storage, unless it is the minimum volume that is not a
    simple metric. *)
Theorem C89_virtual_storage_error_partial : forall (U M S RE SE : Type) (resolve : U -> res RE M) (simplify : M -> res SE S) d e,
  build_vs_store resolve simplify d = Err e -> (e = ANoInitialVolume /\ st_initial d = None) \/ about resolve simplify (store_attrs d) e \/
  exists u m x, st_min d = Some u /\ resolve u = Ok m /\ simplify m = Err x /\ e = ASimplify "max_volume" x.
Proof.
  intros U M S RE SE resolve simplify [dc di dn dx] e. unfold build_vs_store, store_attrs, vs_limits. cbn [st_cost st_initial st_min st_max].
  destruct (optional (get resolve "cost") dc) as [c|x|] eqn:Ec; cbn [rbind]; try discriminate.
  2: { intros E. injection E as <-. right. left. apply (about_mono _ _ _ _ _ (optional_err _ _ _ _ (get_err resolve simplify "cost") _ _ Ec)). intros z I. rewrite !in_app_iff. auto. }
  destruct (build_initial resolve simplify di) as [j|x|] eqn:Ei; cbn [rbind]; try discriminate.
  2: { intros E. injection E as <-. destruct (build_initial_err _ _ _ _ Ei) as [[-> ->]|H]; [auto|]. right. left.
       apply (about_mono _ _ _ _ _ H). intros z I. rewrite !in_app_iff. auto. }
  destruct (optional (get_simple resolve simplify "min_volume" "max_volume") dn) as [x|x|] eqn:En; cbn [rbind]; try discriminate.
  2: { intros E. injection E as <-. right. destruct dn as [u|]; cbn [optional] in En; [|discriminate].
       destruct (get_simple resolve simplify "min_volume" "max_volume" u) as [y|y|] eqn:Eu; cbn [rbind] in En; try discriminate. injection En as <-.
       destruct (get_simple_err' _ _ _ _ _ _ Eu) as [H|(m & z & H1 & H2 & ->)]; [left|right; exists u, m, z; auto].
       apply (about_mono _ _ _ _ _ H). intros z [<-|[]]. rewrite !in_app_iff. right. right. left. left. reflexivity. }
  destruct (optional (get_simple resolve simplify "max_volume" "max_volume") dx) as [y|y|] eqn:Ex; cbn [rbind]; try discriminate.
  intros E. injection E as <-. right. left. apply (about_mono _ _ _ _ _ (optional_err _ _ _ _ (get_simple_err resolve simplify "max_volume") _ _ Ex)). intros z I. rewrite !in_app_iff. auto.
Qed.
Print Assumptions C89_virtual_storage_error_partial.

(** Then the error names the maximum volume, which may not even be declared. *)
Theorem C89_wrong_attribute_refuted : forall (U M S RE SE : Type) (resolve : U -> res RE M) (simplify : M -> res SE S) u m x v,
  resolve u = Ok m -> simplify m = Err x ->
  let d := Store None (Some (IAbsolute v)) (Some u) None in
  build_vs_store resolve simplify d = Err (ASimplify "max_volume" x) /\ ~ about resolve simplify (store_attrs d) (ASimplify "max_volume" x).
Proof.
  intros U M S RE SE resolve simplify u m x v H1 H2 d. split.
  - unfold d, build_vs_store, vs_limits, get_simple, get. cbn [st_cost st_initial st_min st_max optional build_initial rbind]. rewrite H1. cbn [rbind]. rewrite H2. reflexivity.
  - intros (u' & m' & I & _). destruct I as [I|[]]. discriminate I.
Qed.
Print Assumptions C89_wrong_attribute_refuted.

Local Open Scope nat_scope.
(** Metrics that are numbers: those below 10 are found, those below 5 are simple. *)
Definition na_resolve (n : nat) : res string nat := if Nat.ltb n 10 then Ok (n + 100) else Err "no such metric".
Definition na_simplify (n : nat) : res string nat := if Nat.ltb n 105 then Ok (n + 100) else Err "not simple".
Example C89_example :
  build_node_store na_resolve na_simplify 0 (Store None (Some (IDistributedProportional 1 (1#2)%Q 2)) (Some 3) None) =
    Ok (Store (Some 0) (Some (IDistributedProportional 201 (1#2)%Q 202)) (Some 203) None) /\
  build_node_store na_resolve na_simplify 0 (Store (Some 9) (Some (IAbsolute 1%Q)) (Some 3) (Some 7)) = Err (ASimplify "max_volume" "not simple") /\
  build_node_store na_resolve na_simplify 0 (Store (Some 19) (Some (IAbsolute 1%Q)) (Some 3) (Some 7)) = Err (AResolve "cost" "no such metric") /\
  build_vs_store na_resolve na_simplify (Store None (Some (IAbsolute 1%Q)) (Some 7) None) = Err (ASimplify "max_volume" "not simple") /\
  build_relation (SE := string) na_resolve (RelCoefficients [1; 9] (Some 2)) = Ok (RelCoefficients [101; 109] (Some 102)) /\
  build_relation (SE := string) na_resolve (RelCoefficients [1; 9] (Some 12)) = Err (AResolve "rhs" "no such metric").
Proof. repeat split; reflexivity. Qed.
