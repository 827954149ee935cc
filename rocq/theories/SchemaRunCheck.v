(** Concrete runs of concrete model files are checked by evaluation: boolean
    tests that imply [file_run] and [separate].  Used by examples only. *)
From Verif Require Import Base Calendar Network NetworkBuild NetworkSpec NetworkBuildLemmas Lp LpSpec LpRelLemmas AggFuncs ParamsTemporal ControlCurves
  Formulas SchemaNodes SchemaMetrics SchemaSpec SchemaRun.
Local Open Scope string_scope.
Local Open Scope list_scope.
Local Open Scope nat_scope.

Definition ok_eq {E} (q : Q) (r : res E Q) : bool := match r with Ok v => Qeq_bool q v | _ => false end.
Lemma ok_eq_sound {E} q (r : res E Q) : ok_eq q r = true -> exists v, r = Ok v /\ (q == v)%Q.
Proof. destruct r as [v| |]; cbn; try discriminate. intros H. exists v. split; [reflexivity | apply Qeq_bool_eq, H]. Qed.

Fixpoint all2 {A B} (f : A -> B -> bool) (l : list A) (l' : list B) : bool :=
  match l, l' with [], [] => true | x :: r, y :: r' => f x y && all2 f r r' | _, _ => false end.
Lemma all2_sound {A B} (f : A -> B -> bool) (P : A -> B -> Prop) : (forall x y, f x y = true -> P x y) ->
  forall l l', all2 f l l' = true -> Forall2 P l l'.
Proof.
  intros Hf. induction l as [|x r IH]; intros [|y r'] E; cbn in E; try discriminate; constructor.
  - apply andb_prop in E. apply Hf, E.
  - apply andb_prop in E. apply IH, E.
Qed.
Definition indexed {A} (l : list A) : list (nat * A) := combine (seq 0 (length l)) l.
Lemma indexed_nth {A} (l : list A) i x : nth_error l i = Some x -> In (i, x) (indexed l).
Proof.
  unfold indexed. assert (G : forall l o i x, nth_error l i = Some x -> In (o + i, x) (combine (seq o (@length A l)) l)).
  { clear. induction l as [|y l IH]; intros o [|i] x Hn; cbn in Hn; try discriminate.
    - injection Hn as <-. left. rewrite Nat.add_0_r. reflexivity.
    - right. replace (o + S i) with (S o + i) by lia. apply IH, Hn. }
  apply (G l 0).
Qed.

Section Check.
Variable key : umetric -> nat.
Local Notation before := (before key).

Definition follows_check (tr : list run_step) (d : pdecl) : bool :=
  match d with
  | PDelay p m n q =>
      match hooked_run delay_before delay_after (delay_setup n q) (map (fun t => rs_after t m) tr) with
      | Ok vs => all2 (fun t v => Qeq_bool (before t (UParam p None)) v) tr vs
      | _ => false
      end
  | PMuskingum p i o k w ini =>
      forallb (fun jt => let t := snd jt in
        match muskingum_before (fst jt =? 0) ini (Ok (before t i)) (Ok (before t o)) (Ok (before t k)) (Ok (before t w)) with
        | Ok (f, r) => Qeq_bool (before t (UParam p (Some "inflow_factor"))) f && Qeq_bool (before t (UParam p (Some "rhs"))) r
        | _ => false
        end) (indexed tr)
  | PProduct p ms => forallb (fun t => Qeq_bool (before t (UParam p None)) (calc_iter_f64 FProduct (map (before t) ms))) tr
  | PSum p ms => forallb (fun t => Qeq_bool (before t (UParam p None)) (calc_iter_f64 FSum (map (before t) ms))) tr
  | PDifference p a b mn mx =>
      forallb (fun t => ok_eq (before t (UParam p None)) (difference_before (Ok (before t a)) (Ok (before t b)) (befores key t mn) (befores key t mx))) tr
  | PVolumeBetween p total u l =>
      forallb (fun t => ok_eq (before t (UParam p None))
        (volume_between (Ok (before t total)) (option_map (fun m => Ok (before t m)) u) (option_map (fun m => Ok (before t m)) l))) tr
  | PInterpolated p m pts =>
      forallb (fun t => ok_eq (before t (UParam p None)) (interpolated (Ok (before t m)) (map (fun p => (Ok (fst p), Ok (snd p))) pts) true)) tr
  | PPolynomial p m cs => forallb (fun t => ok_eq (before t (UParam p None)) (polynomial cs 1 0 (Ok (before t m)))) tr
  | PHydropower p fl tg el h =>
      forallb (fun t =>
        match tg with None => true | Some _ => ok_eq (before t (UParam p None)) (hydropower_before h (befores key t tg) (befores key t el) None None) end &&
        ok_eq (rs_after t (UParamAfter p)) (hydropower_after h (Some (Ok (rs_after t fl))) (afters t el))) tr
  | PDeficit p fl mx => forallb (fun t => ok_eq (rs_after t (UParamAfter p)) (deficit (Ok (rs_after t fl)) (Ok (rs_after t mx)))) tr
  end.
Lemma forallb_in {A} (f : A -> bool) l x : forallb f l = true -> In x l -> f x = true.
Proof. intros H. rewrite forallb_forall in H. apply H. Qed.
Lemma follows_check_sound tr d : follows_check tr d = true -> follows key tr d.
Proof.
  destruct d; cbn [follows_check follows]; intros E.
  - destruct (hooked_run _ _ _ _) as [vs| |]; try discriminate. exists vs. split; [reflexivity|].
    revert E. apply all2_sound. intros t v. apply Qeq_bool_eq.
  - intros j t Hn. pose proof (forallb_in _ _ _ E (indexed_nth _ _ _ Hn)) as Ht. cbn [fst snd] in Ht.
    destruct (muskingum_before _ _ _ _ _ _) as [[f r]| |]; try discriminate. apply andb_prop in Ht. exists f, r. split; [reflexivity|].
    split; apply Qeq_bool_eq, Ht.
  - intros t Ht. apply Qeq_bool_eq. exact (forallb_in _ _ _ E Ht).
  - intros t Ht. apply Qeq_bool_eq. exact (forallb_in _ _ _ E Ht).
  - intros t Ht. apply ok_eq_sound. exact (forallb_in _ _ _ E Ht).
  - intros t Ht. apply ok_eq_sound. exact (forallb_in _ _ _ E Ht).
  - intros t Ht. apply ok_eq_sound. exact (forallb_in _ _ _ E Ht).
  - intros t Ht. apply ok_eq_sound. exact (forallb_in _ _ _ E Ht).
  - intros t Ht. pose proof (forallb_in _ _ _ E Ht) as Hc. cbn beta in Hc. apply andb_prop in Hc. split.
    + intros Hne. destruct target; [|congruence]. apply ok_eq_sound, Hc.
    + apply ok_eq_sound, Hc.
  - intros t Ht. apply ok_eq_sound. exact (forallb_in _ _ _ E Ht).
Qed.

Definition flows_are (b : net_builder) (net : network) (f : nat -> Q) (t : run_step) (ms : list umetric) : bool :=
  forallb (fun m => match flow_value b net f m with Some q => Qeq_bool (before t m) q | None => true end) ms.
Lemma flows_are_sound b net f t ms : flows_are b net f t ms = true -> forall m q, In m ms -> flow_value b net f m = Some q -> (before t m == q)%Q.
Proof. intros E m q Hm Hq. pose proof (forallb_in _ _ _ E Hm) as Hc. cbn beta in Hc. rewrite Hq in Hc. apply Qeq_bool_eq, Hc. Qed.

(** The time-steps of an example: the values of the numbered metrics, the
    columns of the solution; after the solve parameters keep their values, flows
    are those of the solution and anything else is given. *)
Definition ex_step (b : net_builder) (net : network) (vals : list Q) (x : list Q) (other : umetric -> Q) : run_step :=
  let s := mkSt (fun k => nth k vals 0%Q) (fun _ => 50%Q) (fun _ => 0%Q) (Date 2021 6 1) 1 in
  let x := fun c => nth c x 0%Q in
  mkRunStep s x (fun m =>
    match m with
    | UParam _ _ => value key s m
    | _ => match flow_value b net (edge_flow net x) m with Some q => q | None => other m end
    end).

Definition ex_run_added (sc : schema) : added := match load_schema key None sc with Ok a => a | _ => nothing end.
Definition ex_run_net (sc : schema) : network := match build_network (declaration (ex_run_added sc)) with Ok n => n | _ => mkNet [] [] [] [] end.
Definition ex_steps (sc : schema) (l : list (list Q * list Q * (umetric -> Q))) : list run_step :=
  map (fun p => ex_step (declaration (ex_run_added sc)) (ex_run_net sc) (fst (fst p)) (snd (fst p)) (snd p)) l.
Fixpoint each_after (b : net_builder) (net : network) (f : nat -> Q) (ms : list umetric) (tr : list run_step) : bool :=
  match tr with
  | [] => true
  | t :: r => flows_are b net f t ms && each_after b net (edge_flow net (rs_x t)) ms r
  end.
Definition ex_run_check (sc : schema) (l : list (list Q * list Q * (umetric -> Q))) : bool :=
  let a := ex_run_added sc in
  let net := ex_run_net sc in
  let tr := ex_steps sc l in
  match load_schema key None sc with Ok a => match build_network (declaration a) with Ok n => true | _ => false end | _ => false end
  && forallb (fun a => negb (has_exclusivity a)) (net_aggs net)
  && forallb (fun t => solved_check net F64_MAX [] [] (rs_state t) (rs_x t)) tr
  && each_after (declaration a) net (fun _ => 0%Q) (flat_map reads (ad_params a)) tr
  && forallb (follows_check tr) (ad_params a).
Lemma each_after_sound b net ms : forall tr f, each_after b net f ms tr = true ->
  (forall t, nth_error tr 0 = Some t -> flows_are b net f t ms = true) /\
  (forall j t t', nth_error tr j = Some t -> nth_error tr (S j) = Some t' -> flows_are b net (edge_flow net (rs_x t)) t' ms = true).
Proof.
  induction tr as [|t0 tr IH]; intros f E; [split; [discriminate | intros [|j]; discriminate]|].
  cbn [each_after] in E. apply andb_prop in E. destruct E as [E1 E2]. destruct (IH _ E2) as [I1 I2]. split.
  - intros t Ht. injection Ht as <-. exact E1.
  - intros [|j] t t' Ht Ht'.
    + injection Ht as <-. apply I1, Ht'.
    + apply (I2 j t t' Ht Ht').
Qed.
Lemma ex_file_run sc l : ex_run_check sc l = true -> file_run key None sc (ex_run_added sc) (ex_run_net sc) (ex_steps sc l).
Proof.
  unfold ex_run_check. intros E. cbv zeta in E. apply andb_prop in E. destruct E as [E E5]. apply andb_prop in E. destruct E as [E E4].
  apply andb_prop in E. destruct E as [E E3]. apply andb_prop in E. destruct E as [E1 E2].
  assert (Hl : exists a, load_schema key None sc = Ok a) by (destruct (load_schema key None sc); try discriminate; eauto).
  destruct Hl as (a & Hl). assert (Ea : ex_run_added sc = a) by (unfold ex_run_added; rewrite Hl; reflexivity).
  assert (Eb : build_network (declaration a) = Ok (ex_run_net sc)).
  { unfold ex_run_net. rewrite Ea. rewrite Hl in E1. destruct (build_network (declaration a)); try discriminate. reflexivity. }
  destruct (each_after_sound _ _ _ _ _ E4) as [A1 A2].
  constructor.
  - intros t Ht. constructor; [rewrite Ea; exact Hl | rewrite Ea; exact Eb|].
    exists F64_MAX, [], []. apply solved_check_sound; [apply valid_order_nil; exact E2 | exact (forallb_in _ _ _ E3 Ht)].
  - intros t m q Ht Hq. unfold ex_steps in Ht. apply in_map_iff in Ht. destruct Ht as (p & <- & _). cbn [ex_step rs_after rs_x] in *.
    destruct m; try discriminate Hq; cbn [flow_value] in *; rewrite ?Hq; try reflexivity. injection Hq as <-. reflexivity.
  - intros j t t' m q Hj Hj' Hm Hq. exact (flows_are_sound _ _ _ _ _ (A2 j t t' Hj Hj') m q Hm Hq).
  - intros t m q Hj Hm Hq. exact (flows_are_sound _ _ _ _ _ (A1 t Hj) m q Hm Hq).
  - intros t p k Ht. unfold ex_steps in Ht. apply in_map_iff in Ht. destruct Ht as (z & <- & _). reflexivity.
  - intros d Hd. apply follows_check_sound. exact (forallb_in _ _ _ E5 Hd).
Qed.
Lemma ex_run_not_exclusive sc u : forallb (fun a => negb (has_exclusivity a)) (net_aggs (ex_run_net sc)) = true ->
  not_exclusive (ex_run_added sc) (ex_run_net sc) u.
Proof.
  intros E i _ (g & ns & Hg & (mn & mx & Hr) & _). rewrite forallb_forall in E. specialize (E g Hg).
  unfold has_exclusivity in E. rewrite Hr in E. discriminate.
Qed.
End Check.

Fixpoint nodup_check (l : list nat) : bool := match l with [] => true | x :: r => negb (existsb (Nat.eqb x) r) && nodup_check r end.
Lemma existsb_eqb x l : existsb (Nat.eqb x) l = true <-> In x l.
Proof.
  rewrite existsb_exists. split.
  - intros (y & Hy & E). apply Nat.eqb_eq in E. subst. exact Hy.
  - intros H. exists x. split; [exact H | apply Nat.eqb_refl].
Qed.
Lemma nodup_check_sound l : nodup_check l = true -> NoDup l.
Proof.
  induction l as [|x r IH]; intros E; [constructor|]. cbn in E. apply andb_prop in E. destruct E as [E1 E2]. constructor; [|apply IH, E2].
  intros H. apply existsb_eqb in H. rewrite H in E1. discriminate.
Qed.
Definition factors_separate_check (net : network) (k : nat) (g : agg_node) : bool :=
  forallb (fun i => match nth_error (net_nodes net) i with Some n => match n_type n with TStorage => false | _ => true end | None => true end) (concat (a_nodes g)) &&
  forallb (fun g => match g with [] => false | _ => true end) (a_nodes g) &&
  nodup_check (group_columns net (concat (a_nodes g))) &&
  forallb (fun kg => (fst kg =? k) || match a_rel (snd kg) with
    | Some (RFactored _) => forallb (fun c => negb (existsb (Nat.eqb c) (group_columns net (concat (a_nodes (snd kg)))))) (group_columns net (concat (a_nodes g)))
    | _ => true end) (indexed (net_aggs net)).
Lemma factors_separate_check_sound net k g : factors_separate_check net k g = true -> factors_separate net k g.
Proof.
  unfold factors_separate_check. intros E. apply andb_prop in E. destruct E as [E E4]. apply andb_prop in E. destruct E as [E E3].
  apply andb_prop in E. destruct E as [E1 E2]. constructor.
  - intros i n Hi Hn. pose proof (forallb_in _ _ _ E1 Hi) as Hc. cbn beta in Hc. rewrite Hn in Hc. destruct (n_type n); discriminate.
  - intros g' Hg. pose proof (forallb_in _ _ _ E2 Hg) as Hc. destruct g'; discriminate.
  - apply nodup_check_sound, E3.
  - intros k' a' fs Hk Ha Hr c Hc. pose proof (forallb_in _ _ _ E4 (indexed_nth _ _ _ Ha)) as Hx. cbn [fst snd] in Hx. rewrite Hr in Hx.
    apply orb_prop in Hx. destruct Hx as [Hx|Hx]; [apply Nat.eqb_eq in Hx; contradiction|].
    pose proof (forallb_in _ _ _ Hx Hc) as Hy. cbn beta in Hy. intros Hin. apply existsb_eqb in Hin. rewrite Hin in Hy. discriminate.
Qed.
Definition separate_check (a : added) (net : network) (u : uname) : bool :=
  forallb (fun kab => negb (uname_eqb (ab_name (snd kab)) u) ||
    match nth_error (net_aggs net) (fst kab) with Some g => factors_separate_check net (fst kab) g | None => true end) (indexed (ad_aggs a)).
Lemma separate_check_sound a net u : separate_check a net u = true -> separate a net u.
Proof.
  intros E k ab g Hk Hu Hg. pose proof (forallb_in _ _ _ E (indexed_nth _ _ _ Hk)) as Hc. cbn [fst snd] in Hc. rewrite Hu, Hg in Hc.
  assert (Er : uname_eqb u u = true) by (apply uname_eqb_eq; reflexivity). rewrite Er in Hc. cbn [negb orb] in Hc.
  apply factors_separate_check_sound, Hc.
Qed.
