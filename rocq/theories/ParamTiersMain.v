(** A simulation of the core parameters of a model file satisfies the equations
    of SchemaParams.v. *)
From Coq Require Import QArith Lia Permutation.
From Verif Require Import Base Calendar Network AggFuncs ControlCurves Formulas ParamsTemporal Profiles SchemaNodes SchemaVirtual MetricSets SchemaParams ParamBuild ParamBuildSpec ParamEval ParamEvalSpec ParamTiers ParamTiersLemmas.
From Verif Require Import NetworkBuildLemmas ParamBuildLemmas ParamEvalLemmas ParamOrderLemmas.
Local Open Scope list_scope.
Local Open Scope nat_scope.

Section Run.
Context {X Env Net Er : Type}.
Variable sm : sem (pvalue X) (pint X) Env Net Er.

(** The states of a run, one for each time. *)
Lemma run_states bs nd sh s0 envs outss : run_equations sm bs nd sh s0 envs outss ->
  exists (st : nat -> nstore (pvalue X) (pint X) Net) (net1 : nat -> Net), st 0 = s0 /\
    forall t env, nth_error envs t = Some env ->
      (forall b, In b bs -> step_equation sm bs sh env (st t) (st (S t)) (net1 t) b) /\
      nth_error outss t = Some (map (read_named sm bs (nv_val (st (S t))) (nv_after (st (S t))) (nv_net (st (S t)))) (nd_out nd)) /\
      sm_nodes_before sm env (map (read_named sm bs (nv_val (st (S t))) (nv_after (st t)) (nv_net (st t))) (nd_simple nd)) (nv_net (st t)) = Ok (net1 t) /\
      sm_solve sm env (map (read_named sm bs (nv_val (st (S t))) (nv_after (st t)) (net1 t)) (nd_solve nd)) (net1 t) = Ok (nv_net (st (S t))).
Proof.
  induction 1 as [s|s s' env envs outs outss (n1 & H1 & H3 & H4 & H2) _ (st & net1 & E & IH)].
  - exists (fun _ => s), (fun _ => nv_net s). split; [reflexivity|]. intros [|t] env H; discriminate.
  - exists (fun t => match t with 0 => s | S t => st t end), (fun t => match t with 0 => n1 | S t => net1 t end).
    split; [reflexivity|]. intros [|t] env' H.
    + cbn in H. injection H as <-. rewrite E. split; [exact H1|]. split; [cbn [nth_error]; rewrite H2; reflexivity|]. split; [exact H3|exact H4].
    + exact (IH t env' H).
Qed.

Variables (cd : coding) (env_date : Env -> datetime) (er : calc_error -> Er) (cps : list cparam).
Hypothesis im : implements cd env_date er sm cps.
Variables (nodes other : list nat) (bs : list pbuilder) (coll : collection) (mp : maps).
Hypothesis Hbuild : build nodes other bs = Some (Ok (coll, mp)).
Hypothesis Hcps : forall c, In c cps -> In (builder_of cd c) bs.
Variable sh : pname -> shape.
Hypothesis Hsh : shapes_ok bs sh.
Variable envs : list Env.
Variable st : nat -> nstore (pvalue X) (pint X) Net.
Variable net1 : nat -> Net.
Hypothesis Hset : forall b, In b bs -> setup_equation sm bs sh (st 0) b.
Hypothesis Hstep : forall t env, nth_error envs t = Some env ->
  forall b, In b bs -> step_equation sm bs sh env (st t) (st (S t)) (net1 t) b.
Variable date : nat -> datetime.
Hypothesis Hdate : forall t env, nth_error envs t = Some env -> date t = env_date env.

Let T := length envs.

(** What references read before and after the solve of a time-step. *)
Definition reads (mo : moment) (t : nat) : uref -> res Er (pvalue X) :=
  match mo with
  | Before => read_named sm bs (nv_val (st (S t))) (nv_after (st t)) (net1 t)
  | After => read_named sm bs (nv_val (st (S t))) (nv_after (st (S t))) (nv_net (st (S t)))
  end.

(** The values of the parameters, and everything else metrics read. *)
Definition vals : valuation := fun mo t n =>
  if t <? T then
    match mo with
    | Before => val_of (nv_val (st (S t)) (cd_name cd n))
    | After => val_of (nv_after (st (S t)) (cd_name cd n))
    end
  else VF 0.
Definition others_f (mo : moment) (t : nat) (m : lmetric) : Q :=
  if t <? T then match reads mo t (uref_f cd m) with Ok (PvF q) => q | _ => 0%Q end else 0%Q.
Definition others_i (mo : moment) (t : nat) (m : lindex) : Z :=
  if t <? T then match reads mo t (uref_i cd m) with Ok (PvI z) => z | _ => 0%Z end else 0%Z.
Definition rdr : reader := reader_of vals others_f others_i date.

Lemma env_at t : t < T -> exists env, nth_error envs t = Some env.
Proof. unfold T. intros H. destruct (nth_error envs t) as [e|] eqn:E; [exists e; reflexivity|]. apply nth_error_None in E. lia. Qed.

(** A reference that does not read, before the solve, a value after the solve
    of the time-step before. *)
Definition current (t : nat) (u : uref) : Prop :=
  match u with UF64 n RVAfter | UU64 n RVAfter => type_of bs n = None \/ nv_after (st t) n = None | _ => True end.

Lemma view_f a v w : (a = AcF64 \/ a = AcU64asF64) -> sm_view sm a v = Ok (PvF w) -> float_of (val_of (Some v)) = w.
Proof.
  intros Ha. rewrite (im_view _ _ _ _ _ im) by (intros k ->; destruct Ha; discriminate).
  destruct Ha as [-> | ->], v; cbn; congruence.
Qed.
Lemma view_i v w : sm_view sm AcU64 v = Ok (PvI w) -> int_of (val_of (Some v)) = w.
Proof. rewrite (im_view _ _ _ _ _ im) by discriminate. destruct v; cbn; congruence. Qed.
Lemma conv_f n rv ty : conversion (UF64 n rv) ty = AcF64 \/ conversion (UF64 n rv) ty = AcU64asF64.
Proof. destruct ty; cbn; auto. Qed.

Lemma agree_f mo t m q : t < T -> mo = After \/ current t (uref_f cd m) -> reads mo t (uref_f cd m) = Ok (PvF q) ->
  q = rd_f rdr mo t m.
Proof.
  intros Ht Hc Hr. cbn [rdr reader_of rd_f].
  assert (HO : others_f mo t m = q) by (unfold others_f; rewrite (proj2 (Nat.ltb_lt _ _) Ht), Hr; reflexivity).
  destruct m as [u|u|u l|parent name [k|] rv|c|nm]; cbn [read_f]; try (symmetry; exact HO).
  - destruct rv; try (symmetry; exact HO); unfold vals; rewrite (proj2 (Nat.ltb_lt _ _) Ht); symmetry.
    + assert (Hr' : read_named sm bs (nv_val (st (S t))) (nv_after (st t)) (net1 t) (UF64 (cd_name cd (pname_new name parent)) RVBefore) = Ok (PvF q)) by (destruct mo; exact Hr).
      clear Hr. cbn [read_named ref_target] in Hr'. destruct (type_of bs _) as [ty|]; [|discriminate].
      destruct (nv_val (st (S t)) _) as [v|]; [|discriminate]. apply (view_f _ _ _ (conv_f _ _ ty)) in Hr'. exact Hr'.
    + assert (Hr' : read_named sm bs (nv_val (st (S t))) (nv_after (st (S t))) (nv_net (st (S t))) (UF64 (cd_name cd (pname_new name parent)) RVAfter) = Ok (PvF q)).
      { destruct mo; [|exact Hr]. destruct Hc as [Hc|Hc]; [discriminate|]. cbn [uref_f rv_of current] in Hc.
        cbn [reads uref_f rv_of read_named ref_target] in Hr. destruct Hc as [Hc|Hc]; rewrite Hc in Hr; [|destruct (type_of bs _)]; discriminate. }
      clear Hr. cbn [read_named ref_target] in Hr'. destruct (type_of bs _) as [ty|]; [|discriminate].
      destruct (nv_after (st (S t)) _) as [v|]; [|discriminate]. apply (view_f _ _ _ (conv_f _ _ ty)) in Hr'. exact Hr'.
  - assert (Hl : reads mo t (uref_f cd (LmConst c)) = Ok (sm_lit sm (cd_f cd (LmConst c)))) by (destruct mo; reflexivity).
    rewrite Hr, (im_lit_f _ _ _ _ _ im) in Hl. congruence.
Qed.

Lemma agree_i mo t m z : t < T -> mo = After \/ current t (uref_i cd m) -> reads mo t (uref_i cd m) = Ok (PvI z) ->
  z = rd_i rdr mo t m.
Proof.
  intros Ht Hc Hr. cbn [rdr reader_of rd_i].
  assert (HO : others_i mo t m = z) by (unfold others_i; rewrite (proj2 (Nat.ltb_lt _ _) Ht), Hr; reflexivity).
  destruct m as [c|name [k|] rv|k]; cbn [read_i]; try (symmetry; exact HO).
  - assert (Hl : reads mo t (uref_i cd (LiConst c)) = Ok (sm_lit sm (cd_i cd (LiConst c)))) by (destruct mo; reflexivity).
    rewrite Hr, (im_lit_i _ _ _ _ _ im) in Hl. congruence.
  - destruct rv; try (symmetry; exact HO); unfold vals; rewrite (proj2 (Nat.ltb_lt _ _) Ht); symmetry.
    + assert (Hr' : read_named sm bs (nv_val (st (S t))) (nv_after (st t)) (net1 t) (UU64 (cd_name cd name) RVBefore) = Ok (PvI z)) by (destruct mo; exact Hr).
      clear Hr. cbn [read_named ref_target conversion] in Hr'. destruct (type_of bs _) as [ty|]; [|discriminate].
      destruct (nv_val (st (S t)) _) as [v|]; [|discriminate]. apply view_i in Hr'. exact Hr'.
    + assert (Hr' : read_named sm bs (nv_val (st (S t))) (nv_after (st (S t))) (nv_net (st (S t))) (UU64 (cd_name cd name) RVAfter) = Ok (PvI z)).
      { destruct mo; [|exact Hr]. destruct Hc as [Hc|Hc]; [discriminate|]. cbn [uref_i rv_of current] in Hc.
        cbn [reads uref_i rv_of read_named ref_target] in Hr. destruct Hc as [Hc|Hc]; rewrite Hc in Hr; [|destruct (type_of bs _)]; discriminate. }
      clear Hr. cbn [read_named ref_target conversion] in Hr'. destruct (type_of bs _) as [ty|]; [|discriminate].
      destruct (nv_after (st (S t)) _) as [v|]; [|discriminate]. apply view_i in Hr'. exact Hr'.
Qed.

(** *** References to constant and simple parameters *)

Lemma type_of_in n ty : type_of bs n = Some ty -> exists b, In b bs /\ pb_name b = n.
Proof.
  unfold type_of. destruct (find _ bs) as [b|] eqn:E; [|discriminate]. intros _. apply find_some in E. destruct E as [E1 E2].
  exists b. split; [exact E1|]. apply Nat.eqb_eq. exact E2.
Qed.

Lemma no_after b t : In b bs -> t <= T -> (match sh (pb_name b) with ShGeneral _ _ => False | _ => True end) -> nv_after (st t) (pb_name b) = None.
Proof.
  intros Hb Ht Hs. destruct t as [|t].
  - pose proof (Hset b Hb) as H. unfold setup_equation in H. destruct (sh (pb_name b)); [destruct H as (v & x & _ & _ & H & _); exact H|apply H|contradiction].
  - destruct (env_at t) as [env He]; [lia|]. pose proof (Hstep t env He b Hb) as H. unfold step_equation in H.
    destruct (sh (pb_name b)); [apply H|destruct H as (? & ? & ? & _ & _ & _ & H & _); exact H|contradiction].
Qed.

Lemma const_kept b t : In b bs -> t <= T -> sh (pb_name b) = ShConst -> nv_val (st t) (pb_name b) = nv_val (st 0) (pb_name b).
Proof.
  intros Hb Ht Hs. induction t as [|t IH]; [reflexivity|]. destruct (env_at t) as [env He]; [lia|].
  pose proof (Hstep t env He b Hb) as H. unfold step_equation in H. rewrite Hs in H. destruct H as (H & _). rewrite H. apply IH. lia.
Qed.

(** Such a reference reads the same before and after the solve. *)
Lemma same_reading t u : t < T -> ref_class sh u <> KGeneral -> reads Before t u = reads After t u /\ current t u.
Proof.
  intros Ht Hk.
  assert (HN : forall n ty, type_of bs n = Some ty -> (match sh n with ShGeneral _ _ => KGeneral | ShConst => KConst | ShSimple => KSimple end) <> KGeneral ->
    nv_after (st t) n = None /\ nv_after (st (S t)) n = None).
  { intros n ty Hty Hn. destruct (type_of_in _ _ Hty) as (b & Hb & <-).
    assert (Hs : match sh (pb_name b) with ShGeneral _ _ => False | _ => True end) by (destruct (sh (pb_name b)); auto).
    split; apply no_after; auto; lia. }
  destruct u as [n rv|n rv|n k rv|k|k|k]; cbn [ref_class] in Hk; try congruence; try (split; [reflexivity|exact I]).
  all: cbn [reads read_named ref_target]; destruct (type_of bs n) as [ty|] eqn:Ety.
  all: try (destruct (HN n ty Ety Hk) as [H1 H2]; rewrite H1, H2; destruct rv; cbn [current]; auto).
  all: split; [reflexivity|]; cbn [current]; destruct rv; auto.
Qed.

(** What a constant refers to was already there at the set-up. *)
Lemma setup_reading t u w : t < T -> ref_class sh u = KConst ->
  read_named sm bs (nv_val (st 0)) (nv_after (st 0)) (nv_net (st 0)) u = Ok w -> reads Before t u = Ok w.
Proof.
  intros Ht Hk.
  assert (HN : forall n ty, type_of bs n = Some ty -> (match sh n with ShGeneral _ _ => KGeneral | ShConst => KConst | ShSimple => KSimple end) = KConst ->
    nv_after (st 0) n = None /\ nv_after (st t) n = None /\ nv_val (st (S t)) n = nv_val (st 0) n).
  { intros n ty Hty Hn. destruct (type_of_in _ _ Hty) as (b & Hb & <-). destruct (sh (pb_name b)) eqn:Hs; try discriminate.
    split; [|split]; [apply no_after; auto; try lia; rewrite Hs; exact I|apply no_after; auto; try lia; rewrite Hs; exact I|apply const_kept; auto; lia]. }
  destruct u as [n rv|n rv|n k rv|k|k|k]; cbn [ref_class] in Hk; try discriminate; try (intros H; exact H).
  all: cbn [reads read_named ref_target]; destruct (type_of bs n) as [ty|] eqn:Ety; try discriminate.
  all: destruct (HN n ty Ety Hk) as (H1 & H2 & H3); rewrite H1, H2, H3; destruct rv; intros H; try discriminate; exact H.
Qed.

(** *** One parameter *)

Section One.
Variable c : cparam.
Hypothesis Hc : In c cps.
Let b := builder_of cd c.
Let n := cd_name cd (cp_name c).
Let body := cp_body c.
Let us := body_urefs cd body.
Let ks := map (ref_class sh) us.

Lemma shape_of : body_shape body ks = Some (sh n).
Proof.
  pose proof (Hsh b (Hcps c Hc)) as H. cbn [b builder_of pb_shape pb_refs pb_name] in H. rewrite map_map in H. cbn [fst] in H. exact H.
Qed.

Lemma agrees_after t : t < T -> agrees cd rdr After t (reads After t) body.
Proof. intros Ht. split; intros m _ w H; [apply (agree_f After)|apply (agree_i After)]; auto. Qed.

Lemma agrees_before t : t < T -> (forall u, In u us -> current t u) -> agrees cd rdr Before t (reads Before t) body.
Proof. intros Ht Hu. split; intros m Hm w H; [apply (agree_f Before)|apply (agree_i Before)]; auto. Qed.

Lemma current_before t : body_consumer body <> CAfter -> forall u, In u us -> current t u.
Proof.
  intros Hk u Hu. pose proof (built_after nodes other bs coll mp b u (body_consumer body) Hbuild (Hcps c Hc)) as H.
  cbn [b builder_of pb_refs] in H. specialize (H (in_map (fun u => (u, body_consumer (cp_body c))) _ _ Hu)).
  destruct u as [x rv|x rv| | | |]; try exact I; destruct rv; try exact I; congruence.
Qed.

Lemma current_simple t : t < T -> all_simple ks = true -> forall u, In u us -> current t u.
Proof.
  intros Ht Hk u Hu. apply same_reading; [exact Ht|]. unfold all_simple, ks in Hk. rewrite forallb_forall in Hk.
  specialize (Hk _ (in_map _ _ _ Hu)). destruct (ref_class sh u); congruence.
Qed.

Lemma fact_const t : t < T -> sh n = ShConst -> exists v x,
  const_body body (map (read_named sm bs (nv_val (st 0)) (nv_after (st 0)) (nv_net (st 0))) us) (body_setup body) = Ok (v, x) /\
  nv_val (st (S t)) n = Some v.
Proof.
  intros Ht Hs. pose proof (Hset b (Hcps c Hc)) as H. unfold setup_equation in H. cbn [b builder_of pb_name] in H. fold n in H. rewrite Hs in H.
  destruct H as (v & x & H1 & H2 & _). fold b in H1. unfold b, n in H1. rewrite refs_all_of, (im_setup _ _ _ _ _ im c Hc), (im_const _ _ _ _ _ im c Hc) in H1.
  apply lift_inv in H1. exists v, x. split; [exact H1|]. change n with (pb_name b). rewrite const_kept; [exact H2|exact (Hcps c Hc)|lia|exact Hs].
Qed.

Lemma fact_simple t env : nth_error envs t = Some env -> sh n = ShSimple -> exists x v x',
  nv_int (st t) n = Some x /\ simple_body (date t) body (map (reads Before t) us) x = Ok (v, x') /\
  nv_val (st (S t)) n = Some v /\ nv_int (st (S t)) n = Some x'.
Proof.
  intros He Hs. pose proof (Hstep t env He b (Hcps c Hc)) as H. unfold step_equation in H. cbn [b builder_of pb_name] in H. fold n in H. rewrite Hs in H.
  destruct H as (x & v & x' & H1 & H2 & H3 & _ & H4). fold b in H2. unfold b, n in H2. rewrite refs_all_of, (im_simple _ _ _ _ _ im c Hc) in H2.
  apply lift_inv in H2. rewrite (Hdate _ _ He). exists x, v, x'. auto.
Qed.

Lemma fact_general t env bf af : nth_error envs t = Some env -> sh n = ShGeneral bf af -> exists x x1 x2,
  nv_int (st t) n = Some x /\ nv_int (st (S t)) n = Some x2 /\
  (if bf then exists v, before_body (date t) body (map (reads Before t) (match body_consumer body with CAfter => [] | _ => us end)) x = Ok (v, x1) /\ nv_val (st (S t)) n = Some v
   else x1 = x) /\
  match af with
  | None => x2 = x1
  | Some OpHook => hook_body body (map (reads After t) us) x1 = Ok x2
  | Some OpValue => exists v, after_body body (map (reads After t) us) x1 = Ok (v, x2) /\ nv_after (st (S t)) n = Some v
  end.
Proof.
  intros He Hs. pose proof (Hstep t env He b (Hcps c Hc)) as H. unfold step_equation in H. cbn [b builder_of pb_name] in H. fold n in H. rewrite Hs in H.
  destruct H as (x & x1 & x2 & H1 & H2 & H3 & H4). exists x, x1, x2. split; [exact H1|]. split; [exact H2|]. fold b in H3, H4. split.
  - destruct bf; [|apply H3]. destruct H3 as (v & H3 & H5). unfold b, n in H3. rewrite refs_before_of, (im_before _ _ _ _ _ im c Hc) in H3. apply lift_inv in H3.
    rewrite (Hdate _ _ He). exists v. auto.
  - destruct af as [[|]|]; [| |apply H4].
    + destruct H4 as (v & H4 & H5). unfold b, n in H4. rewrite refs_all_of, (im_after _ _ _ _ _ im c Hc) in H4. apply lift_inv in H4. exists v. auto.
    + destruct H4 as (H4 & _). unfold b, n in H4. rewrite refs_all_of, (im_hook _ _ _ _ _ im c Hc) in H4. apply lift_inv in H4. exact H4.
Qed.

Lemma vals_before t v : t < T -> nv_val (st (S t)) n = Some v -> vals Before t (cp_name c) = val_of (Some v).
Proof. intros Ht H. unfold vals. rewrite (proj2 (Nat.ltb_lt _ _) Ht). fold n. rewrite H. reflexivity. Qed.
Lemma vals_after t v : t < T -> nv_after (st (S t)) n = Some v -> vals After t (cp_name c) = val_of (Some v).
Proof. intros Ht H. unfold vals. rewrite (proj2 (Nat.ltb_lt _ _) Ht). fold n. rewrite H. reflexivity. Qed.

Lemma all_constant_simple l : all_constant l = true -> all_simple l = true.
Proof. induction l as [|k l IH]; [reflexivity|]. cbn. destruct k; try discriminate. exact IH. Qed.

(** Which implementations a parameter without a memory may get. *)
Lemma pointwise_shapes mo : pointwise body = true -> at_moment (body_phase body) mo = true ->
  match mo with
  | Before => sh n = ShConst /\ all_constant ks = true \/ sh n = ShSimple /\ all_simple ks = true \/
      exists af, sh n = ShGeneral true af /\ body_consumer body <> CAfter
  | After => exists bf, sh n = ShGeneral bf (Some OpValue)
  end.
Proof.
  intros Hp Hm. pose proof shape_of as H. destruct body; cbn in Hp; try discriminate Hp; cbn in Hm; destruct mo; try discriminate Hm; cbn in H.
  all: try (destruct phase; try discriminate Hm).
  all: try (destruct ks as [|]; [injection H as H; rewrite <- H|discriminate]).
  all: try (match type of H with (if ?x then Some ShSimple else _) = _ => change x with (all_simple ks) in H; destruct (all_simple ks) eqn:E1; try discriminate H; injection H as H; rewrite <- H end).
  all: try (match type of H with (if ?x then _ else _) = _ => destruct x eqn:E1 end;
            [|match type of H with (if ?x then _ else _) = _ => destruct x eqn:E2 end]); try (injection H as H; rewrite <- H).
  all: unfold entry_before, entry_after, entry_both.
  all: first [left; split; reflexivity | right; left; split; reflexivity | left; split; [reflexivity|assumption]
             | right; left; split; [reflexivity|assumption] | right; right; eexists; split; [reflexivity|discriminate] | eexists; reflexivity | idtac].
Qed.

Lemma pointwise_values mo : pointwise body = true -> at_moment (body_phase body) mo = true ->
  forall t, t < T -> point rdr mo t body = Ok (vals mo t (cp_name c)).
Proof.
  intros Hp Hm t Ht. destruct (env_at t Ht) as [env He]. pose proof (pointwise_shapes mo Hp Hm) as Hk.
  assert (Hd : rd_date rdr t = date t) by reflexivity.
  destruct mo.
  - destruct Hk as [[Hs Hk]|[[Hs Hk]|(af & Hs & Hk)]].
    + destruct (fact_const t Ht Hs) as (v & x & H1 & H2). rewrite (vals_before _ _ Ht H2).
      refine (const_point cd rdr Before t _ body v x _ H1).
      assert (A := agrees_before t Ht (current_simple t Ht (all_constant_simple _ Hk))).
      assert (HC : forall u, In u us -> ref_class sh u = KConst).
      { intros u Hu. unfold all_constant, ks in Hk. rewrite forallb_forall in Hk. specialize (Hk _ (in_map _ _ _ Hu)). destruct (ref_class sh u); congruence. }
      split; intros m Hin w Hr; [apply (proj1 A _ Hin)|apply (proj2 A _ Hin)]; apply setup_reading; auto.
    + destruct (fact_simple t env He Hs) as (x & v & x' & _ & H1 & H2 & _). rewrite (vals_before _ _ Ht H2).
      exact (simple_point cd (date t) rdr Before t _ Hd body x v x' Hp (agrees_before t Ht (current_simple t Ht Hk)) H1).
    + destruct (fact_general t env _ _ He Hs) as (x & x1 & x2 & _ & _ & (v & H1 & H2) & _). rewrite (vals_before _ _ Ht H2).
      refine (before_point cd (date t) rdr Before t _ Hd body x v x1 Hp (agrees_before t Ht (current_before t Hk)) _).
      destruct (body_consumer body); [exact H1|congruence|exact H1].
  - destruct Hk as (bf & Hs). destruct (fact_general t env _ _ He Hs) as (x & x1 & x2 & _ & _ & _ & (v & H1 & H2)). rewrite (vals_after _ _ Ht H2).
    apply (after_point cd rdr After t _ body x1 v x2 (agrees_after t Ht) H1).
Qed.

(** *** Parameters with a memory *)

Definition state (t : nat) : pint X := match nv_int (st t) n with Some x => x | None => SNone end.

Lemma state_setup : sh n <> ShConst -> state 0 = body_setup body.
Proof.
  intros Hs. pose proof (Hset b (Hcps c Hc)) as H. unfold setup_equation in H. cbn [b builder_of pb_name] in H. fold n in H. unfold state.
  destruct (sh n) as [| |bf af]; [congruence| |]; destruct H as (_ & _ & H); rewrite H; exact (im_setup _ _ _ _ _ im c Hc).
Qed.

(** A parameter that is evaluated before the solve only. *)
Lemma stepped t : t < T -> sh n = entry_before -> body_consumer body = CBefore ->
  exists v, before_body (date t) body (map (reads Before t) us) (state t) = Ok (v, state (S t)) /\
    vals Before t (cp_name c) = val_of (Some v) /\ agrees cd rdr Before t (reads Before t) body.
Proof.
  intros Ht Hs Hk. destruct (env_at t Ht) as [env He]. destruct (fact_general t env _ _ He Hs) as (x & x1 & x2 & H1 & H2 & (v & H3 & H4) & H5).
  rewrite Hk in H3. exists v. unfold state. rewrite H1, H2, H5. split; [exact H3|]. split; [exact (vals_before _ _ Ht H4)|].
  apply agrees_before; [exact Ht|]. apply current_before. congruence.
Qed.

(** An offset never has a value. *)
Lemma no_offset m o t : body = COffset m o -> T <= t.
Proof.
  intros Hb. destruct (Nat.le_gt_cases T t) as [H|Ht]; [exact H|]. pose proof shape_of as Hs. rewrite Hb in Hs. injection Hs as Hs.
  destruct (stepped t Ht (eq_sym Hs)) as (v & H & _); [rewrite Hb; reflexivity|]. rewrite Hb in H. unfold us in H. rewrite Hb in H. cbn in H. discriminate H.
Qed.

(** One that remembers after the solve. *)
Lemma remembers t : t < T -> sh n = entry_before_with_after_hook -> body_consumer body = CAfter ->
  exists v x, @before_body X Er (date t) body [] (state t) = Ok (v, x) /\ hook_body body (map (reads After t) us) x = Ok (state (S t)) /\
    vals Before t (cp_name c) = val_of (Some v) /\ agrees cd rdr After t (reads After t) body.
Proof.
  intros Ht Hs Hk. destruct (env_at t Ht) as [env He]. destruct (fact_general t env _ _ He Hs) as (x & x1 & x2 & H1 & H2 & (v & H3 & H4) & H5).
  rewrite Hk in H3. exists v, x1. unfold state. rewrite H1, H2. split; [exact H3|]. split; [exact H5|]. split; [exact (vals_before _ _ Ht H4)|].
  apply agrees_after; exact Ht.
Qed.

(** A delay of zero, of what is read from the network, never has a value. *)
Lemma no_zero_delay m q k : body = CDelay m 0 q -> uref_f cd m = UOther k -> T = 0.
Proof.
  intros Hb Hm. destruct T as [|T'] eqn:ET; [reflexivity|exfalso].
  assert (Hu : us = [UOther k]) by (unfold us; rewrite Hb; cbn [body_urefs]; rewrite Hm; reflexivity).
  assert (Hs : sh n = entry_before_with_after_hook).
  { pose proof shape_of as H. unfold ks in H. rewrite Hu, Hb in H. cbn in H. injection H as H. symmetry. exact H. }
  destruct (remembers 0 ltac:(lia) Hs ltac:(rewrite Hb; reflexivity)) as (v & x & H & _).
  rewrite state_setup in H by (rewrite Hs; discriminate). rewrite Hb in H. cbn in H. discriminate H.
Qed.

(** One that does both at once. *)
Lemma at_once t : t < T -> sh n = ShSimple -> all_simple ks = true ->
  exists v, simple_body (date t) body (map (reads Before t) us) (state t) = Ok (v, state (S t)) /\
    vals Before t (cp_name c) = val_of (Some v) /\ agrees cd rdr Before t (reads Before t) body.
Proof.
  intros Ht Hs Hk. destruct (env_at t Ht) as [env He]. destruct (fact_simple t env He Hs) as (x & v & x' & H1 & H2 & H3 & H4).
  exists v. unfold state. rewrite H1, H4. split; [exact H2|]. split; [exact (vals_before _ _ Ht H3)|].
  apply agrees_before; [exact Ht|]. apply current_simple; assumption.
Qed.

(** A simple metric has one value in a time-step. *)
Lemma one_value_f m : all_simple [ref_class sh (uref_f cd m)] = true -> forall t, rd_f rdr Before t m = rd_f rdr After t m.
Proof.
  intros Hk t. assert (HG : ref_class sh (uref_f cd m) <> KGeneral) by (unfold all_simple in Hk; cbn [forallb] in Hk; destruct (ref_class sh (uref_f cd m)); discriminate).
  assert (HO : others_f Before t m = others_f After t m).
  { unfold others_f. destruct (Nat.ltb_spec t T) as [Ht|Ht]; [|reflexivity]. rewrite (proj1 (same_reading t _ Ht HG)). reflexivity. }
  cbn [rdr reader_of rd_f]. destruct m as [u|u|u l|parent name [k|] rv|q|nm]; cbn [read_f]; try exact HO; try reflexivity.
  destruct rv; try exact HO; reflexivity.
Qed.
Lemma one_value_i m : all_simple [ref_class sh (uref_i cd m)] = true -> forall t, rd_i rdr Before t m = rd_i rdr After t m.
Proof.
  intros Hk t. assert (HG : ref_class sh (uref_i cd m) <> KGeneral) by (unfold all_simple in Hk; cbn [forallb] in Hk; destruct (ref_class sh (uref_i cd m)); discriminate).
  assert (HO : others_i Before t m = others_i After t m).
  { unfold others_i. destruct (Nat.ltb_spec t T) as [Ht|Ht]; [|reflexivity]. rewrite (proj1 (same_reading t _ Ht HG)). reflexivity. }
  cbn [rdr reader_of rd_i]. destruct m as [q|name [k|] rv|k]; cbn [read_i]; try exact HO; try reflexivity.
  destruct rv; try exact HO; reflexivity.
Qed.

Definition of_memory_f (s : pint X) : list Q := match s with SMemoryF l => l | _ => [] end.
Definition of_memory_i (s : pint X) : list Z := match s with SMemoryI l => l | _ => [] end.
Definition of_activated (s : pint X) : bool := match s with SActivated a => a | _ => false end.
Definition of_position (s : pint X) : nat := match s with SPosition k => k | _ => 0 end.
Definition of_switch (s : pint X) : Z := match s with SSwitch z => z | _ => 0%Z end.

Lemma memory_f_inv s l : @memory_f X s = Ok l -> s = SMemoryF l.
Proof. destruct s; cbn; congruence. Qed.
Lemma memory_i_inv s l : @memory_i X s = Ok l -> s = SMemoryI l.
Proof. destruct s; cbn; congruence. Qed.

(** A memory of floats. *)
Lemma remembered_f m (bef : list Q -> res unit (Q * list Q)) aft comp s0 :
  us = [uref_f cd m] -> body_consumer body = CAfter -> @body_setup X body = SMemoryF s0 ->
  body_shape body ks = (if all_simple ks then Some ShSimple else Some entry_before_with_after_hook) ->
  (forall d rs s, @before_body X Er d body rs s = rbind (memory_f s) (fun l => rbind (of_unit (bef l)) (fun p => Ok (PvF (fst p), SMemoryF (snd p))))) ->
  (forall r s, @hook_body X Er body [r] s = rbind (memory_f s) (fun l => rbind (to_f r) (fun v => Ok (SMemoryF (aft v l))))) ->
  (forall d r s, @simple_body X Er d body [r] s = rbind (memory_f s) (fun l => rbind (to_f r) (fun v =>
     rbind (of_unit (comp v l)) (fun p => Ok (PvF (fst p), SMemoryF (snd p)))))) ->
  exists qs, remembered unit bef aft comp s0 (fun mo t => rd_f rdr mo t m) T qs /\
    steps T (fun t => vals Before t (cp_name c)) = map VF qs.
Proof.
  intros Hu Hk H0 HS HB HH HC. rewrite shape_of in HS. exists (steps T (fun t => float_of (vals Before t (cp_name c)))).
  assert (E0 : s0 = of_memory_f (state 0)).
  { rewrite state_setup; [rewrite H0; reflexivity|]. intros E. rewrite E in HS. destruct (all_simple ks); discriminate. }
  assert (Hin : In (uref_f cd m) us) by (rewrite Hu; left; reflexivity).
  destruct (all_simple ks) eqn:Ek.
  - assert (HT : forall t, t < T -> exists q, vals Before t (cp_name c) = VF q /\
      comp (rd_f rdr Before t m) (of_memory_f (state t)) = Ok (q, of_memory_f (state (S t)))).
    { intros t Ht. destruct (at_once t Ht ltac:(congruence) Ek) as (v & H1 & H2 & A). rewrite Hu in H1. cbn [map] in H1. rewrite HC in H1.
      apply rbind_inv in H1. destruct H1 as (l & H1 & H3). apply memory_f_inv in H1. rewrite H1.
      apply (rbind_below _ (rd_f rdr Before t m)) in H3; [|apply to_f_below; exact (proj1 A m Hin)]. apply rbind_inv in H3. destruct H3 as ([q l'] & H3 & H4).
      apply of_unit_inv in H3. cbn [fst snd] in H4. injection H4 as <- <-. exists q. split; [exact H2|exact H3]. }
    split.
    + right. split; [apply one_value_f; unfold ks in Ek; rewrite Hu in Ek; exact Ek|]. rewrite E0.
      apply (direct_steps comp (fun t => of_memory_f (state t))). intros t Ht. destruct (HT t Ht) as (q & E1 & E2). rewrite E1. exact E2.
    + apply steps_map. intros t Ht. destruct (HT t Ht) as (q & E1 & _). rewrite E1. reflexivity.
  - assert (HT : forall t, t < T -> exists q, vals Before t (cp_name c) = VF q /\
      exists l, bef (of_memory_f (state t)) = Ok (q, l) /\ of_memory_f (state (S t)) = aft (rd_f rdr After t m) l).
    { intros t Ht. destruct (remembers t Ht ltac:(congruence) Hk) as (v & x & H1 & H1' & H2 & A). rewrite HB in H1.
      apply rbind_inv in H1. destruct H1 as (l & H1 & H3). apply memory_f_inv in H1. rewrite H1.
      apply rbind_inv in H3. destruct H3 as ([q l'] & H3 & H4). apply of_unit_inv in H3. cbn [fst snd] in H4. injection H4 as <- <-.
      exists q. split; [exact H2|]. exists l'. split; [exact H3|]. rewrite Hu in H1'. cbn [map] in H1'. rewrite HH in H1'. cbn [memory_f rbind] in H1'.
      apply (rbind_below _ (rd_f rdr After t m)) in H1'; [|apply to_f_below; exact (proj1 A m Hin)]. injection H1' as <-. reflexivity. }
    split.
    + left. rewrite E0. apply (hooked_steps bef aft (fun t => of_memory_f (state t))). intros t Ht. destruct (HT t Ht) as (q & E1 & l & E2 & E3). exists l. rewrite E1. auto.
    + apply steps_map. intros t Ht. destruct (HT t Ht) as (q & E1 & _). rewrite E1. reflexivity.
Qed.
(** A memory of integers. *)
Lemma remembered_i m (bef : list Z -> res unit (Z * list Z)) aft comp s0 :
  us = [uref_i cd m] -> body_consumer body = CAfter -> @body_setup X body = SMemoryI s0 ->
  body_shape body ks = (if all_simple ks then Some ShSimple else Some entry_before_with_after_hook) ->
  (forall d rs s, @before_body X Er d body rs s = rbind (memory_i s) (fun l => rbind (of_unit (bef l)) (fun p => Ok (PvI (fst p), SMemoryI (snd p))))) ->
  (forall r s, @hook_body X Er body [r] s = rbind (memory_i s) (fun l => rbind (to_i r) (fun v => Ok (SMemoryI (aft v l))))) ->
  (forall d r s, @simple_body X Er d body [r] s = rbind (memory_i s) (fun l => rbind (to_i r) (fun v =>
     rbind (of_unit (comp v l)) (fun p => Ok (PvI (fst p), SMemoryI (snd p)))))) ->
  exists qs, remembered unit bef aft comp s0 (fun mo t => rd_i rdr mo t m) T qs /\
    steps T (fun t => vals Before t (cp_name c)) = map VI qs.
Proof.
  intros Hu Hk H0 HS HB HH HC. rewrite shape_of in HS. exists (steps T (fun t => int_of (vals Before t (cp_name c)))).
  assert (E0 : s0 = of_memory_i (state 0)).
  { rewrite state_setup; [rewrite H0; reflexivity|]. intros E. rewrite E in HS. destruct (all_simple ks); discriminate. }
  assert (Hin : In (uref_i cd m) us) by (rewrite Hu; left; reflexivity).
  destruct (all_simple ks) eqn:Ek.
  - assert (HT : forall t, t < T -> exists q, vals Before t (cp_name c) = VI q /\
      comp (rd_i rdr Before t m) (of_memory_i (state t)) = Ok (q, of_memory_i (state (S t)))).
    { intros t Ht. destruct (at_once t Ht ltac:(congruence) Ek) as (v & H1 & H2 & A). rewrite Hu in H1. cbn [map] in H1. rewrite HC in H1.
      apply rbind_inv in H1. destruct H1 as (l & H1 & H3). apply memory_i_inv in H1. rewrite H1.
      apply (rbind_below _ (rd_i rdr Before t m)) in H3; [|apply to_i_below; exact (proj2 A m Hin)]. apply rbind_inv in H3. destruct H3 as ([q l'] & H3 & H4).
      apply of_unit_inv in H3. cbn [fst snd] in H4. injection H4 as <- <-. exists q. split; [exact H2|exact H3]. }
    split.
    + right. split; [apply one_value_i; unfold ks in Ek; rewrite Hu in Ek; exact Ek|]. rewrite E0.
      apply (direct_steps comp (fun t => of_memory_i (state t))). intros t Ht. destruct (HT t Ht) as (q & E1 & E2). rewrite E1. exact E2.
    + apply steps_map. intros t Ht. destruct (HT t Ht) as (q & E1 & _). rewrite E1. reflexivity.
  - assert (HT : forall t, t < T -> exists q, vals Before t (cp_name c) = VI q /\
      exists l, bef (of_memory_i (state t)) = Ok (q, l) /\ of_memory_i (state (S t)) = aft (rd_i rdr After t m) l).
    { intros t Ht. destruct (remembers t Ht ltac:(congruence) Hk) as (v & x & H1 & H1' & H2 & A). rewrite HB in H1.
      apply rbind_inv in H1. destruct H1 as (l & H1 & H3). apply memory_i_inv in H1. rewrite H1.
      apply rbind_inv in H3. destruct H3 as ([q l'] & H3 & H4). apply of_unit_inv in H3. cbn [fst snd] in H4. injection H4 as <- <-.
      exists q. split; [exact H2|]. exists l'. split; [exact H3|]. rewrite Hu in H1'. cbn [map] in H1'. rewrite HH in H1'. cbn [memory_i rbind] in H1'.
      apply (rbind_below _ (rd_i rdr After t m)) in H1'; [|apply to_i_below; exact (proj2 A m Hin)]. injection H1' as <-. reflexivity. }
    split.
    + left. rewrite E0. apply (hooked_steps bef aft (fun t => of_memory_i (state t))). intros t Ht. destruct (HT t Ht) as (q & E1 & l & E2 & E3). exists l. rewrite E1. auto.
    + apply steps_map. intros t Ht. destruct (HT t Ht) as (q & E1 & _). rewrite E1. reflexivity.
Qed.

(** Every value the parameter has in the run is the one its type defines. *)
Lemma one_evaluates mo : at_moment (body_phase body) mo = true -> evaluates rdr T mo body (steps T (fun t => vals mo t (cp_name c))).
Proof.
  intros Hm. destruct (pointwise body) eqn:Hp.
  - assert (E : rmap (fun t => point rdr mo t body) (seq 0 T) = Ok (steps T (fun t => vals mo t (cp_name c)))).
    { apply rmap_steps. apply pointwise_values; assumption. }
    revert E Hp. generalize (steps T (fun t => vals mo t (cp_name c))) as o. destruct body; intros o E Hp; try discriminate Hp; exact E.
  - destruct mo; [|exfalso; revert Hm Hp; destruct body; discriminate].
    pose proof shape_of as HS. pose proof stepped as STP. pose proof state_setup as S0. pose proof remembered_f as RF. pose proof remembered_i as RI.
    assert (EU : us = body_urefs cd body) by reflexivity.
    clearbody us. clearbody body.
    destruct body eqn:Eb; try discriminate Hp; cbn [body_shape] in HS; cbn [evaluates]; clear Hm Hp.
    + (* threshold *)
      exists (steps T (fun t => int_of (vals Before t (cp_name c)))).
      assert (HT : forall t, t < T -> exists z, vals Before t (cp_name c) = VI z /\
        threshold_before p ratchet (rd_f rdr Before t m, rd_f rdr Before t threshold) (of_activated (state t)) = Ok (z, of_activated (state (S t)))).
      { intros t Ht. destruct (STP t Ht ltac:(congruence) eq_refl) as (v & H1 & H2 & A). rewrite EU in H1. cbn [body_urefs map before_body] in H1.
        destruct (state t) as [| | | |a| | |]; try discriminate. apply rbind_inv in H1. destruct H1 as ([z a'] & H1 & H3). cbn [fst snd] in H3. injection H3 as <- <-.
        exists z. split; [exact H2|]. cbn [of_activated]. unfold threshold_general, threshold_before in *. destruct (ratchet && a); [congruence|].
        apply (rbind_below _ (rd_f rdr Before t threshold)) in H1; [|apply to_f_below; apply (proj1 A); cbn; auto].
        apply (rbind_below _ (rd_f rdr Before t m)) in H1; [|apply to_f_below; apply (proj1 A); cbn; auto].
        cbn [fst snd]. destruct (predicate_apply _ _ _); congruence. }
      split; [|apply steps_map; intros t Ht; destruct (HT t Ht) as (z & E1 & _); rewrite E1; reflexivity].
      change threshold_setup with (of_activated (@body_setup X (CThreshold m threshold p ratchet))). rewrite <- S0 by (intros E; rewrite E in HS; discriminate).
      apply (direct_steps (threshold_before p ratchet) (fun t => of_activated (state t))). intros t Ht. destruct (HT t Ht) as (z & E1 & E2). rewrite E1. exact E2.
    + (* multi-threshold *)
      exists (steps T (fun t => Z.to_nat (int_of (vals Before t (cp_name c))))).
      assert (HT : forall t, t < T -> exists k, vals Before t (cp_name c) = VI (Z.of_nat k) /\
        multi_threshold_before p ratchet (rd_f rdr Before t m, map (rd_f rdr Before t) thresholds) (of_position (state t)) = Ok (k, of_position (state (S t)))).
      { intros t Ht. destruct (STP t Ht ltac:(congruence) eq_refl) as (v & H1 & H2 & A). rewrite EU in H1. cbn [body_urefs map before_body] in H1.
        destruct (state t) as [| | | | |a| |]; try discriminate. apply rbind_inv in H1. destruct H1 as ([k a'] & H1 & H3). cbn [fst snd] in H3. injection H3 as <- <-.
        exists k. split; [exact H2|]. cbn [of_position]. unfold multi_threshold_general, multi_threshold_before in *.
        apply (rbind_below _ (rd_f rdr Before t m)) in H1; [|apply to_f_below; apply (proj1 A); cbn; auto].
        apply rbind_inv in H1. destruct H1 as (pos & H1 & H3). cbn [fst snd].
        assert (HM : forall x, In x thresholds -> In (uref_f cd x) (body_urefs cd (CMultiThreshold m thresholds p ratchet))) by (intros x Hx; right; apply in_map; exact Hx).
        rewrite (position_below _ _ _ _ (list_f cd rdr Before t _ _ thresholds A HM) _ _ H1).
        destruct ratchet; [destruct (a <? pos)|]; congruence. }
      split.
      2:{ apply steps_map; intros t Ht; destruct (HT t Ht) as (z & E1 & _); rewrite E1; cbn [int_of]; rewrite Nat2Z.id; reflexivity. }
      change multi_threshold_setup with (of_position (@body_setup X (CMultiThreshold m thresholds p ratchet))). rewrite <- S0 by (intros E; rewrite E in HS; discriminate).
      apply (direct_steps (multi_threshold_before p ratchet) (fun t => of_position (state t))). intros t Ht. destruct (HT t Ht) as (z & E1 & E2). rewrite E1.
      cbn [int_of]. rewrite Nat2Z.id. exact E2.
    + (* switch *)
      exists (steps T (fun t => int_of (vals Before t (cp_name c)))).
      assert (HT : forall t, t < T -> exists z, vals Before t (cp_name c) = VI z /\
        switch_before (rd_i rdr Before t on, rd_i rdr Before t off) (of_switch (state t)) = Ok (z, of_switch (state (S t)))).
      { intros t Ht. destruct (STP t Ht ltac:(congruence) eq_refl) as (v & H1 & H2 & A). rewrite EU in H1. cbn [body_urefs map before_body] in H1.
        destruct (state t) as [| | | | | |a|]; try discriminate. apply rbind_inv in H1. destruct H1 as ([z a'] & H1 & H3). cbn [fst snd] in H3. injection H3 as <- <-.
        exists z. split; [exact H2|]. cbn [of_switch]. unfold switch_general, switch_before in *.
        apply (rbind_below _ (rd_i rdr Before t on)) in H1; [|apply to_i_below; apply (proj2 A); cbn; auto].
        destruct (0 <? a)%Z, (0 <? rd_i rdr Before t on)%Z; try congruence.
        apply (rbind_below _ (rd_i rdr Before t off)) in H1; [|apply to_i_below; apply (proj2 A); cbn; auto].
        destruct (rd_i rdr Before t off =? 0)%Z; congruence. }
      split; [|apply steps_map; intros t Ht; destruct (HT t Ht) as (z & E1 & _); rewrite E1; reflexivity].
      change switch_setup with (of_switch (@body_setup X (CSwitch on off))). rewrite <- S0 by (intros E; rewrite E in HS; discriminate).
      apply (direct_steps switch_before (fun t => of_switch (state t))). intros t Ht. destruct (HT t Ht) as (z & E1 & E2). rewrite E1. exact E2.
    + apply (RF m delay_before delay_after delay_compute (delay_setup delay initial)); auto; reflexivity.
    + apply (RI m delay_before delay_after delay_compute (delay_setup delay initial)); auto; reflexivity.
    + apply (RF m (rolling_before (fun l => Ok (calc_iter_f64 func l)) min_values initial) (rolling_after window)
        (rolling_compute (fun l => Ok (calc_iter_f64 func l)) window min_values initial) rolling_setup); auto; reflexivity.
    + apply (RI m (rolling_before (calc_iter_u64 Checked func) min_values initial) (rolling_after window)
        (rolling_compute (calc_iter_u64 Checked func) window min_values initial) rolling_setup); auto; reflexivity.
Qed.

End One.

Lemma all_run : runs vals others_f others_i date T cps.
Proof. intros c mo Hc Hm. exact (one_evaluates c Hc mo Hm). Qed.

End Run.
