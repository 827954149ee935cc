From Verif Require Import Base NetworkBuildLemmas ParamBuild ParamBuildSpec ParamBuildLemmas ParamEval
  ParamEvalSpec ParamEvalLemmas ParamMeaningLemmas.
From Coq Require Import Permutation.

Lemma Some_inj' : forall {A} (a b : A), Some a = Some b -> a = b.
Proof. intros A a b H. injection H as ->. reflexivity. Qed.

Lemma trace_entry_name : forall nodes other es c m, trace nodes other es c m ->
  forall el, In el es -> e_name (el_entry el) = el_name el.
Proof.
  intros nodes other es c m Ht el Hin.
  destruct (trace_split _ _ _ _ _ _ Ht Hin) as (pre & post & c0 & m0 & _ & _ & Hb).
  apply build1_Ok in Hb. apply Hb.
Qed.

Section Step.

Context {V St Env Net Er : Type}.
Variable sm : sem V St Env Net Er.
Variable nw : network.
Variables nodes other : list nat.
Variable es : list elem.
Variable c : collection.
Variable m : maps.
Variable bs : list pbuilder.
Variable nd : network_def.
Hypothesis Ht : trace nodes other es c m.
Hypothesis HP : Permutation bs (map el_b es).
Hypothesis Hpl : builders_plain es.
Hypothesis Hty : builders_typed es.
Hypothesis Hnw : resolve_network m nd = Ok nw.
Hypothesis Hps : forall u, In u (nd_simple nd) -> plain u.
Hypothesis Hpv : forall u, In u (nd_solve nd) -> plain u.
Hypothesis Hpo : forall u, In u (nd_out nd) -> plain u.

Notation pst := (pstate V St Net).
Notation nst := (nstore V St Net).

Definition val_at (st : pst) (el : elem) : option V := option_map (get st) (val_slot el).
Definition after_at (st : pst) (el : elem) : option V := option_map (get st) (after_slot el).

Definition agrees (st : pst) (ns : nst) : Prop :=
  (forall el, In el es -> nv_val ns (el_name el) = val_at st el) /\
  (forall el, In el es -> nv_after ns (el_name el) = after_at st el) /\
  (forall el, In el es -> nv_int ns (el_name el) = Some (get_int st (int_slot el))) /\
  nv_net ns = ps_net st.

Definition named (st : pst) : nst :=
  NStore
    (fun n => match find_el es n with Some el => val_at st el | None => None end)
    (fun n => match find_el es n with Some el => after_at st el | None => None end)
    (fun n => match find_el es n with Some el => Some (get_int st (int_slot el)) | None => None end)
    (ps_net st).

Lemma es_NoDup : NoDup (map el_name es).
Proof. exact (trace_NoDup _ _ _ _ _ Ht). Qed.

Lemma named_agrees : forall st, agrees st (named st).
Proof.
  intro st. unfold agrees, named. cbn [nv_val nv_after nv_int nv_net].
  repeat split; intros el Hin; rewrite (find_el_In _ _ es_NoDup Hin); reflexivity.
Qed.

Lemma bs_unique : unique_names bs.
Proof.
  unfold unique_names. apply (Permutation_NoDup (l := map pb_name (map el_b es))).
  - apply Permutation_map. apply Permutation_sym. exact HP.
  - rewrite map_map. exact es_NoDup.
Qed.

Lemma el_in_bs : forall el, In el es -> In (el_b el) bs.
Proof.
  intros el Hin. apply (Permutation_in _ (Permutation_sym HP)). apply in_map. exact Hin.
Qed.

Lemma bs_el : forall b, In b bs -> exists el, In el es /\ el_b el = b.
Proof.
  intros b Hb. apply (Permutation_in _ HP) in Hb. apply in_map_iff in Hb.
  destruct Hb as (el & H1 & H2). eauto.
Qed.

(** ** Reading by index and by name. *)

Lemma read_ref : forall (st : pst) vals afters net u ph mt,
  resolve m u ph = Ok mt -> plain u ->
  (forall el, In el es -> vals (el_name el) = val_at st el) ->
  (forall el, In el es -> afters (el_name el) = after_at st el) ->
  net = ps_net st ->
  read_metric sm nw st mt = read_named sm bs vals afters net u.
Proof.
  intros st vals afters net u ph mt H Hu Hv Ha ->.
  rewrite read_plain by (exact (resolve_plain _ _ _ _ Hu H)).
  destruct (names_param_dec u) as [[n Hn]|Hn].
  - destruct (resolve_found _ _ _ _ _ _ _ _ _ Ht Hn H) as (el & H1 & H2 & H3 & H4).
    pose proof (ref_access_type u _ (ex_intro _ n Hn) H3) as Hat.
    destruct (resolve_index_slot _ _ _ _ _ _ _ H4 Hat) as (G1 & G2 & _ & _).
    assert (Hrt : ref_target u = Some (n, ref_rv u)).
    { destruct u; cbn in *; try contradiction; subst; reflexivity. }
    assert (Hcv : conversion u (el_type el) = ref_access u (el_type el)) by (destruct u; reflexivity).
    unfold read_named. rewrite Hrt. subst n.
    change (el_name el) with (pb_name (el_b el)) at 1.
    rewrite (type_of_In _ _ bs_unique (el_in_bs _ H1)). change (pb_name (el_b el)) with (el_name el).
    change (pb_type (el_b el)) with (el_type el). rewrite Hcv.
    assert (Hval : match ref_rv u with RVBefore => vals (el_name el) | _ => afters (el_name el) end
                   = option_map (get st) (metric_slot mt)).
    { rewrite G1. unfold val_at, after_at, val_slot, after_slot in *.
      destruct (ref_rv u); [apply Hv|apply Ha|apply Ha]; exact H1. }
    rewrite Hval. clear Hval.
    assert (Hacc : match mt with
      | MConstP a _ | MSimpleP a _ | MBeforeP a _ | MAfterP a _ => a = ref_access u (el_type el)
      | _ => False end).
    { clear - H4. unfold resolve_index in H4. destruct (el_idx el) as [i|i|r].
      - destruct (ref_rv u); try discriminate H4. injection H4 as <-. reflexivity.
      - destruct (ref_rv u); try discriminate H4. injection H4 as <-. reflexivity.
      - destruct (ref_rv u); destruct ph; try discriminate H4;
          first [destruct (reg_before r) | destruct (reg_after r)]; try discriminate H4;
          first [injection H4 as <-; reflexivity
                |destruct (reg_after r); try discriminate H4; injection H4 as <-; reflexivity]. }
    destruct mt; try contradiction; subst a; reflexivity.
  - destruct u as [k rv|k rv|k key rv|k|k|k]; cbn [resolve names_param plain] in *;
      try (exfalso; exact (Hn _ eq_refl)); try contradiction.
    + injection H as <-. reflexivity.
    + destruct (existsb _ _); [|discriminate H]. injection H as <-. reflexivity.
Qed.

Lemma read_refs : forall (st : pst) vals afters net el,
  In el es ->
  (forall el, In el es -> vals (el_name el) = val_at st el) ->
  (forall el, In el es -> afters (el_name el) = after_at st el) ->
  net = ps_net st ->
  map (read_metric sm nw st) (map fst (e_metrics (el_entry el))) =
    map (read_named sm bs vals afters net) (refs_all (el_b el)) /\
  map (read_metric sm nw st) (before_metrics (el_entry el)) =
    map (read_named sm bs vals afters net) (refs_before (el_b el)).
Proof.
  intros st vals afters net el Hin Hv Ha Hn.
  pose proof (trace_metrics _ _ _ _ _ _ Ht Hin) as HF.
  assert (Hp : forall u ph, In (u, ph) (pb_refs (el_b el)) -> plain u) by (intros u ph; apply Hpl; exact Hin).
  unfold refs_all, refs_before, before_metrics.
  induction HF as [|[u ph] [mt ph'] rs mts [H1 H2] HF IH]; [split; reflexivity|].
  cbn [fst snd] in *. subst ph'.
  destruct IH as [I1 I2]; [intros u' ph' Hi; apply (Hp u' ph'); right; exact Hi|].
  assert (Hr : read_metric sm nw st mt = read_named sm bs vals afters net u).
  { apply (read_ref _ _ _ _ _ ph); try assumption. apply (Hp u ph). left. reflexivity. }
  cbn [map fst filter snd]. split.
  - f_equal; assumption.
  - destruct ph; cbn [map fst]; first [exact I2|f_equal; assumption].
Qed.

Lemma rmap_Forall2 : forall {E A B} (g : A -> res E B) l r, rmap g l = Ok r ->
  Forall2 (fun a b => g a = Ok b) l r.
Proof.
  intros E A B g l. induction l as [|a l IH]; intros r H; cbn [rmap] in H.
  - injection H as <-. constructor.
  - destruct (g a) as [b|e|] eqn:Ea; [|discriminate H|discriminate H].
    destruct (rmap g l) as [r'|e|]; [|discriminate H|discriminate H].
    injection H as <-. constructor; [exact Ea|apply IH; reflexivity].
Qed.

Lemma network_refs :
  Forall2 (fun u mt => resolve m u CBefore = Ok mt /\ metric_class mt <> KGeneral) (nd_simple nd) (nw_simple nw) /\
  Forall2 (fun u mt => resolve m u CBefore = Ok mt) (nd_solve nd) (nw_solve nw) /\
  Forall2 (fun u mt => resolve m u CAfter = Ok mt) (nd_out nd) (nw_out nw).
Proof.
  pose proof Hnw as H. unfold resolve_network in H.
  apply rbind_Ok in H. destruct H as (mf & _ & H).
  apply rbind_Ok in H. destruct H as (si & H1 & H).
  apply rbind_Ok in H. destruct H as (so & H2 & H).
  apply rbind_Ok in H. destruct H as (ou & H3 & H). injection H as <-. cbn [nw_simple nw_solve nw_out].
  split; [|split].
  - apply rmap_Forall2 in H1. eapply Forall2_impl'; [|exact H1]. cbn. intros u mt _ _ E.
    apply rbind_Ok in E. destruct E as (mt' & E1 & E2). unfold simple_metric in E2.
    destruct (metric_class mt') eqn:Ec; try discriminate E2; injection E2 as <-; rewrite Ec; split; try assumption; discriminate.
  - apply rmap_Forall2 in H2. exact H2.
  - apply rmap_Forall2 in H3. exact H3.
Qed.

Lemma read_list : forall (st : pst) vals afters net ph us mts,
  Forall2 (fun u mt => resolve m u ph = Ok mt) us mts ->
  (forall u, In u us -> plain u) ->
  (forall el, In el es -> vals (el_name el) = val_at st el) ->
  (forall el, In el es -> afters (el_name el) = after_at st el) ->
  net = ps_net st ->
  map (read_metric sm nw st) mts = map (read_named sm bs vals afters net) us.
Proof.
  intros st vals afters net ph us mts HF Hp Hv Ha Hn. induction HF as [|u mt us mts H1 HF IH]; [reflexivity|].
  cbn [map]. f_equal.
  - apply (read_ref _ _ _ _ _ ph); try assumption. apply Hp. left. reflexivity.
  - apply IH. intros u' Hi. apply Hp. right. exact Hi.
Qed.

(** ** Stages touch their own slots only. *)

Definition same_but (k : stage) (a b : pst) : Prop :=
  (forall s, fst (fst s) <> k -> get a s = get b s) /\
  (forall s, fst (fst s) <> stage_class k -> get_int a s = get_int b s) /\
  (forall el, In el es -> stage_item k el = None -> get_int a (int_slot el) = get_int b (int_slot el)) /\
  ps_net a = ps_net b.

Lemma stage_frame : forall k (st st' : pst),
  (forall s, (forall it, In it (stage_items k es) -> it_slot it <> Some s) -> get st' s = get st s) ->
  (forall s, (forall it, In it (stage_items k es) -> it_islot it <> s) -> get_int st' s = get_int st s) ->
  ps_net st' = ps_net st -> same_but k st' st.
Proof.
  intros k st st' H1 H2 H3. split; [|split; [|split]].
  - intros s Hs. apply H1. intros it Hit Hsl. apply in_stage_items in Hit. destruct Hit as (el & _ & Hit).
    apply Hs. exact (stage_slot_stage _ _ _ _ Hit Hsl).
  - intros s Hs. apply H2. intros it Hit Hsl. apply in_stage_items in Hit. destruct Hit as (el & _ & Hit).
    apply Hs. rewrite <- Hsl. unfold it_islot. cbn. exact (stage_item_class _ _ _ Hit).
  - intros el Hin Hno. apply H2. intros it Hit Hsl. apply in_stage_items in Hit. destruct Hit as (el' & Hin' & Hit).
    destruct (stage_item_facts _ _ _ Hit) as (_ & _ & _ & F4 & _). rewrite F4 in Hsl.
    assert (el' = el) by (apply (trace_slots_inj _ _ _ _ _ Ht _ _ Hin' Hin); exact Hsl). subst el'.
    rewrite Hno in Hit. discriminate Hit.
  - exact H3.
Qed.

Lemma val_slot_stage : forall el s, val_slot el = Some s -> fst (fst s) <> StAfter.
Proof.
  intros el s Hx. unfold val_slot, val_slot_of in Hx.
  destruct (el_idx el) as [i|i|r]; [injection Hx as <-; discriminate|injection Hx as <-; discriminate|].
  destruct (reg_before r); [|discriminate Hx]. injection Hx as <-. discriminate.
Qed.

Lemma after_slot_stage : forall el s, after_slot el = Some s -> fst (fst s) = StAfter.
Proof.
  intros el s Hx. unfold after_slot, after_slot_of in Hx.
  destruct (el_idx el) as [i|i|r]; [discriminate Hx|discriminate Hx|].
  destruct (reg_after r); [|discriminate Hx]. injection Hx as <-. reflexivity.
Qed.

Lemma val_at_ext : forall (a b : pst) el,
  (forall s, val_slot el = Some s -> get a s = get b s) -> val_at a el = val_at b el.
Proof.
  intros a b el H. unfold val_at. destruct (val_slot el); [|reflexivity]. cbn. f_equal. apply H. reflexivity.
Qed.

Lemma after_at_ext : forall (a b : pst) el,
  (forall s, after_slot el = Some s -> get a s = get b s) -> after_at a el = after_at b el.
Proof.
  intros a b el H. unfold after_at. destruct (after_slot el); [|reflexivity]. cbn. f_equal. apply H. reflexivity.
Qed.

(** The readings of a simple parameter survive the later stages. *)
Lemma simple_readings : forall (a b : pst) el, In el es ->
  el_shape el = ShSimple \/ el_shape el = ShConst ->
  (forall s, fst (fst s) = StConst -> get a s = get b s) ->
  (forall s, fst (fst s) = StSimple -> el_shape el = ShSimple -> get a s = get b s) ->
  map (read_metric sm nw a) (map fst (e_metrics (el_entry el))) =
  map (read_metric sm nw b) (map fst (e_metrics (el_entry el))).
Proof.
  intros a b el Hin Hsh H1 H2. apply map_ext_in. intros mt Hmt.
  pose proof (trace_metrics_plain _ _ _ _ _ _ _ Ht Hpl Hin Hmt) as Hplm.
  pose proof (fun k => simple_no_net _ _ _ _ _ _ _ k Ht Hty Hin Hsh Hmt) as Hno.
  pose proof (fun s => simple_slots _ _ _ _ _ _ _ s Ht Hty Hin Hsh Hmt) as Hsl.
  rewrite !read_plain by exact Hplm.
  assert (Hg : forall s, metric_slot mt = Some s -> get a s = get b s).
  { intros s Hs. destruct (Hsl s Hs) as [Hor Hc]. destruct Hsh as [E|E].
    - destruct Hor as [Ho|Ho]; [apply H1; exact Ho|apply H2; [exact Ho|exact E]].
    - apply H1. apply Hc. exact E. }
  destruct mt; cbn [metric_slot] in *; try reflexivity; try (rewrite (Hg _ eq_refl); reflexivity).
  exfalso. exact (Hno k eq_refl).
Qed.

Lemma simple_nw_readings : forall (a b : pst),
  (forall s, fst (fst s) = StConst -> get a s = get b s) ->
  (forall s, fst (fst s) = StSimple -> get a s = get b s) ->
  map (read_metric sm nw a) (nw_simple nw) = map (read_metric sm nw b) (nw_simple nw).
Proof.
  intros a b H1 H2. apply map_ext_in. intros mt Hmt.
  destruct network_refs as (HF & _ & _).
  assert (Hc : metric_class mt <> KGeneral).
  { clear - HF Hmt. induction HF as [|u mt' us mts [_ Hx] HF IH]; [destruct Hmt|].
    destruct Hmt as [<-|Hmt]; [exact Hx|auto]. }
  assert (Hplm : plain_metric mt) by (destruct mt; cbn in *; auto; apply Hc; reflexivity).
  rewrite !read_plain by exact Hplm.
  destruct mt; cbn [metric_slot metric_class] in *; try reflexivity; try (exfalso; apply Hc; reflexivity).
  - rewrite H1 by reflexivity. reflexivity.
  - rewrite H2 by reflexivity. reflexivity.
Qed.

(** ** The functions the stages evaluate. *)

Definition f_simple (env : Env) (it : item) (n : pname) (l : list (res Er V)) (x : St) :=
  with_value (sm_simple sm env n l x).
Definition f_before (env : Env) (it : item) (n : pname) (l : list (res Er V)) (x : St) :=
  with_value (sm_before sm env n l x).
Definition f_const (it : item) (n : pname) (l : list (res Er V)) (x : St) :=
  with_value (sm_const sm n l x).
Definition f_after (env : Env) (it : item) (n : pname) (l : list (res Er V)) (x : St) :=
  match it_out it with
  | Some _ => with_value (sm_after sm env n l x)
  | None => no_value (sm_hook sm env n l x)
  end.

Lemma stage_item_out : forall k el it, stage_item k el = Some it -> k <> StAfter ->
  exists s, it_slot it = Some s.
Proof.
  intros k el it H Hk. unfold stage_item in H.
  destruct k; destruct (el_idx el) as [i|i|r] eqn:E; try discriminate H; try contradiction.
  - injection H as <-. eexists. reflexivity.
  - injection H as <-. eexists. reflexivity.
  - destruct (reg_before r); [|discriminate H]. injection H as <-. eexists. reflexivity.
Qed.

Lemma value_f_ok : forall k (g : item -> pname -> list (res Er V) -> St -> res Er (V * St)),
  k <> StAfter -> f_ok (fun it n l x => with_value (g it n l x)) (stage_items k es).
Proof.
  intros k g Hk it n l x v x' Hin H. apply in_stage_items in Hin. destruct Hin as (el & _ & Hit).
  destruct (stage_item_out _ _ _ Hit Hk) as (s & Hs). unfold it_slot in Hs.
  destruct (it_out it); [|discriminate Hs].
  destruct (g it n l x) as [[v0 x0]|e|]; try discriminate H. cbn in H. injection H as <- <-.
  split; intro E; discriminate E.
Qed.

Lemma after_f_ok : forall env, f_ok (f_after env) (stage_items StAfter es).
Proof.
  intros env it n l x v x' Hin H. unfold f_after in H. destruct (it_out it).
  - destruct (sm_after sm env n l x) as [[v0 x0]|e|]; try discriminate H. cbn in H. injection H as <- <-.
    split; intro E; discriminate E.
  - destruct (sm_hook sm env n l x) as [x0|e|]; try discriminate H. cbn in H. injection H as <- <-. tauto.
Qed.

Lemma const_run : forall (st : pst),
  compute_const sm nw c st = run_items sm nw f_const (stage_items StConst es) st.
Proof.
  intro st. unfold compute_const. destruct (trace_orders _ _ _ _ _ Ht) as (H & _).
  rewrite H by (intros t i e He; exact He). reflexivity.
Qed.

Lemma simple_run : forall env (st : pst),
  compute_simple sm nw c env st = run_items sm nw (f_simple env) (stage_items StSimple es) st.
Proof.
  intros env st. unfold compute_simple. destruct (trace_orders _ _ _ _ _ Ht) as (_ & H & _).
  rewrite H by (intros t i e He; exact He). reflexivity.
Qed.

Lemma before_run : forall env (st : pst),
  before_general sm nw c env st = run_items sm nw (f_before env) (stage_items StBefore es) st.
Proof.
  intros env st. unfold before_general. destruct (trace_orders _ _ _ _ _ Ht) as (_ & _ & H & _).
  rewrite H. reflexivity.
Qed.

Lemma after_run : forall env (st : pst),
  after_general sm nw c env st = run_items sm nw (f_after env) (stage_items StAfter es) st.
Proof.
  intros env st. unfold after_general. destruct (trace_orders _ _ _ _ _ Ht) as (_ & _ & _ & H).
  rewrite H. reflexivity.
Qed.

(** ** Soundness of a step. *)

Lemma sh_el : forall el, In el es -> shape_in es (el_name el) = el_shape el.
Proof. intros el Hin. unfold shape_in. rewrite (find_el_In _ _ es_NoDup Hin). reflexivity. Qed.

Lemma with_value_Ok : forall (r : res Er (V * St)) v x,
  with_value r = Ok (v, x) -> exists v0, v = Some v0 /\ r = Ok (v0, x).
Proof. intros [[v0 x0]|e|] v x H; try discriminate H. cbn in H. injection H as <- <-. eauto. Qed.

Lemma no_value_Ok : forall (r : res Er St) (v : option V) x,
  no_value r = Ok (v, x) -> v = None /\ r = Ok x.
Proof. intros [x0|e|] v x H; try discriminate H. cbn in H. injection H as <- <-. auto. Qed.

Lemma get_set_net : forall n (st : pst) s, get (set_net n st) s = get st s.
Proof. intros n st [[k t] i]. reflexivity. Qed.

Lemma get_int_set_net : forall n (st : pst) s, get_int (set_net n st) s = get_int st s.
Proof. intros n st [[k t] i]. reflexivity. Qed.

Lemma step_sound : forall (st : pst) prev env st3 outs,
  agrees st prev -> step sm nw c env st = Ok (st3, outs) ->
  agrees st3 (named st3) /\
  step_equations sm bs nd (shape_in es) env prev (named st3) outs.
Proof.
  intros st prev env st3 outs Hag H. unfold step in H.
  apply rbind_Ok in H. destruct H as (st1 & R1 & H).
  apply rbind_Ok in H. destruct H as (n1 & R2 & H).
  apply rbind_Ok in H. destruct H as (st2 & R3 & H).
  apply rbind_Ok in H. destruct H as (n2 & R4 & H).
  apply rbind_Ok in H. destruct H as (st3' & R5 & H). injection H as <- <-.
  split; [apply named_agrees|].
  rewrite simple_run in R1. rewrite before_run in R3. rewrite after_run in R5.
  apply run_items_sound in R1;
    [|exact (stage_items_ok _ _ _ _ _ _ Ht Hpl)|apply (value_f_ok StSimple (fun _ => sm_simple sm env)); discriminate].
  apply run_items_sound in R3;
    [|exact (stage_items_ok _ _ _ _ _ _ Ht Hpl)|apply (value_f_ok StBefore (fun _ => sm_before sm env)); discriminate].
  apply run_items_sound in R5; [|exact (stage_items_ok _ _ _ _ _ _ Ht Hpl)|apply after_f_ok].
  destruct R1 as (A1 & A2 & A3 & A4). destruct R3 as (B1 & B2 & B3 & B4). destruct R5 as (C1 & C2 & C3 & C4).
  pose proof (stage_frame StSimple _ _ A2 A3 A4) as (FA1 & FA2 & FA3 & FA4).
  pose proof (stage_frame StBefore _ _ B2 B3 B4) as (FB1 & FB2 & FB3 & FB4).
  pose proof (stage_frame StAfter _ _ C2 C3 C4) as (FC1 & FC2 & FC3 & FC4).
  cbn [stage_class] in *.
  destruct Hag as (G1 & G2 & G3 & G4).
  pose proof (named_agrees st3') as (N1 & N2 & N3 & N4).
  assert (Hn1 : ps_net st2 = n1) by (rewrite FB4; reflexivity).
  assert (Hn2 : ps_net st3' = n2) by (rewrite FC4; reflexivity).
  (* values before the solve are those at the end *)
  assert (Hv2 : forall el, In el es -> nv_val (named st3') (el_name el) = val_at st2 el).
  { intros el Hin. rewrite N1 by exact Hin. apply val_at_ext. intros s Hs.
    rewrite FC1 by (exact (val_slot_stage _ _ Hs)). apply get_set_net. }
  assert (Ha2 : forall el, In el es -> nv_after prev (el_name el) = after_at st2 el).
  { intros el Hin. rewrite G2 by exact Hin. apply after_at_ext. intros s Hs.
    pose proof (after_slot_stage _ _ Hs) as Hst.
    rewrite FB1, get_set_net, FA1; [reflexivity| |]; rewrite Hst; discriminate. }
  assert (H12c : forall s, fst (fst s) = StConst -> get st1 s = get st2 s).
  { intros s Hs. rewrite FB1, get_set_net by (rewrite Hs; discriminate). reflexivity. }
  assert (H12s : forall s, fst (fst s) = StSimple -> get st1 s = get st2 s).
  { intros s Hs. rewrite FB1, get_set_net by (rewrite Hs; discriminate). reflexivity. }
  assert (Hrb := fun el Hin => read_refs st2 (nv_val (named st3')) (nv_after prev) n1 el Hin Hv2 Ha2 (eq_sym Hn1)).
  assert (Hra := fun el Hin => read_refs st3' (nv_val (named st3')) (nv_after (named st3')) (nv_net (named st3')) el Hin N1 N2 N4).
  destruct network_refs as (Q1 & Q2 & Q3).
  exists n1. split; [|split; [|split]].
  - intros b Hb. destruct (bs_el b Hb) as (el & Hin & <-).
    unfold step_equation. change (pb_name (el_b el)) with (el_name el). rewrite (sh_el el Hin).
    pose proof (trace_shape _ _ _ _ _ Ht _ Hin) as Hsh.
    specialize (Hrb el Hin). specialize (Hra el Hin). cbn zeta.
    destruct (el_idx el) as [i|i|r] eqn:Eidx; destruct (el_shape el) as [| |bf af] eqn:Esh;
      cbn [idx_shape] in Hsh; try contradiction.
    + (* constant *)
      assert (Hvs : val_slot el = Some (StConst, el_type el, i)) by (unfold val_slot; rewrite Eidx; reflexivity).
      assert (His : int_slot el = (ClConst, el_type el, i)) by (unfold int_slot; rewrite Eidx; reflexivity).
      split; [|split].
      * rewrite N1, G1 by exact Hin. apply val_at_ext. intros s Hs. rewrite Hvs in Hs. injection Hs as <-.
        rewrite FC1, get_set_net, FB1, get_set_net, FA1 by discriminate. reflexivity.
      * rewrite N2 by exact Hin. unfold after_at, after_slot. rewrite Eidx. reflexivity.
      * rewrite N3, G3 by exact Hin. rewrite His. f_equal.
        rewrite FC2, get_int_set_net, FB2, get_int_set_net, FA2 by discriminate. reflexivity.
    + (* simple *)
      assert (Hvs : val_slot el = Some (StSimple, el_type el, i)) by (unfold val_slot; rewrite Eidx; reflexivity).
      assert (His : int_slot el = (ClSimple, el_type el, i)) by (unfold int_slot; rewrite Eidx; reflexivity).
      destruct (stage_item StSimple el) as [it|] eqn:Eit;
        [|unfold stage_item in Eit; rewrite Eidx in Eit; discriminate Eit].
      assert (Hii : In it (stage_items StSimple es)) by (apply in_stage_items; eauto).
      destruct (A1 it Hii) as (v & E1 & E2).
      destruct (stage_item_facts _ _ _ Eit) as (F1 & _ & F3 & F4 & _).
      unfold stage_slot in F3. rewrite F3, Hvs in E2. rewrite F1, F4, His in E1. subst v.
      assert (Hmet : it_metrics it = map fst (e_metrics (el_entry el))).
      { unfold stage_item in Eit. rewrite Eidx in Eit. injection Eit as <-. reflexivity. }
      rewrite Hmet in E1. unfold f_simple in E1. apply with_value_Ok in E1. destruct E1 as (v0 & Ev & E1).
      injection Ev as <-.
      exists (get_int st (ClSimple, el_type el, i)), (get st1 (StSimple, el_type el, i)),
        (get_int st1 (ClSimple, el_type el, i)).
      split; [rewrite G3, His by exact Hin; reflexivity|]. split.
      { rewrite <- (proj1 Hrb). rewrite <- (simple_readings st1 st2 el Hin (or_introl Esh) H12c (fun s Hs _ => H12s s Hs)).
        exact E1. }
      split; [|split].
      * rewrite N1 by exact Hin. unfold val_at. rewrite Hvs. cbn [option_map]. f_equal.
        rewrite FC1, get_set_net, FB1, get_set_net by discriminate. reflexivity.
      * rewrite N2 by exact Hin. unfold after_at, after_slot. rewrite Eidx. reflexivity.
      * rewrite N3, His by exact Hin. f_equal. rewrite FC2, get_int_set_net, FB2, get_int_set_net by discriminate. reflexivity.
    + (* general *)
      assert (His : int_slot el = (ClGeneral, el_type el, reg_param r)) by (unfold int_slot; rewrite Eidx; reflexivity).
      exists (get_int st (int_slot el)), (get_int st2 (int_slot el)), (get_int st3' (int_slot el)).
      split; [apply G3; exact Hin|]. split; [apply N3; exact Hin|].
      assert (Hst1 : get_int (set_net n1 st1) (int_slot el) = get_int st (int_slot el)).
      { rewrite get_int_set_net. apply FA2. rewrite His. discriminate. }
      destruct Hsh as [Hsb Hsa]. split.
      * destruct (reg_before r) as [o|] eqn:Eb; subst bf.
        -- destruct (stage_item StBefore el) as [it|] eqn:Eit;
             [|unfold stage_item in Eit; rewrite Eidx, Eb in Eit; discriminate Eit].
           assert (Hii : In it (stage_items StBefore es)) by (apply in_stage_items; eauto).
           destruct (B1 it Hii) as (v & E1 & E2).
           destruct (stage_item_facts _ _ _ Eit) as (F1 & _ & F3 & F4 & _).
           assert (Hvs : val_slot el = Some (StBefore, el_type el, o))
             by (unfold val_slot; rewrite Eidx; cbn; rewrite Eb; reflexivity).
           unfold stage_slot in F3. rewrite F3, Hvs in E2. rewrite F1, F4, Hst1 in E1.
           assert (Hmet : it_metrics it = before_metrics (el_entry el)).
           { unfold stage_item in Eit. rewrite Eidx, Eb in Eit. injection Eit as <-. reflexivity. }
           rewrite Hmet in E1. unfold f_before in E1. apply with_value_Ok in E1. destruct E1 as (v0 & Ev & E1).
           exists v0. rewrite (proj2 Hrb) in E1. split; [exact E1|].
           rewrite Hv2 by exact Hin. unfold val_at. rewrite Hvs. cbn [option_map]. congruence.
        -- assert (Eit : stage_item StBefore el = None) by (unfold stage_item; rewrite Eidx, Eb; reflexivity).
           split.
           ++ rewrite (FB3 el Hin Eit). exact Hst1.
           ++ rewrite N1 by exact Hin. unfold val_at, val_slot. rewrite Eidx. cbn [val_slot_of]. rewrite Eb. reflexivity.
      * destruct af as [o|].
        -- destruct (stage_item StAfter el) as [it|] eqn:Eit;
             [|unfold stage_item in Eit; rewrite Eidx, Esh in Eit; discriminate Eit].
           assert (Hii : In it (stage_items StAfter es)) by (apply in_stage_items; eauto).
           destruct (C1 it Hii) as (v & E1 & E2).
           destruct (stage_item_facts _ _ _ Eit) as (F1 & _ & F3 & F4 & _).
           assert (Hit : it_metrics it = map fst (e_metrics (el_entry el)) /\ it_out it = reg_after r).
           { unfold stage_item in Eit. rewrite Eidx, Esh in Eit. injection Eit as <-. auto. }
           destruct Hit as [Hmet Hout].
           unfold stage_slot in F3. rewrite F3 in E2. rewrite F1, F4, Hmet, get_int_set_net, (proj1 Hra) in E1.
           unfold f_after in E1. rewrite Hout in E1.
           destruct (reg_after r) as [o'|] eqn:Ea.
           ++ injection Hsa as ->. apply with_value_Ok in E1. destruct E1 as (v0 & Ev & E1).
              assert (Has : after_slot el = Some (StAfter, el_type el, o'))
                by (unfold after_slot; rewrite Eidx; cbn; rewrite Ea; reflexivity).
              rewrite Has in E2. exists v0. split; [exact E1|].
              rewrite N2 by exact Hin. unfold after_at. rewrite Has. cbn [option_map]. congruence.
           ++ destruct o; [contradiction|]. apply no_value_Ok in E1. destruct E1 as [_ E1]. split; [exact E1|].
              rewrite N2 by exact Hin. unfold after_at, after_slot. rewrite Eidx. cbn [after_slot_of]. rewrite Ea. reflexivity.
        -- assert (Eit : stage_item StAfter el = None) by (unfold stage_item; rewrite Eidx, Esh; reflexivity).
           split.
           ++ rewrite (FC3 el Hin Eit). apply get_int_set_net.
           ++ rewrite N2 by exact Hin. unfold after_at, after_slot. rewrite Eidx. cbn [after_slot_of].
              destruct (reg_after r); [discriminate Hsa|reflexivity].
  - rewrite G4. rewrite <- FA4.
    rewrite (simple_nw_readings st1 st2 H12c H12s) in R2.
    rewrite (read_list st2 (nv_val (named st3')) (nv_after prev) n1 CBefore (nd_simple nd)) in R2;
      try assumption; [|eapply Forall2_impl'; [|exact Q1]; cbn; tauto|symmetry; exact Hn1].
    rewrite <- R2. f_equal. apply map_ext_in. intros u Hu.
    (* simple references do not read the network state *)
    unfold read_named. destruct (ref_target u) as [[n rv]|] eqn:Eu; [reflexivity|].
    destruct u as [k rv|k rv|k key rv|k|k|k]; try reflexivity.
    exfalso. clear - Q1 Hu. induction Q1 as [|u mt us mts [E1 E2] Q1 IH]; [destruct Hu|].
    destruct Hu as [->|Hu]; [|auto]. cbn [resolve] in E1. destruct (existsb _ _); [|discriminate E1].
    injection E1 as <-. apply E2. reflexivity.
  - rewrite <- (read_list st2 (nv_val (named st3')) (nv_after prev) n1 CBefore (nd_solve nd) (nw_solve nw));
      try assumption; [|symmetry; exact Hn1].
    rewrite N4, Hn2. rewrite Hn1 in R4. exact R4.
  - apply (read_list st3' _ _ _ CAfter); assumption.
Qed.


(** ** Completeness of a step. *)

Definition el_at (k : stage) (s : slot) : option elem :=
  find (fun el => match stage_item k el with
                  | Some it => match it_slot it with Some s' => slot_eqb s' s | None => false end
                  | None => false
                  end) es.

Definition el_int_at (k : stage) (s : islot) : option elem :=
  find (fun el => match stage_item k el with
                  | Some it => islot_eqb (it_islot it) s
                  | None => false
                  end) es.

Definition target (k : stage) (h : elem -> V) (hx : elem -> St) (base : pst) : pst :=
  PState (fun k' t i => match el_at k (k', t, i) with Some el => h el | None => get base (k', t, i) end)
         (fun k' t i => match el_int_at k (k', t, i) with Some el => hx el | None => get_int base (k', t, i) end)
         (ps_net base).

Lemma target_get : forall k h hx base s,
  get (target k h hx base) s = match el_at k s with Some el => h el | None => get base s end.
Proof. intros k h hx base [[k' t] i]. reflexivity. Qed.

Lemma target_get_int : forall k h hx base s,
  get_int (target k h hx base) s =
  match el_int_at k s with Some el => hx el | None => get_int base s end.
Proof. intros k h hx base [[k' t] i]. reflexivity. Qed.

Lemma target_spec : forall k h hx base,
  (forall el it, In el es -> stage_item k el = Some it ->
     (forall s, it_slot it = Some s -> get (target k h hx base) s = h el) /\
     get_int (target k h hx base) (it_islot it) = hx el) /\
  (forall s, (forall it, In it (stage_items k es) -> it_slot it <> Some s) ->
     get (target k h hx base) s = get base s) /\
  (forall s, (forall it, In it (stage_items k es) -> it_islot it <> s) ->
     get_int (target k h hx base) s = get_int base s) /\
  ps_net (target k h hx base) = ps_net base.
Proof.
  intros k h hx base. split; [|split; [|split]].
  - intros el it Hin Hit. destruct (stage_item_facts _ _ _ Hit) as (_ & _ & F3 & F4 & _). split.
    + intros s Hs. rewrite target_get. unfold el_at.
      destruct (find _ es) as [el'|] eqn:Ef.
      * apply find_some in Ef. destruct Ef as [Hin' E].
        destruct (stage_item k el') as [it'|] eqn:Hit'; [|discriminate E].
        destruct (it_slot it') as [s'|] eqn:Es'; [|discriminate E].
        apply slot_eqb_spec in E. subst s'.
        destruct (stage_item_facts _ _ _ Hit') as (_ & _ & F3' & _ & _).
        destruct (trace_slots_inj _ _ _ _ _ Ht _ _ Hin' Hin) as (J1 & J2 & _).
        assert (el' = el); [|subst; reflexivity].
        rewrite F3 in Hs. rewrite F3' in Es'. unfold stage_slot in *.
        destruct k; first [exact (J1 _ Es' Hs)|exact (J2 _ Es' Hs)].
      * exfalso. pose proof (find_none _ _ Ef el Hin) as E. cbn beta in E. rewrite Hit, Hs in E.
        rewrite (proj2 (slot_eqb_spec s s) eq_refl) in E. discriminate E.
    + rewrite target_get_int. unfold el_int_at.
      destruct (find _ es) as [el'|] eqn:Ef.
      * apply find_some in Ef. destruct Ef as [Hin' E].
        destruct (stage_item k el') as [it'|] eqn:Hit'; [|discriminate E].
        apply islot_eqb_spec in E.
        destruct (stage_item_facts _ _ _ Hit') as (_ & _ & _ & F4' & _).
        destruct (trace_slots_inj _ _ _ _ _ Ht _ _ Hin' Hin) as (_ & _ & J3).
        assert (el' = el); [|subst; reflexivity]. apply J3. congruence.
      * exfalso. pose proof (find_none _ _ Ef el Hin) as E. cbn beta in E. rewrite Hit in E.
        rewrite (proj2 (islot_eqb_spec _ _) eq_refl) in E. discriminate E.
  - intros s Hs. rewrite target_get. unfold el_at.
    destruct (find _ es) as [el'|] eqn:Ef; [|reflexivity].
    exfalso. apply find_some in Ef. destruct Ef as [Hin' E].
    destruct (stage_item k el') as [it'|] eqn:Hit'; [|discriminate E].
    destruct (it_slot it') as [s'|] eqn:Es'; [|discriminate E].
    apply slot_eqb_spec in E. subst s'. apply (Hs it'); [apply in_stage_items; eauto|exact Es'].
  - intros s Hs. rewrite target_get_int. unfold el_int_at.
    destruct (find _ es) as [el'|] eqn:Ef; [|reflexivity].
    exfalso. apply find_some in Ef. destruct Ef as [Hin' E].
    destruct (stage_item k el') as [it'|] eqn:Hit'; [|discriminate E].
    apply islot_eqb_spec in E. apply (Hs it'); [apply in_stage_items; eauto|exact E].
  - reflexivity.
Qed.

Lemma simple_named_net : forall vals afters n1 n2,
  map (read_named sm bs vals afters n1) (nd_simple nd) =
  map (read_named sm bs vals afters n2) (nd_simple nd).
Proof.
  intros vals afters n1 n2. destruct network_refs as (Q1 & _ & _).
  apply map_ext_in. intros u Hu.
  unfold read_named. destruct (ref_target u) as [[n rv]|] eqn:Eu; [reflexivity|].
  destruct u as [k rv|k rv|k key rv|k|k|k]; try reflexivity.
  exfalso. clear - Q1 Hu. induction Q1 as [|u mt us mts [E1 E2] Q1 IH]; [destruct Hu|].
  destruct Hu as [->|Hu]; [|auto]. cbn [resolve] in E1. destruct (existsb _ _); [|discriminate E1].
  injection E1 as <-. apply E2. reflexivity.
Qed.

Definition or_default (t : ptype) (o : option V) : V :=
  match o with Some v => v | None => sm_default sm t end.

Definition or_init (n : pname) (o : option St) : St :=
  match o with Some v => v | None => sm_init sm n end.

Lemma st_eq_val_at : forall (a b : pst) el, st_eq a b -> val_at a el = val_at b el.
Proof. intros a b el (H & _ & _). apply val_at_ext. intros s _. apply H. Qed.

Lemma st_eq_after_at : forall (a b : pst) el, st_eq a b -> after_at a el = after_at b el.
Proof. intros a b el (H & _ & _). apply after_at_ext. intros s _. apply H. Qed.

Lemma holds_start : forall f (a b : pst) rd tgt it,
  (forall s, get_int a s = get_int b s) -> holds sm nw f a rd tgt it -> holds sm nw f b rd tgt it.
Proof. intros f a b rd tgt it H Hh. unfold holds in *. rewrite <- H. exact Hh. Qed.

Lemma step_complete : forall (st : pst) sh prev cur env outs,
  (forall el, In el es -> sh (el_name el) = el_shape el) ->
  agrees st prev -> step_equations sm bs nd sh env prev cur outs ->
  exists st3, step sm nw c env st = Ok (st3, outs) /\ agrees st3 cur.
Proof.
  intros st sh prev cur env outs Hsh Hag (net1 & HE & Hnb & Hso & Hout).
  destruct Hag as (G1 & G2 & G3 & G4).
  set (rb := read_named sm bs (nv_val cur) (nv_after prev) net1) in *.
  set (mid := fun el => match sm_before sm env (el_name el) (map rb (refs_before (el_b el)))
                              (get_int st (int_slot el)) with
                        | Ok (_, x) => x
                        | _ => get_int st (int_slot el)
                        end).
  set (hv := fun el => or_default (el_type el) (nv_val cur (el_name el))).
  set (ha := fun el => or_default (el_type el) (nv_after cur (el_name el))).
  set (hx := fun el => or_init (el_name el) (nv_int cur (el_name el))).
  set (T1 := target StSimple hv hx st).
  set (T2 := target StBefore hv mid (set_net net1 T1)).
  set (T3 := target StAfter ha hx (set_net (nv_net cur) T2)).
  destruct (target_spec StSimple hv hx st) as (A1 & A2 & A3 & A4). fold T1 in A1, A2, A3, A4.
  destruct (target_spec StBefore hv mid (set_net net1 T1)) as (B1 & B2 & B3 & B4). fold T2 in B1, B2, B3, B4.
  destruct (target_spec StAfter ha hx (set_net (nv_net cur) T2)) as (C1 & C2 & C3 & C4). fold T3 in C1, C2, C3, C4.
  pose proof (stage_frame StSimple _ _ A2 A3 A4) as (FA1 & FA2 & FA3 & FA4).
  pose proof (stage_frame StBefore _ _ B2 B3 B4) as (FB1 & FB2 & FB3 & FB4).
  pose proof (stage_frame StAfter _ _ C2 C3 C4) as (FC1 & FC2 & FC3 & FC4).
  cbn [stage_class] in *.
  assert (Hn2 : ps_net T2 = net1) by (rewrite FB4; reflexivity).
  assert (Hn3 : ps_net T3 = nv_net cur) by (rewrite FC4; reflexivity).
  (* the targets hold what the equations say *)
  assert (Hv2 : forall el, In el es -> nv_val cur (el_name el) = val_at T2 el).
  { intros el Hin. pose proof (HE _ (el_in_bs _ Hin)) as Eq. unfold step_equation in Eq.
    change (pb_name (el_b el)) with (el_name el) in Eq. rewrite (Hsh el Hin) in Eq. cbn zeta in Eq.
    pose proof (trace_shape _ _ _ _ _ Ht _ Hin) as His. unfold val_at, val_slot.
    destruct (el_idx el) as [i|i|r] eqn:Eidx; destruct (el_shape el) as [| |bf af] eqn:Esh;
      cbn [idx_shape] in His; try contradiction; cbn [val_slot_of option_map].
    - rewrite FB1, get_set_net, FA1 by discriminate. rewrite (proj1 Eq), G1 by exact Hin.
      unfold val_at, val_slot. rewrite Eidx. reflexivity.
    - destruct Eq as (x & v & x' & _ & _ & E & _). rewrite E. f_equal.
      rewrite FB1, get_set_net by discriminate.
      assert (Hit : exists it, stage_item StSimple el = Some it /\ it_slot it = Some (StSimple, el_type el, i)).
      { eexists. unfold stage_item. rewrite Eidx. split; reflexivity. }
      destruct Hit as (it & Hit & Hs). rewrite (proj1 (A1 el it Hin Hit) _ Hs). unfold hv. rewrite E. reflexivity.
    - destruct Eq as (x & x1 & x2 & _ & _ & E & _). destruct His as [Hb _].
      destruct (reg_before r) as [o|] eqn:Eb; subst bf.
      + destruct E as (v & _ & E). rewrite E. cbn [option_map]. f_equal.
        assert (Hit : exists it, stage_item StBefore el = Some it /\ it_slot it = Some (StBefore, el_type el, o)).
        { eexists. unfold stage_item. rewrite Eidx, Eb. split; reflexivity. }
        destruct Hit as (it & Hit & Hs). rewrite (proj1 (B1 el it Hin Hit) _ Hs). unfold hv. rewrite E. reflexivity.
      + exact (proj2 E). }
  assert (Hv3 : forall el, In el es -> nv_val cur (el_name el) = val_at T3 el).
  { intros el Hin. rewrite Hv2 by exact Hin. apply val_at_ext. intros s Hs.
    rewrite FC1 by (exact (val_slot_stage _ _ Hs)). rewrite get_set_net. reflexivity. }
  assert (Ha2 : forall el, In el es -> nv_after prev (el_name el) = after_at T2 el).
  { intros el Hin. rewrite G2 by exact Hin. apply after_at_ext. intros s Hs.
    pose proof (after_slot_stage _ _ Hs) as Hst.
    rewrite FB1, get_set_net, FA1; [reflexivity| |]; rewrite Hst; discriminate. }
  assert (Ha3 : forall el, In el es -> nv_after cur (el_name el) = after_at T3 el).
  { intros el Hin. pose proof (HE _ (el_in_bs _ Hin)) as Eq. unfold step_equation in Eq.
    change (pb_name (el_b el)) with (el_name el) in Eq. rewrite (Hsh el Hin) in Eq. cbn zeta in Eq.
    pose proof (trace_shape _ _ _ _ _ Ht _ Hin) as His. unfold after_at, after_slot.
    destruct (el_idx el) as [i|i|r] eqn:Eidx; destruct (el_shape el) as [| |bf af] eqn:Esh;
      cbn [idx_shape] in His; try contradiction; cbn [after_slot_of option_map].
    - exact (proj1 (proj2 Eq)).
    - destruct Eq as (x & v & x' & _ & _ & _ & E & _). exact E.
    - destruct Eq as (x & x1 & x2 & _ & _ & _ & E). destruct His as [_ Ha].
      destruct (reg_after r) as [o|] eqn:Ea.
      + subst af. destruct E as (v & _ & E). rewrite E. cbn [option_map]. f_equal.
        assert (Hit : exists it, stage_item StAfter el = Some it /\ it_slot it = Some (StAfter, el_type el, o)).
        { unfold stage_item. rewrite Eidx, Esh, Ea. eexists. split; reflexivity. }
        destruct Hit as (it & Hit & Hs). rewrite (proj1 (C1 el it Hin Hit) _ Hs). unfold ha. rewrite E. reflexivity.
      + cbn [option_map]. destruct af as [[|]|]; [contradiction|exact (proj2 E)|exact (proj2 E)]. }
  assert (Hrb := fun el Hin => read_refs T2 (nv_val cur) (nv_after prev) net1 el Hin Hv2 Ha2 (eq_sym Hn2)).
  assert (Hra := fun el Hin => read_refs T3 (nv_val cur) (nv_after cur) (nv_net cur) el Hin Hv3 Ha3 (eq_sym Hn3)).
  assert (H12c : forall s, fst (fst s) = StConst -> get T1 s = get T2 s).
  { intros s Hs. rewrite FB1, get_set_net by (rewrite Hs; discriminate). reflexivity. }
  assert (H12s : forall s, fst (fst s) = StSimple -> get T1 s = get T2 s).
  { intros s Hs. rewrite FB1, get_set_net by (rewrite Hs; discriminate). reflexivity. }
  (* internal states *)
  assert (Hmid : forall el bf af, In el es -> el_shape el = ShGeneral bf af ->
            get_int (set_net net1 T1) (int_slot el) = get_int st (int_slot el)).
  { intros el bf af Hin Esh. rewrite get_int_set_net. apply FA2.
    pose proof (trace_shape _ _ _ _ _ Ht _ Hin) as His. rewrite Esh in His. unfold int_slot.
    destruct (el_idx el); cbn in His; try contradiction. discriminate. }
  assert (Hx2 : forall el bf af, In el es -> el_shape el = ShGeneral bf af ->
            get_int T2 (int_slot el) = if bf then mid el else get_int st (int_slot el)).
  { intros el bf af Hin Esh.
    pose proof (trace_shape _ _ _ _ _ Ht _ Hin) as His. rewrite Esh in His.
    destruct (el_idx el) as [i|i|r] eqn:Eidx; cbn [idx_shape] in His; try contradiction.
    destruct His as [Hb _]. destruct (reg_before r) as [o|] eqn:Eb; subst bf.
    - destruct (stage_item StBefore el) as [it|] eqn:Eit;
        [|unfold stage_item in Eit; rewrite Eidx, Eb in Eit; discriminate Eit].
      destruct (stage_item_facts _ _ _ Eit) as (_ & _ & _ & F4 & _). rewrite <- F4.
      exact (proj2 (B1 el it Hin Eit)).
    - assert (Eit : stage_item StBefore el = None) by (unfold stage_item; rewrite Eidx, Eb; reflexivity).
      rewrite (FB3 el Hin Eit). apply (Hmid _ _ _ Hin Esh). }
  (* the simple stage *)
  assert (R1 : exists st1, compute_simple sm nw c env st = Ok st1 /\ st_eq st1 T1).
  { rewrite simple_run. apply run_items_complete; try assumption.
    - exact (stage_items_ok _ _ _ _ _ _ Ht Hpl).
    - intros it Hit. apply in_stage_items in Hit. destruct Hit as (el & Hin & Hit).
      pose proof (HE _ (el_in_bs _ Hin)) as Eq. unfold step_equation in Eq.
      change (pb_name (el_b el)) with (el_name el) in Eq. rewrite (Hsh el Hin) in Eq. cbn zeta in Eq. fold rb in Eq.
      pose proof (trace_shape _ _ _ _ _ Ht _ Hin) as His.
      destruct (stage_item_facts _ _ _ Hit) as (F1 & _ & F3 & F4 & _).
      destruct (A1 el it Hin Hit) as [Gv Gx].
      unfold stage_item in Hit. destruct (el_idx el) as [i|i|r] eqn:Eidx; try discriminate Hit.
      destruct (el_shape el) eqn:Esh; cbn [idx_shape] in His; try contradiction.
      destruct Eq as (x & v & x' & E1 & E2 & E3 & _ & E5).
      assert (Hmet : it_metrics it = map fst (e_metrics (el_entry el))) by (injection Hit as <-; reflexivity).
      assert (Hsl : it_slot it = Some (StSimple, el_type el, i)) by (injection Hit as <-; reflexivity).
      exists (Some v). rewrite F1, Hmet, Gx, F4. unfold f_simple.
      rewrite (simple_readings T1 T2 el Hin (or_introl Esh) H12c (fun s Hs _ => H12s s Hs)).
      rewrite (proj1 (Hrb el Hin)). fold rb.
      assert (Hx : get_int st (int_slot el) = x) by (apply Some_inj'; rewrite <- G3 by exact Hin; exact E1).
      rewrite Hx, E2. unfold hx. rewrite E5. cbn. split; [reflexivity|]. rewrite Hsl, (Gv _ Hsl). unfold hv.
      rewrite E3. reflexivity. }
  destruct R1 as (st1 & R1 & S1).
  (* the general parameters before the solve *)
  assert (R3 : exists st2, before_general sm nw c env (set_net net1 st1) = Ok st2 /\ st_eq st2 T2).
  { destruct S1 as (S1v & S1x & S1n). rewrite before_run. apply run_items_complete.
    - exact (stage_items_ok _ _ _ _ _ _ Ht Hpl).
    - intros it Hit. apply in_stage_items in Hit. destruct Hit as (el & Hin & Hit).
      apply (holds_start _ (set_net net1 T1)); [intro s; rewrite !get_int_set_net; symmetry; apply S1x|].
      pose proof (HE _ (el_in_bs _ Hin)) as Eq. unfold step_equation in Eq.
      change (pb_name (el_b el)) with (el_name el) in Eq. rewrite (Hsh el Hin) in Eq. cbn zeta in Eq. fold rb in Eq.
      pose proof (trace_shape _ _ _ _ _ Ht _ Hin) as His.
      destruct (stage_item_facts _ _ _ Hit) as (F1 & _ & F3 & F4 & _).
      destruct (B1 el it Hin Hit) as [Gv Gx].
      unfold stage_item in Hit. destruct (el_idx el) as [i|i|r] eqn:Eidx; try discriminate Hit.
      destruct (el_shape el) as [| |bf af] eqn:Esh; cbn [idx_shape] in His; try contradiction.
      destruct (reg_before r) as [o|] eqn:Eb; [|discriminate Hit]. destruct His as [-> _].
      destruct Eq as (x & x1 & x2 & E1 & _ & (v & E2 & E3) & _).
      assert (Hmet : it_metrics it = before_metrics (el_entry el)) by (injection Hit as <-; reflexivity).
      assert (Hsl : it_slot it = Some (StBefore, el_type el, o)) by (injection Hit as <-; reflexivity).
      assert (Hx : get_int st (int_slot el) = x) by (apply Some_inj'; rewrite <- G3 by exact Hin; exact E1).
      exists (Some v). rewrite F1, Hmet, Gx, F4, (Hmid _ _ _ Hin Esh). unfold f_before.
      rewrite (proj2 (Hrb el Hin)). fold rb. unfold mid.
      rewrite Hx, E2. cbn. split; [reflexivity|]. rewrite Hsl, (Gv _ Hsl). unfold hv. rewrite E3. reflexivity.
    - intros s Hs. rewrite (B2 s Hs), !get_set_net. symmetry. apply S1v.
    - intros s Hs. rewrite (B3 s Hs), !get_int_set_net. symmetry. apply S1x.
    - rewrite FB4. reflexivity. }
  destruct R3 as (st2 & R3 & S2).
  (* the general parameters after the solve *)
  assert (R5 : exists st3, after_general sm nw c env (set_net (nv_net cur) st2) = Ok st3 /\ st_eq st3 T3).
  { destruct S2 as (S2v & S2x & S2n). rewrite after_run. apply run_items_complete.
    - exact (stage_items_ok _ _ _ _ _ _ Ht Hpl).
    - intros it Hit. apply in_stage_items in Hit. destruct Hit as (el & Hin & Hit).
      apply (holds_start _ (set_net (nv_net cur) T2)); [intro s; rewrite !get_int_set_net; symmetry; apply S2x|].
      pose proof (HE _ (el_in_bs _ Hin)) as Eq. unfold step_equation in Eq.
      change (pb_name (el_b el)) with (el_name el) in Eq. rewrite (Hsh el Hin) in Eq. cbn zeta in Eq. fold rb in Eq.
      pose proof (trace_shape _ _ _ _ _ Ht _ Hin) as His.
      destruct (stage_item_facts _ _ _ Hit) as (F1 & _ & F3 & F4 & _).
      destruct (C1 el it Hin Hit) as [Gv Gx].
      unfold stage_item in Hit. destruct (el_idx el) as [i|i|r] eqn:Eidx; try discriminate Hit.
      destruct (el_shape el) as [| |bf [af|]] eqn:Esh; cbn [idx_shape] in His; try contradiction; try discriminate Hit.
      destruct Eq as (x & x1 & x2 & E1 & Ex2 & Eb & E2).
      assert (Hmet : it_metrics it = map fst (e_metrics (el_entry el))) by (injection Hit as <-; reflexivity).
      assert (Hout' : it_out it = reg_after r) by (injection Hit as <-; reflexivity).
      assert (Hsl : it_slot it = match reg_after r with Some o => Some (StAfter, el_type el, o) | None => None end)
        by (injection Hit as <-; reflexivity).
      assert (Hx : get_int st (int_slot el) = x) by (apply Some_inj'; rewrite <- G3 by exact Hin; exact E1).
      assert (Hx1 : get_int (set_net (nv_net cur) T2) (int_slot el) = x1).
      { rewrite get_int_set_net, (Hx2 _ _ _ Hin Esh). destruct bf.
        - destruct Eb as (v & Eb & _). unfold mid. rewrite Hx, Eb. reflexivity.
        - rewrite Hx. symmetry. exact (proj1 Eb). }
      unfold holds. rewrite F1, Hmet, Gx, F4, Hx1. unfold f_after. rewrite Hout'.
      rewrite (proj1 (Hra el Hin)).
      destruct His as [_ Ha]. destruct (reg_after r) as [o|] eqn:Ea.
      + injection Ha as ->. destruct E2 as (v & E2 & E3). exists (Some v). rewrite E2. unfold hx. rewrite Ex2. cbn.
        split; [reflexivity|]. rewrite Hsl, (Gv _ Hsl). unfold ha. rewrite E3. reflexivity.
      + destruct af; [exfalso; apply Ha; reflexivity|]. destruct E2 as [E2 E3]. exists None. rewrite E2. unfold hx.
        rewrite Ex2. cbn. split; [reflexivity|]. rewrite Hsl. reflexivity.
    - intros s Hs. rewrite (C2 s Hs), !get_set_net. symmetry. apply S2v.
    - intros s Hs. rewrite (C3 s Hs), !get_int_set_net. symmetry. apply S2x.
    - rewrite FC4. reflexivity. }
  destruct R5 as (st3 & R5 & S3).
  destruct network_refs as (Q1 & Q2 & Q3).
  exists st3. split.
  - unfold step. rewrite R1. cbn [rbind].
    assert (E1 : map (read_metric sm nw st1) (nw_simple nw) =
                 map (read_named sm bs (nv_val cur) (nv_after prev) (nv_net prev)) (nd_simple nd)).
    { rewrite (simple_nw_readings st1 T2).
      - rewrite (simple_named_net _ _ (nv_net prev) net1).
        apply (read_list T2 _ _ _ CBefore); try assumption.
        eapply Forall2_impl'; [|exact Q1]. cbn. tauto.
      - intros s Hs. rewrite <- H12c by exact Hs. apply S1.
      - intros s Hs. rewrite <- H12s by exact Hs. apply S1. }
    assert (E1n : ps_net st1 = nv_net prev) by (destruct S1 as (_ & _ & ->); rewrite FA4; symmetry; exact G4).
    rewrite E1, E1n, Hnb. cbn [rbind]. rewrite R3. cbn [rbind].
    assert (E2n : ps_net st2 = net1) by (destruct S2 as (_ & _ & ->); exact Hn2).
    rewrite (read_list st2 (nv_val cur) (nv_after prev) net1 CBefore (nd_solve nd) (nw_solve nw)); try assumption.
    + rewrite E2n. fold rb. rewrite Hso. cbn [rbind]. rewrite R5. cbn [rbind]. f_equal. f_equal.
      rewrite Hout. apply (read_list st3 _ _ _ CAfter); try assumption.
      * intros el Hin. rewrite (st_eq_val_at _ _ el S3). apply Hv3. exact Hin.
      * intros el Hin. rewrite (st_eq_after_at _ _ el S3). apply Ha3. exact Hin.
      * destruct S3 as (_ & _ & ->). symmetry. exact Hn3.
    + intros el Hin. rewrite (st_eq_val_at _ _ el S2). apply Hv2. exact Hin.
    + intros el Hin. rewrite (st_eq_after_at _ _ el S2). apply Ha2. exact Hin.
    + symmetry. exact E2n.
  - split; [|split; [|split]].
    + intros el Hin. rewrite (st_eq_val_at _ _ el S3). apply Hv3. exact Hin.
    + intros el Hin. rewrite (st_eq_after_at _ _ el S3). apply Ha3. exact Hin.
    + intros el Hin. destruct S3 as (_ & -> & _).
      pose proof (HE _ (el_in_bs _ Hin)) as Eq. unfold step_equation in Eq.
      change (pb_name (el_b el)) with (el_name el) in Eq. rewrite (Hsh el Hin) in Eq. cbn zeta in Eq.
      pose proof (trace_shape _ _ _ _ _ Ht _ Hin) as His.
      destruct (el_idx el) as [i|i|r] eqn:Eidx; destruct (el_shape el) as [| |bf af] eqn:Esh;
        cbn [idx_shape] in His; try contradiction.
      * assert (Hi : int_slot el = (ClConst, el_type el, i)) by (unfold int_slot; rewrite Eidx; reflexivity).
        rewrite (proj2 (proj2 Eq)), G3 by exact Hin. f_equal. rewrite Hi.
        rewrite FC2, get_int_set_net, FB2, get_int_set_net, FA2 by discriminate. reflexivity.
      * destruct Eq as (x & v & x' & _ & _ & _ & _ & E). rewrite E. f_equal.
        assert (Hi : int_slot el = (ClSimple, el_type el, i)) by (unfold int_slot; rewrite Eidx; reflexivity).
        destruct (stage_item StSimple el) as [it|] eqn:Eit;
          [|unfold stage_item in Eit; rewrite Eidx in Eit; discriminate Eit].
        destruct (stage_item_facts _ _ _ Eit) as (_ & _ & _ & F4 & _).
        pose proof (proj2 (A1 el it Hin Eit)) as Gx. rewrite F4 in Gx.
        rewrite FC2, get_int_set_net, FB2, get_int_set_net by (rewrite Hi; discriminate).
        rewrite Gx. unfold hx. rewrite E. reflexivity.
      * destruct Eq as (x & x1 & x2 & E1 & E2 & E3 & E4). rewrite E2. f_equal.
        destruct af as [a|].
        -- destruct (stage_item StAfter el) as [it|] eqn:Eit;
             [|unfold stage_item in Eit; rewrite Eidx, Esh in Eit; discriminate Eit].
           destruct (stage_item_facts _ _ _ Eit) as (_ & _ & _ & F4 & _).
           pose proof (proj2 (C1 el it Hin Eit)) as Gx. rewrite F4 in Gx.
           rewrite Gx. unfold hx. rewrite E2. reflexivity.
        -- assert (Eit : stage_item StAfter el = None) by (unfold stage_item; rewrite Eidx, Esh; reflexivity).
           rewrite (FC3 el Hin Eit), get_int_set_net, (Hx2 _ _ _ Hin Esh), (proj1 E4).
           assert (Hx : get_int st (int_slot el) = x) by (apply Some_inj'; rewrite <- G3 by exact Hin; exact E1).
           rewrite Hx. destruct bf.
           ++ destruct E3 as (v & E3 & _). fold rb in E3. unfold mid. rewrite Hx, E3. reflexivity.
           ++ exact (proj1 E3).
    + destruct S3 as (_ & _ & ->). symmetry. exact Hn3.
Qed.

(** ** Setting the network up. *)

Lemma init_int : forall el, In el es ->
  get_int (initial_state sm c) (int_slot el) = sm_init sm (el_name el).
Proof.
  intros el Hin. pose proof (trace_entries _ _ _ _ _ Ht _ Hin) as He.
  assert (Hn : e_name (el_entry el) = el_name el) by (exact (trace_entry_name _ _ _ _ _ Ht _ Hin)).
  unfold entry_at in He. unfold int_slot, int_slot_of, get_int, initial_state. cbn [ps_int].
  destruct (el_idx el) as [i|i|r]; rewrite He, Hn; reflexivity.
Qed.

Lemma init_val : forall s, get (initial_state sm c) s = sm_default sm (snd (fst s)).
Proof. intros [[k t] i]. reflexivity. Qed.

Lemma const_readings : forall (a b : pst) el, In el es -> el_shape el = ShConst ->
  (forall s, fst (fst s) = StConst -> get a s = get b s) ->
  map (read_metric sm nw a) (map fst (e_metrics (el_entry el))) =
  map (read_metric sm nw b) (map fst (e_metrics (el_entry el))).
Proof.
  intros a b el Hin Hsh H. apply simple_readings; auto. intros s _ E. rewrite Hsh in E. discriminate E.
Qed.

Lemma setup_sound : forall st, setup sm nw c = Ok st ->
  agrees st (named st) /\ setup_equations sm bs (shape_in es) (named st).
Proof.
  intros st H. split; [apply named_agrees|]. unfold setup in H. rewrite const_run in H.
  apply run_items_sound in H;
    [|exact (stage_items_ok _ _ _ _ _ _ Ht Hpl)|apply (value_f_ok StConst (fun _ => sm_const sm)); discriminate].
  destruct H as (A1 & A2 & A3 & A4).
  pose proof (stage_frame StConst _ _ A2 A3 A4) as (FA1 & FA2 & FA3 & FA4). cbn [stage_class] in *.
  pose proof (named_agrees st) as (N1 & N2 & N3 & N4).
  assert (Hr := fun el Hin => read_refs st (nv_val (named st)) (nv_after (named st)) (nv_net (named st)) el Hin N1 N2 N4).
  split; [|rewrite N4, FA4; reflexivity].
  intros b Hb. destruct (bs_el b Hb) as (el & Hin & <-).
  unfold setup_equation. change (pb_name (el_b el)) with (el_name el). rewrite (sh_el el Hin).
  pose proof (trace_shape _ _ _ _ _ Ht _ Hin) as Hsh. cbn zeta.
  change (pb_type (el_b el)) with (el_type el).
  destruct (el_idx el) as [i|i|r] eqn:Eidx; destruct (el_shape el) as [| |bf af] eqn:Esh;
    cbn [idx_shape] in Hsh; try contradiction.
  - destruct (stage_item StConst el) as [it|] eqn:Eit;
      [|unfold stage_item in Eit; rewrite Eidx in Eit; discriminate Eit].
    assert (Hii : In it (stage_items StConst es)) by (apply in_stage_items; eauto).
    destruct (A1 it Hii) as (v & E1 & E2).
    destruct (stage_item_facts _ _ _ Eit) as (F1 & _ & F3 & F4 & _).
    assert (Hvs : val_slot el = Some (StConst, el_type el, i)) by (unfold val_slot; rewrite Eidx; reflexivity).
    unfold stage_slot in F3. rewrite F3, Hvs in E2. rewrite F1, F4, (init_int el Hin) in E1.
    assert (Hmet : it_metrics it = map fst (e_metrics (el_entry el))).
    { unfold stage_item in Eit. rewrite Eidx in Eit. injection Eit as <-. reflexivity. }
    rewrite Hmet, (proj1 (Hr el Hin)) in E1. unfold f_const in E1. apply with_value_Ok in E1.
    destruct E1 as (v0 & Ev & E1). exists v0, (get_int st (int_slot el)). split; [exact E1|].
    split; [|split].
    + rewrite N1 by exact Hin. unfold val_at. rewrite Hvs. cbn [option_map]. congruence.
    + rewrite N2 by exact Hin. unfold after_at, after_slot. rewrite Eidx. reflexivity.
    + apply N3. exact Hin.
  - split; [|split].
    + rewrite N1 by exact Hin. unfold val_at, val_slot. rewrite Eidx. cbn [val_slot_of option_map].
      rewrite FA1 by discriminate. reflexivity.
    + rewrite N2 by exact Hin. unfold after_at, after_slot. rewrite Eidx. reflexivity.
    + rewrite N3 by exact Hin. f_equal. rewrite FA2; [apply init_int; exact Hin|].
      unfold int_slot. rewrite Eidx. discriminate.
  - destruct Hsh as [Hb' Ha']. split; [|split].
    + rewrite N1 by exact Hin. unfold val_at, val_slot. rewrite Eidx. cbn [val_slot_of].
      destruct (reg_before r); subst bf; [|reflexivity]. cbn [option_map]. rewrite FA1 by discriminate. reflexivity.
    + rewrite N2 by exact Hin. unfold after_at, after_slot. rewrite Eidx. cbn [after_slot_of].
      destruct (reg_after r).
      * subst af. cbn [option_map]. rewrite FA1 by discriminate. reflexivity.
      * destruct af as [[|]|]; [exfalso; apply Ha'; reflexivity| |]; reflexivity.
    + rewrite N3 by exact Hin. f_equal. rewrite FA2; [apply init_int; exact Hin|].
      unfold int_slot. rewrite Eidx. discriminate.
Qed.

Lemma setup_complete : forall sh s0,
  (forall el, In el es -> sh (el_name el) = el_shape el) ->
  setup_equations sm bs sh s0 ->
  exists st, setup sm nw c = Ok st /\ agrees st s0.
Proof.
  intros sh s0 Hsh [HE Hnet].
  set (hv := fun el => or_default (el_type el) (nv_val s0 (el_name el))).
  set (hx := fun el => or_init (el_name el) (nv_int s0 (el_name el))).
  set (T := target StConst hv hx (initial_state sm c)).
  destruct (target_spec StConst hv hx (initial_state sm c)) as (A1 & A2 & A3 & A4). fold T in A1, A2, A3, A4.
  pose proof (stage_frame StConst _ _ A2 A3 A4) as (FA1 & FA2 & FA3 & FA4). cbn [stage_class] in *.
  assert (HT : agrees T s0).
  { unfold agrees. rewrite FA4, Hnet. split; [|split; [|split; [|reflexivity]]].
    all: intros el Hin; pose proof (HE _ (el_in_bs _ Hin)) as Eq; unfold setup_equation in Eq;
      change (pb_name (el_b el)) with (el_name el) in Eq; rewrite (Hsh el Hin) in Eq; cbn zeta in Eq;
      change (pb_type (el_b el)) with (el_type el) in Eq;
      pose proof (trace_shape _ _ _ _ _ Ht _ Hin) as His;
      destruct (el_idx el) as [i|i|r] eqn:Eidx; destruct (el_shape el) as [| |bf af] eqn:Esh;
      cbn [idx_shape] in His; try contradiction.
    - unfold val_at, val_slot. rewrite Eidx. cbn [val_slot_of option_map].
      destruct Eq as (v & x & _ & E & _). rewrite E. f_equal.
      assert (Hit : exists it, stage_item StConst el = Some it /\ it_slot it = Some (StConst, el_type el, i)).
      { eexists. unfold stage_item. rewrite Eidx. split; reflexivity. }
      destruct Hit as (it & Hit & Hs). rewrite (proj1 (A1 el it Hin Hit) _ Hs). unfold hv. rewrite E. reflexivity.
    - unfold val_at, val_slot. rewrite Eidx. cbn [val_slot_of option_map].
      rewrite FA1 by discriminate. exact (proj1 Eq).
    - unfold val_at, val_slot. rewrite Eidx. cbn [val_slot_of]. rewrite (proj1 Eq).
      destruct His as [Hb _]. destruct (reg_before r); subst bf; [|reflexivity]. cbn [option_map].
      rewrite FA1 by discriminate. reflexivity.
    - unfold after_at, after_slot. rewrite Eidx. destruct Eq as (v & x & _ & _ & E & _). exact E.
    - unfold after_at, after_slot. rewrite Eidx. exact (proj1 (proj2 Eq)).
    - unfold after_at, after_slot. rewrite Eidx. cbn [after_slot_of]. rewrite (proj1 (proj2 Eq)).
      destruct His as [_ Ha]. destruct (reg_after r).
      + subst af. cbn [option_map]. rewrite FA1 by discriminate. reflexivity.
      + destruct af as [[|]|]; [exfalso; apply Ha; reflexivity| |]; reflexivity.
    - destruct Eq as (v & x & _ & _ & _ & E). rewrite E. f_equal.
      destruct (stage_item StConst el) as [it|] eqn:Eit;
        [|unfold stage_item in Eit; rewrite Eidx in Eit; discriminate Eit].
      destruct (stage_item_facts _ _ _ Eit) as (_ & _ & _ & F4 & _).
      pose proof (proj2 (A1 el it Hin Eit)) as Gx. rewrite F4 in Gx. rewrite Gx. unfold hx. rewrite E. reflexivity.
    - rewrite (proj2 (proj2 Eq)). f_equal. rewrite FA2; [symmetry; apply init_int; exact Hin|].
      unfold int_slot. rewrite Eidx. discriminate.
    - rewrite (proj2 (proj2 Eq)). f_equal. rewrite FA2; [symmetry; apply init_int; exact Hin|].
      unfold int_slot. rewrite Eidx. discriminate. }
  destruct HT as (N1 & N2 & N3 & N4).
  assert (Hr := fun el Hin => read_refs T (nv_val s0) (nv_after s0) (nv_net s0) el Hin N1 N2 N4).
  assert (R : exists st, setup sm nw c = Ok st /\ st_eq st T).
  { unfold setup. rewrite const_run. apply run_items_complete; try assumption.
    - exact (stage_items_ok _ _ _ _ _ _ Ht Hpl).
    - intros it Hit. apply in_stage_items in Hit. destruct Hit as (el & Hin & Hit).
      pose proof (HE _ (el_in_bs _ Hin)) as Eq. unfold setup_equation in Eq.
      change (pb_name (el_b el)) with (el_name el) in Eq. rewrite (Hsh el Hin) in Eq. cbn zeta in Eq.
      pose proof (trace_shape _ _ _ _ _ Ht _ Hin) as His.
      destruct (stage_item_facts _ _ _ Hit) as (F1 & _ & F3 & F4 & _).
      destruct (A1 el it Hin Hit) as [Gv Gx].
      unfold stage_item in Hit. destruct (el_idx el) as [i|i|r] eqn:Eidx; try discriminate Hit.
      destruct (el_shape el) eqn:Esh; cbn [idx_shape] in His; try contradiction.
      destruct Eq as (v & x & E1 & E2 & _ & E4).
      assert (Hmet : it_metrics it = map fst (e_metrics (el_entry el))) by (injection Hit as <-; reflexivity).
      assert (Hsl : it_slot it = Some (StConst, el_type el, i)) by (injection Hit as <-; reflexivity).
      exists (Some v). rewrite F1, Hmet, Gx, F4, (init_int el Hin), (proj1 (Hr el Hin)). unfold f_const.
      rewrite E1. unfold hx. rewrite E4. cbn. split; [reflexivity|]. rewrite Hsl, (Gv _ Hsl). unfold hv.
      rewrite E2. reflexivity. }
  destruct R as (st & R & S). exists st. split; [exact R|].
  split; [|split; [|split]].
  - intros el Hin. rewrite (st_eq_val_at _ _ el S). apply N1. exact Hin.
  - intros el Hin. rewrite (st_eq_after_at _ _ el S). apply N2. exact Hin.
  - intros el Hin. destruct S as (_ & -> & _). apply N3. exact Hin.
  - destruct S as (_ & _ & ->). exact N4.
Qed.

(** ** Whole runs. *)

Lemma run_sound : forall envs st prev outss, agrees st prev -> run sm nw c envs st = Ok outss ->
  run_equations sm bs nd (shape_in es) prev envs outss.
Proof.
  induction envs as [|env envs IH]; intros st prev outss Hag H; cbn [run] in H.
  - injection H as <-. constructor.
  - apply rbind_Ok in H. destruct H as ([st3 outs] & R & H). apply rbind_Ok in H. destruct H as (rest & R' & H).
    cbn [fst snd] in *. injection H as <-. destruct (step_sound _ _ _ _ _ Hag R) as [Hag' HE].
    econstructor; [exact HE|]. exact (IH _ _ _ Hag' R').
Qed.

Lemma run_complete : forall sh envs st prev outss,
  (forall el, In el es -> sh (el_name el) = el_shape el) -> agrees st prev ->
  run_equations sm bs nd sh prev envs outss -> run sm nw c envs st = Ok outss.
Proof.
  intros sh envs st prev outss Hsh Hag H. revert st Hag.
  induction H as [prev|prev cur env envs outs outss HE HR IH]; intros st Hag; [reflexivity|].
  destruct (step_complete _ _ _ _ _ _ Hsh Hag HE) as (st3 & R & Hag').
  cbn [run]. rewrite R. cbn [rbind fst snd]. rewrite (IH _ Hag'). reflexivity.
Qed.

Lemma simulate_means : forall envs outss,
  simulate sm nw c envs = Ok outss <-> means sm bs nd envs outss.
Proof.
  intros envs outss. split.
  - intro H. unfold simulate in H. apply rbind_Ok in H. destruct H as (st & R & H).
    destruct (setup_sound _ R) as [Hag HE].
    exists (shape_in es), (named st). split; [exact (trace_shapes_ok _ _ _ _ _ _ Ht HP)|].
    split; [exact HE|]. exact (run_sound _ _ _ _ Hag H).
  - intros (sh & s0 & Hsh & HE & HR).
    assert (Hsh' : forall el, In el es -> sh (el_name el) = el_shape el).
    { apply (shapes_unique _ _ _ _ _ _ _ Ht el_in_bs Hsh). }
    destruct (setup_complete _ _ Hsh' HE) as (st & R & Hag).
    unfold simulate. rewrite R. cbn [rbind]. exact (run_complete _ _ _ _ _ Hsh' Hag HR).
Qed.

End Step.
