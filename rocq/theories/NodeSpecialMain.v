(** The parameters of Muskingum routing and of turbines in a run. *)
From Coq Require Import Ascii String.
From Coq Require Import QArith Lia.
From Verif Require Import Base Calendar Timestep AggFuncs ControlCurves Formulas ParamsTemporal Profiles SchemaNodes SchemaVirtual MetricSets
  SchemaParams ParamBuild ParamBuildSpec ParamEval ParamEvalSpec ParamTiers ParamTiersLemmas ParamTiersMain
  ParamTiersSpec ParamOrderLemmas Network NetworkBuild NetworkSpec NetworkBuildLemmas Lp LpSpec LpRelLemmas SchemaMetrics NetState NetStateSpec
  NetStateLemmas NetRunLemmas NetHistLemmas WholeRun WholeRunSpec WholeRunLemmas WholeRunMain NodeParams NodeSpecial NodeSpecialSpec.
Local Open Scope string_scope.
Local Open Scope list_scope.
Local Open Scope nat_scope.

(** Metrics that are read replaced by their values. *)
Definition as_read (r : res calc_error Q) (q : Q) : Prop := forall x, r = Ok x -> x = q.

Lemma muskingum_read first ini i o k w qi qo qk qw v :
  as_read i qi -> as_read o qo -> as_read k qk -> as_read w qw ->
  muskingum_before first ini i o k w = Ok v -> muskingum_before first ini (Ok qi) (Ok qo) (Ok qk) (Ok qw) = Ok v.
Proof.
  unfold muskingum_before. intros Hi Ho Hk Hw H.
  destruct w as [w|w|]; try discriminate. destruct k as [k|k|]; try discriminate. rewrite <- (Hk k eq_refl), <- (Hw w eq_refl). cbn [rbind] in *.
  destruct first; [exact H|]. destruct i as [i|i|]; try discriminate. destruct o as [o|o|]; try discriminate.
  rewrite <- (Hi i eq_refl), <- (Ho o eq_refl). exact H.
Qed.

Definition as_reads (r : option (res calc_error Q)) (q : option Q) : Prop :=
  match r, q with Some r, Some q => as_read r q | None, None => True | _, _ => False end.
Lemma head_read h e qe v : as_reads e qe -> hydro_head h e = Ok v -> hydro_head h (option_map Ok qe) = Ok v.
Proof.
  unfold hydro_head. destruct e as [e|], qe as [qe|]; cbn [as_reads option_map]; try contradiction; [|auto].
  intros He. destruct e as [e|e|]; try discriminate. rewrite (He e eq_refl). auto.
Qed.
Lemma hydro_before_read h t e qt qe v : as_reads t qt -> as_reads e qe ->
  hydropower_before h t e None None = Ok v -> hydropower_before h (option_map Ok qt) (option_map Ok qe) None None = Ok v.
Proof.
  unfold hydropower_before. intros Ht He H. destruct (hydro_head h e) as [hd|hd|] eqn:E; try discriminate.
  rewrite (head_read h e qe hd He E). cbn [rbind] in *. destruct t as [t|], qt as [qt|]; cbn [as_reads option_map] in *; try contradiction; [|discriminate].
  destruct (Qle_bool hd (hy_min_head h)); [exact H|]. destruct t as [t|t|]; try discriminate. rewrite <- (Ht t eq_refl). exact H.
Qed.
Lemma hydro_after_read h f e qf qe v : as_read f qf -> as_reads e qe ->
  hydropower_after h (Some f) e = Ok v -> hydropower_after h (Some (Ok qf)) (option_map Ok qe) = Ok v.
Proof.
  unfold hydropower_after. intros Hf He H. destruct f as [f|f|]; try discriminate. rewrite <- (Hf f eq_refl). cbn [rbind] in *.
  destruct (hydro_head h e) as [hd|hd|] eqn:E; try discriminate. rewrite (head_read h e qe hd He E). exact H.
Qed.

Lemma deficit_read f m qf qm v : as_read f qf -> as_read m qm -> deficit f m = Ok v -> deficit (Ok qf) (Ok qm) = Ok v.
Proof.
  unfold deficit. intros Hf Hm H. destruct f as [f|f|]; try discriminate. destruct m as [m|m|]; try discriminate.
  rewrite <- (Hf f eq_refl), <- (Hm m eq_refl). exact H.
Qed.

Section Special.
Context {X Net Er : Type}.
Variable sm : sem (pvalue X) (pint X) timestep Net Er.
Variables (cd : coding) (er : calc_error -> Er) (cps : list cparam) (sps : list special) (multi : list (string * Q) -> X).
Hypothesis im : implements cd ts_date er sm cps.
Hypothesis ims : implements_special cd er sm sps multi.
Variables (nodes other : list nat) (bs : list pbuilder) (coll : collection) (mp : maps).
Hypothesis Hbuild : build nodes other bs = Some (Ok (coll, mp)).
Hypothesis Hsps : forall s, In s sps -> In (special_builder cd s) bs.
Variable sh : ParamBuild.pname -> shape.
Hypothesis Hsh : shapes_ok bs sh.
Variable ts : list timestep.
Variable st : nat -> nstore (pvalue X) (pint X) Net.
Variable net1 : nat -> Net.
Hypothesis Hstep : forall t env, nth_error ts t = Some env ->
  forall b, In b bs -> step_equation sm bs sh env (st t) (st (S t)) (net1 t) b.
Variable date : nat -> datetime.
Hypothesis Hfirst : forall t env, nth_error ts t = Some env -> is_first env = (t =? 0).

Let V := vals cd ts st.
Let of := others_f sm cd bs ts st net1.
Let rds := reads sm bs st net1.

Lemma keyed : keyed_values of.
Proof. intros t parent name k. unfold of, others_f. destruct (t <? length ts); reflexivity. Qed.

Lemma read_before s m ph t : In s sps -> In (uref_f cd m, ph) (pb_refs (special_builder cd s)) -> ph <> CAfter -> t < length ts ->
  as_read (to_f (rds Before t (uref_f cd m))) (read_f V of Before t m).
Proof.
  intros Hs Hm Hph Ht q Hq.
  refine (agree_f sm cd ts_date er cps im bs ts st net1 date Before t m q Ht (or_intror _) _).
  - pose proof (built_after nodes other bs coll mp _ _ _ Hbuild (Hsps s Hs) Hm) as H. unfold current.
    destruct (uref_f cd m) as [? rv|? rv| | | |]; try exact I; destruct rv; try exact I; congruence.
  - unfold rds in Hq. destruct (reads sm bs st net1 Before t (uref_f cd m)) as [[x|x|x]|x|]; cbn in Hq; try discriminate. congruence.
Qed.
Lemma read_after m t : t < length ts -> as_read (to_f (rds After t (uref_f cd m))) (read_f V of After t m).
Proof.
  intros Ht q Hq.
  refine (agree_f sm cd ts_date er cps im bs ts st net1 date After t m q Ht (or_introl eq_refl) _).
  unfold rds in Hq. destruct (reads sm bs st net1 After t (uref_f cd m)) as [[x|x|x]|x|]; cbn in Hq; try discriminate. congruence.
Qed.

Lemma special_shape s : In s sps -> pb_shape (special_builder cd s) (map (fun r => ref_class sh (fst r)) (pb_refs (special_builder cd s))) = Some (sh (pb_name (special_builder cd s))).
Proof. intros Hs. exact (Hsh _ (Hsps s Hs)). Qed.

Lemma type_of_special s : In s sps -> type_of bs (cd_name cd (special_name s)) <> None.
Proof.
  intros Hs E. unfold type_of in E. destruct (find _ bs) eqn:F; [discriminate|]. pose proof (find_none _ _ F _ (Hsps s Hs)) as H. cbn in H.
  destruct s; cbn [special_builder pb_name] in H; rewrite Nat.eqb_refl in H; discriminate.
Qed.

Lemma special_run s : In s sps -> special_runs V of (length ts) s.
Proof.
  intros Hs. unfold special_runs. intros t Ht. cbv beta zeta. destruct (nth_error_lt_Some ts t Ht) as [env He].
  pose proof (Hstep t env He _ (Hsps s Hs)) as H. unfold step_equation in H.
  pose proof (special_shape s Hs) as Hshape. pose proof (type_of_special s Hs) as Hty. pose proof (Hfirst t env He) as Hf.
  destruct s as [p i o k w ini|p fl tg el h|p fl mx].
  - assert (E0 : sh (pb_name (special_builder cd (SpMuskingum p i o k w ini))) = ShGeneral true None) by (injection Hshape as Hshape; symmetry; exact Hshape).
    cbv zeta in H. rewrite E0 in H. clear Hshape E0.
    destruct H as (x & x1 & x2 & _ & _ & (v & H & Hv) & _). cbn [special_builder pb_name] in H, Hv.
    rewrite (is_before _ _ _ _ _ ims _ Hs) in H. apply lift_inv in H. apply rbind_Ok in H. destruct H as (v' & H & E). injection E as <- _.
    cbn [special_before refs_before special_builder pb_refs map filter snd fst] in H.
    apply rbind_Ok in H. destruct H as ((f & r) & H & E). cbn [fst snd] in E. injection E as <-.
    change (muskingum_before (is_first env) ini (to_f (rds Before t (uref_f cd i))) (to_f (rds Before t (uref_f cd o))) (to_f (rds Before t (uref_f cd k)))
      (to_f (rds Before t (uref_f cd w))) = Ok (f, r)) in H.
    rewrite Hf in H.
    assert (K : forall key q, sm_view sm (AcMulti (cd_key cd key)) (PvOther (multi [("inflow_factor", f); ("rhs", r)])) = Ok (PvF q) ->
      read_f V of Before t (LmParam (Some (fst p)) (snd p) (Some key) RvBefore) = q).
    { intros key q Hk. cbn [read_f]. unfold of, others_f. rewrite (proj2 (Nat.ltb_lt _ _) Ht).
      cbn [uref_f rv_of reads read_named ref_target conversion]. change (pname_new (snd p) (Some (fst p))) with (special_name (SpMuskingum p i o k w ini)).
      destruct (type_of bs (cd_name cd (special_name (SpMuskingum p i o k w ini)))) as [ty|]; [|congruence].
      rewrite Hv, Hk. reflexivity. }
    cbv beta zeta. rewrite (K "inflow_factor" f (proj1 (is_multi _ _ _ _ _ ims f r))), (K "rhs" r (proj2 (is_multi _ _ _ _ _ ims f r))).
    refine (muskingum_read _ _ _ _ _ _ _ _ _ _ _ _ _ _ _ H); apply (read_before (SpMuskingum p i o k w ini) _ CBefore); try exact Hs; try exact Ht; try discriminate;
      cbn [special_builder pb_refs map]; auto 6 using in_eq, in_cons.
  - assert (E0 : sh (pb_name (special_builder cd (SpHydropower p fl tg el h))) = ShGeneral (match tg with Some _ => true | None => false end) (Some OpValue))
      by (injection Hshape as Hshape; symmetry; exact Hshape).
    cbv zeta in H. rewrite E0 in H. clear Hshape E0.
    set (s := SpHydropower p fl tg el h) in *.
    destruct H as (x & x1 & x2 & _ & _ & HB & (va & HA & Hva)). split.
    + intros Htg. destruct tg as [tg|]; [clear Htg|congruence]. destruct HB as (v & HB & Hv).
      change (pb_name (special_builder cd s)) with (cd_name cd (special_name s)) in HB, Hv.
      rewrite (is_before _ _ _ _ _ ims _ Hs) in HB. apply lift_inv in HB. apply rbind_Ok in HB. destruct HB as (v' & HB & E). injection E as <- _.
      cbn [special_before s refs_before] in HB. apply rbind_Ok in HB. destruct HB as (q & HB & E). injection E as <-.
      assert (E : read_f V of Before t (LmParam (Some (fst p)) (snd p) None RvBefore) = q).
      { cbn [read_f]. unfold V, vals. rewrite (proj2 (Nat.ltb_lt _ _) Ht). change (pname_new (snd p) (Some (fst p))) with (special_name s). rewrite Hv. reflexivity. }
      rewrite E.
      assert (G : hydropower_before h (Some (to_f (rds Before t (uref_f cd tg)))) (option_map (fun m => to_f (rds Before t (uref_f cd m))) el) None None = Ok q)
        by (destruct el as [el|]; exact HB).
      pose proof (fun r1 r2 => hydro_before_read h r1 r2 (Some (read_f V of Before t tg)) (option_map (read_f V of Before t) el) q) as R.
      replace (option_map (fun m => Ok (read_f V of Before t m)) el) with (option_map (@Ok calc_error Q) (option_map (read_f V of Before t) el)) by (destruct el; reflexivity).
      refine (R _ _ _ _ G).
      * apply (read_before s _ CBefore); try exact Hs; try exact Ht; try discriminate. cbn. auto.
      * destruct el as [el|]; cbn [option_map as_reads]; [|exact I]. apply (read_before s _ CBoth); try exact Hs; try exact Ht; try discriminate. cbn. auto.
    + change (pb_name (special_builder cd s)) with (cd_name cd (special_name s)) in HA, Hva.
      rewrite (is_after _ _ _ _ _ ims _ Hs) in HA. apply lift_inv in HA. apply rbind_Ok in HA. destruct HA as (v' & HA & E). injection E as <- _.
      assert (G : exists q, hydropower_after h (Some (to_f (rds After t (uref_f cd fl)))) (option_map (fun m => to_f (rds After t (uref_f cd m))) el) = Ok q /\ v' = PvF q).
      { unfold special_after, s, refs_all in HA. cbn [special_builder pb_refs app map fst given_refs] in HA.
        destruct tg as [tg|], el as [el|]; cbn [given_refs app map fst snd take option_map] in HA; apply rbind_Ok in HA; destruct HA as (q & HA & E); injection E as <-;
          exists q; split; try reflexivity; exact HA. }
      destruct G as (q & G & ->).
      assert (E : read_f V of After t (LmParam (Some (fst p)) (snd p) None RvAfter) = q).
      { cbn [read_f]. unfold V, vals. rewrite (proj2 (Nat.ltb_lt _ _) Ht). change (pname_new (snd p) (Some (fst p))) with (special_name s). rewrite Hva. reflexivity. }
      rewrite E.
      replace (option_map (fun m => Ok (read_f V of After t m)) el) with (option_map (@Ok calc_error Q) (option_map (read_f V of After t) el)) by (destruct el; reflexivity).
      refine (hydro_after_read h _ _ _ _ q _ _ G); [exact (read_after fl t Ht)|].
      destruct el as [el|]; cbn [option_map as_reads]; [exact (read_after el t Ht)|exact I].
  - assert (E0 : sh (pb_name (special_builder cd (SpDeficit p fl mx))) = ShGeneral false (Some OpValue)) by (injection Hshape as Hshape; symmetry; exact Hshape).
    cbv zeta in H. rewrite E0 in H. clear Hshape E0. set (s := SpDeficit p fl mx) in *.
    destruct H as (x & x1 & x2 & _ & _ & _ & (va & HA & Hva)).
    change (pb_name (special_builder cd s)) with (cd_name cd (special_name s)) in HA, Hva.
    rewrite (is_after _ _ _ _ _ ims _ Hs) in HA. apply lift_inv in HA. apply rbind_Ok in HA. destruct HA as (v' & HA & E). injection E as <- _.
    unfold special_after, s, refs_all in HA. cbn [special_builder pb_refs map fst] in HA. apply rbind_Ok in HA. destruct HA as (q & HA & E). injection E as <-.
    assert (E : read_f V of After t (LmParam (Some (fst p)) (snd p) None RvAfter) = q).
    { cbn [read_f]. unfold V, vals. rewrite (proj2 (Nat.ltb_lt _ _) Ht). change (pname_new (snd p) (Some (fst p))) with (special_name s). rewrite Hva. reflexivity. }
    rewrite E. exact (deficit_read _ _ _ _ q (read_after fl t Ht) (read_after mx t Ht) HA).
Qed.
End Special.

Lemma run_of_set_up_with :
  forall (X : Type) a net solver fm order cd (sm : sem (pvalue X) (pint X) timestep whole run_error) cps sps ms nd nw coll,
  set_up_with a net solver fm order cd sm cps sps ms nd nw coll ->
  forall ts outss, simulate sm nw coll ts = Ok outss -> regular ts ->
  forall date, (forall t e, nth_error ts t = Some e -> date t = ts_date e) ->
  exists V other_f other_i steps,
    SchemaParams.runs V other_f other_i date (length ts) cps /\ (forall s, In s sps -> special_runs V other_f (length ts) s) /\ keyed_values other_f /\
    (forall c u q, In c cps -> cp_body c = CDelay (LmNode (UNodeInFlow u)) 0 q -> ts = []) /\
    whole_run a net fm order ms V other_f ts steps /\
    length outss = length ts /\ records cd V other_f other_i (nd_out nd) outss.
Proof.
  intros X a net solver fm order cd sm cps sps ms nd nw coll
    [S1 S2 S3 (b0 & S4 & S5) (er & multi & im & ims) S7 (nodes & other & bs & mp & Hnw & Hsps & Hb & Hn)] ts outss Hs Hr date Hd.
  destruct (run_of_build X a net solver fm order cd sm cps ms nd nw coll b0 er nodes other bs mp S2 S3 S4 S5 im S7 Hnw Hb Hn ts outss Hs date Hd)
    as (sh & st & net1 & steps & Hsh & Hset & Hst & HR & H).
  eexists _, _, _, steps. split; [exact HR|]. split; [|split; [|split; [|exact H]]].
  - intros s Hin. apply (special_run sm cd er cps sps multi im ims nodes other bs coll mp Hb Hsps sh Hsh ts st net1 Hst date); [|exact Hin].
    intros t env He. unfold is_first. rewrite (proj1 (Hr t env He)). destruct t; reflexivity.
  - apply keyed.
  - intros c u q Hc Hbody. apply length_zero_iff_nil.
    exact (no_zero_delay sm cd ts_date er cps im bs (proj1 Hnw) sh Hsh ts st net1 Hset Hst date Hd c Hc _ q _ Hbody eq_refl).
Qed.
