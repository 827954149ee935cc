(** C79: the calls into the C solver libraries stay within the memory they are
    given, for every network and every history of time-steps. *)
From Verif Require Import NetworkBuildLemmas.
From Verif Require Import Base Calendar Network NetworkBuild NetworkSpec Lp LpSpec LpColLemmas LpRowLemmas LpUpdateLemmas LpLemmas LpDynLemmas Props_LpRel.
From Verif Require Import Backends BackendsSpec BackendsLemmas BackendsMain Props_Backends Ffi FfiSpec FfiLemmas FfiMain.
Open Scope nat_scope.

Lemma microlp_steps net ids ss : forall a, steps_calls Microlp net ids ss a = [].
Proof.
  induction ss as [|s ss IH]; intros a; cbn [steps_calls]; [reflexivity|]. destruct (update_arrays _ _ _ _); [|reflexivity..].
  cbn [run_calls send_calls app]. apply IH.
Qed.
Lemma create_edges fm order net b : create fm order net = Ok b -> 0 < length (net_edges net).
Proof. unfold create. destruct (Nat.ltb_spec (length (net_edges net)) 1) as [H|H]; [discriminate | intros _; lia]. Qed.

(** Every call a solver makes, from set-up to the last time-step and the drop,
    is given enough memory and names rows and columns that exist; no slice is
    indexed beyond its end while the calls are made. *)
Theorem C79_safe : forall k fm order net ss b, wf_network net -> create fm order net = Ok b ->
  exists cs, life k fm order net ss = Ok cs /\ safe cs None.
Proof.
  intros k fm order net ss b wf Hc. unfold life. rewrite Hc. destruct (create_props _ _ _ _ Hc) as (V & F & Hcr).
  pose proof (cr_obj _ _ _ _ _ _ Hcr) as Hobj. rewrite build_closed, (cr_fmax _ _ _ _ _ _ Hcr).
  assert (Hk : k = Microlp \/ k <> Microlp) by (destruct k; [right | right | right | left]; congruence).
  destruct Hk as [-> |Hk].
  - cbn [setup_calls app drop_calls]. eexists. split; [reflexivity|]. rewrite microlp_steps. exact I.
  - destruct (setup_safe net wf fm order b V F Hcr k _ Hk Hobj) as (cs & E & S1 & p & Ep & Sp). rewrite E.
    eexists. split; [reflexivity|].
    destruct (steps_safe net wf fm order b V F Hcr k Hk (cols_nonempty net wf fm order b V F Hcr (create_edges _ _ _ _ Hc)) ss _ _ [] p Hobj
                (created_rows_ok net wf fm order b V F Hcr) eq_refl Sp) as [S2 (q & Eq)].
    rewrite !safe_app, Ep, Eq. split; [exact S1|]. split; [exact S2|]. destruct k; cbn; auto.
Qed.
Print Assumptions C79_safe.

(** The calls leave the library with the problem of C71. *)
Theorem C79_same_problem : forall k fm order net ss sv0 sv, wf_network net -> k <> Microlp ->
  setup k fm order net = Ok sv0 -> sends k net (map sp_state ss) sv0 = Ok sv -> (forall s, In s ss -> sp_first s = SOptimal) ->
  exists cs p, life k fm order net ss = Ok (cs ++ drop_calls k) /\ calls_on cs None = Some p /\ sv_held sv = HStd p.
Proof.
  intros k fm order net ss sv0 sv wf Hk Hs Hr Hopt. unfold setup in Hs. destruct (create fm order net) as [b| |] eqn:Hc; try discriminate.
  destruct (create_props _ _ _ _ Hc) as (V & F & Hcr). pose proof (cr_obj _ _ _ _ _ _ Hcr) as Hobj.
  pose proof (created_rows_ok net wf fm order b V F Hcr) as Hrows.
  unfold life. rewrite Hc. rewrite build_closed, (cr_fmax _ _ _ _ _ _ Hcr) in *.
  destruct (setup_safe net wf fm order b V F Hcr k _ Hk Hobj) as (cs & E & _ & p & Ep & Sp). rewrite E.
  set (a0 := arr_of fm (lp_cols (bt_lp b)) (lp_obj (bt_lp b)) (lp_rows (bt_lp b)) []) in *.
  assert (H0 : exists p0, sv0 = mkSolver b a0 (HStd p0) /\ p0 = p).
  { destruct k; [| | |congruence]; injection Hs as <-; eexists; (split; [reflexivity|]); cbn [setup_calls] in E.
    - injection E as <-. assert (Hp : calls_on (highs_setup_calls a0) None = Some (highs_setup a0)) by apply highs_setup_problem. congruence.
    - injection E as <-. assert (Hp : calls_on (clp_setup_calls a0) None = Some (clp_setup a0)) by (apply clp_setup_problem; exact Hobj). congruence.
    - pose proof (cbc_setup_problem fm _ _ _ _ Hobj cs E) as Hp; fold a0 in Hp; congruence. }
  destruct H0 as (p0 & -> & ->).
  exists (cs ++ steps_calls k net b ss a0).
  assert (G : forall ss obj rows ups p, (forall s, In s ss -> sp_first s = SOptimal) -> length obj = length (lp_cols (bt_lp b)) ->
            Forall (row_ok (length (lp_cols (bt_lp b)))) rows -> length rows = length (lp_rows (bt_lp b)) ->
            size p (length (lp_cols (bt_lp b))) (length (lp_rows (bt_lp b))) ->
            let a := arr_of fm (lp_cols (bt_lp b)) obj rows ups in
            sends k net (map sp_state ss) (mkSolver b a (HStd p)) = Ok sv ->
            exists q, calls_on (steps_calls k net b ss a) (Some p) = Some q /\ sv_held sv = HStd q).
  { clear p Ep Sp Hr ss Hopt E a0 cs Hs.
    induction ss as [|s ss IH]; intros obj rows ups p Hopt Ho Hrw Hlen Hp a Hr; cbn [map sends] in Hr.
    { injection Hr as <-. exists p. split; reflexivity. }
    unfold sres in Hr. apply rbind_Ok in Hr. destruct Hr as (sv1 & H1 & H2). unfold send, sres in H1. cbn [sv_ids sv_arr sv_held] in H1.
    apply rbind_Ok in H1. destruct H1 as (a' & Ha & H1). cbn [steps_calls]. unfold lift_update in Ha.
    destruct (update_arrays net b (sp_state s) a) as [a1| |] eqn:Eu; try discriminate. injection Ha as ->.
    destruct (update_shape net wf fm order b V F Hcr _ _ _ _ _ _ eq_refl Ho Hrw Hlen a' Eu) as (obj' & rows' & ups' & -> & Ho' & Hr' & Hl' & Hu').
    assert (Hn : 0 < length (lp_cols (bt_lp b))) by apply (cols_nonempty net wf fm order b V F Hcr (create_edges _ _ _ _ Hc)).
    destruct (step_safe fm b k obj' rows' ups' (sp_first s) (sp_second s) p Hk Hn Ho' Hr' Hl' Hu' Hp) as [_ (q & Eq & Sq & _ & Eq2)].
    set (a' := arr_of fm (lp_cols (bt_lp b)) obj' rows' ups') in *.
    assert (Hstep : sv1 = mkSolver b a' (HStd q) /\ snd (run_calls k a' (sp_first s) (sp_second s)) = true).
    { rewrite (Hopt s (or_introl eq_refl)). destruct k; [| | |congruence]; cbn [send_calls run_calls] in *.
      - assert (Hx : calls_on (highs_send_calls a') (Some p) = Some (highs_send a' p)) by (apply highs_send_problem; [exact Ho' | apply Hp]).
        rewrite Eq in Hx. injection Hx as ->. injection H1 as <-. split; reflexivity.
      - assert (Hx : calls_on (clp_send_calls a') (Some p) = Some (clp_send a' p)) by apply clp_send_problem.
        rewrite Eq in Hx. injection Hx as ->. injection H1 as <-. split; reflexivity.
      - apply rbind_Ok in H1. destruct H1 as (q' & Hq' & H1). injection H1 as <-.
        assert (Hup : ar_updates a' = []) by (unfold cbc_send in Hq'; destruct (ar_updates a'); [reflexivity | discriminate]).
        destruct (cbc_send_problem fm (lp_cols (bt_lp b)) obj' rows' ups' Ho' p) as (q2 & Hq2 & Hx); [rewrite Hl'; exact Hp | exact Hup |].
        fold a' in Hq2, Hx. rewrite Eq in Hx. injection Hx as ->. rewrite Hq' in Hq2. injection Hq2 as ->.
        split; [reflexivity|]. unfold cbc_run_calls. rewrite Hup. reflexivity. }
    destruct Hstep as [-> Hgo]. destruct (run_calls k a' (sp_first s) (sp_second s)) as [rc go]. cbn [fst snd] in *. subst go.
    rewrite !calls_app, Eq, Eq2. apply (IH obj' rows' ups' q (fun s' Hs' => Hopt s' (or_intror Hs')) Ho' Hr' Hl' Sq H2). }
  destruct (G ss _ _ [] p Hopt Hobj Hrows eq_refl Sp Hr) as (q & Hq & Hh). exists q. split; [rewrite app_assoc; reflexivity|]. split; [|exact Hh].
  rewrite calls_app, Ep. exact Hq.
Qed.
Print Assumptions C79_same_problem.

(** The flow of every edge is read from a place the solution has. *)
Theorem C79_flows_in_range : forall k fm order net ss cs c n e, wf_network net -> life k fm order net ss = Ok cs ->
  In c cs -> solution_places c = Some n -> In e (places_read net) -> e < n.
Proof.
  intros k fm order net ss cs c n e wf Hl Hc Hn He. unfold life in Hl. destruct (create fm order net) as [b| |] eqn:Hcre; try discriminate.
  destruct (create_props _ _ _ _ Hcre) as (V & F & Hcr).
  assert (Hlt : e < length (lp_cols (bt_lp b))).
  { unfold places_read in He. apply in_map_iff in He. destruct He as (i & <- & Hi). apply in_seq in Hi.
    apply (base_lt net fm order b V F Hcr). apply (edge_column_exists net wf). lia. }
  rewrite build_closed, (cr_fmax _ _ _ _ _ _ Hcr) in Hl. set (a0 := arr_of _ _ _ _ _) in Hl.
  assert (Hset : forall cs, setup_calls k a0 = Ok cs -> forall c, In c cs -> solution_places c = None).
  { intros cs0 H0 c0 Hin. destruct k; cbn [setup_calls] in H0.
    - injection H0 as <-. destruct Hin as [<-|[<-|Hin]]; [reflexivity..|]. apply in_app_iff in Hin. destruct Hin as [Hin|[<-|[]]]; [|reflexivity].
      apply in_map_iff in Hin. destruct Hin as (it & <- & _). reflexivity.
    - injection H0 as <-. repeat (destruct Hin as [<-|Hin]; [reflexivity|]). destruct Hin.
    - unfold cbc_setup_calls in H0. apply rbind_Ok in H0. destruct H0 as (ccs & H1 & H0). apply rbind_Ok in H0. destruct H0 as (css & H2 & H0). injection H0 as <-.
      destruct Hin as [<-|Hin]; [reflexivity|]. apply in_app_iff in Hin. destruct Hin as [Hin|Hin].
      + apply rmap_Ok_Forall2 in H1. destruct (Forall2_In_r _ _ _ _ H1 Hin) as (i & _ & Hi). unfold cbc_col_call in Hi.
        destruct (nth_error (ar_col_lower a0) i), (nth_error (ar_col_upper a0) i), (nth_error (ar_col_type a0) i), (nth_error (ar_obj a0) i); try discriminate.
        injection Hi as <-. reflexivity.
      + apply in_concat in Hin. destruct Hin as (rcs & Hrc & Hin). apply rmap_Ok_Forall2 in H2. destruct (Forall2_In_r _ _ _ _ H2 Hrc) as (i & _ & Hi).
        unfold cbc_row_calls in Hi. destruct (nth_error (ar_starts a0) i); [|discriminate]. destruct (nth_error (ar_starts a0) (S i)); [|discriminate].
        apply rbind_Ok in Hi. destruct Hi as (l1 & _ & Hi). apply rbind_Ok in Hi. destruct Hi as (l2 & _ & Hi).
        destruct (nth_error (ar_upper a0) i), (nth_error (ar_lower a0) i); try discriminate. injection Hi as <-.
        destruct Hin as [<-|[<-|[<-|[]]]]; reflexivity.
    - injection H0 as <-. destruct Hin. }
  destruct (setup_calls k a0) as [cs0| |] eqn:E0; try discriminate. injection Hl as <-. rewrite !in_app_iff in Hc.
  destruct Hc as [Hc|[Hc|Hc]]; [rewrite (Hset _ eq_refl c Hc) in Hn; discriminate | |].
  2:{ destruct k; cbn in Hc; try contradiction; destruct Hc as [<-|[]]; discriminate. }
  assert (G : forall ss a, length (ar_col_upper a) = length (lp_cols (bt_lp b)) -> In c (steps_calls k net b ss a) -> e < n).
  { clear Hc E0 Hset cs0 a0 ss. induction ss as [|s ss IH]; intros a Ha Hc; cbn [steps_calls] in Hc; [destruct Hc|].
    destruct (update_arrays net b (sp_state s) a) as [a'| |] eqn:Eu; try (destruct Hc; fail).
    assert (Ha' : length (ar_col_upper a') = length (lp_cols (bt_lp b))).
    { unfold update_arrays, ures in Eu. apply rbind_Ok in Eu. destruct Eu as (ops & _ & Eu). injection Eu as <-.
      assert (Hf : forall ops x, ar_col_upper (fold_left do_op ops x) = ar_col_upper x).
      { induction ops0 as [|o ops0 IHo]; intros x; cbn [fold_left]; [reflexivity|]. rewrite IHo. destruct o; reflexivity. }
      rewrite Hf. exact Ha. }
    destruct (run_calls k a' (sp_first s) (sp_second s)) as [rc go] eqn:Er. rewrite !in_app_iff in Hc.
    destruct Hc as [Hc|[Hc|Hc]].
    - exfalso. destruct k; cbn [send_calls] in Hc.
      + destruct Hc as [<-|[<-|Hc]]; try discriminate. apply in_map_iff in Hc. destruct Hc as (u & <- & _). discriminate.
      + destruct Hc as [<-|[<-|[<-|Hc]]]; try discriminate. apply in_map_iff in Hc. destruct Hc as (u & <- & _). discriminate.
      + unfold cbc_send_calls in Hc. rewrite !in_app_iff in Hc. destruct Hc as [Hc|[Hc|Hc]]; apply in_map_iff in Hc; destruct Hc as (u & <- & _); discriminate.
      + destruct Hc.
    - assert (Hn' : n = length (ar_col_upper a')); [|lia]. destruct k; cbn [run_calls] in Er.
      + unfold highs_run_calls in Er. destruct (sp_first s), (sp_second s); injection Er as <- _;
          repeat (destruct Hc as [<-|Hc]; [cbn in Hn; congruence|]); destruct Hc.
      + unfold clp_run_calls in Er. destruct (sp_first s); injection Er as <- _; repeat (destruct Hc as [<-|Hc]; [cbn in Hn; congruence|]); destruct Hc.
      + unfold cbc_run_calls in Er. destruct (ar_updates a'), (sp_first s); injection Er as <- _; repeat (destruct Hc as [<-|Hc]; [cbn in Hn; congruence|]); destruct Hc.
      + injection Er as <- _. destruct Hc.
    - destruct go; [|destruct Hc]. apply (IH a' Ha' Hc). }
  apply (G ss a0); [apply map_length | exact Hc].
Qed.
Print Assumptions C79_flows_in_range.

(** *** Solutions that are read *)

Definition quiet (c : call) : bool := negb (solves c) && match solution_places c with None => true | Some _ => false end.

Lemma reads_quiet rs rest : forall cs last, forallb quiet cs = true -> (forall last', reads_optimal rs last' rest) ->
  reads_optimal rs last (cs ++ rest).
Proof.
  induction cs as [|c cs IH]; intros last H Hr; [apply Hr|]. cbn [forallb] in H. apply andb_prop in H. destruct H as [Hc H].
  unfold quiet in Hc. apply andb_prop in Hc. destruct Hc as [H1 H2]. cbn [app reads_optimal]. destruct (solves c); [discriminate|].
  destruct (solution_places c); [discriminate|]. apply IH; assumption.
Qed.

Lemma quiet_map {A} (f : A -> call) l : (forall x, quiet (f x) = true) -> forallb quiet (map f l) = true.
Proof. intros H. induction l as [|x l IH]; [reflexivity|]. cbn [map forallb]. rewrite H. exact IH. Qed.

Lemma quiet_send k a : forallb quiet (send_calls k a) = true.
Proof.
  destruct k; cbn [send_calls]; [| | |reflexivity].
  - unfold highs_send_calls. cbn [forallb]. apply quiet_map. reflexivity.
  - unfold clp_send_calls. cbn [forallb]. apply quiet_map. reflexivity.
  - unfold cbc_send_calls. rewrite !forallb_app, !quiet_map by reflexivity. reflexivity.
Qed.

Lemma quiet_setup k a cs : setup_calls k a = Ok cs -> forallb quiet cs = true.
Proof.
  destruct k; cbn [setup_calls]; intros H.
  - injection H as <-. unfold highs_setup_calls. cbn. rewrite ?forallb_app, ?quiet_map; reflexivity.
  - injection H as <-. reflexivity.
  - unfold cbc_setup_calls in H. destruct (rmap (cbc_col_call a) _) as [cols| |] eqn:E1; try discriminate. cbn [rbind] in H.
    destruct (rmap (cbc_row_calls a) _) as [rows| |] eqn:E2; try discriminate. injection H as <-.
    apply rmap_Ok_Forall2 in E1. apply rmap_Ok_Forall2 in E2. change (forallb quiet (cols ++ concat rows) = true). rewrite forallb_app. apply andb_true_intro. split.
    + clear E2. induction E1 as [|i c l cols Hc _ IH]; [reflexivity|]. cbn [forallb]. apply andb_true_intro. split; [|exact IH].
      unfold cbc_col_call in Hc. repeat (match type of Hc with match ?x with _ => _ end = _ => destruct x end; try discriminate). injection Hc as <-. reflexivity.
    + clear E1. induction E2 as [|i c l rows Hc _ IH]; [reflexivity|]. cbn [concat]. rewrite forallb_app. apply andb_true_intro. split; [|exact IH].
      unfold cbc_row_calls in Hc. destruct (nth_error _ i); [|discriminate]. destruct (nth_error _ (S i)); [|discriminate].
      destruct (checked_slice _ _ (ar_columns a)); try discriminate. cbn [rbind] in Hc.
      destruct (checked_slice _ _ (ar_elements a)); try discriminate. cbn [rbind] in Hc.
      destruct (nth_error _ i); [|discriminate]. destruct (nth_error _ i); [|discriminate]. injection Hc as <-. reflexivity.
  - injection H as <-. reflexivity.
Qed.

Lemma reads_steps k net b rest : forallb quiet rest = true -> forall ss a last,
  reads_optimal (reports k ss) last (steps_calls k net b ss a ++ rest).
Proof.
  intros Hq. assert (Q : forall rs last, reads_optimal rs last rest).
  { intros rs last. rewrite <- (app_nil_r rest). apply reads_quiet; [exact Hq|]. intros; exact I. }
  induction ss as [|s ss IH]; intros a last; [apply Q|]. cbn [steps_calls].
  destruct (update_arrays net b (sp_state s) a) as [a'| |]; [|apply Q|apply Q].
  destruct (run_calls k a' (sp_first s) (sp_second s)) as [cs go] eqn:Er. rewrite <- app_assoc. apply reads_quiet; [apply quiet_send|].
  intros last'. rewrite <- app_assoc. unfold reports. cbn [flat_map]. fold (reports k ss).
  destruct k; cbn [run_calls] in Er.
  - unfold highs_run_calls in Er. destruct (sp_first s), (sp_second s); injection Er as <- <-; cbn; repeat split; auto.
  - unfold clp_run_calls in Er. destruct (sp_first s); injection Er as <- <-; cbn; repeat split; auto.
  - unfold cbc_run_calls in Er. destruct (ar_updates a'), (sp_first s); injection Er as <- <-; cbn; repeat split; auto.
  - injection Er as <- <-. cbn [app]. rewrite microlp_steps. apply Q.
Qed.

(** A solution is read from the library only right after a solve for which the
    library reported an optimal solution (HiGHS: of the second run, if the first
    one ended with an unknown status). *)
Theorem C79_optimal_read : forall k fm order net ss cs, life k fm order net ss = Ok cs ->
  reads_optimal (reports k ss) None cs.
Proof.
  intros k fm order net ss cs H. unfold life in H. destruct (create fm order net) as [b| |]; try discriminate.
  destruct (setup_calls k (build_arrays (bt_lp b))) as [c0| |] eqn:E; try discriminate. injection H as <-.
  apply reads_quiet; [exact (quiet_setup _ _ _ E)|]. intros last. apply reads_steps. destruct k; reflexivity.
Qed.
Print Assumptions C79_optimal_read.

(** The CLP and CBC objects are given back when the solver is dropped. *)
Theorem C79_released_partial : forall k fm order net ss cs, k = Clp \/ k = Cbc \/ k = Microlp -> wf_network net ->
  life k fm order net ss = Ok cs -> calls_on cs None = None.
Proof.
  intros k fm order net ss cs Hk wf Hl. unfold life in Hl. destruct (create fm order net) as [b| |] eqn:Hc; try discriminate.
  destruct (setup_calls k (build_arrays (bt_lp b))) as [cs0| |] eqn:E; try discriminate. injection Hl as <-.
  destruct Hk as [-> |[-> | ->]].
  - rewrite app_assoc, calls_app. reflexivity.
  - rewrite app_assoc, calls_app. reflexivity.
  - injection E as <-. rewrite microlp_steps. reflexivity.
Qed.
Print Assumptions C79_released_partial.

(** The HiGHS object is never given back, whatever the network and the run. *)
Theorem C79_highs_released_refuted : forall fm order net ss b, wf_network net -> create fm order net = Ok b ->
  exists cs p, life Highs fm order net ss = Ok cs /\ safe cs None /\ calls_on cs None = Some p.
Proof.
  intros fm order net ss b wf Hc. unfold life. rewrite Hc. destruct (create_props _ _ _ _ Hc) as (V & F & Hcr).
  pose proof (cr_obj _ _ _ _ _ _ Hcr) as Hobj. rewrite build_closed, (cr_fmax _ _ _ _ _ _ Hcr).
  assert (Hk : Highs <> Microlp) by discriminate.
  destruct (setup_safe net wf fm order b V F Hcr Highs _ Hk Hobj) as (cs & E & S1 & p & Ep & Sp). rewrite E.
  destruct (steps_safe net wf fm order b V F Hcr Highs Hk (cols_nonempty net wf fm order b V F Hcr (create_edges _ _ _ _ Hc)) ss _ _ [] p Hobj
              (created_rows_ok net wf fm order b V F Hcr) eq_refl Sp) as [S2 (q & Eq)].
  eexists. exists q. split; [reflexivity|]. cbn [drop_calls]. rewrite app_nil_r, safe_app, calls_app, Ep. auto.
Qed.
Print Assumptions C79_highs_released_refuted.

(** A network with dynamic factors and one with exclusivity: the runs are not
    trivial. *)
Definition C79_steps := map (fun s => mkStep s SOptimal SOptimal) C71_history.
Definition C79_count (k : backend) (order : list (list nat)) (net : network) : option (nat * nat) :=
  match life k F64_MAX order net C79_steps with
  | Ok cs => Some (length cs, length (filter (fun c => match c with H_changeCoeff _ _ _ | C_modifyCoefficient _ _ _ => true | _ => false end) cs))
  | _ => None
  end.
Example C79_example :
  wf_network C71_excl /\ valid_order C71_excl [[1]; [2]] /\
  match C79_count Highs [] C38_dyn_net with Some (n, m) => (10 <? n) && (0 <? m) | None => false end = true /\
  match C79_count Clp [] C38_dyn_net with Some (n, m) => (10 <? n) && (0 <? m) | None => false end = true /\
  match C79_count Cbc [[1]; [2]] C71_excl with Some (n, _) => 30 <? n | None => false end = true.
Proof.
  split; [apply C71_excl_example|]. split; [apply C71_excl_example|]. repeat split; vm_compute; reflexivity.
Qed.
