(** What a loaded parameter computes is what the parameter of the file means. *)
From Coq Require Import QArith Qabs Qpower Lia Lqa.
From Verif Require Import Base Calendar Network AggFuncs AggFuncsSpec AggFuncsLemmas ControlCurves ControlCurvesSpec ControlCurvesLemmas Formulas
  ParamsTemporal ParamsTemporalSpec Profiles ProfilesSpec Props_Temporal Props_Curves Props_Profiles Props_Agg
  SchemaNodes SchemaVirtual MetricSets SchemaParams SchemaParamsSpec SchemaParamsLemmas.
Local Open Scope string_scope.
Local Open Scope list_scope.
Local Open Scope nat_scope.

Section Run.
  Variables (args : load_args) (V : valuation) (other_f : moment -> nat -> lmetric -> Q) (other_i : moment -> nat -> lindex -> Z).
  Variables (date : nat -> datetime) (T : nat).
  Notation rds := (reads args V other_f).
  Notation rdi := (reads_i V other_i).
  Notation rf := (read_f V other_f).
  Notation ri := (read_i V other_i).
  Notation rd := (reader_of V other_f other_i date).

  (** ** Metrics *)
  Lemma load_reads sc p m lm mo t : load_metric args p m = Ok lm -> p = None \/ p = sc -> rds sc mo t m (rf mo t lm).
  Proof.
    intros H P.
    destruct m as [q | tb key | name a | name a | e | s c | r | r | name]; cbn [load_metric] in H.
    - injection H as <-. apply reads_literal.
    - destruct (la_tables args tb key) as [q|] eqn:E; [|discriminate H]. injection H as <-. apply reads_table. exact E.
    - pose proof H as K. apply bind_Ok in H as (n & _ & H). apply bind_Ok in H as (u & _ & H). injection H as <-.
      cbn [read_f]; apply reads_other; [exact I | exact K].
    - pose proof H as K. apply bind_Ok in H as (n & _ & H). apply bind_Ok in H as (u & _ & H). injection H as <-.
      cbn [read_f]; apply reads_other; [exact I | exact K].
    - pose proof H as K. apply bind_Ok in H as (u & _ & H). injection H as <-. cbn [read_f]; apply reads_other; [exact I | exact K].
    - destruct (la_timeseries args s c) as [q|] eqn:E; [|discriminate H]. injection H as <-. apply reads_series. exact E.
    - injection H as <-. destruct r as [n key rv]. unfold load_param_ref. cbn [pr_name pr_key pr_return].
      destruct key as [k|].
      + destruct rv as [[| |]|]; (cbn [read_f]; apply reads_other; [left; discriminate | reflexivity]).
      + destruct rv as [[| |]|]; cbn [read_f].
        * apply reads_global. constructor.
        * apply reads_global. constructor.
        * cbn [read_f]; apply reads_other; [right; reflexivity | reflexivity].
        * apply reads_global. constructor.
    - destruct p as [node|]; [|discriminate H]. injection H as <-. destruct P as [P | <-]; [discriminate P|].
      destruct r as [n key rv]. unfold load_param_ref. cbn [pr_name pr_key pr_return].
      destruct key as [k|].
      + destruct rv as [[| |]|]; (cbn [read_f]; apply reads_other; [left; discriminate | reflexivity]).
      + destruct rv as [[| |]|]; cbn [read_f].
        * apply reads_local; [reflexivity | constructor].
        * apply reads_local; [reflexivity | constructor].
        * cbn [read_f]; apply reads_other; [right; reflexivity | reflexivity].
        * apply reads_local; [reflexivity | constructor].
    - injection H as <-. cbn [read_f]; apply reads_other; [exact I | reflexivity].
  Qed.
  Lemma loads_reads sc p ms lms mo t : Forall2 (fun m lm => load_metric args p m = Ok lm) ms lms -> p = None \/ p = sc ->
    Forall2 (rds sc mo t) ms (map (rf mo t) lms).
  Proof. intros H P. induction H; cbn [map]; constructor; [eapply load_reads; eassumption | assumption]. Qed.
  Lemma load_reads_i sc p m lm mo t : load_index p m = Ok lm -> p = None \/ p = sc -> rdi sc mo t m (ri mo t lm).
  Proof.
    intros H P. destruct m as [z | r | r | k]; cbn [load_index] in H.
    - injection H as <-. apply ireads_constant.
    - injection H as <-. destruct r as [n key rv]. unfold load_index_ref. cbn [pr_name pr_key pr_return].
      destruct key as [k|].
      + destruct rv as [[| |]|]; (cbn [read_i]; apply (ireads_keyed V other_i sc mo t (mkPref n (Some k) _)); left; discriminate).
      + destruct rv as [[| |]|]; cbn [read_i or_default].
        * apply ireads_global. constructor.
        * apply ireads_global. constructor.
        * cbn [read_i or_default]. apply (ireads_keyed V other_i sc mo t (mkPref n None (Some RvAfterOrInitial))). right. reflexivity.
        * apply ireads_global. constructor.
    - destruct p as [node|]; [|discriminate H]. injection H as <-. destruct P as [P | <-]; [discriminate P|].
      destruct r as [n key rv]. unfold load_index_ref. cbn [pr_name pr_key pr_return].
      destruct key as [k|].
      + destruct rv as [[| |]|]; (cbn [read_i]; apply (ireads_keyed_local V other_i (Some node) mo t (mkPref n (Some k) _) node eq_refl); left; discriminate).
      + destruct rv as [[| |]|]; cbn [read_i or_default].
        * apply ireads_local; [reflexivity | constructor].
        * apply ireads_local; [reflexivity | constructor].
        * cbn [read_i or_default]. apply (ireads_keyed_local V other_i (Some node) mo t (mkPref n None (Some RvAfterOrInitial)) node eq_refl). right. reflexivity.
        * apply ireads_local; [reflexivity | constructor].
    - injection H as <-. cbn [read_i]. apply ireads_other.
  Qed.
  Lemma loads_reads_i sc p ms lms mo t : Forall2 (fun m lm => load_index p m = Ok lm) ms lms -> p = None \/ p = sc ->
    Forall2 (rdi sc mo t) ms (map (ri mo t) lms).
  Proof. intros H P. induction H; cbn [map]; constructor; [eapply load_reads_i; eassumption | assumption]. Qed.

  Lemma history_steps {A M} (rel : nat -> M -> A -> Prop) m g : (forall t, rel t m (g t)) -> history T rel m (steps T g).
  Proof. intros H. split; [apply steps_length|]. intros t a K. apply nth_steps_inv in K as [_ ->]. apply H. Qed.

  (** ** Bodies *)
  Lemma stateless mo c : evaluates rd T mo (cp_body c) (steps T (fun t => V mo t (cp_name c))) ->
    match cp_body c with CThreshold _ _ _ _ | CMultiThreshold _ _ _ _ | CSwitch _ _ | CDelay _ _ _ | CDelayIndex _ _ _ | CRolling _ _ _ _ _ | CRollingIndex _ _ _ _ _ => False
    | _ => True end ->
    forall t, t < T -> point rd mo t (cp_body c) = Ok (V mo t (cp_name c)).
  Proof.
    intros H S. destruct c as [n b]. destruct b; cbn [cp_body cp_name evaluates] in *; try contradiction; exact (pointwise _ _ _ H).
  Qed.

  Lemma threshold_meaning m th p ra p1 p2 sc lm lth outs :
    load_metric args p1 m = Ok lm -> p1 = None \/ p1 = sc -> load_metric args p2 th = Ok lth -> p2 = None \/ p2 = sc ->
    evaluates rd T Before (CThreshold lm lth (load_predicate p) ra) outs ->
    let xs := steps T (fun t => rf Before t lm) in let ths := steps T (fun t => rf Before t lth) in
    history T (fun t => rds sc Before t) m xs /\ history T (fun t => rds sc Before t) th ths /\
    forall t v, nth_error outs t = Some v -> active p ra xs ths t /\ v = VI 1 \/ ~ active p ra xs ths t /\ v = VI 0.
  Proof.
    intros H1 P1 H2 P2 (zs & R & ->) xs ths.
    split; [apply history_steps; intros t; eapply load_reads; eassumption|].
    split; [apply history_steps; intros t; eapply load_reads; eassumption|].
    intros t v Hv.
    assert (M : forall u, met_at (load_predicate p) (steps T (fun i => (rf Before i lm, rf Before i lth))) u <-> passed p xs ths u).
    { intros u. unfold met_at, passed. split.
      - intros (x & y & A & B). apply nth_steps_inv in A as [Lt A]. injection A as -> ->. exists (rf Before u lm), (rf Before u lth).
        unfold xs, ths. rewrite !nth_steps by exact Lt. repeat split. apply load_predicate_spec. exact B.
      - intros (x & y & A & B & C). apply nth_steps_inv in A as [Lt ->]. apply nth_steps_inv in B as [_ ->].
        exists (rf Before u lm), (rf Before u lth). rewrite nth_steps by exact Lt. split; [reflexivity|]. apply load_predicate_spec. exact C. }
    destruct (nth_error zs t) as [z|] eqn:Z.
    2: { apply nth_error_None in Z. rewrite <- (map_length VI) in Z. apply nth_error_None in Z. rewrite Z in Hv. discriminate Hv. }
    rewrite (map_nth_error VI t zs Z) in Hv. injection Hv as <-.
    unfold active. destruct ra.
    - destruct (C24_threshold_ratchet (load_predicate p) (steps T (fun i => (rf Before i lm, rf Before i lth)))) as (os & E & _ & K).
      cbn [rd_f reader_of] in R. rewrite E in R. injection R as ->. destruct (K t z Z) as [[-> (u & L & D)] | [-> D]].
      + left. split; [exists u; split; [exact L | apply M; exact D] | reflexivity].
      + right. split; [|reflexivity]. intros (u & L & C). apply D. exists u. split; [exact L | apply M; exact C].
    - destruct (C24_threshold_plain (load_predicate p) (steps T (fun i => (rf Before i lm, rf Before i lth)))) as (os & E & _ & K).
      cbn [rd_f reader_of] in R. rewrite E in R. injection R as ->. destruct (K t z Z) as [[-> D] | [-> D]].
      + left. split; [apply M; exact D | reflexivity].
      + right. split; [|reflexivity]. intros C. apply D, M, C.
  Qed.

  Lemma multi_meaning m ts p ra p1 p2 sc lm lts outs :
    load_metric args p1 m = Ok lm -> p1 = None \/ p1 = sc -> Forall2 (fun m lm => load_metric args p2 m = Ok lm) ts lts -> p2 = None \/ p2 = sc ->
    evaluates rd T Before (CMultiThreshold lm lts (load_predicate p) ra) outs ->
    let xs := steps T (fun t => rf Before t lm) in let thss := steps T (fun t => map (rf Before t) lts) in
    history T (fun t => rds sc Before t) m xs /\ history T (fun t => Forall2 (rds sc Before t)) ts thss /\
    forall t v, nth_error outs t = Some v -> exists k, position p ra xs thss t k /\ v = VI (Z.of_nat k).
  Proof.
    intros H1 P1 H2 P2 (ks & R & ->) xs thss.
    split; [apply history_steps; intros t; eapply load_reads; eassumption|].
    split; [apply history_steps; intros t; eapply loads_reads; eassumption|].
    intros t v Hv.
    assert (M : forall u k, first_met_at (load_predicate p) (steps T (fun i => (rf Before i lm, map (rf Before i) lts))) u k <-> passed_at p xs thss u k).
    { intros u k. unfold first_met_at, passed_at. split.
      - intros (x & y & A & B). apply nth_steps_inv in A as [Lt A]. injection A as -> ->. exists (rf Before u lm), (map (rf Before u) lts).
        unfold xs, thss. rewrite !nth_steps by exact Lt. split; [reflexivity|]. split; [reflexivity|]. destruct B as [B1 B2]. split.
        + intros j th L N C. apply (B1 j th N L). apply load_predicate_spec. exact C.
        + destruct B2 as [B2 | (th & N & C)]; [left; exact B2 | right]. exists th. split; [exact N|]. apply load_predicate_spec. exact C.
      - intros (x & y & A & B & C1 & C2). apply nth_steps_inv in A as [Lt ->]. apply nth_steps_inv in B as [_ ->].
        exists (rf Before u lm), (map (rf Before u) lts). rewrite nth_steps by exact Lt. split; [reflexivity|]. split.
        + intros j th N L C. apply (C1 j th L N). apply load_predicate_spec. exact C.
        + destruct C2 as [C2 | (th & N & C)]; [left; exact C2 | right]. exists th. split; [exact N|]. apply load_predicate_spec. exact C. }
    destruct (nth_error ks t) as [k|] eqn:K.
    2: { apply nth_error_None in K. rewrite <- (map_length (fun k => VI (Z.of_nat k))) in K. apply nth_error_None in K. rewrite K in Hv. discriminate Hv. }
    rewrite (map_nth_error (fun k => VI (Z.of_nat k)) t ks K) in Hv. injection Hv as <-. exists k. split; [|reflexivity].
    unfold position. destruct ra.
    - destruct (C24_multi_threshold_ratchet (load_predicate p) (steps T (fun i => (rf Before i lm, map (rf Before i) lts)))) as (os & E & _ & X).
      cbn [rd_f reader_of] in R. rewrite E in R. injection R as ->. destruct (X t k K) as [(u & L & D) Y]. split.
      + exists u. split; [exact L | apply M; exact D].
      + intros u' j L' C. apply (Y u' j L'). apply M. exact C.
    - destruct (C24_multi_threshold_plain (load_predicate p) (steps T (fun i => (rf Before i lm, map (rf Before i) lts)))) as (os & E & _ & X).
      cbn [rd_f reader_of] in R. rewrite E in R. injection R as ->. apply M. exact (X t k K).
  Qed.

  Lemma switch_meaning a b la lb sc outs : load_index None a = Ok la -> load_index None b = Ok lb ->
    evaluates rd T Before (CSwitch la lb) outs ->
    let ons := steps T (fun t => ri Before t la) in let offs := steps T (fun t => ri Before t lb) in
    history T (fun t => rdi sc Before t) a ons /\ history T (fun t => rdi sc Before t) b offs /\
    forall t v, nth_error outs t = Some v ->
      let on_signal u := exists z, nth_error ons u = Some z /\ (0 < z)%Z in
      let both_absent u := ~ on_signal u /\ nth_error offs u = Some 0%Z in
      let on := exists u, u <= t /\ on_signal u /\ forall v, u < v -> v <= t -> ~ both_absent v in
      on /\ v = VI 1 \/ ~ on /\ v = VI 0.
  Proof.
    intros H1 H2 (zs & R & ->) ons offs.
    split; [apply history_steps; intros t; eapply load_reads_i; [eassumption | left; reflexivity]|].
    split; [apply history_steps; intros t; eapply load_reads_i; [eassumption | left; reflexivity]|].
    intros t v Hv on_signal both_absent on.
    set (hist := steps T (fun i => (ri Before i la, ri Before i lb))) in *.
    assert (M1 : forall u, on_at hist u <-> on_signal u).
    { intros u. unfold on_at, on_signal. split.
      - intros (x & y & A & B). apply nth_steps_inv in A as [Lt A]. injection A as -> ->. exists (ri Before u la).
        unfold ons. rewrite nth_steps by exact Lt. split; [reflexivity | exact B].
      - intros (z & A & B). apply nth_steps_inv in A as [Lt ->]. exists (ri Before u la), (ri Before u lb). unfold hist.
        rewrite nth_steps by exact Lt. split; [reflexivity | exact B]. }
    assert (M2 : forall u, all_off_at hist u <-> both_absent u).
    { intros u. unfold all_off_at, both_absent. split.
      - intros (x & A & B). apply nth_steps_inv in A as [Lt A]. injection A as -> A. split.
        + intros (z & N & P). apply nth_steps_inv in N as [_ ->]. lia.
        + unfold offs. rewrite nth_steps by exact Lt. rewrite A. reflexivity.
      - intros [A B]. apply nth_steps_inv in B as [Lt B]. exists (ri Before u la). unfold hist. rewrite nth_steps by exact Lt. rewrite <- B.
        split; [reflexivity|]. destruct (Z_le_gt_dec (ri Before u la) 0) as [X|X]; [exact X|]. exfalso. apply A. exists (ri Before u la).
        unfold ons. rewrite nth_steps by exact Lt. split; [reflexivity | lia]. }
    destruct (nth_error zs t) as [z|] eqn:Z.
    2: { apply nth_error_None in Z. rewrite <- (map_length VI) in Z. apply nth_error_None in Z. rewrite Z in Hv. discriminate Hv. }
    rewrite (map_nth_error VI t zs Z) in Hv. injection Hv as <-.
    destruct (C24_switch hist) as (os & E & _ & K).
    unfold hist in E. cbn [rd_i reader_of] in R. rewrite E in R. injection R as ->.
    destruct (K t z Z) as [[-> (u & L & D & N)] | [-> D]].
    - left. split; [|reflexivity]. exists u. split; [exact L|]. split; [apply M1; exact D|]. intros w W1 W2 C. apply (N w W1 W2). apply M2. exact C.
    - right. split; [|reflexivity]. intros (u & L & O & N). apply D. exists u. split; [exact L|]. split; [apply M1; exact O|].
      intros w W1 W2 C. apply (N w W1 W2). apply M2. exact C.
  Qed.

  Lemma delay_meaning {A} (g : moment -> nat -> A) n i outs : remembered unit delay_before delay_after delay_compute (delay_setup n i) g T outs ->
    forall t a, nth_error outs t = Some a -> a = delayed n i (steps T (g After)) t.
  Proof.
    intros H t a N. assert (E : outs = map (delayed n i (steps T (g After))) (seq 0 T)).
    { destruct H as [H | [S H]].
      - apply delay_hooked in H. rewrite steps_length in H. exact H.
      - rewrite C22_simple in H. rewrite steps_length in H. injection H as <-.
        replace (steps T (g After)) with (steps T (g Before)); [reflexivity|]. unfold steps. apply map_ext. exact S. }
    rewrite E in N. apply (nth_steps_inv (delayed n i (steps T (g After)))) in N as [_ ->]. reflexivity.
  Qed.
  Lemma rolling_meaning {A} (g : moment -> nat -> A) agg w mn i outs :
    remembered unit (rolling_before agg mn i) (rolling_after w) (rolling_compute agg w mn i) rolling_setup g T outs ->
    forall t a, nth_error outs t = Some a ->
    let window := last_values w (firstn t (steps T (g After))) in
    if length window <? mn then a = i else agg window = Ok a.
  Proof.
    intros H t a N window. assert (E : rmap (rolling agg w mn i (steps T (g After))) (seq 0 T) = Ok outs).
    { destruct H as [H | [S H]].
      - rewrite C23_general, steps_length in H. exact H.
      - rewrite C23_simple, steps_length in H. rewrite <- H.
        replace (steps T (g After)) with (steps T (g Before)); [reflexivity|]. unfold steps. apply map_ext. exact S. }
    apply rmap_Ok_Forall2 in E.
    assert (X : rolling agg w mn i (steps T (g After)) t = Ok a).
    { assert (Lt : t < T).
      { apply Forall2_length' in E. rewrite seq_length in E. rewrite E. apply nth_error_Some. rewrite N. discriminate. }
      assert (Q : nth_error (seq 0 T) t = Some t).
      { rewrite nth_error_nth' with (d := 0) by (rewrite seq_length; exact Lt). rewrite seq_nth by exact Lt. reflexivity. }
      exact (Forall2_nth_error _ _ _ t t a E Q N). }
    unfold rolling in X. unfold window. destruct (length (last_values w (firstn t (steps T (g After)))) <? mn); [injection X as <-; reflexivity | exact X].
  Qed.

  (** ** All kinds *)
  Hypothesis dates : forall t, valid_datetime (date t) = true.

  Ltac unload H :=
    repeat match type of H with
    | rbind (of_metric _) _ = Ok _ => let x := fresh "lm" in let E := fresh "Ld" in apply bind_Ok in H as (x & E & H); apply of_metric_Ok in E
    | rbind (rmap (fun m => of_metric _) _) _ = Ok _ => let x := fresh "lms" in let E := fresh "Lds" in apply bind_Ok in H as (x & E & H); apply loads_Ok in E
    | rbind (rmap (load_index _) _) _ = Ok _ => let x := fresh "lis" in let E := fresh "Lis" in apply bind_Ok in H as (x & E & H); apply rmap_Ok_Forall2 in E
    | rbind (load_index _ _) _ = Ok _ => let x := fresh "li" in let E := fresh "Li" in apply bind_Ok in H as (x & E & H)
    | rbind (load_value _ _) _ = Ok _ => let x := fresh "q" in let E := fresh "Lv" in apply bind_Ok in H as (x & E & H)
    end.

  Lemma only c cs : [c] = cs -> runs V other_f other_i date T cs -> forall mo, at_moment (body_phase (cp_body c)) mo = true ->
    evaluates rd T mo (cp_body c) (steps T (fun t => V mo t (cp_name c))).
  Proof. intros <- R mo M. apply R; [left; reflexivity | exact M]. Qed.
  Lemma value_constant v q : load_value args v = Ok q -> constant args v q.
  Proof.
    destruct v as [c | tb key]; cbn; intros H; [injection H as <-; reflexivity|].
    destruct (la_tables args tb key) as [x|]; [injection H as <-; reflexivity | discriminate H].
  Qed.
  Lemma phase_moment ph mo : at_least_one_phase ph mo -> at_moment ph mo = true.
  Proof. destruct ph, mo; cbn; intros H; (reflexivity || discriminate H). Qed.

  Ltac here := first [left; reflexivity | right; reflexivity].

  Lemma body_meaning sc name b cs : load_body args sc name b = Ok cs -> runs V other_f other_i date T cs ->
    sc = None \/ ~ bare_multi (mkParam name b) -> body_means args V other_f other_i date T sc name b.
  Proof.
    intros H R B.
    destruct b as [v | m th | m th | m | m th | m th | ph n d | ph f ms | ph f ms | ms i | x xp fp e | m co s o | o m | r y
      | m th p [[ra rb]|] ra' | m ts p [vs|] ra | a b | curves m vs | m curves | curves m vs | curves m vs lo hi
      | m n i | m n i | m w i mn f | m w i mn f | vs | vs | vs i | vs i | dd mm rr |];
      cbn [load_body] in H; unload H; cbn [body_means].
    - (* constant *)
      injection H as H. exists q. split; [apply value_constant; exact Lv|]. intros t Ht.
      pose proof (stateless Before _ (only _ _ H R Before eq_refl) I t Ht) as P. cbn in P. injection P as P. symmetry. exact P.
    - injection H as H. intros t Ht. pose proof (stateless Before _ (only _ _ H R Before eq_refl) I t Ht) as P. cbn in P. injection P as P.
      eexists. eexists. split; [eapply load_reads; [exact Ld | here]|]. split; [|symmetry; exact P]. apply max2.
    - injection H as H. intros t Ht. pose proof (stateless Before _ (only _ _ H R Before eq_refl) I t Ht) as P. cbn in P. injection P as P.
      eexists. eexists. split; [eapply load_reads; [exact Ld | here]|]. split; [|symmetry; exact P]. apply min2.
    - injection H as H. intros t Ht. pose proof (stateless Before _ (only _ _ H R Before eq_refl) I t Ht) as P. cbn in P. injection P as P.
      eexists. eexists. split; [eapply load_reads; [exact Ld | here]|]. split; [|symmetry; exact P]. reflexivity.
    - injection H as H. intros t Ht. pose proof (stateless Before _ (only _ _ H R Before eq_refl) I t Ht) as P. cbn in P. injection P as P.
      eexists. eexists. split; [eapply load_reads; [exact Ld | here]|]. split; [|symmetry; exact P]. apply max2.
    - injection H as H. intros t Ht. pose proof (stateless Before _ (only _ _ H R Before eq_refl) I t Ht) as P. cbn in P. injection P as P.
      eexists. eexists. split; [eapply load_reads; [exact Ld | here]|]. split; [|symmetry; exact P]. apply min2.
    - (* division *)
      injection H as H. intros mo t Hp Ht. pose proof (stateless mo _ (only _ _ H R mo (phase_moment _ _ Hp)) I t Ht) as P.
      cbn [cp_body cp_name point] in P. apply as_f_Ok in P as (q & P & E). cbn in P.
      destruct (Qeq_bool (rf mo t lm0) 0) eqn:Z; [discriminate P|]. injection P as <-.
      assert (NZ : ~ (rf mo t lm0 == 0)%Q) by (intros K; apply Qeq_bool_iff in K; rewrite K in Z; discriminate Z).
      eexists. eexists. eexists. split; [eapply load_reads; [exact Ld | here]|]. split; [eapply load_reads; [exact Ld0 | here]|].
      split; [exact NZ|]. split; [|exact E]. field. exact NZ.
    - (* aggregated *)
      injection H as H. intros mo t Hp Ht. pose proof (stateless mo _ (only _ _ H R mo (phase_moment _ _ Hp)) I t Ht) as P.
      cbn [cp_body cp_name point] in P. injection P as P. eexists. eexists.
      split; [eapply loads_reads; [exact Lds | here]|]. split; [apply load_func_spec | symmetry; exact P].
    - injection H as H. intros mo t Hp Ht. pose proof (stateless mo _ (only _ _ H R mo (phase_moment _ _ Hp)) I t Ht) as P.
      cbn [cp_body cp_name point] in P. apply bind_Ok in P as (z & P & E). injection E as E. apply of_unit_Ok in P.
      eexists. exists z. split; [eapply loads_reads_i; [exact Lis | here]|]. split; [apply load_index_func_spec; exact P | symmetry; exact E].
    - (* indexed array *)
      injection H as H. intros t Ht. pose proof (stateless Before _ (only _ _ H R Before eq_refl) I t Ht) as P.
      cbn [cp_body cp_name point] in P. apply as_f_Ok in P as (q & P & E). unfold indexed_array in P. cbn [rbind] in P.
      destruct (nth_error (map (fun m => Ok (rd_f rd Before t m)) lms) (Z.to_nat (rd_i rd Before t li))) as [r|] eqn:N; [|discriminate P].
      rewrite nth_error_map in N. destruct (nth_error lms (Z.to_nat (rd_i rd Before t li))) as [lm|] eqn:N'; [|discriminate N].
      cbn [option_map] in N. injection N as <-. injection P as <-.
      destruct (nth_error ms (Z.to_nat (rd_i rd Before t li))) as [m|] eqn:Nm.
      2: { apply nth_error_None in Nm. rewrite (Forall2_length' _ _ _ Lds) in Nm. apply nth_error_None in Nm. rewrite Nm in N'. discriminate N'. }
      eexists. exists m. eexists. split; [eapply load_reads_i; [exact Li | here]|]. split; [exact Nm|]. split; [|exact E].
      eapply load_reads; [exact (Forall2_nth_error _ _ _ _ _ _ Lds Nm N') | here].
    - (* interpolated *)
      destruct (length xp =? length fp) eqn:L; cbn [negb] in H; [|discriminate H]. unload H. injection H as H. intros t Ht.
      pose proof (stateless Before _ (only _ _ H R Before eq_refl) I t Ht) as P.
      cbn [cp_body cp_name point] in P. apply as_f_Ok in P as (q & P & E). unfold interpolated in P. cbn [rbind] in P.
      exists (rf Before t lm), (map (rf Before t) lms), (map (rf Before t) lms0), q.
      split; [eapply load_reads; [exact Ld | here]|]. split; [eapply loads_reads; [exact Lds | here]|]. split; [eapply loads_reads; [exact Lds0 | here]|].
      apply Nat.eqb_eq in L. split.
      { rewrite !map_length, <- (Forall2_length' _ _ _ Lds), <- (Forall2_length' _ _ _ Lds0). exact L. }
      split; [|exact E]. apply bind_Ok in P as (pts & P1 & P2).
      assert (X : pts = combine (map (rf Before t) lms) (map (rf Before t) lms0)).
      { clear -P1. apply rmap_Ok_Forall2 in P1. revert lms0 pts P1. induction lms as [|a l IH]; intros [|b l0] pts P1; cbn in *.
        - inversion P1. reflexivity.
        - inversion P1. reflexivity.
        - inversion P1. reflexivity.
        - inversion P1 as [|? ? ? ? E1 E2]; subst. cbn in E1. injection E1 as <-. f_equal. apply IH. exact E2. }
      rewrite X in P2. apply interpolates_spec.
      match type of P2 with match ?l with _ => _ end = _ => change (l = Ok q); destruct l; [injection P2 as <-; reflexivity | discriminate P2 | discriminate P2] end.
    - (* polynomial *)
      injection H as H. intros t Ht. pose proof (stateless Before _ (only _ _ H R Before eq_refl) I t Ht) as P.
      cbn [cp_body cp_name point as_f polynomial rbind] in P. injection P as P.
      eexists. eexists. split; [eapply load_reads; [exact Ld | here]|]. split; [|symmetry; exact P].
      rewrite polynomial_loop_spec. cbn [rd_f reader_of]. destruct s, o; cbn [or_default given Qpower Z.of_nat]; ring.
    - (* offset *)
      injection H as H. exists q. split; [apply value_constant; exact Lv|]. intros t Ht.
      pose proof (stateless Before _ (only _ _ H R Before eq_refl) I t Ht) as P. cbn [cp_body cp_name point] in P. injection P as P.
      eexists. eexists. split; [eapply load_reads; [exact Ld | here]|]. split; [|symmetry; exact P]. reflexivity.
    - (* discount *)
      injection H as H. intros t Ht. pose proof (stateless Before _ (only _ _ H R Before eq_refl) I t Ht) as P.
      cbn [cp_body cp_name point] in P. apply as_f_Ok in P as (q & P & E). unfold discount_factor in P.
      match type of P with (if ?c then _ else _) = _ => destruct c; [|discriminate P] end. cbn [rbind] in P. injection P as <-.
      eexists. eexists. split; [eapply load_reads; [exact Ld | here]|]. split; [|exact E]. intros NZ. apply discount_spec. exact NZ.
    - (* threshold with returned metrics *)
      injection H as <-. set (inner := pname_with_sub name (Some "threshold") (Some name)) in *.
      pose proof (R (mkCparam inner _) Before (or_introl eq_refl) eq_refl) as E1. cbn [cp_name cp_body] in E1.
      pose proof (R _ Before (or_intror (or_introl eq_refl)) eq_refl) as E2.
      destruct (threshold_meaning m th p ra' None None sc lm lm0 _ Ld (or_introl eq_refl) Ld0 (or_introl eq_refl) E1) as (A1 & A2 & A3).
      eexists. eexists. split; [exact A1|]. split; [exact A2|]. intros t Ht.
      pose proof (stateless Before _ E2 I t Ht) as P. cbn [cp_body cp_name point] in P. apply as_f_Ok in P as (q & P & E).
      exists q. split; [exact E|]. specialize (A3 t (V Before t inner) (nth_steps _ _ _ Ht)).
      unfold indexed_array in P. cbn [rbind map rd_i reader_of read_i] in P.
      destruct A3 as [[A3 W] | [A3 W]]; rewrite W in P; cbn in P; injection P as <-.
      + left. split; [exact A3|]. eapply load_reads; [exact Ld2 | here].
      + right. split; [exact A3|]. eapply load_reads; [exact Ld1 | here].
    - (* threshold *)
      injection H as H. pose proof (only _ _ H R Before eq_refl) as E1. cbn [cp_name cp_body] in E1.
      destruct (threshold_meaning m th p ra' None None sc lm lm0 _ Ld (or_introl eq_refl) Ld0 (or_introl eq_refl) E1) as (A1 & A2 & A3).
      eexists. eexists. split; [exact A1|]. split; [exact A2|]. intros t Ht. exact (A3 t _ (nth_steps _ _ _ Ht)).
    - (* multi-threshold with returned metrics *)
      injection H as <-. set (inner := pname_with_sub name (Some "threshold") (Some name)) in *.
      pose proof (R (mkCparam inner _) Before (or_introl eq_refl) eq_refl) as E1. cbn [cp_name cp_body] in E1.
      pose proof (R _ Before (or_intror (or_introl eq_refl)) eq_refl) as E2.
      destruct (multi_meaning m ts p ra None sc sc lm lms _ Ld (or_introl eq_refl) Lds (or_intror eq_refl) E1) as (A1 & A2 & A3).
      eexists. eexists. split; [exact A1|]. split; [exact A2|]. intros t Ht.
      pose proof (stateless Before _ E2 I t Ht) as P. cbn [cp_body cp_name point] in P. apply as_f_Ok in P as (q & P & E).
      destruct (A3 t (V Before t inner) (nth_steps _ _ _ Ht)) as (k & K & W). exists k. split; [exact K|].
      unfold indexed_array in P. cbn [rbind rd_i reader_of read_i] in P. rewrite W in P. cbn [int_of] in P. rewrite Nat2Z.id in P.
      rewrite nth_error_map in P. destruct (nth_error lms0 k) as [lv|] eqn:N; [|discriminate P]. cbn in P. injection P as <-.
      destruct (nth_error vs k) as [v|] eqn:Nv.
      2: { apply nth_error_None in Nv. rewrite (Forall2_length' _ _ _ Lds0) in Nv. apply nth_error_None in Nv. rewrite Nv in N. discriminate N. }
      exists v. eexists. split; [reflexivity|]. split; [|exact E].
      eapply load_reads; [exact (Forall2_nth_error _ _ _ _ _ _ Lds0 Nv N) | here].
    - (* multi-threshold *)
      injection H as H. pose proof (only _ _ H R Before eq_refl) as E1. cbn [cp_name cp_body] in E1.
      destruct B as [-> | B]; [|exfalso; apply B; exact I].
      destruct (multi_meaning m ts p ra None None None lm lms _ Ld (or_introl eq_refl) Lds (or_intror eq_refl) E1) as (A1 & A2 & A3).
      eexists. eexists. split; [exact A1|]. split; [exact A2|]. intros t Ht.
      destruct (A3 t _ (nth_steps _ _ _ Ht)) as (k & K & W). exists k. split; [exact K | exact W].
    - (* switch *)
      injection H as H. pose proof (only _ _ H R Before eq_refl) as E1. cbn [cp_name cp_body] in E1.
      destruct (switch_meaning a b li li0 sc _ Li Li0 E1) as (A1 & A2 & A3).
      eexists. eexists. split; [exact A1|]. split; [exact A2|]. intros t Ht. exact (A3 t _ (nth_steps _ _ _ Ht)).
    - (* control curve *)
      injection H as H. intros t Ht. pose proof (stateless Before _ (only _ _ H R Before eq_refl) I t Ht) as P.
      cbn [cp_body cp_name point] in P. apply as_f_Ok in P as (q & P & E). apply of_curve_Ok in P.
      destruct (C25_index_is_the_zone (rf Before t lm) (map (rf Before t) lms)) as (k & K1 & K2 & K3 & _).
      eexists. eexists. exists k. split; [eapply load_reads; [exact Ld | here]|]. split; [eapply loads_reads; [exact Lds | here]|].
      split; [exact K3|]. intros L. rewrite map_length in K2. pose proof (Forall2_length' _ _ _ Lds) as L1. pose proof (Forall2_length' _ _ _ Lds0) as L2.
      destruct (nth_error vs k) as [v|] eqn:Nv; [|apply nth_error_None in Nv; lia].
      destruct (nth_error lms0 k) as [lv|] eqn:Nl; [|apply nth_error_None in Nl; lia].
      exists v. eexists. split; [reflexivity|]. split; [eapply load_reads; [exact (Forall2_nth_error _ _ _ _ _ _ Lds0 Nv Nl) | here]|].
      refine (eq_trans E _). f_equal. cbn [rd_f reader_of] in P.
      rewrite <- (map_map (rf Before t) Ok lms) in P.
      rewrite (C25_value_of_the_zone (rf Before t lm) (map (rf Before t) lms) (map (fun m => Ok (rf Before t m)) lms0) k (Ok (rf Before t lv))) in P;
        [injection P as <-; reflexivity | rewrite !map_length; lia | exact K1 | exact (map_nth_error (fun m => Ok (rf Before t m)) k lms0 Nl)].
    - (* control curve index *)
      injection H as H. intros t Ht. pose proof (stateless Before _ (only _ _ H R Before eq_refl) I t Ht) as P.
      cbn [cp_body cp_name point] in P. apply bind_Ok in P as (k & P & E). apply of_curve_Ok in P. injection E as E.
      destruct (C25_index_is_the_zone (rf Before t lm) (map (rf Before t) lms)) as (k' & K1 & _ & K3 & _).
      cbn [rd_f reader_of] in P. rewrite <- (map_map (rf Before t) Ok lms) in P. rewrite K1 in P. injection P as ->.
      eexists. eexists. exists k. split; [eapply load_reads; [exact Ld | here]|]. split; [eapply loads_reads; [exact Lds | here]|].
      split; [exact K3 | symmetry; exact E].
    - (* interpolated control curve *)
      injection H as H. intros L t Ht. pose proof (stateless Before _ (only _ _ H R Before eq_refl) I t Ht) as P.
      cbn [cp_body cp_name point] in P. apply as_f_Ok in P as (q & P & E). apply of_curve_Ok in P. cbn [rd_f reader_of] in P.
      pose proof (Forall2_length' _ _ _ Lds) as L1. pose proof (Forall2_length' _ _ _ Lds0) as L2.
      rewrite <- (map_map (rf Before t) Ok lms), <- (map_map (rf Before t) Ok lms0) in P.
      destruct (C26_between_and_on_the_line (rf Before t lm) (map (rf Before t) lms) (map (rf Before t) lms0)) as (k & lower & upper & y & K1 & K2 & K3 & K4 & K5 & K6);
        [rewrite !map_length; lia|]. rewrite K4 in P. injection P as ->.
      exists (rf Before t lm), (map (rf Before t) lms), (map (rf Before t) lms0), k, lower, upper, q.
      split; [eapply load_reads; [exact Ld | here]|]. split; [eapply loads_reads; [exact Lds | here]|]. split; [eapply loads_reads; [exact Lds0 | here]|].
      repeat (split; [assumption|]). exact K6.
    - (* piecewise *)
      injection H as H. intros L t Ht. pose proof (stateless Before _ (only _ _ H R Before eq_refl) I t Ht) as P.
      cbn [cp_body cp_name point] in P. apply as_f_Ok in P as (q & P & E). apply of_curve_Ok in P. cbn [rd_f reader_of] in P.
      pose proof (Forall2_length' _ _ _ Lds) as L1. rewrite <- (map_map (rf Before t) Ok lms) in P.
      destruct (C25_index_is_the_zone (rf Before t lm) (map (rf Before t) lms)) as (k & K1 & K2 & K3 & _). rewrite map_length in K2.
      change (or_default vs []) with (given vs []) in P.
      destruct (nth_error (given vs []) k) as [v|] eqn:Nv; [|apply nth_error_None in Nv; lia].
      destruct (C26_piecewise (rf Before t lm) (given hi 1%Q) (given lo 0%Q) (map (rf Before t) lms) (given vs []) k v) as (y & Y1 & Y2 & Y3);
        [rewrite map_length; lia | exact K3 | exact Nv |].
      change (or_default hi 1%Q) with (given hi 1%Q) in P. change (or_default lo 0%Q) with (given lo 0%Q) in P. rewrite Y1 in P. injection P as ->.
      exists (rf Before t lm), (map (rf Before t) lms), k, v, q.
      split; [eapply load_reads; [exact Ld | here]|]. split; [eapply loads_reads; [exact Lds | here]|].
      split; [exact K3|]. split; [exact Nv|]. split; [exact Y2|]. split; [exact E | exact Y3].
    - (* delay *)
      injection H as H. destruct (only _ _ H R Before eq_refl) as (qs & Q1 & Q2). cbn [cp_name] in Q2. apply stepped in Q2 as [_ Q2].
      eexists. split; [apply history_steps; intros t; eapply load_reads; [exact Ld | here]|]. intros t Ht.
      destruct (Q2 t Ht) as (a & Na & Va). change (V Before t (pname_new name sc) = VF (delayed n i (steps T (fun t => rf After t lm)) t)).
      refine (eq_trans Va _). f_equal. exact (delay_meaning _ n i qs Q1 t a Na).
    - injection H as H. destruct (only _ _ H R Before eq_refl) as (qs & Q1 & Q2). cbn [cp_name] in Q2. apply stepped in Q2 as [_ Q2].
      eexists. split; [apply history_steps; intros t; eapply load_reads_i; [exact Li | here]|]. intros t Ht.
      destruct (Q2 t Ht) as (a & Na & Va). change (V Before t (pname_new name sc) = VI (delayed n i (steps T (fun t => ri After t li)) t)).
      refine (eq_trans Va _). f_equal. exact (delay_meaning _ n i qs Q1 t a Na).
    - (* rolling *)
      injection H as H. destruct (only _ _ H R Before eq_refl) as (qs & Q1 & Q2). cbn [cp_name] in Q2. apply stepped in Q2 as [_ Q2].
      eexists. split; [apply history_steps; intros t; eapply load_reads; [exact Ld | here]|]. intros t Ht.
      destruct (Q2 t Ht) as (a & Na & Va). exists a. split; [exact Va|].
      pose proof (rolling_meaning _ _ w _ i qs Q1 t a Na) as X. cbn [rd_f reader_of] in X. change (given mn w) with (or_default mn w).
      destruct (length (last_values w (firstn t (steps T (fun t => rf After t lm)))) <? or_default mn w); [exact X|]. injection X as <-. apply load_func_spec.
    - injection H as H. destruct (only _ _ H R Before eq_refl) as (qs & Q1 & Q2). cbn [cp_name] in Q2. apply stepped in Q2 as [_ Q2].
      eexists. split; [apply history_steps; intros t; eapply load_reads_i; [exact Li | here]|]. intros t Ht.
      destruct (Q2 t Ht) as (a & Na & Va). exists a. split; [exact Va|].
      pose proof (rolling_meaning _ _ w _ i qs Q1 t a Na) as X. cbn [rd_i reader_of] in X. change (given mn w) with (or_default mn w).
      destruct (length (last_values w (firstn t (steps T (fun t => ri After t li)))) <? or_default mn w); [exact X|]. apply load_index_func_spec. exact X.
    - (* daily *)
      intros t Ht. destruct (length vs =? 366) eqn:L.
      + apply Nat.eqb_eq in L. injection H as H. pose proof (stateless Before _ (only _ _ H R Before eq_refl) I t Ht) as P.
        cbn [cp_body cp_name point] in P. apply as_f_Ok in P as (q & P & E). apply of_profile_Ok in P. cbn [rd_date reader_of] in P.
        destruct (C29_daily vs (date t) L (dates t)) as (v & K1 & K2). rewrite K1 in P. injection P as ->.
        exists q. split; [exact E|]. left. split; assumption.
      + destruct (length vs =? 365) eqn:L'; [|discriminate H]. apply Nat.eqb_eq in L'. injection H as H.
        pose proof (stateless Before _ (only _ _ H R Before eq_refl) I t Ht) as P.
        cbn [cp_body cp_name point] in P. apply as_f_Ok in P as (q & P & E). apply of_profile_Ok in P. cbn [rd_date reader_of] in P.
        destruct (insert_feb29_spec vs (date t) L' (dates t)) as (v & K1 & K2). rewrite K1 in P. injection P as ->.
        exists q. split; [exact E|]. right. split; assumption.
    - (* diurnal *)
      intros t Ht. destruct (length vs =? 24) eqn:L; [|discriminate H].
      apply Nat.eqb_eq in L. injection H as H. pose proof (stateless Before _ (only _ _ H R Before eq_refl) I t Ht) as P.
      cbn [cp_body cp_name point] in P. apply as_f_Ok in P as (q & P & E). apply of_profile_Ok in P. cbn [rd_date reader_of] in P.
      destruct (C29_diurnal vs (date t) L (dates t)) as (v & h & K1 & K2 & K3). rewrite K1 in P. injection P as ->.
      exists q, h. split; [exact E|]. split; assumption.
    - (* weekly *)
      intros t Ht. destruct (weekly_try_from vs) as [w|] eqn:W; [|discriminate H].
      injection H as H. pose proof (stateless Before _ (only _ _ H R Before eq_refl) I t Ht) as P.
      cbn [cp_body cp_name point] in P. apply as_f_Ok in P as (q & P & E). apply of_profile_Ok in P. cbn [rd_date reader_of] in P.
      exists q. split; [exact E|].
      destruct (C29_weekly vs w (date t) W (dates t)) as ((v & K1 & K2) & (v1 & a & b & A1 & A2) & (v2 & c & d & B1 & B2)).
      destruct i as [[|]|].
      + rewrite A1 in P. injection P as ->. exists a, b. exact A2.
      + rewrite B1 in P. injection P as ->. exists c, d. exact B2.
      + rewrite K1 in P. injection P as ->. exact K2.
    - (* monthly *)
      intros t Ht. destruct (length vs =? 12) eqn:L; [|discriminate H]. apply Nat.eqb_eq in L.
      injection H as H. pose proof (stateless Before _ (only _ _ H R Before eq_refl) I t Ht) as P.
      cbn [cp_body cp_name point] in P. apply as_f_Ok in P as (q & P & E). apply of_profile_Ok in P. cbn [rd_date reader_of] in P.
      exists q. split; [exact E|].
      destruct (C29_monthly vs (date t) L (dates t)) as ((v & K1 & K2) & (v1 & a & b & A1 & A2) & (v2 & c & d & B1 & B2)).
      destruct i as [[|]|].
      + rewrite A1 in P. injection P as ->. exists a, b. exact A2.
      + rewrite B1 in P. injection P as ->. exists c, d. exact B2.
      + rewrite K1 in P. injection P as ->. exact K2.
    - (* drawdown *)
      intros D1 D2 D3 t Ht. injection H as H. pose proof (stateless Before _ (only _ _ H R Before eq_refl) I t Ht) as P.
      cbn [cp_body cp_name point] in P.
      assert (X1 : match dd with Some d => as_i8 d | None => 1%Z end = given dd 1%Z) by (destruct dd; cbn [given] in *; [apply as_i8_small; lia | reflexivity]).
      assert (X2 : match mm with Some d => as_i8 d | None => 1%Z end = given mm 1%Z) by (destruct mm; cbn [given] in *; [apply as_i8_small; lia | reflexivity]).
      assert (X3 : match rr with Some d => as_u8 d | None => 0%Z end = given rr 0%Z) by (destruct rr; cbn [given] in *; [apply as_u8_small; lia | reflexivity]).
      rewrite X1, X2, X3 in P. destruct (reset_day_of_year (given dd 1%Z) (given mm 1%Z)) as [doy|] eqn:RD; [|discriminate P].
      injection P as P. eexists. split; [symmetry; exact P|]. intros y into total Pe. cbn [rd_date reader_of].
      apply (C30_uniform_after_february _ _ doy _ y (date t) into total RD); [lia | apply dates | exact Pe].
    - discriminate H.
  Qed.
End Run.
