(** C80: however a run is started, from the command line, from Python or step by
    step, it is the run that was asked for; converting files writes what it says. *)
From Coq Require Import Ascii String ZArith.
From Verif Require Import Base Run RunSpec RunLemmas Launch LaunchSpec LaunchLemmas.
Local Open Scope string_scope.
Local Open Scope list_scope.
Local Open Scope Z_scope.

(** The [run] command: the file, the solver, the directories and the requirements
    are those asked for, and so is the number of threads. *)
Theorem C80_command_line : forall o processors,
  let r := cli_run o in
  fr_file r = ro_model o /\
  (forall d, ro_data o = Some d -> fr_data r = Some d) /\
  (ro_data o = None -> fr_data r = Some (fst (ro_model o))) /\
  fr_output r = ro_output o /\
  la_solver (fr_launch r) = ro_solver o /\ right_manner (fr_launch r) /\
  se_ignore (la_settings (fr_launch r)) = ro_ignore o /\
  workers processors (fr_launch r) = Z.max 1 (ro_threads o).
Proof.
  intros [file b dp op n ig] processors. unfold cli_run, right_manner, interior_point, workers, pool, cli_settings, pool_size; cbn.
  repeat split; try (intros d ->; reflexivity); try (intros ->; reflexivity).
  - destruct b; cbn; (discriminate || auto).
  - destruct b; cbn; intros [H|[H|H]]; discriminate || reflexivity.
  - destruct (1 <? n), ig; reflexivity.
  - destruct (Z.ltb_spec 1 n); destruct b, ig; cbn; try (destruct (Z.eqb_spec n 0)); lia.
Qed.
Print Assumptions C80_command_line.

(** The command for several networks: the same, except that it takes one thread
    whatever was asked. *)
Theorem C80_command_line_multi_partial : forall o processors,
  let r := cli_run_multi o in
  fr_file r = ro_model o /\
  (forall d, ro_data o = Some d -> fr_data r = Some d) /\
  (ro_data o = None -> fr_data r = Some (fst (ro_model o))) /\
  fr_output r = ro_output o /\
  la_solver (fr_launch r) = ro_solver o /\ right_manner (fr_launch r) /\
  se_ignore (la_settings (fr_launch r)) = false /\
  workers processors (fr_launch r) = 1.
Proof.
  intros [file b dp op n ig] processors. unfold cli_run_multi, right_manner, interior_point, workers, pool, pool_size; cbn.
  repeat split; try (intros d ->; reflexivity); try (intros ->; reflexivity).
  - destruct b; cbn; (discriminate || auto).
  - destruct b; cbn; intros [H|[H|H]]; discriminate || reflexivity.
  - destruct b; reflexivity.
Qed.
Print Assumptions C80_command_line_multi_partial.
Theorem C80_multi_threads_refuted : exists o, ro_threads o = 4 /\ workers 8 (fr_launch (cli_run_multi o)) = 1.
Proof. exists (mkRunOptions ("models", "m.json") SvClp None None 4 false). split; reflexivity. Qed.
Print Assumptions C80_multi_threads_refuted.

(** Python: a dictionary of keyword arguments is accepted when the solver takes
    all of them, and the run is then the one they ask for. *)
Theorem C80_python_options : forall enabled name b ignoring (d : dict) processors,
  py_solver name b ignoring -> enabled b = true -> NoDup (map fst d) ->
  ((exists l, snd (run_py enabled name (Some d)) = Ok l) <-> forall k v, In (k, v) d -> understood ignoring k v) /\
  (forall l, snd (run_py enabled name (Some d)) = Ok l ->
     la_solver l = b /\ right_manner l /\ asks_for processors d (workers processors l) /\
     (se_ignore (la_settings l) = true <-> ignoring = true /\ In ("ignore_feature_requirements", PyBool true) d)).
Proof.
  intros enabled name b ig d processors Hs He Hn. rewrite (run_py_build _ _ _ _ d Hs He). cbn [snd].
  pose proof (build_ok ig d) as Hb. split.
  - rewrite <- (accepts_iff ig d Hn). split.
    + intros (l & E). destruct (build ig d) as [d' r]. cbn [snd] in E. destruct r as [s|e|]; cbn in E; try discriminate.
      destruct (proj1 (Hb _ _) eq_refl) as (H1 & H2 & _). auto.
    + intros [H1 H2]. pose proof (proj2 (Hb (Some []) (as_said ig d)) (conj H1 (conj H2 (conj eq_refl eq_refl)))) as ->. cbn. eauto.
  - intros l E. destruct (build ig d) as [d' r]. cbn [snd] in E. destruct r as [s|e|]; cbn in E; try discriminate. injection E as <-.
    destruct (proj1 (Hb _ _) eq_refl) as ((Ht & Hp & Hi) & _ & _ & ->). cbn [la_solver la_settings la_manner].
    split; [reflexivity|]. split.
    { unfold right_manner, interior_point. destruct Hs; cbn; split; intros X; first [discriminate X | (destruct X as [H|[H|H]]; discriminate H) | auto]. }
    split.
    + assert (W : workers processors (mkLaunch b (if ig then AllScenarios else PerScenario) (as_said ig d)) =
                if says_on "parallel" d then pool_size processors (says_threads d) else 1).
      { unfold workers, pool; cbn. destruct ig; cbn; destruct (says_on "parallel" d); reflexivity. }
      rewrite W. destruct (says_on "parallel" d) eqn:Ep.
      * apply (says_on_In _ _ Hn) in Ep. unfold says_threads, pool_size.
        destruct (get_item "threads" d) as [v|] eqn:Eg.
        -- destruct (extract_usize v) as [n|] eqn:Ev; [|destruct (Ht _ eq_refl Ev)]. apply (get_In _ _ _ Hn) in Eg.
           destruct (Z.eqb_spec n 0) as [->|N].
           ++ apply asks_all; [exact Ep|]. intros v' n Hv Hnum. apply (get_In _ _ _ Hn) in Hv, Eg. apply usize_number in Hnum. congruence.
           ++ eapply asks_number; [exact Ep | exact Eg | apply usize_number; exact Ev | exact N].
        -- cbn. apply asks_all; [exact Ep|]. intros v n Hv _. destruct (proj1 (get_None _ _) Eg v Hv).
      * apply asks_one. intros H. apply (says_on_In _ _ Hn) in H. congruence.
    + cbn [se_ignore as_said]. rewrite andb_true_iff, (says_on_In _ _ Hn). reflexivity.
Qed.
Print Assumptions C80_python_options.

(** An accepted call takes the keywords out of the caller's dictionary. *)
Theorem C80_keywords_removed : forall enabled name b ignoring (d : dict) l,
  py_solver name b ignoring -> enabled b = true -> snd (run_py enabled name (Some d)) = Ok l ->
  fst (run_py enabled name (Some d)) = Some [].
Proof.
  intros enabled name b ig d l Hs He. rewrite (run_py_build _ _ _ _ d Hs He). cbn [fst snd]. pose proof (build_ok ig d) as Hb.
  destruct (build ig d) as [d' r]. cbn [fst snd]. destruct r as [s|e|]; cbn; try discriminate. intros _.
  destruct (proj1 (Hb _ _) eq_refl) as (_ & _ & -> & _). reflexivity.
Qed.
Print Assumptions C80_keywords_removed.
(** So the same call made twice with the same dictionary is not the same run. *)
Theorem C80_same_dictionary_refuted : exists d l1 l2,
  run_py_calls (fun _ => true) ["clp"; "clp"] (Some d) = [Ok l1; Ok l2] /\ workers 8 l1 = 4 /\ workers 8 l2 = 1.
Proof.
  exists [("parallel", PyBool true); ("threads", PyInt 4)]. eexists. eexists. split; [vm_compute; reflexivity|]. split; vm_compute; reflexivity.
Qed.
Print Assumptions C80_same_dictionary_refuted.

(** The OpenCL solvers take any keywords and heed none. *)
Theorem C80_opencl_keywords_refuted : forall enabled kwargs processors, enabled SvClF32 = true -> enabled SvClF64 = true ->
  forall name, name = "clipm-f32" \/ name = "clipm-f64" ->
  exists l, run_py enabled name kwargs = (kwargs, Ok l) /\ workers processors l = 1 /\ se_ignore (la_settings l) = false.
Proof. intros enabled kwargs processors E1 E2 name [-> | ->]; eexists; unfold run_py; cbn; rewrite ?E1, ?E2; repeat split. Qed.
Print Assumptions C80_opencl_keywords_refuted.

(** The names of the solvers agree between the command line and Python for four
    solvers, and not for the others. *)
Theorem C80_names : forall b, (exists ignoring, py_solver (cli_name b) b ignoring) <-> b <> SvClF32 /\ b <> SvClF64 /\ b <> SvMicroLp.
Proof.
  intros b. split.
  - intros (i & H). destruct b; inversion H; repeat split; discriminate.
  - intros (H1 & H2 & H3). destruct b; try congruence; eexists; constructor.
Qed.
Print Assumptions C80_names.
Theorem C80_names_refuted : forall enabled kwargs b, b = SvClF32 \/ b = SvClF64 \/ b = SvMicroLp ->
  run_py enabled (cli_name b) kwargs = (kwargs, Err (UnknownSolver (cli_name b))).
Proof. intros enabled kwargs b [-> |[-> | ->]]; reflexivity. Qed.
Print Assumptions C80_names_refuted.

(** A number of threads asked for on the command line and in Python is the same
    run. *)
Theorem C80_same_run : forall enabled file b n processors data output,
  b <> SvClF32 -> b <> SvClF64 -> b <> SvMicroLp -> enabled b = true -> 1 <= n < 2 ^ 64 ->
  exists l, snd (run_py enabled (cli_name b) (Some [("threads", PyInt n); ("parallel", PyBool true)])) = Ok l /\
    let r := fr_launch (cli_run (mkRunOptions file b data output n false)) in
    la_solver l = la_solver r /\ la_manner l = la_manner r /\ workers processors l = workers processors r /\
    se_ignore (la_settings l) = se_ignore (la_settings r).
Proof.
  intros enabled file b n processors data output N1 N2 N3 He Hn.
  destruct (proj2 (C80_names b) (conj N1 (conj N2 N3))) as (ig & Hs).
  set (d := [("threads", PyInt n); ("parallel", PyBool true)] : dict).
  assert (Hd : NoDup (map fst d)) by (repeat constructor; cbn; intuition discriminate).
  destruct (C80_python_options enabled _ _ _ d processors Hs He Hd) as [Ha Hl].
  destruct (proj2 Ha) as (l & El).
  { intros k v [[= <- <-]|[[= <- <-]|[]]]; econstructor. constructor. lia. }
  exists l. split; [exact El|]. destruct (Hl _ El) as (L1 & L2 & L3 & L4).
  destruct (C80_command_line (mkRunOptions file b data output n false) processors) as (_ & _ & _ & _ & R1 & R2 & R3 & R4).
  cbn [ro_solver ro_ignore ro_threads] in *. cbv zeta. split; [congruence|]. split.
  { unfold right_manner in *. rewrite L1 in L2. rewrite R1 in R2.
    destruct (la_manner l), (la_manner (fr_launch (cli_run _))); try reflexivity; intuition discriminate. }
  split.
  - rewrite R4. inversion L3 as [Hno|v m _ Hv Hnum Hz Em|_ Hall Em].
    + destruct Hno. unfold d. cbn. auto.
    + destruct Hv as [[= <-]|[[=]|[]]]. inversion Hnum. lia.
    + assert (n = 0) by (apply (Hall (PyInt n)); [left; reflexivity | constructor; lia]). lia.
  - rewrite R3. destruct (se_ignore (la_settings l)) eqn:E; [|reflexivity]. destruct (proj1 L4 eq_refl) as [_ Hin].
    destruct Hin as [[=]|[[=]|[]]].
Qed.
Print Assumptions C80_same_run.

(** [run_from_path] and Python's command line: data and outputs are by default in
    the file's directory (on the other command line outputs are not). *)
Theorem C80_run_from_path : forall enabled file data output name b ignoring,
  py_solver name b ignoring -> enabled b = true ->
  exists r, run_from_path enabled file data output name = Ok r /\
    fr_file r = file /\ la_solver (fr_launch r) = b /\ right_manner (fr_launch r) /\ workers 1 (fr_launch r) = 1 /\
    (forall d, data = Some d -> fr_data r = Some d) /\ (data = None -> fr_data r = Some (fst file)) /\
    (forall d, output = Some d -> fr_output r = Some d) /\ (output = None -> fr_output r = Some (fst file)).
Proof.
  intros enabled file data output name b ig Hs He. unfold run_from_path, run_py.
  destruct Hs; cbn; rewrite He; cbn; eexists; (split; [reflexivity|]); cbn;
    (repeat split; try reflexivity; try (intros d ->; reflexivity); try (intros ->; reflexivity)); cbn;
    unfold interior_point; intros X; first [discriminate X | (destruct X as [H|[H|H]]; discriminate H) | auto].
Qed.
Print Assumptions C80_run_from_path.

(** Stepping by hand: any number of steps, each with or without a pool, and a run
    of the rest give what one run of the whole gives, whatever the settings and
    however the threads are scheduled. *)
Definition same_outcome {E A} (r r' : res E A) : Prop :=
  match r, r' with
  | Ok a, Ok b => a = b
  | Ok _, _ | _, Ok _ => False
  | _, _ => True
  end.
Theorem C80_stepping : forall (E Local TS SC Rec : Type) (save : TS -> list SC -> list Local -> Rec -> res E Rec)
    (ops : list (TS -> SC -> Local -> res E Local)) timesteps scs pools m m' fuel s schedules r fuel' s' schedules' r',
  steps_by_hand save ops timesteps scs pools m = Stepped m' ->
  run_with_state save ops fuel timesteps scs s schedules m' = Some r ->
  run_with_state save ops fuel' timesteps scs s' schedules' m = Some r' ->
  same_outcome r r'.
Proof.
  intros E Local TS SC Rec save ops timesteps scs pools m m' fuel s schedules r fuel' s' schedules' r' Hh Hr Hr'.
  assert (Hstep : forall p m1 m2, model_step save timesteps scs (step_with ops p) m1 = Stepped m2 ->
            model_step save timesteps scs (sequential ops (ms_index m1)) m1 = Stepped m2).
  { intros p m1 m2. unfold model_step. destruct (nth_error timesteps (ms_index m1)) as [t|]; [|discriminate]. unfold sequential, step_with.
    destruct p as [sched|]; [|auto]. pose proof (par_step_spec ops t sched scs (ms_locals m1)) as Hp.
    destruct (step ops t scs (ms_locals m1)); destruct Hp as [-> | ->]; (discriminate || auto). }
  assert (Hseq : exists rs, run_loop save (S (length timesteps)) timesteps scs (sequential ops) m = Some rs /\
                            exists f, run_loop save f timesteps scs (sequential ops) m' = Some rs).
  { assert (He : run_loop save (S (length timesteps)) timesteps scs (sequential ops) m <> None) by (apply run_ends; lia).
    destruct (run_loop save (S (length timesteps)) timesteps scs (sequential ops) m) as [rs|] eqn:Er; [|congruence]. exists rs. split; [reflexivity|].
    clear He Hr'. revert m Hh Er. generalize (S (length timesteps)). induction pools as [|p pools IH]; cbn [steps_by_hand]; intros f m Hh Er.
    - injection Hh as ->. eauto.
    - destruct (model_step save timesteps scs (step_with ops p) m) as [m1| | | |] eqn:Es; try discriminate. apply Hstep in Es.
      destruct f as [|f]; [discriminate|]. cbn [run_loop] in Er. rewrite Es in Er. eauto. }
  destruct Hseq as (rs & Hs & f & Hs').
  assert (Hone : forall f1 f2 sx sch m0 r1, run_loop save f1 timesteps scs (sequential ops) m0 = Some rs ->
            run_with_state save ops f2 timesteps scs sx sch m0 = Some r1 ->
            match rs with Ok a => r1 = Ok a | _ => forall a, r1 <> Ok a end).
  { intros f1 f2 sx sch m0 r1 H1 H2. unfold run_with_state in H2. destruct (se_parallel sx).
    - change (fun i => step_with ops (Some (sch i))) with (parallel ops sch) in H2.
      pose proof (parallel_run save f1 f2 timesteps scs ops sch m0 rs r1 H1 H2) as H. destruct rs; [exact H | destruct H; subst; discriminate | subst; discriminate].
    - change (fun i : nat => step_with ops None) with (sequential ops) in H2.
      assert (rs = r1).
      { destruct (Nat.le_ge_cases f1 f2) as [L|L].
        - pose proof (run_fuel save f1 f2 timesteps scs (sequential ops) m0 rs H1 L). congruence.
        - pose proof (run_fuel save f2 f1 timesteps scs (sequential ops) m0 r1 H2 L). congruence. }
      subst. destruct r1; [reflexivity | discriminate | discriminate]. }
  pose proof (Hone _ _ _ _ _ _ Hs' Hr) as A. pose proof (Hone _ _ _ _ _ _ Hs Hr') as B.
  unfold same_outcome. destruct rs as [a|e|].
  - subst. reflexivity.
  - destruct r as [x|x|], r' as [y|y|]; try exact I; try (destruct (A _ eq_refl)); destruct (B _ eq_refl).
  - destruct r as [x|x|], r' as [y|y|]; try exact I; try (destruct (A _ eq_refl)); destruct (B _ eq_refl).
Qed.
Print Assumptions C80_stepping.

(** Converting one file: it is written when and only when the conversion succeeds,
    and nothing else changes. *)
Inductive fails {text v1 v2 error} (parse : text -> option v1) (from_v1 : v1 -> v2 * list error) (writable : string * string -> bool)
    (stop : bool) (fs : files) (inp out : string * string) : convert_error -> Prop :=
| fails_read : fs inp = None -> fails parse from_v1 writable stop fs inp out CannotRead
| fails_parse : forall t, fs inp = Some t -> parse t = None -> fails parse from_v1 writable stop fs inp out CannotParse
| fails_errors : forall t v, fs inp = Some t -> parse t = Some v -> stop = true -> snd (from_v1 v) <> [] ->
    fails parse from_v1 writable stop fs inp out HasErrors
| fails_write : forall t v, fs inp = Some t -> parse t = Some v -> writable out = false ->
    fails parse from_v1 writable stop fs inp out CannotWrite.
Theorem C80_convert_file : forall (text v1 v2 error : Type) (parse : text -> option v1) (from_v1 : v1 -> v2 * list error) (print : v2 -> text)
    writable stop inp out fs fs' r,
  convert parse from_v1 print writable stop (TFile inp) (TFile out) fs = (fs', r) ->
  (forall q, q <> out -> fs' q = fs q) /\
  match r with
  | Ok _ => exists t v, fs inp = Some t /\ parse t = Some v /\ (stop = true -> snd (from_v1 v) = []) /\
              writable out = true /\ fs' out = Some (print (fst (from_v1 v)))
  | Err c => fails parse from_v1 writable stop fs inp out c /\ fs' out = fs out
  | Panic => False
  end.
Proof.
  intros text v1 v2 error parse from_v1 print writable stop inp out fs fs' r. unfold convert, v1_to_v2.
  destruct (fs inp) as [t|] eqn:Ef; [|intros [= <- <-]; repeat split; constructor; exact Ef].
  destruct (parse t) as [v|] eqn:Ep; [|intros [= <- <-]; repeat split; econstructor; eassumption].
  destruct (from_v1 v) as [sc errs] eqn:Ev. unfold handle_conversion_errors.
  assert (W : (if writable out then (write out (print sc) fs, Ok tt) else (fs, Err CannotWrite)) = (fs', r) ->
              (stop = true -> errs = []) ->
              (forall q, q <> out -> fs' q = fs q) /\
              match r with
              | Ok _ => exists t0 v0, Some t = Some t0 /\ parse t0 = Some v0 /\ (stop = true -> snd (from_v1 v0) = []) /\
                          writable out = true /\ fs' out = Some (print (fst (from_v1 v0)))
              | Err c => fails parse from_v1 writable stop fs inp out c /\ fs' out = fs out
              | Panic => False
              end).
  { intros H Hst. destruct (writable out) eqn:Ew; injection H as <- <-.
    - split; [intros q Hq; apply write_other; exact Hq|]. exists t, v. rewrite Ev. cbn [fst snd]. repeat split; auto. apply write_same.
    - repeat split. econstructor; eassumption. }
  destruct errs as [|e errs]; [intros H; apply W; auto|]. destruct stop; [|intros H; apply W; [exact H | discriminate]].
  intros [= <- <-]. repeat split. econstructor; [eassumption | eassumption | reflexivity | rewrite Ev; discriminate].
Qed.
Print Assumptions C80_convert_file.

(** Converting a directory into another: the files called [*.json] are converted
    in the order of the listing up to the first that cannot be, each to the file of
    the same name, and no other file is changed. *)
Theorem C80_convert_directory : forall (text v1 v2 error : Type) (parse : text -> option v1) (from_v1 : v1 -> v2 * list error) (print : v2 -> text)
    writable stop d o listing there fs fs' r,
  d <> o -> NoDup (flat_map (fun e => match e with Some e => [en_name e] | None => [] end) listing) ->
  convert parse from_v1 print writable stop (TDirectory d listing) (TDirectory o there) fs = (fs', r) ->
  let chosen e := en_is_file e = true /\ json_name (en_name e) in
  exists done rest, listing = done ++ rest /\
    (forall e, In (Some e) done -> chosen e -> exists t v, fs (d, en_name e) = Some t /\ parse t = Some v /\
       (stop = true -> snd (from_v1 v) = []) /\ fs' (o, en_name e) = Some (print (fst (from_v1 v)))) /\
    (forall p, (forall e, In (Some e) done -> chosen e -> p <> (o, en_name e)) -> fs' p = fs p) /\
    match r with
    | Ok _ => rest = []
    | Err c => exists e later, rest = Some e :: later /\ chosen e /\ fails parse from_v1 writable stop fs (d, en_name e) (o, en_name e) c
    | Panic => False
    end.
Proof.
  intros text v1 v2 error parse from_v1 print writable stop d o listing there fs fs' r Hdo Hn. cbn [convert].
  assert (Hch : forall e, selected e = true <-> en_is_file e = true /\ json_name (en_name e)).
  { intros e. unfold selected. rewrite andb_true_iff, <- extension_json. destruct (extension (en_name e)) as [x|]; [rewrite String.eqb_eq|]; intuition congruence. }
  cbv zeta. revert fs Hn. induction listing as [|[e|] listing IH]; cbn [convert_entries flat_map]; intros fs Hn H.
  - injection H as <- <-. exists [], []. repeat split; intros e [].
  - cbn [app] in Hn. inversion Hn as [|? ? Hn1 Hn2]; subst. destruct (selected e) eqn:Es.
    + destruct (v1_to_v2 parse from_v1 print writable stop (d, en_name e) (o, en_name e) fs) as [fs1 r1] eqn:E1.
      pose proof (C80_convert_file _ _ _ _ parse from_v1 print writable stop (d, en_name e) (o, en_name e) fs fs1 r1 E1) as [Hoth Hres].
      destruct r1 as [u|c|]; [|injection H as <- <-|contradiction].
      * destruct (IH fs1 Hn2 H) as (dn & rest & -> & Hc & Ho & Hr). exists (Some e :: dn), rest. split; [reflexivity|]. split; [|split].
        -- intros e' [[= <-]|Hin] Hsel.
           ++ destruct Hres as (t & v & Ht & Hv & Hst & _ & Hw). exists t, v. repeat split; try assumption. rewrite <- Hw. apply Ho.
              intros e2 Hin2 _ [= En]. apply Hn1. apply in_flat_map. exists (Some e2). split; [apply in_or_app; auto | rewrite En; left; reflexivity].
           ++ destruct (Hc e' Hin Hsel) as (t & v & Ht & Hrest). exists t, v. split; [|exact Hrest]. rewrite <- Ht. symmetry. apply Hoth. congruence.
        -- intros p Hp. rewrite (Ho p); [|intros e' Hin Hsel; apply Hp; [right; exact Hin | exact Hsel]]. apply Hoth.
           apply Hp; [left; reflexivity | apply Hch; exact Es].
        -- destruct r as [u'|c|]; [exact Hr | | exact Hr]. destruct Hr as (e' & later & -> & Hsel & Hf). exists e', later. split; [reflexivity|]. split; [exact Hsel|].
           assert (Hd : fs1 (d, en_name e') = fs (d, en_name e')) by (apply Hoth; congruence).
           inversion Hf; [eapply fails_read | eapply fails_parse | eapply fails_errors | eapply fails_write]; try eassumption; rewrite <- Hd; eassumption.
      * destruct Hres as [Hf Hsame]. exists [], (Some e :: listing). split; [reflexivity|]. split; [intros e' []|]. split.
        -- intros p _. destruct (path_eqb p (o, en_name e)) eqn:Ep; [apply path_eqb_eq in Ep; subst; exact Hsame|].
           apply Hoth. intros ->. rewrite (proj2 (path_eqb_eq _ _) eq_refl) in Ep. discriminate.
        -- exists e, listing. split; [reflexivity|]. split; [apply Hch; exact Es | exact Hf].
    + destruct (IH fs Hn2 H) as (dn & rest & -> & Hc & Ho & Hr). exists (Some e :: dn), rest. split; [reflexivity|].
      assert (Hne : ~ (en_is_file e = true /\ json_name (en_name e))) by (rewrite <- Hch, Es; discriminate).
      split; [|split; [|exact Hr]].
      * intros e' [[= <-]|Hin] Hsel; [contradiction | exact (Hc e' Hin Hsel)].
      * intros p Hp. apply Ho. intros e' Hin Hsel. apply Hp; [right; exact Hin | exact Hsel].
  - destruct (IH fs Hn H) as (dn & rest & -> & Hc & Ho & Hr). exists (None :: dn), rest. split; [reflexivity|]. split; [|split; [|exact Hr]].
    + intros e' [[=]|Hin] Hsel. exact (Hc e' Hin Hsel).
    + intros p Hp. apply Ho. intros e' Hin Hsel. apply Hp; [right; exact Hin | exact Hsel].
Qed.
Print Assumptions C80_convert_directory.

(** An entry of the directory that cannot be read is passed over without a word. *)
Theorem C80_unread_entry_refuted : forall (text v1 v2 error : Type) (parse : text -> option v1) (from_v1 : v1 -> v2 * list error) (print : v2 -> text)
    writable stop d o there fs,
  convert parse from_v1 print writable stop (TDirectory d [None]) (TDirectory o there) fs = (fs, Ok tt).
Proof. reflexivity. Qed.
Print Assumptions C80_unread_entry_refuted.

(** The hypotheses can be met. *)
Example C80_example :
  (exists l, run_py (fun _ => true) "ipm-simd" (Some [("ignore_feature_requirements", PyBool true); ("parallel", PyBool true); ("threads", PyInt 3)])
     = (Some [], Ok l) /\ workers 8 l = 3 /\ se_ignore (la_settings l) = true) /\
  snd (run_py (fun _ => true) "clp" (Some [("threads", PyInt 2); ("ignore_feature_requirements", PyBool true)])) =
    Err (UnknownKeywords [("ignore_feature_requirements", PyBool true)]) /\
  (let op : unit -> nat -> nat -> res unit nat := fun _ sc l => Ok (sc + l)%nat in
   let save : unit -> list nat -> list nat -> list nat -> res unit (list nat) := fun _ _ ls r => Ok (r ++ ls)%list in
   exists m', steps_by_hand save [op; op] [tt; tt; tt] [1; 10]%nat [None; Some [1; 0; 0; 1]%nat] (ModelState 0 [0; 0]%nat []) = Stepped m' /\
     ms_index m' = 2%nat /\
     run_with_state save [op; op] 9 [tt; tt; tt] [1; 10]%nat default_settings (fun _ => []) m' =
     run_with_state save [op; op] 9 [tt; tt; tt] [1; 10]%nat (with_parallel default_settings) (fun _ => [0; 1; 0; 1]%nat) (ModelState 0 [0; 0]%nat [])) /\
  (let fs : files := fun p => if path_eqb p ("in", "b.json") then Some 7%nat else if path_eqb p ("in", "a.json") then Some 3%nat else None in
   let conv := convert (error := unit) (fun t => if Nat.eqb t 7 then None else Some t) (fun v : nat => (v, [])) (fun v : nat => (v + 100)%nat) (fun _ => true) false
                 (TDirectory "in" [Some (mkEntry "a.json" true); Some (mkEntry "readme.md" true); Some (mkEntry "b.json" true)]) (TDirectory "out" []) fs in
   snd conv = Err CannotParse /\ fst conv ("out", "a.json") = Some 103%nat /\ fst conv ("out", "b.json") = None).
Proof.
  split; [eexists; repeat split; vm_compute; reflexivity|]. split; [vm_compute; reflexivity|].
  split; [eexists; repeat split; vm_compute; reflexivity|]. repeat split; vm_compute; reflexivity.
Qed.
