(** C35: transfers between the networks of a model. *)
From Coq Require Import QArith.
From Verif Require Import Base Scenario Calendar Timestep Run MultiNetwork MultiNetworkSpec MultiNetworkLemmas.
Local Open Scope nat_scope.

Section Multi.
Context {E Builder Net Maps Unresolved Metric X : Type}.
Variable build_network : Builder -> list (string * nat) -> res E (Net * Maps).
Variable resolve : Maps -> Unresolved -> res E Metric.
Variable get_value : Metric -> Net -> local (X := X) -> res E Q.
Variable operations : Net -> list (timestep -> scenario_index -> list Q -> X -> res E X).
Variable initial : Net -> scenario_index -> res E X.

(** A model that builds has networks with distinct names, in the order given, each
    knowing its transfers by their places, and none transfers from itself. *)
Theorem C35_build bs (es : list (entry (Net := Net) (Metric := Metric))) :
  build_multi build_network resolve bs = Ok es ->
  NoDup (map eb_name bs) /\ length es = length bs /\
  (forall k b e, nth_error bs k = Some b -> nth_error es k = Some e ->
     exists maps, built_from build_network b e maps) /\
  (forall b t, In b bs -> In t (eb_transfers b) ->
     tb_from t <> eb_name b /\ In (tb_from t) (map eb_name bs)).
Proof.
  intros H. destruct (build_multi_spec (X := unit) build_network resolve (fun _ _ _ => Panic) (fun _ => []) bs es H) as (H1 & H2 & H3).
  split; [exact H1|]. split; [exact H2|]. split.
  - intros k b e Hb He. exact (proj1 (H3 k b e Hb He)).
  - intros b t Hb Ht. apply In_nth_error in Hb. destruct Hb as [k Hk]. split.
    + exact (no_self_transfer (X := unit) build_network resolve (fun _ _ _ => Panic) (fun _ => []) bs es k b t H Hk Ht).
    + destruct (nth_error_lt_Some es k) as [e He]; [rewrite H2; exact (nth_error_Some_lt _ _ _ Hk)|].
      destruct (H3 k b e Hk He) as [_ Hf]. apply In_nth_error in Ht. destruct Ht as [i Hi].
      destruct (nth_error_lt_Some (en_transfers e) i) as [tr Htr].
      { rewrite <- (Forall2_length' _ _ _ Hf). exact (nth_error_Some_lt _ _ _ Hi). }
      destruct (Forall2_nth_error _ _ _ _ _ _ Hf Hi Htr) as [_ (m & b' & e' & maps & Hm & Hn & _)].
      rewrite <- Hn. apply in_map. exact (nth_error_In _ _ Hm).
Qed.

(** One time-step delivers the right values, from any data of the right shape. *)
Theorem C35_step bs (es : list (entry (Net := Net) (Metric := Metric))) scs t old new :
  build_multi build_network resolve bs = Ok es -> numbered scs -> shaped es scs old ->
  step_multi get_value operations t es scs old = Ok new ->
  shaped es scs new /\ right_step build_network resolve get_value operations bs es scs t old new.
Proof. exact (step_multi_spec build_network resolve get_value operations bs es scs t old new). Qed.

(** Every step of a run of any length, from the model's set-up, does. *)
Theorem C35_run bs (es : list (entry (Net := Net) (Metric := Metric))) scs ts start final :
  build_multi build_network resolve bs = Ok es -> numbered scs ->
  setup_multi initial es scs = Ok start ->
  run_multi get_value operations ts es scs start = Ok final ->
  exists history, length history = S (length ts) /\ nth_error history 0 = Some start /\
    nth_error history (length ts) = Some final /\
    forall i t old new, nth_error ts i = Some t -> nth_error history i = Some old -> nth_error history (S i) = Some new ->
      run_multi get_value operations (firstn i ts) es scs start = Ok old /\
      right_step build_network resolve get_value operations bs es scs t old new.
Proof.
  intros Hb Hn Hs Hr. apply (run_multi_spec build_network resolve get_value operations bs es scs ts start final Hb Hn); [|exact Hr].
  exact (setup_shaped initial es scs start Hs).
Qed.

(** Where nothing else panics, no transfer does, whatever the networks' order. *)
Theorem C35_never_panics bs (es : list (entry (Net := Net) (Metric := Metric))) scs ts start :
  (forall m n l, get_value m n l <> Panic) ->
  (forall n op t s vs x, In op (operations n) -> op t s vs x <> Panic) ->
  build_multi build_network resolve bs = Ok es -> numbered scs ->
  setup_multi initial es scs = Ok start ->
  run_multi get_value operations ts es scs start <> Panic.
Proof.
  intros H1 H2 Hb Hn Hs.
  apply (run_multi_total build_network resolve get_value operations H1 H2 bs es scs ts start Hb Hn).
  exact (setup_shaped initial es scs start Hs).
Qed.
End Multi.
Print Assumptions C35_build.
Print Assumptions C35_step.
Print Assumptions C35_run.
Print Assumptions C35_never_panics.

(** Three networks and two scenarios: North receives from Middle and South, listed
    after it; Middle receives from North; South receives from Middle and North.  A
    network's own datum becomes 100 times its number, plus ten times what it
    received, plus one in the second scenario. *)
Definition ex_builders : list (entry_builder (Builder := nat) (Unresolved := Q)) := [
  EntryBuilder "North" 1 [TransferBuilder "a" "Middle" 1%Q (Some 7%Q); TransferBuilder "b" "South" 2%Q None];
  EntryBuilder "Middle" 2 [TransferBuilder "a" "North" 1%Q None];
  EntryBuilder "South" 3 [TransferBuilder "a" "Middle" 1%Q None; TransferBuilder "c" "North" 1%Q (Some 9%Q)] ]%string.
Definition ex_build (b : nat) (_ : list (string * nat)) : res string (nat * unit) := Ok (b, tt).
Definition ex_resolve (_ : unit) (u : Q) : res string Q := Ok u.
Definition ex_get (m : Q) (_ : nat) (l : local (X := Q)) : res string Q := Ok (Qred (m * lo_rest l)).
Definition ex_operations (n : nat) : list (timestep -> scenario_index -> list Q -> Q -> res string Q) := [
  (fun _ s vs _ => Ok (Qred (inject_Z (Z.of_nat (100 * n)) + 10 * fold_right Qplus 0 vs + inject_Z (Z.of_nat (simulation_id s))))%Q) ].
Definition ex_initial (n : nat) (s : scenario_index) : res string Q := Ok (inject_Z (Z.of_nat n)).
Definition ex_scs : list scenario_index :=
  [ScenarioIndex (SI 0 [0]) None ["0"%string]; ScenarioIndex (SI 1 [1]) None ["1"%string]].
Definition ex_ts : list timestep := [Timestep (datetime_of_instant 0) 0%Z 86400%Z; Timestep (datetime_of_instant 86400000000000) 1%Z 86400%Z].

Example C35_example :
  (exists es start final, build_multi ex_build ex_resolve ex_builders = Ok es /\
    numbered ex_scs /\ setup_multi ex_initial es ex_scs = Ok start /\
    run_multi ex_get ex_operations ex_ts es ex_scs start = Ok final /\
    (forall m n l, ex_get m n l <> Panic) /\
    (forall n op t s vs x, In op (ex_operations n) -> op t s vs x <> Panic) /\
    step_multi ex_get ex_operations (Timestep (datetime_of_instant 0) 0%Z 86400%Z) es ex_scs start = Ok
      [ [Local [7; 6] 230; Local [7; 6] 231]; [Local [230] 2500; Local [231] 2511];
        [Local [2500; 9] 25390; Local [2511; 9] 25501] ]%Q /\
    final = [ [Local [2500; 50780] 532900; Local [2511; 51002] 535231];
              [Local [532900] 5329200; Local [535231] 5352511];
              [Local [5329200; 532900] 58621300; Local [5352511; 535231] 58877721] ]%Q) /\
  build_multi ex_build ex_resolve [EntryBuilder "A" 1 [TransferBuilder "t" "A" 1%Q None]]%string
    = Err (TransferToSelf "t"%string "A"%string) /\
  build_multi ex_build ex_resolve [EntryBuilder "A" 1 [TransferBuilder "t" "B" 1%Q None]]%string
    = Err (NetworkNotFoundForTransfer "t"%string "B"%string) /\
  build_multi ex_build ex_resolve [EntryBuilder "A" 1 []; EntryBuilder "A" 2 []]%string
    = Err (DuplicateNetworkName "A"%string).
Proof.
  split.
  - eexists; eexists; eexists. split; [vm_compute; reflexivity|]. split; [reflexivity|].
    split; [vm_compute; reflexivity|]. split; [vm_compute; reflexivity|].
    split; [discriminate|]. split.
    { intros n op t s vs x [<-|[]]. discriminate. }
    split; vm_compute; reflexivity.
  - split; [vm_compute; reflexivity|]. split; vm_compute; reflexivity.
Qed.
