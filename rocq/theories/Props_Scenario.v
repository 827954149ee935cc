(** Properties C01-C05: the scenario domain. *)
From Verif Require Import Base Scenario ScenarioSpec ScenarioLemmas.
From Coq Require Import Sorted.

(** C01.  Without subsets or combinations every choice of one member per group
    is simulated once, in lexicographic order (last group fastest), and the
    simulation ids are the positions 0,1,2,...  *)
Theorem C01_full_enumeration : forall gs,
  gs <> [] -> Forall built gs -> Forall (fun g => g_subset g = None) gs ->
  exists d, build_domain (DomainBuilder gs None) = Ok d /\
    StronglySorted lex_lt (map simulation_indices (dom_indices d)) /\
    NoDup (map simulation_indices (dom_indices d)) /\
    (forall c, In c (map simulation_indices (dom_indices d)) <-> picks gs c) /\
    map simulation_id (dom_indices d) = seq 0 (length (dom_indices d)) /\
    (forall s g, In s (dom_indices d) -> schema_index_for_group s g = simulation_index_for_group s g).
Proof. exact full_run_lemma. Qed.
Print Assumptions C01_full_enumeration.

Theorem C01_scenario_count : forall gs d,
  gs <> [] -> Forall built gs -> Forall (fun g => g_subset g = None) gs ->
  build_domain (DomainBuilder gs None) = Ok d ->
  length (dom_indices d) = fold_right Nat.mul 1 (map g_size gs).
Proof. exact full_run_count. Qed.
Print Assumptions C01_scenario_count.

(** The labels shown for a scenario are those of its members. *)
Theorem C01_labels : forall gs d s k g i l,
  gs <> [] -> Forall built gs -> build_domain (DomainBuilder gs None) = Ok d ->
  In s (dom_indices d) -> nth_error gs k = Some g -> nth_error (members s) k = Some i ->
  nth_error (sx_labels s) k = Some l -> shows_label g i l.
Proof. exact full_labels. Qed.
Print Assumptions C01_labels.

Definition ex_a : group := Group "a" 3 None (Some ["x"; "y"; "z"]%string).
Definition ex_b : group := Group "b" 2 None None.
Example C01_example :
  Forall built [ex_a; ex_b] /\ Forall (fun g => g_subset g = None) [ex_a; ex_b] /\
  match build_domain (DomainBuilder [ex_a; ex_b] None) with
  | Ok d => map simulation_indices (dom_indices d) = [[0;0];[0;1];[1;0];[1;1];[2;0];[2;1]]
  | _ => False
  end.
Proof.
  repeat split; repeat constructor.
  - exists (GroupBuilder "a" 3 None (Some ["x"; "y"; "z"]%string)). reflexivity.
  - exists (GroupBuilder "b" 2 None None). reflexivity.
Qed.

(** C02.  With subsets, exactly the requested choices are simulated, in the order
    of the full run, numbered without gaps. *)
Theorem C02_subset_enumeration : forall gs,
  gs <> [] -> Forall built gs ->
  exists d, build_domain (DomainBuilder gs None) = Ok d /\
    StronglySorted lex_lt (map members (dom_indices d)) /\
    NoDup (map members (dom_indices d)) /\
    (forall c, In c (map members (dom_indices d)) <-> picks gs c /\ Forall2 requested gs c) /\
    map simulation_id (dom_indices d) = seq 0 (length (dom_indices d)).
Proof. exact subset_run_lemma. Qed.
Print Assumptions C02_subset_enumeration.

(** C02 in terms of what the user wrote on the group builders. *)
Theorem C02_subset_as_asked : forall bs gs,
  bs <> [] -> Forall2 (fun b g => build_group b = Ok g) bs gs ->
  exists d, build_domain (DomainBuilder gs None) = Ok d /\
    StronglySorted lex_lt (map members (dom_indices d)) /\
    NoDup (map members (dom_indices d)) /\
    (forall c, In c (map members (dom_indices d)) <->
               Forall2 (fun b i => i < b_size b /\ asked_for b i) bs c) /\
    map simulation_id (dom_indices d) = seq 0 (length (dom_indices d)).
Proof. exact subset_run_builders. Qed.
Print Assumptions C02_subset_as_asked.

(** The group builder accepts exactly the well formed definitions. *)
Theorem C02_builder_accepts : forall b, (exists g, build_group b = Ok g) <-> acceptable b.
Proof. exact group_builder_accepts. Qed.
Print Assumptions C02_builder_accepts.

Definition ex_bs : group := Group "b" 4 (Some (Indices [3; 1])) None.
Definition ex_as : group := Group "a" 3 (Some (Slice 1 3)) (Some ["x"; "y"; "z"]%string).
Example C02_example :
  Forall built [ex_as; ex_bs] /\
  match build_domain (DomainBuilder [ex_as; ex_bs] None) with
  | Ok d => map members (dom_indices d) = [[1;1];[1;3];[2;1];[2;3]] /\
            map simulation_indices (dom_indices d) = [[0;1];[0;0];[1;1];[1;0]]
  | _ => False
  end.
Proof.
  split; [|vm_compute; auto].
  repeat constructor.
  - exists (GroupBuilder "a" 3 (Some (BSlice 1 3)) (Some ["x"; "y"; "z"]%string)). reflexivity.

  - exists (GroupBuilder "b" 4 (Some (BIndices [3; 1])) None). reflexivity.
Qed.

(** C03.  Data cut down to the simulated members and read at the simulation index
    equals the full data read at the schema index, for full and subset runs. *)
Theorem C03_lookup_unaffected_by_subset : forall (A : Type) gs d s k g (row : list A),
  gs <> [] -> Forall built gs -> Forall subset_in_range gs ->
  build_domain (DomainBuilder gs None) = Ok d ->
  In s (dom_indices d) -> nth_error gs k = Some g -> length row = g_size g ->
  exists i v, nth_error (members s) k = Some i /\ nth_error row i = Some v /\
    array_lookup d k row s = Ok v /\ constant_lookup k row s = Ok v.
Proof.
  exact (fun A gs d s k g row Hne Hb Hr Hd =>
    aligned_lookup d gs s k g row (full_aligned gs d Hne Hb Hr Hd)).
Qed.
Print Assumptions C03_lookup_unaffected_by_subset.

(** C03 for runs with explicit combinations. *)
Theorem C03_lookup_unaffected_by_combinations : forall (A : Type) gs raw combs d s k g (row : list A),
  gs <> [] -> Forall built gs -> Forall (fun g => g_subset g = None) gs -> raw <> [] ->
  Forall2 (fun r c => Forall2 (fun g p => denotes g (fst p) (snd p)) gs (combine r c) /\
                      length r = length gs /\ length c = length gs) raw combs ->
  build_domain (DomainBuilder gs (Some raw)) = Ok d ->
  In s (dom_indices d) -> nth_error gs k = Some g -> length row = g_size g ->
  exists i v, nth_error (members s) k = Some i /\ nth_error row i = Some v /\
    array_lookup d k row s = Ok v /\ constant_lookup k row s = Ok v.
Proof.
  exact (fun A gs raw combs d s k g row Hne Hb Hns Hraw HF Hd =>
    aligned_lookup d gs s k g row (combos_aligned gs raw combs d Hne Hb Hns Hraw HF Hd)).
Qed.
Print Assumptions C03_lookup_unaffected_by_combinations.

Example C03_example :
  Forall subset_in_range [ex_as; ex_bs] /\
  match build_domain (DomainBuilder [ex_as; ex_bs] None) with
  | Ok d => map (array_lookup d 1 [10; 11; 12; 13]) (dom_indices d) = [Ok 11; Ok 13; Ok 11; Ok 13]
  | _ => False
  end.
Proof. split; [repeat constructor; cbn; lia | vm_compute; reflexivity]. Qed.

(** C04.  Explicit combinations run exactly as listed. *)
Theorem C04_combinations_run_as_listed : forall gs raw combs,
  gs <> [] -> Forall built gs -> Forall (fun g => g_subset g = None) gs -> raw <> [] ->
  Forall2 (fun r c => Forall2 (fun g p => denotes g (fst p) (snd p)) gs (combine r c) /\
                      length r = length gs /\ length c = length gs) raw combs ->
  exists d, build_domain (DomainBuilder gs (Some raw)) = Ok d /\
    map members (dom_indices d) = combs /\
    map simulation_id (dom_indices d) = seq 0 (length combs) /\
    forall k g, nth_error gs k = Some g ->
      exists used, nth_error (dom_map d) k = Some (Some used) /\
        StronglySorted lt used /\
        (forall x, In x used <-> exists c, In c combs /\ nth_error c k = Some x) /\
        forall s, In s (dom_indices d) ->
          exists i x, simulation_index_for_group s k = Ok i /\ nth_error used i = Some x /\
                      schema_index_for_group s k = Ok x /\ nth_error (members s) k = Some x.
Proof. exact combos_run. Qed.
Print Assumptions C04_combinations_run_as_listed.

Definition ex_raw : list (list label_or_index) :=
  [[ByLabel "z"; ByIndex 0]; [ByIndex 0; ByIndex 1]; [ByLabel "z"; ByIndex 1]]%string.
Example C04_example :
  Forall2 (fun r c => Forall2 (fun g p => denotes g (fst p) (snd p)) [ex_a; ex_b] (combine r c) /\
                      length r = 2 /\ length c = 2) ex_raw [[2;0];[0;1];[2;1]].
Proof.
  repeat (constructor; repeat split; cbn; try lia);
    (exists ["x"; "y"; "z"]%string; repeat split;
     intros j Hj; destruct j as [|[|j]]; cbn; try lia; congruence).
Qed.

(** C05.  In a sliced run the schema id is the id of the same choice in the full run. *)
Theorem C05_schema_id_sliced_partial : forall gs d dfull s,
  gs <> [] -> Forall built gs -> existsb (fun g => isSome (g_subset g)) gs = true ->
  build_domain (DomainBuilder gs None) = Ok d ->
  build_domain (DomainBuilder (map unsliced gs) None) = Ok dfull ->
  In s (dom_indices d) ->
  exists s', In s' (dom_indices dfull) /\ simulation_indices s' = members s /\
             schema_id_of s = Some (simulation_id s').
Proof. exact sliced_schema_id. Qed.
Print Assumptions C05_schema_id_sliced_partial.

(** C05 fails for combination runs: the schema id of (z, 0) is 2 but the full run
    numbers that choice 4. *)
Theorem C05_schema_id_combinations_refuted :
  exists gs raw d dfull s s',
    Forall built gs /\
    build_domain (DomainBuilder gs (Some raw)) = Ok d /\
    build_domain (DomainBuilder gs None) = Ok dfull /\
    In s (dom_indices d) /\ In s' (dom_indices dfull) /\
    simulation_indices s' = members s /\ schema_id_of s <> Some (simulation_id s').
Proof.
  exists [ex_a; ex_b], ex_raw.
  eexists; eexists; exists (ScenarioIndex (SI 0 [1; 0]) (Some (SI 2 [2; 0])) ["z"; "0"]%string),
    (ScenarioIndex (SI 4 [2; 0]) None ["z"; "0"]%string).
  split; [exact (proj1 C01_example)|]. split; [vm_compute; reflexivity|]. split; [vm_compute; reflexivity|].
  cbn. repeat split; auto 10. congruence.
Qed.
Print Assumptions C05_schema_id_combinations_refuted.
