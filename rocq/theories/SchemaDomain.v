(** Model of the scenarios and the time domain of a model file
    (pywr-schema/src/model.rs) and of their conversion from a v1 file.

    Simplifications: [usize] is [nat]; a frequency is already parsed; metadata is
    left out. *)
From Verif Require Import Base Calendar Timestep Scenario.
Open Scope nat_scope.

(** *** The file *)
(** model.rs:146-173 [ScenarioGroupSlice], [ScenarioGroupIndices],
    [ScenarioGroupLabels], [ScenarioGroupSubset]. *)
Inductive file_subset : Type := FSlice (start stop : nat) | FIndices (l : list nat) | FLabels (l : list string).
(** model.rs:184-189 [ScenarioGroup]. *)
Record file_group : Type := FileGroup { fg_name : string; fg_size : nat; fg_labels : option (list string); fg_subset : option file_subset }.
(** model.rs:324-329 [ScenarioDomain]; the entries of a combination are
    [ScenarioLabelOrIndex] (271-284). *)
Record file_scenarios : Type := FileScenarios { fs_groups : list file_group; fs_combinations : option (list (list label_or_index)) }.
(** model.rs:78-85 [Timestep] (converted at 134-144) and 107-111 [TimeDomain]. *)
Record file_time : Type := FileTime { ft_start : datetime; ft_end : datetime; ft_step : step_kind }.

(** model.rs:192-218: a group of the file becomes a group of the model. *)
Definition group_of_file (g : file_group) : res scenario_error group :=
  build_group (GroupBuilder (fg_name g) (fg_size g)
    (match fg_subset g with
     | Some (FSlice start stop) => Some (BSlice start stop)
     | Some (FIndices l) => Some (BIndices l)
     | Some (FLabels l) => Some (BLabels l)
     | None => None
     end) (fg_labels g)).

(** model.rs:347-359: the loop over the groups, then the combinations. *)
Fixpoint add_groups (d : domain_builder) (gs : list file_group) : res scenario_error domain_builder :=
  match gs with
  | [] => Ok d
  | g :: r => rbind (group_of_file g) (fun g' => rbind (with_group d g') (fun d' => add_groups d' r))
  end.
Definition builder_of_file (s : file_scenarios) : res scenario_error domain_builder :=
  rbind (add_groups (DomainBuilder [] None) (fs_groups s)) (fun d =>
  Ok (match fs_combinations s with Some c => with_combinations d c | None => d end)).

(** model.rs:518-531 (and 840-851): the domain of the model; models/mod.rs:69-74
    [ModelDomainBuilder::build].  The time domain is built first. *)
Inductive domain_error : Type := ETime (e : time_error) | EScenario (e : scenario_error).
Record model_domain : Type := ModelDomain { md_time : list timestep; md_scenarios : scenario_domain }.
Definition of_scenario {A} (r : res scenario_error A) : res domain_error A :=
  match r with Ok a => Ok a | Err e => Err (EScenario e) | Panic => Panic end.
Definition of_time {A} (r : res time_error A) : res domain_error A :=
  match r with Ok a => Ok a | Err e => Err (ETime e) | Panic => Panic end.
Definition domain_of_file (fuel : nat) (t : file_time) (s : option file_scenarios) : res domain_error model_domain :=
  rbind (match s with Some s => of_scenario (builder_of_file s) | None => Ok (DomainBuilder [] None) end) (fun d =>
  rbind (of_time (build_time fuel (ft_start t) (ft_end t) (ft_step t))) (fun ts =>
  rbind (of_scenario (build_domain d)) (fun sc => Ok (ModelDomain ts sc)))).

(** *** Conversion from v1 *)
(** pywr_v1_schema's [Scenario], [Timestep] and [Timestepper]: a slice is the
    list of the arguments of Python's [slice], [null] being [None]. *)
Record v1_scenario : Type := V1Scenario { v1_name : string; v1_size : nat; v1_names : option (list string); v1_slice : option (list (option nat)) }.
Inductive v1_step : Type := V1Days (d : nat) | V1Freq (f : freq).
Record v1_time : Type := V1Time { v1_start : datetime; v1_end : datetime; v1_timestep : v1_step }.

Inductive conversion_error : Type := InvalidScenarioSlice (length : nat) | ScenarioCombinationsWithoutGroups.

Definition or_default (o : option nat) (d : nat) : nat := match o with Some v => v | None => d end.

(** [(start..end).step_by(step)]: panics for step 0. *)
Fixpoint step_by_loop (fuel start stop step : nat) : list nat :=
  match fuel with
  | O => []
  | S f => if start <? stop then start :: step_by_loop f (start + step) stop step else []
  end.
Definition step_by (start stop step : nat) : res conversion_error (list nat) :=
  match step with O => Panic | _ => Ok (step_by_loop (stop - start) start stop step) end.

(** model.rs:220-265: one v1 scenario. *)
Definition convert_slice (size : nat) (s : list (option nat)) : res conversion_error file_subset :=
  match s with
  | [_] => Ok (FSlice 0 size)
  | [a; b] => Ok (FSlice (or_default a 0) (or_default b size))
  | [a; b; c] =>
      let start := or_default a 0 in
      let stop := or_default b size in
      match c with
      | Some step => rbind (step_by start stop step) (fun l => Ok (FIndices l))
      | None => Ok (FSlice start stop)
      end
  | _ => Err (InvalidScenarioSlice (length s))
  end.
Definition convert_scenario (v : v1_scenario) : res conversion_error file_group :=
  match v1_slice v with
  | None => Ok (FileGroup (v1_name v) (v1_size v) (v1_names v) None)
  | Some s => rbind (convert_slice (v1_size v) s) (fun sub =>
              Ok (FileGroup (v1_name v) (v1_size v) (v1_names v) (Some sub)))
  end.

(** model.rs:331-341 and 555-582: the scenarios of [ModelSchema::from_v1] and the
    errors reported for them. *)
Definition convert_scenarios (vs : option (list v1_scenario)) (combs : option (list (list nat)))
    : res conversion_error (option file_scenarios * list conversion_error) :=
  let converted := match vs with
                   | None => Ok (None, [])
                   | Some l => match rmap convert_scenario l with
                               | Ok gs => Ok (Some (FileScenarios gs None), [])
                               | Err e => Ok (None, [e])
                               | Panic => Panic
                               end
                   end in
  rbind converted (fun se =>
  Ok (match combs with
      | None => se
      | Some cs => match fst se with
                   | Some s => (Some (FileScenarios (fs_groups s) (Some (map (map ByIndex) cs))), snd se)
                   | None => (None, snd se ++ [ScenarioCombinationsWithoutGroups])
                   end
      end)).

(** model.rs:87-96 and 123-131; [expect("days must be non-zero")]. *)
Definition convert_time (t : v1_time) : res conversion_error file_time :=
  match v1_timestep t with
  | V1Days O => Panic
  | V1Days d => Ok (FileTime (v1_start t) (v1_end t) (Days (Z.of_nat d)))
  | V1Freq f => Ok (FileTime (v1_start t) (v1_end t) (Frequency f))
  end.
