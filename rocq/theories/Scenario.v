(** Model of pywr-core/src/scenario.rs: scenario groups and the scenario domain.
    Simplifications: [usize] is [nat] (no overflow of the product of sizes);
    names and labels are Coq strings; group fields are private in Rust so every
    group reaching [build_domain] comes out of [build_group]. *)
From Verif Require Import Base.
From Coq Require Import DecimalString.

(** scenario.rs 34-41: [ScenarioGroupSubset]. *)
Inductive subset : Type :=
| Slice (start stop : nat)
| Indices (l : list nat).

(** scenario.rs 47-57: [ScenarioGroup]. *)
Record group : Type := Group {
  g_name : string;
  g_size : nat;
  g_subset : option subset;
  g_labels : option (list string)
}.

(** scenario.rs 107-111: [ScenarioGroupSubsetBuilder]. *)
Inductive subset_builder : Type :=
| BSlice (start stop : nat)
| BIndices (l : list nat)
| BLabels (l : list string).

(** scenario.rs 118-123: [ScenarioGroupBuilder]. *)
Record group_builder : Type := GroupBuilder {
  b_name : string;
  b_size : nat;
  b_subset : option subset_builder;
  b_labels : option (list string)
}.

(** scenario.rs 8-31: [ScenarioDomainBuilderError] (message payloads kept only
    where they identify the culprit). *)
Inductive scenario_error : Type :=
| InvalidSlice (group : string)
| NoLabels (group : string)
| LabelNotFound (group label : string)
| IncorrectNumberOfLabels (group : string)
| DuplicateGroupName (group : string)
| CombinationsAndSlices.

(** scenario.rs 88-92, 196-201: [labels.iter().position(|l| l == label)]. *)
Definition find_label (grp : string) (labels : list string) (l : string)
  : res scenario_error nat :=
  match position (String.eqb l) labels with
  | Some i => Ok i
  | None => Err (LabelNotFound grp l)
  end.

(** scenario.rs 83-103: [ScenarioGroup::label_position]. *)
Definition label_position (g : group) (l : string) : res scenario_error nat :=
  match g_labels g with
  | Some labels => find_label (g_name g) labels l
  | None => Err (NoLabels (g_name g))
  end.

(** scenario.rs 181-216: the subset part of [ScenarioGroupBuilder::build]. *)
Definition build_subset (b : group_builder) : res scenario_error (option subset) :=
  match b_subset b with
  | Some (BSlice start stop) =>
      if (stop <=? start) || (b_size b <? stop)
      then Err (InvalidSlice (b_name b))
      else Ok (Some (Slice start stop))
  | Some (BIndices l) => Ok (Some (Indices l))
  | Some (BLabels ls) =>
      match b_labels b with
      | Some labels =>
          match rmap (find_label (b_name b) labels) ls with
          | Ok idx => Ok (Some (Indices idx))
          | Err e => Err e
          | Panic => Panic
          end
      | None => Err (NoLabels (b_name b))
      end
  | None => Ok None
  end.

(** scenario.rs 181-234: [ScenarioGroupBuilder::build]. *)
Definition build_group (b : group_builder) : res scenario_error group :=
  match build_subset b with
  | Err e => Err e
  | Panic => Panic
  | Ok s =>
      match b_labels b with
      | Some labels =>
          if length labels =? b_size b
          then Ok (Group (b_name b) (b_size b) s (b_labels b))
          else Err (IncorrectNumberOfLabels (b_name b))
      | None => Ok (Group (b_name b) (b_size b) s (b_labels b))
      end
  end.

(** scenario.rs 240-262: [ScenarioLabelOrIndex]. *)
Inductive label_or_index : Type :=
| ByLabel (l : string)
| ByIndex (i : nat).

(** scenario.rs 264-268: [ScenarioDomainBuilder]. *)
Record domain_builder : Type := DomainBuilder {
  d_groups : list group;
  d_combinations : option (list (list label_or_index))
}.

(** scenario.rs 285-296: [with_group]. *)
Definition with_group (d : domain_builder) (g : group) : res scenario_error domain_builder :=
  if existsb (fun g' => String.eqb (g_name g') (g_name g)) (d_groups d)
  then Err (DuplicateGroupName (g_name g))
  else Ok (DomainBuilder (d_groups d ++ [g]) (d_combinations d)).

(** scenario.rs 303-311: [with_combinations]. *)
Definition with_combinations (d : domain_builder) (c : list (list label_or_index)) : domain_builder :=
  DomainBuilder (d_groups d) (Some c).

(** scenario.rs 517-538: [ScenarioIndices]; 594-605: [ScenarioIndex]. *)
Record scenario_indices : Type := SI { si_index : nat; si_indices : list nat }.
Record scenario_index : Type := ScenarioIndex {
  sx_core : scenario_indices;
  sx_schema : option scenario_indices;
  sx_labels : list string
}.

(** scenario.rs 687-691: [ScenarioDomain]. *)
Record scenario_domain : Type := Domain {
  dom_indices : list scenario_index;
  dom_groups : list group;
  dom_map : list (option (list nat))
}.

(** scenario.rs 608-616, 59-68: the defaults used when no group is defined. *)
Definition default_index : scenario_index := ScenarioIndex (SI 0 [0]) None ["0"%string].
Definition default_group : group := Group "Default" 1 None None.

(** Rust's [usize::to_string]. *)
Definition nat_to_string (n : nat) : string := NilZero.string_of_uint (Nat.to_uint n).

(** scenario.rs 313-334: [build_scenario_map_from_subsets]. *)
Definition subset_members (s : subset) : list nat :=
  match s with
  | Slice start stop => seq start (stop - start)
  | Indices l => l
  end.
Definition map_from_subsets (gs : list group) : list (option (list nat)) :=
  map (fun g => option_map subset_members (g_subset g)) gs.

(** [BTreeSet<usize>]: a strictly increasing list. *)
Fixpoint bt_insert (x : nat) (l : list nat) : list nat :=
  match l with
  | [] => [x]
  | y :: ys => if x <? y then x :: l else if x =? y then l else y :: bt_insert x ys
  end.

(** scenario.rs 340-344: insert the members of one combination, one per group;
    [combination[group_index]] panics if the combination is too short. *)
Fixpoint insert_combination (sets : list (list nat)) (comb : list nat)
  : res scenario_error (list (list nat)) :=
  match sets with
  | [] => Ok []
  | s :: ss =>
      match comb with
      | [] => Panic
      | c :: cs => match insert_combination ss cs with
                   | Ok r => Ok (bt_insert c s :: r)
                   | Err e => Err e
                   | Panic => Panic
                   end
      end
  end.

Fixpoint insert_combinations (sets : list (list nat)) (combs : list (list nat))
  : res scenario_error (list (list nat)) :=
  match combs with
  | [] => Ok sets
  | c :: cs => rbind (insert_combination sets c) (fun s => insert_combinations s cs)
  end.

(** scenario.rs 337-358: [build_scenario_map_from_combinations]. *)
Definition map_from_combinations (gs : list group) (combs : list (list nat))
  : res scenario_error (list (option (list nat))) :=
  rbind (insert_combinations (map (fun _ => []) gs) combs)
    (fun sets => Ok (map (fun s => match s with [] => None | _ => Some s end) sets)).

(** scenario.rs 360-368: [schema_id]; the first group varies fastest here. *)
Fixpoint schema_id_loop (gs : list group) (comb : list nat) (id mult : nat)
  : res scenario_error nat :=
  match gs with
  | [] => Ok id
  | g :: gs' =>
      match comb with
      | [] => Panic
      | c :: cs => schema_id_loop gs' cs (id + c * mult) (mult * g_size g)
      end
  end.
Definition schema_id (gs : list group) (comb : list nat) : res scenario_error nat :=
  schema_id_loop gs comb 0 1.

(** scenario.rs 435-438 and 470-473: the label of one group member. *)
Definition member_label (g : group) (idx : nat) : res scenario_error string :=
  match g_labels g with
  | Some labels => index_or_panic labels idx
  | None => Ok (nat_to_string idx)
  end.

Fixpoint zip_with_res {A B C E} (f : A -> B -> res E C) (l : list A) (m : list B) : res E (list C) :=
  match l, m with
  | a :: l', b :: m' =>
      match f a b with
      | Ok c => match zip_with_res f l' m' with
                | Ok cs => Ok (c :: cs)
                | Err e => Err e
                | Panic => Panic
                end
      | Err e => Err e
      | Panic => Panic
      end
  | _, _ => Ok []
  end.

(** scenario.rs 402-416: labels to indices; [zip] truncates to the shorter list. *)
Definition resolve_member (c : label_or_index) (g : group) : res scenario_error nat :=
  match c with
  | ByLabel l => label_position g l
  | ByIndex i => Ok i
  end.
Definition resolve_combination (gs : list group) (c : list label_or_index)
  : res scenario_error (list nat) := zip_with_res resolve_member c gs.

(** scenario.rs 421-428: simulation indices of one combination. *)
Definition sim_member (s : option (list nat)) (c : nat) : res scenario_error nat :=
  match s with
  | Some set => match position (Nat.eqb c) set with Some i => Ok i | None => Panic end
  | None => Ok c
  end.

(** scenario.rs 420-448: one iteration of the combinations loop; [n] is
    [scenario_indices.len()]. *)
Definition combination_scenario (gs : list group) (m : list (option (list nat))) (n : nat)
  (comb : list nat) : res scenario_error scenario_index :=
  rbind (zip_with_res sim_member m comb) (fun sim =>
  rbind (zip_with_res member_label gs comb) (fun labels =>
  rbind (schema_id gs comb) (fun sid =>
  Ok (ScenarioIndex (SI n sim) (Some (SI sid comb)) labels)))).

Fixpoint combination_loop (gs : list group) (m : list (option (list nat))) (n : nat)
  (combs : list (list nat)) : res scenario_error (list scenario_index) :=
  match combs with
  | [] => Ok []
  | c :: cs =>
      rbind (combination_scenario gs m n c) (fun s =>
      rbind (combination_loop gs m (S n) cs) (fun rest => Ok (s :: rest)))
  end.

(** scenario.rs 460-477: decode a scenario id, walking the groups in reverse and
    reversing the result.  [remaining % 0] would panic, but a group of size 0
    makes the number of scenarios 0 so the loop body never runs. *)
Fixpoint decode_rev (rgs : list group) (remaining : nat) : list nat :=
  match rgs with
  | [] => []
  | g :: rgs' => remaining mod g_size g :: decode_rev rgs' (remaining / g_size g)
  end.
Definition decode (gs : list group) (scenario_id : nat) : list nat :=
  rev (decode_rev (rev gs) scenario_id).

(** scenario.rs 479-509: simulation index of a member, [None] = skip scenario. *)
Definition subset_sim (s : option subset) (idx : nat) : option nat :=
  match s with
  | Some (Slice start stop) =>
      if (idx <? start) || (stop <=? idx) then None else Some (idx - start)
  | Some (Indices l) =>
      if existsb (Nat.eqb idx) l then position (Nat.eqb idx) l else None
  | None => Some idx
  end.
Fixpoint sim_indices (gs : list group) (schema : list nat) : option (list nat) :=
  match gs, schema with
  | g :: gs', i :: is =>
      match subset_sim (g_subset g) i with
      | None => None
      | Some k => match sim_indices gs' is with
                  | None => None
                  | Some ks => Some (k :: ks)
                  end
      end
  | _, _ => Some []
  end.

(** scenario.rs 459-522: the loop over all scenario ids; [n] is
    [scenario_indices.len()]. *)
Fixpoint full_loop (gs : list group) (is_sliced : bool) (n : nat) (ids : list nat)
  : res scenario_error (list scenario_index) :=
  match ids with
  | [] => Ok []
  | sid :: rest =>
      let schema := decode gs sid in
      rbind (zip_with_res member_label gs schema) (fun labels =>
      match sim_indices gs schema with
      | None => full_loop gs is_sliced n rest
      | Some sim =>
          let s := ScenarioIndex (SI n sim)
                     (if is_sliced then Some (SI sid schema) else None) labels in
          rbind (full_loop gs is_sliced (S n) rest) (fun r => Ok (s :: r))
      end)
  end.

Definition product (l : list nat) : nat := fold_left Nat.mul l 1.
Definition isSome {A} (o : option A) : bool := match o with Some _ => true | None => false end.

(** scenario.rs 385-534: [ScenarioDomainBuilder::build]. *)
Definition build_domain (d : domain_builder) : res scenario_error scenario_domain :=
  let gs := d_groups d in
  match gs with
  | [] => Ok (Domain [default_index] [default_group] [None])
  | _ :: _ =>
      let num := product (map g_size gs) in
      if existsb (fun g => isSome (g_subset g)) gs && isSome (d_combinations d)
      then Err CombinationsAndSlices
      else match d_combinations d with
           | Some raw =>
               rbind (rmap (resolve_combination gs) raw) (fun combs =>
               rbind (map_from_combinations gs combs) (fun m =>
               rbind (combination_loop gs m 0 combs) (fun ix =>
               Ok (Domain ix gs m))))
           | None =>
               let m := map_from_subsets gs in
               let is_sliced := existsb isSome m in
               rbind (full_loop gs is_sliced 0 (seq 0 num)) (fun ix =>
               Ok (Domain ix gs m))
           end
  end.

(** scenario.rs 640-676: accessors of [ScenarioIndex]. *)
Definition simulation_id (s : scenario_index) : nat := si_index (sx_core s).
Definition simulation_indices (s : scenario_index) : list nat := si_indices (sx_core s).
Definition simulation_index_for_group (s : scenario_index) (g : nat) : res scenario_error nat :=
  index_or_panic (si_indices (sx_core s)) g.
Definition schema_index_for_group (s : scenario_index) (g : nat) : res scenario_error nat :=
  match sx_schema s with
  | None => index_or_panic (si_indices (sx_core s)) g
  | Some x => index_or_panic (si_indices x) g
  end.
Definition schema_id_of (s : scenario_index) : option nat := option_map si_index (sx_schema s).

(** scenario.rs 717-722: [group_index]; 737-740: [group_scenario_subset]. *)
Definition group_index (d : scenario_domain) (name : string) : option nat :=
  position (fun g => String.eqb (g_name g) name) (dom_groups d).

(** parameters/array.rs 352-365: [subset_array2] on one row of the array, i.e.
    the row re-built from the listed columns ([array.slice(s![.., c])] panics
    when the column does not exist). *)
Definition subset_row {A} (row : list A) (cols : list nat) : res scenario_error (list A) :=
  rmap (index_or_panic row) cols.

(** parameters/array.rs 293-310: the row kept by a parameter built for a group. *)
Definition group_row {A} (d : scenario_domain) (g : nat) (row : list A)
  : res scenario_error (list A) :=
  rbind (index_or_panic (dom_map d) g) (fun m =>
  match m with
  | Some cols => subset_row row cols
  | None => Ok row
  end).
(** parameters/array.rs 179-212 (Array2 lookup): row value at the simulation index. *)
Definition array_lookup {A} (d : scenario_domain) (g : nat) (row : list A) (s : scenario_index)
  : res scenario_error A :=
  rbind (group_row d g row) (fun r =>
  rbind (simulation_index_for_group s g) (fun i => index_or_panic r i)).
(** parameters/constant_scenario.rs 23-31: full data at the schema index. *)
Definition constant_lookup {A} (g : nat) (values : list A) (s : scenario_index)
  : res scenario_error A :=
  rbind (schema_index_for_group s g) (fun i => index_or_panic values i).
