(** C45 (array lookups) and C47 (decision variables). *)
From Coq Require Import QArith Lqa.
From Verif Require Formulas.
From Verif Require Import Base Scenario ScenarioSpec ScenarioLemmas Lookups LookupsSpec LookupsLemmas.
Local Open Scope Z_scope.

(** * C45 *)

(** With an offset, step [t] reads entry [t + offset], or the first or last entry
    when there is none, however the program was compiled. *)
Theorem C45_offset_clamped : forall (A : Type) checked (array : list A) offset t,
  array <> [] -> Z.of_nat (length array) < 2 ^ 31 -> fits_i32 t -> fits_i32 (t + offset) ->
  exists v, array1_compute checked array (Some offset) t = Ok v /\ nearest_entry array (t + offset) v.
Proof. exact @array1_offset. Qed.
Print Assumptions C45_offset_clamped.

(** Without an offset, entry [t], and an error past the end. *)
Theorem C45_no_offset : forall (A : Type) checked (array : list A) t, 0 <= t ->
  (forall v, nth_error array (Z.to_nat t) = Some v -> array1_compute checked array None t = Ok v) /\
  (Z.of_nat (length array) <= t ->
   array1_compute checked array None t = Err (OutOfBounds t (Z.of_nat (length array)) 0)).
Proof. exact @array1_no_offset. Qed.
Print Assumptions C45_no_offset.

(** A vector has a value for each time-step, and is an error past its end. *)
Theorem C45_vector : forall values (t : nat),
  (forall v, nth_error values t = Some v <-> Formulas.vector_param values t = Ok v) /\
  ((length values <= t)%nat <-> exists e, Formulas.vector_param values t = Err e).
Proof.
  intros values t. unfold Formulas.vector_param. pose proof (nth_error_None values t) as HN. destruct (nth_error values t) as [v|] eqn:E; split.
  - intros v'. split; [intros [= ->]; reflexivity|intros [= ->]; reflexivity].
  - split; [intros H; apply HN in H; discriminate|intros [e He]; discriminate].
  - intros v'. split; discriminate.
  - split; [eauto|intros _; apply HN; reflexivity].
Qed.
Print Assumptions C45_vector.

(** Empty data is an error, not a panic. *)
Theorem C45_empty_is_an_error : forall (A : Type) checked offset t,
  fits_i32 t -> 0 <= t -> (forall o, offset = Some o -> fits_i32 (t + o)) ->
  exists e, array1_compute checked (@nil A) offset t = Err e.
Proof. exact @array1_empty. Qed.
Print Assumptions C45_empty_is_an_error.

(** For every index and offset whatever, a value that is returned is in the data. *)
Theorem C45_never_outside : forall (A : Type) checked (array : list A) offset t v,
  array1_compute checked array offset t = Ok v -> In v array.
Proof. exact @array1_within. Qed.
Print Assumptions C45_never_outside.

(** Two dimensions: the row as above, and the column asked for. *)
Theorem C45_two_dimensions : forall (A : Type) checked (array : list (list A)) width offset column t,
  array <> [] -> Z.of_nat (length array) < 2 ^ 31 -> fits_i32 t -> fits_i32 (t + offset) ->
  Forall (fun r => Z.of_nat (length r) = width) array ->
  (0 <= column < width ->
   exists row v, array2_compute checked array width (Some offset) column t = Ok v /\
     nearest_entry array (t + offset) row /\ nth_error row (Z.to_nat column) = Some v) /\
  (width <= column ->
   array2_compute checked array width (Some offset) column t = Err (OutOfBounds column width 1)).
Proof.
  intros A c l w o s t Hne Hl Ht Ho Hw. split; intros Hs.
  - apply array2_offset; assumption.
  - apply array2_bad_column; assumption.
Qed.
Print Assumptions C45_two_dimensions.

(** In a run over a subset of the scenarios, the parameter reads, from the full
    table the user supplied, the column of the scenario's own member. *)
Theorem C45_scenario_column : forall (A : Type) gs d s k g (rows : list (list A)),
  gs <> [] -> Forall built gs -> Forall subset_in_range gs ->
  build_domain (DomainBuilder gs None) = Ok d -> In s (dom_indices d) -> nth_error gs k = Some g ->
  rows <> [] -> Z.of_nat (length rows) < 2 ^ 31 -> Forall (fun r => length r = g_size g) rows ->
  exists kept column member,
    array2_build d k rows = Ok kept /\ simulation_index_for_group s k = Ok column /\
    nth_error (members s) k = Some member /\
    forall checked t offset width, fits_i32 t -> fits_i32 (t + offset) ->
      Forall (fun r => Z.of_nat (length r) = width) kept ->
      exists row v, nearest_entry rows (t + offset) row /\ nth_error row member = Some v /\
        array2_compute checked kept width (Some offset) (Z.of_nat column) t = Ok v.
Proof.
  intros A gs d s k g rows Hne Hb Hr Hd Hs Hk Hrows Hlen Hw.
  pose proof (full_aligned gs d Hne Hb Hr Hd) as Ha. rewrite Forall_forall in Hw.
  assert (Hm : exists i, nth_error (members s) k = Some i).
  { destruct rows as [|r0 rest]; [congruence|].
    destruct (aligned_lookup d gs s k g r0 Ha Hs Hk (Hw r0 (or_introl eq_refl))) as (i & v & Hi & _). eauto. }
  destruct Hm as [i Hi].
  assert (Hrow : forall row, In row rows -> exists v, nth_error row i = Some v /\ array_lookup d k row s = Ok v).
  { intros row Hin. destruct (aligned_lookup d gs s k g row Ha Hs Hk (Hw row Hin)) as (i' & v & Hi' & Hv & Hl & _).
    assert (i' = i) by congruence. subst. eauto. }
  destruct (array2_scenario d k s i rows Hrow Hrows Hlen) as (kept & m & H1 & H2 & H3).
  exists kept, m, i. repeat (split; [assumption|]). exact H3.
Qed.
Print Assumptions C45_scenario_column.

(** The clamping fails when [t + offset] does not fit in 32 bits: the program
    either panics or, compiled without overflow checks, reads the first entry
    although the last one is the nearest. *)
Theorem C45_huge_offset_refuted : exists (array : list nat) offset t,
  fits_i32 t /\ fits_i32 offset /\ nearest_entry array (t + offset) 2%nat /\
  array1_compute true array (Some offset) t = Panic /\
  array1_compute false array (Some offset) t = Ok 1%nat.
Proof.
  exists [1%nat; 2%nat], 2147483647, 1.
  split; [unfold fits_i32; lia|]. split; [unfold fits_i32; lia|]. split.
  - right; right. split; [cbn; lia | reflexivity].
  - split; vm_compute; reflexivity.
Qed.
Print Assumptions C45_huge_offset_refuted.

Example C45_example :
  map (array1_compute true [10; 20; 30] (Some (-1))) [0; 1; 2; 3; 4; 5] = [Ok 10; Ok 10; Ok 20; Ok 30; Ok 30; Ok 30] /\
  map (array1_compute true [10; 20; 30] (Some 2)) [0; 1; 2] = [Ok 30; Ok 30; Ok 30] /\
  map (array1_compute true [10; 20; 30] None) [2; 3] = [Ok 30; Err (OutOfBounds 3 3 0)] /\
  array2_compute false [[1; 2]; [3; 4]] 2 (Some 1) 1 0 = Ok 4 /\
  array2_compute false [[1; 2]; [3; 4]] 2 (Some 1) 2 0 = Err (OutOfBounds 2 2 1) /\
  array1_compute false (@nil Z) (Some 5) 3 = Err (OutOfBounds 18446744073709551615 0 0).
Proof. vm_compute. tauto. Qed.

Definition ex_g : group := Group "g" 4 (Some (Indices [3; 1]%nat)) None.
Example C45_scenario_example :
  Forall built [ex_g] /\ Forall subset_in_range [ex_g] /\
  match build_domain (DomainBuilder [ex_g] None) with
  | Ok d => array2_build d 0 [[0; 1; 2; 3]; [10; 11; 12; 13]] = Ok [[3; 1]; [13; 11]] /\
            map members (dom_indices d) = [[1]; [3]]%nat /\
            map (fun s => simulation_index_for_group s 0) (dom_indices d) = [Ok 1; Ok 0]%nat
  | _ => False
  end.
Proof.
  split.
  - constructor; [|constructor]. exists (GroupBuilder "g" 4 (Some (BIndices [3; 1]%nat)) None). vm_compute. reflexivity.
  - split; [repeat constructor; cbn; lia|]. vm_compute. auto.
Qed.

(** * C47 *)

Local Open Scope Q_scope.

(** Whatever is proposed, the value stored is in the configured range.  [exp] is
    any positive function. *)
Theorem C47_stays_in_range : forall (E : Type) exp f v,
  (forall x, 0 < exp x) -> sensible f ->
  exists r, activation_apply (E := E) exp f v = Ok r /\ in_range f r.
Proof. intros E exp f v He Hs. exact (apply_range exp He f v Hs). Qed.
Print Assumptions C47_stays_in_range.

(** A unit function with its bounds the wrong way round panics on every value. *)
Theorem C47_reversed_bounds_panic : forall (E : Type) exp f v,
  ~ sensible f -> activation_apply (E := E) exp f v = Panic.
Proof. intros E exp f v. exact (apply_insensible exp f v). Qed.
Print Assumptions C47_reversed_bounds_panic.

(** The shapes of the functions. *)
Theorem C47_unit : forall (E : Type) exp lo hi v, lo <= hi ->
  exists r, activation_apply (E := E) exp (AUnit lo hi) v = Ok r /\
    (lo <= v <= hi -> r = v) /\ (v < lo -> r = lo) /\ (hi < v -> r = hi).
Proof. intros E exp. exact (apply_unit exp). Qed.
Print Assumptions C47_unit.

Theorem C47_rectifier : forall (E : Type) exp lo hi neg v,
  exists r, activation_apply (E := E) exp (ARectifier lo hi neg) v = Ok r /\
    (v <= 0 -> r = neg) /\ (0 < v <= 1 -> r == (1 - v) * lo + v * hi) /\ (1 <= v -> r == hi).
Proof. intros E exp. exact (apply_rectifier exp). Qed.
Print Assumptions C47_rectifier.

Theorem C47_binary_step : forall (E : Type) exp pos neg v,
  activation_apply (E := E) exp (ABinaryStep pos neg) v = Ok (if Qlt_le_dec 0 v then pos else neg).
Proof. intros E exp. exact (apply_step exp). Qed.
Print Assumptions C47_binary_step.

Theorem C47_logistic : forall (E : Type) exp g m v,
  exists r, activation_apply (E := E) exp (ALogistic g m) v = Ok r /\
    (-6 <= v <= 6 -> r = m / (1 + exp (- g * v))) /\
    (6 < v -> activation_apply (E := E) exp (ALogistic g m) 6 = Ok r) /\
    (v < -6 -> activation_apply (E := E) exp (ALogistic g m) (-6) = Ok r).
Proof.
  intros E exp g m v. destruct (apply_logistic (E := E) exp g m v) as (r & H1 & H2 & _ & H3 & H4).
  exists r. auto.
Qed.
Print Assumptions C47_logistic.

Theorem C47_logistic_monotone : forall (E : Type) exp g m a b ra rb,
  (forall x, 0 < exp x) -> (forall x y, x <= y -> exp x <= exp y) ->
  0 <= g -> 0 <= m -> a <= b ->
  activation_apply (E := E) exp (ALogistic g m) a = Ok ra ->
  activation_apply (E := E) exp (ALogistic g m) b = Ok rb -> ra <= rb.
Proof. intros E exp g m a b ra rb He Hm. exact (logistic_mono exp He Hm g m a b ra rb). Qed.
Print Assumptions C47_logistic_monotone.

(** Setting a parameter in one scenario: it then reads back the activated value,
    every other scenario is as it was, and so is every other parameter. *)
Theorem C47_one_scenario_only : forall exp params i scenario values f states states',
  set_parameter_variables_for exp params i scenario values f states = (states', Ok tt) ->
  same_but scenario states states' /\
  exists v a ss ss', values = [v] /\ activation_apply (E := variable_error) exp f v = Ok a /\
    nth_error states scenario = Some ss /\ nth_error states' scenario = Some ss' /\ same_but i ss ss' /\
    get_parameter_variables_for params i scenario states' = Ok (Some [a]).
Proof. intros exp. exact (set_for_ok exp). Qed.
Print Assumptions C47_one_scenario_only.

(** Setting it in all scenarios. *)
Theorem C47_all_scenarios : forall exp params i values f states states',
  set_parameter_variables exp params i values f states = (states', Ok tt) ->
  length states = length states' /\
  forall scenario ss, nth_error states scenario = Some ss ->
    exists v a ss', values = [v] /\ activation_apply (E := variable_error) exp f v = Ok a /\
      nth_error states' scenario = Some ss' /\ same_but i ss ss' /\
      get_parameter_variables_for params i scenario states' = Ok (Some [a]).
Proof. intros exp. exact (set_all_ok exp). Qed.
Print Assumptions C47_all_scenarios.

(** A constant parameter accepts every proposal, in every scenario. *)
Theorem C47_constants_can_be_set : forall exp params i c values f states scenario ss v,
  nth_error params i = Some (ConstantP c) -> nth_error states scenario = Some ss ->
  (exists u, nth_error ss i = Some (Some u)) -> values = [v] -> sensible f -> (forall x, 0 < exp x) ->
  exists states', set_parameter_variables_for exp params i scenario values f states = (states', Ok tt).
Proof. intros exp. exact (set_constant_works exp). Qed.
Print Assumptions C47_constants_can_be_set.

(** The wrong number of values is refused and changes nothing. *)
Theorem C47_wrong_number_of_values : forall exp params i scenario values f states states' r,
  length values <> 1%nat ->
  (set_parameter_variables_for exp params i scenario values f states = (states', r) \/
   (states <> [] /\ set_parameter_variables exp params i values f states = (states', r))) ->
  states' = states /\ r <> Ok tt.
Proof. intros exp. exact (set_wrong_count exp). Qed.
Print Assumptions C47_wrong_number_of_values.

(** C47 fails for constant parameters: whatever was set, and however often, the
    value used in the run is the one computed while setting up. *)
Theorem C47_constant_ignores_variables : forall exp value c0 sets c,
  constant_setup value = Ok c0 ->
  fold_left (fun r (s : list Q * activation_function) =>
               rbind r (constant_set exp value (fst s) (snd s))) sets (Ok c0) = Ok c ->
  used c = value.
Proof. intros exp. exact (constant_used exp). Qed.
Print Assumptions C47_constant_ignores_variables.

Theorem C47_constant_out_of_range_refuted : exists exp value f v c0 c,
  sensible f /\ constant_setup value = Ok c0 /\ constant_set exp value [v] f c0 = Ok c /\
  get_variables (ConstantP value) (stored c) = Ok (Some [v]) /\ ~ in_range f (used c) /\ used c <> v.
Proof.
  exists (fun _ => 1), 50, (AUnit 0 10), 5, (ConstantLife 50 (Some None)), (ConstantLife 50 (Some (Some 5))).
  split; [cbn; lra|]. split; [reflexivity|]. split; [vm_compute; reflexivity|]. split; [reflexivity|].
  split; [cbn; lra | discriminate].
Qed.
Print Assumptions C47_constant_out_of_range_refuted.

(** C47 fails for offset parameters: they have no internal state, so both setting
    them and computing them panics. *)
Theorem C47_offset_panics_refuted : forall exp offset f v x,
  set_variables exp (OffsetP offset) [v] f (variable_setup (OffsetP offset)) = Panic /\
  offset_before offset x (variable_setup (OffsetP offset)) = Panic.
Proof. intros. split; reflexivity. Qed.
Print Assumptions C47_offset_panics_refuted.

(** A constant and an offset use the value their state was set to, and their own
    if it was not. *)
Theorem C47_value_used : forall own v,
  (forall x, get_variables (OffsetP own) (Some (Some v)) = Ok (Some [v]) /\ offset_before own x (Some (Some v)) = Ok (x + v)%Q /\
     get_variables (OffsetP own) (Some None) = Ok None /\ offset_before own x (Some None) = Ok (x + own)%Q) /\
  get_variables (ConstantP own) (Some (Some v)) = Ok (Some [v]) /\ constant_compute own (Some (Some v)) = Ok v /\
  get_variables (ConstantP own) (Some None) = Ok None /\ constant_compute own (Some None) = Ok own.
Proof. intros. repeat split. Qed.
Print Assumptions C47_value_used.

Example C47_example :
  let exp := fun x => if Qle_bool x 0 then 1 # 2 else 2 in
  activation_apply (E := variable_error) exp (AUnit 0 10) 12 = Ok 10 /\
  activation_apply (E := variable_error) exp (ARectifier 2 10 (-1)) (-(1 # 2)) = Ok (-1) /\
  activation_apply (E := variable_error) exp (ABinaryStep 7 3) (1 # 10) = Ok 7 /\
  set_parameter_variables_for exp [NotVariable; ConstantP 3] 1 1 [12] (AUnit 0 10) [[None; Some None]; [None; Some None]]
    = ([[None; Some None]; [None; Some (Some 10)]], Ok tt) /\
  set_parameter_variables exp [NotVariable; ConstantP 3] 1 [12] (AUnit 0 10) [[None; Some None]; [None; Some None]]
    = ([[None; Some (Some 10)]; [None; Some (Some 10)]], Ok tt) /\
  (forall x, 0 < exp x) /\ (forall x y, x <= y -> exp x <= exp y).
Proof.
  cbv zeta. repeat (split; [vm_compute; reflexivity|]). split.
  - intros x. destruct (Qle_bool x 0); lra.
  - intros x y H. qle x 0; qle y 0; lra.
Qed.
