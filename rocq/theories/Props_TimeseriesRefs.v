(** C61: a reference to a time series gives the data it names. *)
From Coq Require Import QArith Qround Permutation.
From Verif Require Import Base Calendar Timestep Lookups Timeseries TimeseriesSpec TimeseriesLemmas Props_Timeseries.
Local Open Scope string_scope.
Local Open Scope list_scope.
Local Open Scope nat_scope.

(** The data sets of a file are kept under their names. *)
Theorem C61_data_sets : forall steps defs ts, load_timeseries steps defs [] = Ok ts ->
  NoDup (map fst defs) /\
  (forall name f, In (name, f) defs -> exists f', align_and_resample steps f = Ok f' /\ find_frame ts name = Ok f') /\
  (forall name, ~ In name (map fst defs) -> find_frame ts name = Err TimeseriesNotFound).
Proof.
  assert (G : forall steps defs acc ts, load_timeseries steps defs acc = Ok ts -> NoDup (map fst acc) ->
    NoDup (map fst defs) /\ (forall n, In n (map fst defs) -> ~ In n (map fst acc)) /\
    (forall name f, In (name, f) defs -> exists f', align_and_resample steps f = Ok f' /\ find_frame ts name = Ok f') /\
    (forall name, ~ In name (map fst defs) -> find_frame ts name = find_frame acc name)).
  { intros steps. induction defs as [|[name f] ds IH]; intros acc ts H Hnd; cbn [load_timeseries] in H.
    - injection H as <-. split; [constructor|]. split; [intros n []|]. split; [intros n f []|reflexivity].
    - destruct (align_and_resample steps f) as [f'| |] eqn:Ea; try discriminate. destruct (existsb _ acc) eqn:Ex; [discriminate|].
      assert (Hn : ~ In name (map fst acc)).
      { intros Hin. apply in_map_iff in Hin. destruct Hin as (p & Ep & Hp).
        assert (existsb (fun p => String.eqb (fst p) name) acc = true) by (apply existsb_exists; exists p; split; [exact Hp | apply String.eqb_eq, Ep]). congruence. }
      apply IH in H; [|cbn [map fst]; constructor; assumption]. destruct H as (H1 & H2 & H3 & H4).
      assert (Hnds : ~ In name (map fst ds)) by (intros Hin; apply (H2 name Hin); left; reflexivity). cbn [map fst].
      split; [constructor; assumption|]. split; [intros n [<-|Hin]; [exact Hn|]; intros Hc; apply (H2 n Hin); right; exact Hc|]. split.
      + intros n g [E|Hin]; [|apply H3, Hin]. injection E as <- <-. exists f'. split; [exact Ea|]. rewrite (H4 name Hnds). unfold find_frame. cbn [find fst]. rewrite String.eqb_refl. reflexivity.
      + intros n Hn'. rewrite (H4 n); [|intros Hc; apply Hn'; right; exact Hc]. unfold find_frame. cbn [find fst]. destruct (String.eqb name n) eqn:E; [|reflexivity].
        apply String.eqb_eq in E. exfalso. apply Hn'. left. exact E. }
  intros steps defs ts H. destruct (G _ _ _ _ H (NoDup_nil _)) as (H1 & _ & H3 & H4). split; [exact H1|]. split; [exact H3|]. intros n Hn. rewrite (H4 n Hn). reflexivity.
Qed.
Print Assumptions C61_data_sets.

(** What a reference asks for, whatever other references there are: the column
    with the name, or the only one; or all columns, one for each scenario of a
    group. *)
Definition single_column (f : frame) (c : string) (j : nat) : Prop :=
  nth_error (fr_columns f) j = Some c /\ forall j', j' < j -> nth_error (fr_columns f) j' <> Some c.
Definition as_wanted (w : wanted) (o : option Q) (v : Q) : Prop :=
  match w with
  | AsValue => o = Some v
  | AsIndex => exists q z, o = Some q /\ v = inject_Z z /\ (0 <= z)%Z /\ ((0 <= q)%Q -> z = Qfloor q) /\ ((q < 0)%Q -> z = 0%Z)
  end.
Definition asks_column (ts : list (string * frame)) (r : ts_reference) (c : string) : Prop :=
  tsr_columns r = Some (ByColumn c) \/
  tsr_columns r = None /\ exists f, find_frame ts (tsr_name r) = Ok f /\ fr_columns f = [c].

(** References that would create parameters with the same name. *)
Definition label (ts : list (string * frame)) (r : ts_reference) (l : string) : Prop :=
  asks_column ts r l \/ tsr_columns r = Some (ByScenario l).
Definition by_scenario (r : ts_reference) : bool := match tsr_columns r with Some (ByScenario _) => true | _ => false end.
Definition compatible (ts : list (string * frame)) (rs : list ts_reference) (r : ts_reference) : Prop :=
  forall r' l, In r' rs -> tsr_name r' = tsr_name r -> label ts r l -> label ts r' l -> tsr_as r' = tsr_as r /\ by_scenario r' = by_scenario r.

Lemma column_position_spec c l : match column_position c l with
  | Some j => nth_error l j = Some c /\ forall j', j' < j -> nth_error l j' <> Some c
  | None => ~ In c l end.
Proof.
  induction l as [|x l IH]; cbn [column_position]; [intros []|]. destruct (String.eqb x c) eqn:E.
  - apply String.eqb_eq in E. subst. split; [reflexivity | intros; lia].
  - apply String.eqb_neq in E. destruct (column_position c l) as [j|]; cbn [option_map].
    + destruct IH as (H1 & H2). split; [exact H1|]. intros [|j'] Hj; cbn [nth_error]; [congruence | apply H2; lia].
    + intros [Hx|Hx]; [congruence | exact (IH Hx)].
Qed.

Definition made (ts : list (string * frame)) (r : ts_reference) (p : ts_param) : Prop :=
  load_reference ts [] r = Ok ([p], (tp_name p, tp_parent p)).
Lemma load_reference_made ts params r params' n : load_reference ts params r = Ok (params', n) ->
  exists p, made ts r p /\ n = (tp_name p, tp_parent p) /\ params' = if has_param params (tp_name p) (tp_parent p) then params else params ++ [p].
Proof.
  unfold made, load_reference, load_df, load_column, load_single_column. destruct (tsr_columns r) as [[s|c]|].
  - destruct (find_frame ts (tsr_name r)) as [f| |]; try discriminate. cbn [rbind]. destruct (frame_array (tsr_as r) f) as [a| |]; try discriminate. cbn [rbind]. unfold add_unless.
    intros H. injection H as <- <-. exists (mkTsParam s (tsr_name r) (tsr_as r) (Array2 a s)). auto.
  - destruct (find_frame ts (tsr_name r)) as [f| |]; try discriminate. cbn [rbind]. destruct (column_array (tsr_as r) f c) as [a| |]; try discriminate. cbn [rbind]. unfold add_unless.
    intros H. injection H as <- <-. exists (mkTsParam c (tsr_name r) (tsr_as r) (Array1 a)). auto.
  - destruct (find_frame ts (tsr_name r)) as [f| |]; try discriminate. cbn [rbind]. destruct (fr_columns f) as [|c [|]]; try discriminate.
    destruct (column_array (tsr_as r) f c) as [a| |]; try discriminate. cbn [rbind]. unfold add_unless.
    intros H. injection H as <- <-. exists (mkTsParam c (tsr_name r) (tsr_as r) (Array1 a)). auto.
Qed.
Lemma has_param_spec params n m : has_param params n m = true <-> exists p, In p params /\ tp_name p = n /\ tp_parent p = m.
Proof.
  unfold has_param. rewrite existsb_exists. split; intros (p & Hp & E); exists p; (split; [exact Hp|]).
  - apply andb_true_iff in E. rewrite !String.eqb_eq in E. exact E.
  - rewrite andb_true_iff, !String.eqb_eq. exact E.
Qed.
Lemma references_spec ts : forall rs params params' names, load_references ts params rs = Ok (params', names) ->
  (forall p, In p params' -> In p params \/ exists r, In r rs /\ made ts r p) /\
  (forall p, In p params -> In p params') /\
  Forall2 (fun r n => exists p, made ts r p /\ n = (tp_name p, tp_parent p) /\ has_param params' (fst n) (snd n) = true) rs names.
Proof.
  induction rs as [|r rs IH]; intros params params' names H; cbn [load_references] in H.
  - injection H as <- <-. repeat split; auto.
  - destruct (load_reference ts params r) as [[p1 n]| |] eqn:E; try discriminate. cbn [rbind fst snd] in H.
    destruct (load_references ts p1 rs) as [[p2 ns]| |] eqn:E2; try discriminate. cbn [rbind fst snd] in H. injection H as <- <-.
    destruct (load_reference_made _ _ _ _ _ E) as (p & Hm & En & Ep). destruct (IH _ _ _ E2) as (I1 & I2 & I3).
    assert (Hp1 : forall x, In x p1 -> In x params \/ x = p).
    { intros x Hx. rewrite Ep in Hx. destruct (has_param _ _ _); [left; exact Hx|]. apply in_app_or in Hx. destruct Hx as [Hx|[<-|[]]]; auto. }
    assert (Hp2 : forall x, In x params -> In x p1).
    { intros x Hx. rewrite Ep. destruct (has_param _ _ _); [exact Hx | apply in_or_app; left; exact Hx]. }
    split; [|split].
    + intros x Hx. destruct (I1 x Hx) as [Hx1|(r' & Hr & Hm')]; [|right; exists r'; split; [right; exact Hr | exact Hm']].
      destruct (Hp1 x Hx1) as [Hx2| ->]; [left; exact Hx2 | right; exists r; split; [left; reflexivity | exact Hm]].
    + intros x Hx. apply I2, Hp2, Hx.
    + constructor; [|exact I3]. exists p. split; [exact Hm|]. split; [exact En|]. rewrite En. cbn [fst snd]. apply has_param_spec.
      destruct (has_param params (tp_name p) (tp_parent p)) eqn:Eh.
      * apply has_param_spec in Eh. destruct Eh as (x & Hx & Ex). exists x. split; [apply I2, Hp2, Hx | exact Ex].
      * exists p. split; [apply I2; rewrite Ep; apply in_or_app; right; left; reflexivity | auto].
Qed.

Lemma made_label ts r p : made ts r p -> tp_parent p = tsr_name r /\ label ts r (tp_name p) /\ tp_as p = tsr_as r.
Proof.
  unfold made, load_reference, load_df, load_column, load_single_column, label, asks_column. destruct (tsr_columns r) as [[s|c]|].
  - destruct (find_frame ts (tsr_name r)) as [f| |]; try discriminate. cbn [rbind]. destruct (frame_array (tsr_as r) f) as [a| |]; try discriminate. cbn [rbind add_unless has_param existsb app].
    intros H. injection H as <-. cbn. auto.
  - destruct (find_frame ts (tsr_name r)) as [f| |]; try discriminate. cbn [rbind]. destruct (column_array (tsr_as r) f c) as [a| |]; try discriminate. cbn [rbind add_unless has_param existsb app].
    intros H. injection H as <-. cbn. auto.
  - destruct (find_frame ts (tsr_name r)) as [f| |] eqn:Ef; try discriminate. cbn [rbind]. destruct (fr_columns f) as [|c [|]] eqn:Ec; try discriminate.
    destruct (column_array (tsr_as r) f c) as [a| |]; try discriminate. cbn [rbind add_unless has_param existsb app].
    intros H. injection H as <-. cbn. split; [reflexivity|]. split; [|reflexivity]. left. right. split; [reflexivity|]. exists f. auto.
Qed.
(** Two references with the same key, use and kind create the same parameter. *)
Lemma made_same ts r r' p p' : made ts r p -> made ts r' p' -> tp_name p = tp_name p' -> tp_parent p = tp_parent p' -> tsr_as r = tsr_as r' -> by_scenario r = by_scenario r' -> p = p'.
Proof.
  unfold made, load_reference, load_df, load_column, load_single_column, by_scenario. intros H H' En Ep Ew Eb. rewrite <- Ew in H'.
  destruct (find_frame ts (tsr_name r)) as [f| |] eqn:Ef; try (destruct (tsr_columns r) as [[?|?]|]; discriminate).
  destruct (find_frame ts (tsr_name r')) as [f'| |] eqn:Ef'; try (destruct (tsr_columns r') as [[?|?]|]; discriminate). cbn [rbind] in H, H'.
  assert (Hcol : forall c c', rbind (column_array (tsr_as r) f c) (fun a => Ok (add_unless [] c (tsr_name r) (tsr_as r) (Array1 a))) = Ok ([p], (tp_name p, tp_parent p)) ->
    rbind (column_array (tsr_as r) f' c') (fun a => Ok (add_unless [] c' (tsr_name r') (tsr_as r) (Array1 a))) = Ok ([p'], (tp_name p', tp_parent p')) -> p = p').
  { intros c c' Hc Hc'. destruct (column_array _ f c) as [a| |] eqn:Ea; try discriminate. destruct (column_array _ f' c') as [a'| |] eqn:Ea'; try discriminate.
    cbn [rbind add_unless has_param existsb app] in Hc, Hc'. injection Hc as <-. injection Hc' as <-. cbn [tp_name tp_parent] in *. subst c'. rewrite <- Ep in *. rewrite Ef in Ef'. injection Ef' as <-. congruence. }
  destruct (tsr_columns r) as [[s|c]|], (tsr_columns r') as [[s'|c']|]; try discriminate.
  - destruct (frame_array _ f) as [a| |] eqn:Ea; try discriminate. destruct (frame_array _ f') as [a'| |] eqn:Ea'; try discriminate.
    cbn [rbind add_unless has_param existsb app] in H, H'. injection H as <-. injection H' as <-. cbn [tp_name tp_parent] in *. subst s'. rewrite <- Ep in *. rewrite Ef in Ef'. injection Ef' as <-. congruence.
  - exact (Hcol c c' H H').
  - destruct (fr_columns f') as [|c' [|]]; try discriminate. exact (Hcol c c' H H').
  - destruct (fr_columns f) as [|c [|]]; try discriminate. exact (Hcol c c' H H').
  - destruct (fr_columns f) as [|c [|]]; try discriminate. destruct (fr_columns f') as [|c' [|]]; try discriminate. exact (Hcol c c' H H').
Qed.

Lemma f2_at {A B} (P : A -> B -> Prop) l l' : Forall2 P l l' -> forall i x, nth_error l i = Some x -> exists y, nth_error l' i = Some y /\ P x y.
Proof. induction 1 as [|a b l l' Hab H IH]; intros [|i] x Hx; try discriminate; [injection Hx as <-; exists b; split; [reflexivity | exact Hab] | apply IH, Hx]. Qed.
Lemma reference_param ts rs params names i r n : load_references ts [] rs = Ok (params, names) -> nth_error rs i = Some r -> nth_error names i = Some n -> compatible ts rs r ->
  exists p, find_param params n = Some p /\ made ts r p.
Proof.
  intros H Hr Hn Hc. destruct (references_spec _ _ _ _ _ H) as (G1 & _ & G3). destruct (f2_at _ _ _ G3 i r Hr) as (n' & En' & p & Hm & -> & Hh).
  rewrite Hn in En'. injection En' as ->. cbn [fst snd] in Hh. unfold find_param. cbn [fst snd].
  destruct (find _ params) as [p0|] eqn:Ef.
  - exists p0. split; [reflexivity|]. apply find_some in Ef. destruct Ef as (Hp0 & E). apply andb_true_iff in E. rewrite !String.eqb_eq in E. destruct E as (E1 & E2).
    destruct (G1 p0 Hp0) as [[]|(r0 & Hr0 & Hm0)]. destruct (made_label _ _ _ Hm) as (L1 & L2 & _). destruct (made_label _ _ _ Hm0) as (M1 & M2 & _).
    destruct (Hc r0 (tp_name p) Hr0 ltac:(congruence) L2 ltac:(rewrite <- E1; exact M2)) as (C1 & C2).
    rewrite <- (made_same ts r r0 p p0 Hm Hm0); [exact Hm | congruence | congruence | congruence | congruence].
  - apply has_param_spec in Hh. destruct Hh as (x & Hx & X1 & X2). apply find_none with (x := x) in Ef; [|exact Hx]. rewrite X1, X2, !String.eqb_refl in Ef. discriminate.
Qed.

(** A reference to a column gives at each time-step the value of that column in
    the row of that time-step (as an index without the part behind the point),
    provided that no reference uses a scenario group with the name of the
    column, or the same column both as value and as index. *)
Theorem C61_column_partial : forall ts rs params names i r n c checked,
  load_references ts [] rs = Ok (params, names) -> nth_error rs i = Some r -> nth_error names i = Some n ->
  asks_column ts r c -> compatible ts rs r ->
  exists f j values, find_frame ts (tsr_name r) = Ok f /\ single_column f c j /\
    find_param params n = Some (mkTsParam c (tsr_name r) (tsr_as r) (Array1 values)) /\ length values = length (fr_rows f) /\
    forall k row, nth_error (fr_rows f) k = Some row -> exists v,
      array1_compute checked values None (Z.of_nat k) = Ok v /\ as_wanted (tsr_as r) (nth j (snd row) None) v.
Proof.
  intros ts rs params names i r n c checked H Hr Hn Ha Hc. destruct (reference_param _ _ _ _ _ _ _ H Hr Hn Hc) as (p & Hp & Hm).
  assert (G : exists f values, find_frame ts (tsr_name r) = Ok f /\ column_array (tsr_as r) f c = Ok values /\ p = mkTsParam c (tsr_name r) (tsr_as r) (Array1 values)).
  { unfold made, load_reference, load_column, load_single_column in Hm. destruct Ha as [Ha|(Ha & f & Ef & Ec)]; rewrite Ha in Hm.
    - destruct (find_frame ts (tsr_name r)) as [f| |]; try discriminate. cbn [rbind] in Hm. destruct (column_array _ f c) as [a| |] eqn:Ea; try discriminate.
      cbn [rbind add_unless has_param existsb app] in Hm. injection Hm as <-. eauto 6.
    - rewrite Ef in Hm. cbn [rbind] in Hm. rewrite Ec in Hm. destruct (column_array _ f c) as [a| |] eqn:Ea; try discriminate.
      cbn [rbind add_unless has_param existsb app] in Hm. injection Hm as <-. eauto 6. }
  destruct G as (f & values & Ef & Ea & ->). unfold column_array in Ea. pose proof (column_position_spec c (fr_columns f)) as Hcp.
  destruct (column_position c (fr_columns f)) as [j|]; [|discriminate]. exists f, j, values. split; [exact Ef|]. split; [exact Hcp|]. split; [exact Hp|].
  apply rmap_Ok_Forall2 in Ea. assert (El : length values = length (fr_rows f)) by (symmetry; apply (Forall2_length' _ _ _ Ea)). split; [exact El|]. intros k row Hk.
  destruct (f2_at _ _ _ Ea k row Hk) as (v & Ev & Hv). exists v. split.
  - unfold array1_compute, timestep_index. cbn [rbind]. unfold get_row.
    assert (Hkl : k < length values) by (apply nth_error_Some; congruence). rewrite (proj2 (Z.ltb_lt _ _)) by lia. rewrite Nat2Z.id, Ev. reflexivity.
  - destruct (cast_opt (tsr_as r) (nth j (snd row) None)) as [q|] eqn:Eq; [|discriminate]. injection Hv as ->. unfold cast_opt, cast_cell in Eq. unfold as_wanted.
    destruct (nth j (snd row) None) as [q|]; [|discriminate]. destruct (tsr_as r); [exact Eq|]. destruct ((0 <=? truncated q)%Z && _) eqn:E; [|discriminate].
    injection Eq as <-. exists q, (truncated q). split; [reflexivity|]. split; [reflexivity|]. apply andb_prop in E. destruct E as (E & _). apply Z.leb_le in E. split; [exact E|].
    destruct q as [a b]. unfold truncated, Qfloor, Qle, Qlt in *. cbn [Qnum Qden] in *. rewrite Z.mul_1_r, ?Z.mul_0_l in *. split; intros Hneg.
    + apply Z.quot_div_nonneg; lia.
    + pose proof (Z.quot_opp_l a (Z.pos b) ltac:(lia)) as Hq. pose proof (Z.quot_pos (- a) (Z.pos b) ltac:(lia) ltac:(lia)). lia.
Qed.
Print Assumptions C61_column_partial.

(** A reference by scenario gives the whole table, for the scenario group; its
    columns are for the scenarios of the group (C45). *)
Theorem C61_scenario_partial : forall ts rs params names i r n s,
  load_references ts [] rs = Ok (params, names) -> nth_error rs i = Some r -> nth_error names i = Some n ->
  tsr_columns r = Some (ByScenario s) -> tsr_as r = AsValue -> compatible ts rs r ->
  exists f, find_frame ts (tsr_name r) = Ok f /\ find_param params n = Some (mkTsParam s (tsr_name r) AsValue (Array2 (map snd (fr_rows f)) s)).
Proof.
  intros ts rs params names i r n s H Hr Hn Hs Hw Hc. destruct (reference_param _ _ _ _ _ _ _ H Hr Hn Hc) as (p & Hp & Hm).
  unfold made, load_reference, load_df in Hm. rewrite Hs, Hw in Hm. destruct (find_frame ts (tsr_name r)) as [f| |]; try discriminate. cbn [rbind] in Hm.
  exists f. split; [reflexivity|]. unfold frame_array in Hm.
  assert (E : rmap (fun r0 : ts_row => @Ok ts_error _ (snd r0)) (fr_rows f) = Ok (map snd (fr_rows f))).
  { generalize (fr_rows f). induction l as [|x l IH]; [reflexivity|]. cbn [rmap map]. rewrite IH. reflexivity. }
  rewrite E in Hm. cbn [rbind add_unless has_param existsb app] in Hm. injection Hm as <-. exact Hp.
Qed.
Print Assumptions C61_scenario_partial.

(** From the file to a time-step: a column of a series that is as long as the
    time-steps gives the value with the date of the time-step. *)
Theorem C61_value_at_date : forall fuel start stop k steps defs ts rs params names i r n c f checked,
  build_time fuel start stop k = Ok steps -> fixed_kind k -> whole_second start ->
  load_timeseries steps defs [] = Ok ts -> In (tsr_name r, f) defs -> whole_rows f -> evenly (ms_of start) (step_ms k) (fr_rows f) ->
  load_references ts [] rs = Ok (params, names) -> nth_error rs i = Some r -> nth_error names i = Some n ->
  tsr_columns r = Some (ByColumn c) -> tsr_as r = AsValue -> compatible ts rs r ->
  exists j values, single_column f c j /\ find_param params n = Some (mkTsParam c (tsr_name r) AsValue (Array1 values)) /\
    forall m t, nth_error steps m = Some t -> exists v row,
      array1_compute checked values None (Z.of_nat m) = Ok v /\
      In row (fr_rows f) /\ fst row = ms_of (ts_date t) /\ nth_error (snd row) j = Some (Some v).
Proof.
  intros fuel start stop k steps defs ts rs params names i r n c f checked Hb Hk Hs Hl Hin Hw He Hrs Hr Hn Hc Hv Hcomp.
  destruct (C61_data_sets _ _ _ Hl) as (_ & Hsets & _). destruct (Hsets _ _ Hin) as (f' & Ha & Ef).
  destruct (C61_column_partial _ _ _ _ _ _ _ c checked Hrs Hr Hn (or_introl Hc) Hcomp) as (f0 & j & values & Ef0 & Hj & Hp & Hlen & Hval).
  rewrite Ef in Ef0. injection Ef0 as <-. rewrite Hv in *.
  destruct (C60_aligned_partial _ _ _ _ _ _ _ Hb Hk Hs Hw Ha) as (Ecol & Elen & spacing & Hsp0 & Hsp & Hcells).
  destruct (fixed_steps _ _ _ _ _ Hb Hk Hs) as (HD & _).
  assert (E : spacing = step_ms k).
  { destruct He as (t0 & n0 & P0), Hsp as (t1 & n1 & P1).
    assert (Hlen2 : 2 <= n1).
    { unfold align_and_resample in Ha. destruct steps as [|first rest]; [discriminate|]. destruct (durations (slice_start (date_ms first) (sort_rows (fr_rows f)))) as [|d [|]] eqn:Ed; try discriminate.
      destruct (durations_arith _ _ Ed) as (x & y & l' & El & _). destruct (fixed_steps _ _ _ _ _ Hb Hk Hs) as (_ & _ & Hst). destruct (Hst 0 first eq_refl) as (_ & Hd & _).
      rewrite Z.mul_0_l, Z.add_0_r in Hd. rewrite Hd in El. apply Permutation_length in P1. rewrite !map_length, seq_length in P1. rewrite <- P1.
      rewrite (Permutation_length (rows_perm f (ms_of start))), El. cbn [length]. lia. }
    pose proof (Permutation_trans (Permutation_sym P0) P1) as P. pose proof (Permutation_length P) as Pl. rewrite !map_length, !seq_length in Pl. subst n1.
    assert (Eq := sorted_perm_eq _ _ (arith_sorted t0 (step_ms k) n0 ltac:(lia) 0) (arith_sorted t1 spacing n0 Hsp0 0) P).
    destruct n0 as [|[|n0]]; try lia. cbn [seq map] in Eq. apply (f_equal (fun l => (nth 0 l 0%Z, nth 1 l 0%Z))) in Eq. cbn [nth] in Eq. injection Eq as E1 E2. clear - E1 E2. destruct spacing, (step_ms k); lia. }
  exists j, values. split; [unfold single_column in *; rewrite Ecol in Hj; exact Hj|]. split; [exact Hp|].
  intros m t Hm. destruct (Hcells m t Hm) as (cells & Ecells & El & Heq & _). destruct (Heq E) as (row & Hrow & Ht & Esnd).
  destruct (Hval m _ Ecells) as (v & Hcomp' & Hw'). cbn [as_wanted snd] in Hw'. exists v, row. split; [exact Hcomp'|]. split; [exact Hrow|]. split; [exact Ht|]. rewrite Esnd.
  rewrite <- Hw'. apply nth_error_nth'. rewrite El, <- Ecol. apply nth_error_Some. destruct Hj as (Hj & _). congruence.
Qed.
Print Assumptions C61_value_at_date.

(** Without the proviso: a reference to a column and one to a scenario group
    with the same name share the first one's data. *)
Definition ex_frame : frame := mkFrame ["low"; "high"] [(0%Z, [Some (1 # 2)%Q; Some 3%Q]); (1%Z, [Some (5 # 2)%Q; Some 4%Q])].
Theorem C61_column_named_like_group_refuted : exists ts rs params names r n f,
  load_references ts [] rs = Ok (params, names) /\ nth_error rs 1 = Some r /\ nth_error names 1 = Some n /\ tsr_columns r = Some (ByScenario "low") /\
  find_frame ts (tsr_name r) = Ok f /\ length (fr_columns f) = 2 /\
  find_param params n = Some (mkTsParam "low" (tsr_name r) AsValue (Array1 [1 # 2; 5 # 2]%Q)).
Proof.
  exists [("data", ex_frame)], [mkTsRef "data" (Some (ByColumn "low")) AsValue; mkTsRef "data" (Some (ByScenario "low")) AsValue].
  eexists _, _, _, _, _. repeat split; reflexivity.
Qed.
Print Assumptions C61_column_named_like_group_refuted.
(** A column used as an index first and then as a value has lost the part behind
    the point. *)
Theorem C61_index_then_value_refuted : exists ts rs params names r n f v,
  load_references ts [] rs = Ok (params, names) /\ nth_error rs 1 = Some r /\ nth_error names 1 = Some n /\
  tsr_columns r = Some (ByColumn "low") /\ tsr_as r = AsValue /\ find_frame ts (tsr_name r) = Ok f /\
  find_param params n = Some (mkTsParam "low" (tsr_name r) AsIndex (Array1 [v; 2%Q])) /\
  option_map snd (nth_error (fr_rows f) 0) = Some [Some (1 # 2)%Q; Some 3%Q] /\ (v == 0)%Q.
Proof.
  exists [("data", ex_frame)], [mkTsRef "data" (Some (ByColumn "low")) AsIndex; mkTsRef "data" (Some (ByColumn "low")) AsValue].
  eexists _, _, _, _, _, _. repeat split; reflexivity.
Qed.
Print Assumptions C61_index_then_value_refuted.

Definition ex_refs : list ts_reference := [mkTsRef "data" (Some (ByColumn "high")) AsValue; mkTsRef "data" (Some (ByScenario "climate")) AsValue; mkTsRef "data" (Some (ByColumn "low")) AsIndex; mkTsRef "data" (Some (ByColumn "high")) AsValue].
Example C61_example : match load_references [("data", ex_frame)] [] ex_refs with
  | Ok (params, names) =>
      names = [("high", "data"); ("climate", "data"); ("low", "data"); ("high", "data")] /\ length params = 3 /\
      find_param params ("high", "data") = Some (mkTsParam "high" "data" AsValue (Array1 [3; 4]%Q)) /\
      find_param params ("low", "data") = Some (mkTsParam "low" "data" AsIndex (Array1 [0; 2]%Q))
  | _ => False end /\ forall r, In r ex_refs -> compatible [("data", ex_frame)] ex_refs r.
Proof.
  split; [vm_compute; repeat split; reflexivity|]. intros r Hr r' l Hr' _ Hl Hl'. unfold label, asks_column in Hl, Hl'.
  cbn in Hr, Hr'. repeat destruct Hr as [<-|Hr]; try contradiction; repeat destruct Hr' as [<-|Hr']; try contradiction; cbn in *;
    (split; [try reflexivity | try reflexivity]); destruct Hl as [[Hl|[Hl _]]|Hl], Hl' as [[Hl'|[Hl' _]]|Hl']; congruence.
Qed.
