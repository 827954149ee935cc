(** The wide CSV file. *)
From Coq Require Import QArith Lqa.
From Verif Require Import Base Calendar CalendarLemmas Timestep Network NetworkBuildLemmas AggFuncs Aggregator AggregatorSpec LockstepLemmas Memory MemorySpec MemoryLemmas MemoryRunLemmas MemoryFinalLemmas Outputs OutputsSpec OutputsLemmas.
Open Scope nat_scope.

(** In every save all scenarios show a value for every metric, with one start, or none does. *)
Definition uniform (idx M : nat) (x : list (list metric_set_state)) : Prop :=
  (forall sc, In sc x -> exists st, nth_error sc idx = Some st /\ current_values st = None) \/
  (exists d, forall sc, In sc x -> exists st vs, nth_error sc idx = Some st /\ current_values st = Some vs /\ length vs = M /\ forall v, In v vs -> pv_start v = d).

Lemma Forall2_nth_l {A B} (P : A -> B -> Prop) l m k a : Forall2 P l m -> nth_error l k = Some a -> exists b, nth_error m k = Some b /\ P a b.
Proof.
  intros H. revert k. induction H as [|x y l m Hxy H IH]; intros [|k] E; cbn in E; try discriminate; [injection E as <-; exists y; auto|]. exact (IH k E).
Qed.

Lemma uniform_saves sets ns steps seqs idx ms : aggregates_fine sets ns steps -> nth_error sets idx = Some ms -> ms_metrics ms <> [] ->
  Forall (fun x => length x = ns /\ Forall (fun sc => length sc = length sets) x) seqs ->
  (forall s i ms j ys, s < ns -> nth_error sets i = Some ms -> j < length (ms_metrics ms) -> yields ms (history s i j steps) ys ->
      Forall2 (shown_at (length (ms_metrics ms)) s i j) seqs ys) ->
  Forall (uniform idx (length (ms_metrics ms))) seqs.
Proof.
  intros A Hm Ne F R. apply Forall_forall. intros x Hx. rewrite Forall_forall in F. destruct (F x Hx) as [L _]. apply In_nth_error in Hx. destruct Hx as [k Hk].
  assert (Hj0 : 0 < length (ms_metrics ms)) by (destruct (ms_metrics ms); [congruence|cbn; lia]).
  destruct (Nat.eq_dec ns 0) as [Z|Hns]; [left; intros sc Hsc; destruct x; [destruct Hsc|cbn in L; lia]|].
  assert (Y : forall s j, s < ns -> j < length (ms_metrics ms) -> exists ys y, yields ms (history s idx j steps) ys /\ nth_error ys k = Some y /\ shown_at (length (ms_metrics ms)) s idx j x y).
  { intros s j Hs Hj. destruct (yields_ex sets ns steps s idx ms j A Hs Hm Hj) as [ys Hy]. destruct (Forall2_nth_l _ _ _ k x (R s idx ms j ys Hs Hm Hj Hy) Hk) as (y & H1 & H2). exists ys, y. auto. }
  destruct (Y 0 0 ltac:(lia) Hj0) as (ys0 & y0 & Y0 & N0 & _).
  assert (AK : forall s j ys y, yields ms (history s idx j steps) ys -> nth_error ys k = Some y -> option_alike y0 y).
  { intros s j ys y H1 H2. pose proof (yields_alike ms 0 s idx 0 j steps ys0 ys Y0 H1) as G. exact (Forall2_nth_error _ _ _ k y0 y G N0 H2). }
  assert (S0 : forall sc, In sc x -> exists s, s < ns /\ nth_error x s = Some sc).
  { intros sc H. apply In_nth_error in H. destruct H as [s H]. exists s. split; [rewrite <- L; apply nth_error_Some; congruence|exact H]. }
  destruct y0 as [v0|].
  - right. exists (pv_start v0). intros sc Hsc. destruct (S0 sc Hsc) as (s & Hs & Es). destruct (Y s 0 Hs Hj0) as (ys & y & Y1 & N1 & sc' & st & B1 & B2 & B3).
    assert (sc' = sc) by congruence. subst sc'. pose proof (AK s 0 ys y Y1 N1) as G. unfold shows in B3. destruct (current_values st) as [vs|] eqn:Ecv; [|subst y; destruct G].
    exists st, vs. destruct B3 as [B3 _]. repeat split; auto. intros v Hv. apply In_nth_error in Hv. destruct Hv as [j Hj].
    assert (Hj' : j < length (ms_metrics ms)) by (rewrite <- B3; apply nth_error_Some; congruence).
    destruct (Y s j Hs Hj') as (ys2 & y2 & Y2 & N2 & sc2 & st2 & C1 & C2 & C3). assert (sc2 = sc) by congruence. subst sc2. assert (st2 = st) by congruence. subst st2.
    rewrite Ecv in C3. cbn [shows] in C3. destruct C3 as (_ & v2 & C3 & ->). assert (v2 = v) by congruence. subst v2. pose proof (AK s j ys2 _ Y2 N2) as G2. destruct G2 as [G2 _]. symmetry. exact G2.
  - left. intros sc Hsc. destruct (S0 sc Hsc) as (s & Hs & Es). destruct (Y s 0 Hs Hj0) as (ys & y & Y1 & N1 & sc' & st & B1 & B2 & B3).
    assert (sc' = sc) by congruence. subst sc'. exists st. split; [exact B2|]. pose proof (AK s 0 ys y Y1 N1) as G. unfold shows in B3. destruct (current_values st) as [vs|]; [|reflexivity].
    destruct B3 as (_ & v & _ & ->). destruct G.
Qed.

Section Wide.
Variable p : printing.
Variable idx M : nat.
Hypothesis HM : 0 < M.

Definition cells (sc : list metric_set_state) : list string :=
  match nth_error sc idx with
  | Some st => match current_values st with Some vs => map (fun v => print_value p (pv_value v)) vs | None => [] end
  | None => []
  end.
Definition first_start (x : list (list metric_set_state)) : option datetime :=
  match x with
  | [] => None
  | sc :: _ => match nth_error sc idx with
               | Some st => match current_values st with Some (v :: _) => Some (pv_start v) | _ => None end
               | None => None
               end
  end.
Definition line (x : list (list metric_set_state)) : list (list string) :=
  match first_start x with Some d => [print_date p d :: flat_map cells x] | None => [] end.

Lemma wide_row_none : forall x row, (forall sc, In sc x -> exists st, nth_error sc idx = Some st /\ current_values st = None) -> wide_row p idx x row = Ok row.
Proof.
  induction x as [|sc x IH]; intros row H; cbn [wide_row]; [reflexivity|]. destruct (H sc (or_introl eq_refl)) as (st & -> & ->). apply IH. intros sc' H'. apply H. right; exact H'.
Qed.

Lemma wide_row_some d : forall x row, row <> [] ->
  (forall sc, In sc x -> exists st vs, nth_error sc idx = Some st /\ current_values st = Some vs /\ length vs = M /\ forall v, In v vs -> pv_start v = d) ->
  wide_row p idx x row = Ok (row ++ flat_map cells x).
Proof.
  induction x as [|sc x IH]; intros row Hr H; cbn [wide_row flat_map]; [rewrite app_nil_r; reflexivity|].
  destruct (H sc (or_introl eq_refl)) as (st & vs & E1 & E2 & L & _). unfold cells at 1. rewrite E1, E2. destruct row as [|r row]; [congruence|].
  rewrite app_assoc, <- IH; [reflexivity|discriminate|]. intros sc' H'. apply H. right; exact H'.
Qed.

Lemma cells_length x : uniform idx M x -> first_start x <> None -> Forall (fun sc => length (cells sc) = M) x.
Proof.
  intros [U|[d U]] N.
  - exfalso. destruct x as [|sc x]; [apply N; reflexivity|]. destruct (U sc (or_introl eq_refl)) as (st & E1 & E2). apply N. cbn. rewrite E1, E2. reflexivity.
  - apply Forall_forall. intros sc H. destruct (U sc H) as (st & vs & E1 & E2 & L & _). unfold cells. rewrite E1, E2, map_length. exact L.
Qed.

Lemma wide_save_line x file first rest : uniform idx M x -> file = first :: rest -> length first = 1 + M * length x -> wide_save p idx x file = Ok (file ++ line x).
Proof.
  intros U -> Lf. unfold wide_save, line. destruct U as [U|[d U]].
  - rewrite wide_row_none by exact U. cbn [rbind]. assert (E : first_start x = None).
    { destruct x as [|sc x]; [reflexivity|]. destruct (U sc (or_introl eq_refl)) as (st & E1 & E2). cbn. rewrite E1, E2. reflexivity. }
    rewrite E, app_nil_r. reflexivity.
  - destruct x as [|sc x]; [cbn; rewrite app_nil_r; reflexivity|].
    pose proof (cells_length (sc :: x) (or_intror (ex_intro _ d U))) as CL.
    destruct (U sc (or_introl eq_refl)) as (st & vs & E1 & E2 & L & D). cbn [wide_row]. rewrite E1, E2. destruct vs as [|v vs]; [cbn in L; lia|].
    cbn [first_start]. rewrite E1, E2. rewrite (wide_row_some d); [|discriminate|intros sc' H'; apply U; right; exact H']. cbn [rbind].
    assert (E3 : (print_date p (pv_start v) :: map (fun v0 => print_value p (pv_value v0)) (v :: vs)) ++ flat_map cells x = print_date p (pv_start v) :: flat_map cells (sc :: x)).
    { cbn [app flat_map]. unfold cells at 2. rewrite E1, E2. reflexivity. }
    rewrite E3. assert (L2 : length (print_date p (pv_start v) :: flat_map cells (sc :: x)) = 1 + M * length (sc :: x)).
    { cbn [length]. rewrite (flat_map_length_const cells M); [reflexivity|]. apply CL. cbn [first_start]. rewrite E1, E2. discriminate. }
    rewrite L2. replace (1 <? 1 + M * length (sc :: x)) with true by (symmetry; apply Nat.ltb_lt; cbn [length]; nia).
    unfold write_record. rewrite L2, Lf, Nat.eqb_refl. reflexivity.
Qed.

Lemma wide_fold ns : forall seqs first rest, Forall (uniform idx M) seqs -> Forall (fun x => length x = ns) seqs -> length first = 1 + M * ns ->
  fold_saves (wide_save p idx) seqs (first :: rest) = Ok ((first :: rest) ++ flat_map line seqs).
Proof.
  induction seqs as [|x seqs IH]; intros first rest U L Lf; cbn [fold_saves flat_map]; [rewrite app_nil_r; reflexivity|].
  inversion U; inversion L; subst. rewrite (wide_save_line x (first :: rest) first rest); auto. cbn [rbind]. rewrite <- app_comm_cons. rewrite IH; auto.
  rewrite <- !app_comm_cons, <- app_assoc. reflexivity.
Qed.

(** A line shows a metric's value in its column and the start of the value in the first. *)
Lemma line_shown x s j y : uniform idx M x -> shown_at M s idx j x y ->
  map (cell (1 + (M * s + j))) (line x) = map (fun v => print_value p (pv_value v)) (if_any y) /\
  map (cell 0) (line x) = map (fun v => print_date p (pv_start v)) (if_any y) /\
  Forall (fun l => length l = 1 + M * length x) (line x).
Proof.
  intros U (sc & st & Hs & Hi & Sh). pose proof (nth_error_In _ _ Hs) as I. unfold line. pose proof (cells_length x U) as CL. destruct U as [U|[d U]].
  - destruct (U sc I) as (st' & E1 & E2). assert (st' = st) by congruence. subst st'. rewrite E2 in Sh. cbn in Sh. subst y.
    assert (E : first_start x = None).
    { destruct x as [|sc0 x]; [reflexivity|]. destruct (U sc0 (or_introl eq_refl)) as (st0 & E3 & E4). cbn. rewrite E3, E4. reflexivity. }
    rewrite E. repeat split. constructor.
  - destruct (U sc I) as (st' & vs & E1 & E2 & L & D). assert (st' = st) by congruence. subst st'. rewrite E2 in Sh. cbn in Sh. destruct Sh as (_ & v & Hv & ->).
    assert (E : first_start x = Some d).
    { destruct x as [|sc0 x]; [destruct I|]. destruct (U sc0 (or_introl eq_refl)) as (st0 & vs0 & E3 & E4 & E5 & E6). cbn. rewrite E3, E4. destruct vs0 as [|v0 vs0]; [cbn in E5; lia|]. f_equal. apply E6. left; reflexivity. }
    rewrite E in *. assert (Hj : j < M) by (rewrite <- L; apply nth_error_Some; congruence). specialize (CL ltac:(discriminate)). cbn [map if_any]. repeat split.
    + f_equal. unfold cell. cbn [nth plus]. apply nth_error_nth. rewrite (flat_map_block cells M x s sc j CL Hs Hj). unfold cells. rewrite E1, E2, nth_error_map, Hv. reflexivity.
    + f_equal. unfold cell. cbn [nth]. rewrite (D v); [reflexivity|]. eapply nth_error_In; eassumption.
    + constructor; [|constructor]. cbn [length]. rewrite (flat_map_length_const cells M) by exact CL. lia.
Qed.

Lemma lines_shown s j : forall seqs ys, Forall (uniform idx M) seqs -> Forall2 (shown_at M s idx j) seqs ys ->
  map (cell (1 + (M * s + j))) (flat_map line seqs) = map (fun v => print_value p (pv_value v)) (emitted ys) /\
  map (cell 0) (flat_map line seqs) = map (fun v => print_date p (pv_start v)) (emitted ys).
Proof.
  intros seqs ys U H. induction H as [|x y seqs ys Hxy H IH]; [split; reflexivity|]. inversion U; subst. destruct (IH H3) as [I1 I2].
  destruct (line_shown x s j y H2 Hxy) as (L1 & L2 & _). change (emitted (y :: ys)) with (if_any y ++ emitted ys). cbn [flat_map]. rewrite !map_app, L1, L2, I1, I2. split; reflexivity.
Qed.

Lemma lines_length ns seqs : Forall (uniform idx M) seqs -> Forall (fun x => length x = ns) seqs -> Forall (fun l => length l = 1 + M * ns) (flat_map line seqs).
Proof.
  intros U L. apply Forall_forall. intros l Hl. apply in_flat_map in Hl. destruct Hl as (x & Hx & Hl). rewrite Forall_forall in U, L. specialize (U x Hx). specialize (L x Hx). subst ns.
  unfold line in Hl. destruct (first_start x) eqn:E; [|destruct Hl]. destruct Hl as [<-|[]]. cbn [length]. rewrite (flat_map_length_const cells M); [lia|]. apply cells_length; [exact U|congruence].
Qed.
End Wide.

Lemma header_cells p ms scenarios s sc j m : nth_error scenarios s = Some sc -> nth_error (ms_metrics ms) j = Some m ->
  map (cell (1 + (length (ms_metrics ms) * s + j))) (wide_header p (ms_metrics ms) scenarios) = [fst m; snd m; print_nat p (si_simulation sc); si_label sc].
Proof.
  intros Hs Hj. assert (Hlt : j < length (ms_metrics ms)) by (apply nth_error_Some; congruence). unfold wide_header, cell. cbn [map nth plus].
  repeat f_equal; apply nth_error_nth; erewrite flat_map_block; try eassumption; try (apply Forall_forall; intros; cbn; rewrite ?map_length, ?repeat_length; reflexivity).
  - rewrite nth_error_map, Hj. reflexivity.
  - rewrite nth_error_map, Hj. reflexivity.
  - apply repeat_nth. exact Hlt.
  - apply repeat_nth. exact Hlt.
Qed.

Lemma wide_correct p sets idx ms scenarios steps :
  nth_error sets idx = Some ms -> Forall (fun m => ms_metrics m <> []) sets ->
  Forall (complete sets (length scenarios)) steps -> aggregates_fine sets (length scenarios) steps ->
  exists rows, wide_run p sets idx scenarios steps = Ok (wide_header p (ms_metrics ms) scenarios ++ rows) /\
    Forall (fun l => length l = 1 + length (ms_metrics ms) * length scenarios) (wide_header p (ms_metrics ms) scenarios ++ rows) /\
    forall s j vs, s < length scenarios -> j < length (ms_metrics ms) -> recorded ms (history s idx j steps) vs ->
      map (cell (1 + (length (ms_metrics ms) * s + j))) rows = map (fun v => print_value p (pv_value v)) vs /\
      map (cell 0) rows = map (fun v => print_date p (pv_start v)) vs.
Proof.
  intros Hm Ne C A. set (M := length (ms_metrics ms)). assert (Nm : ms_metrics ms <> []) by (rewrite Forall_forall in Ne; apply Ne; eapply nth_error_In; eassumption).
  assert (HM : 0 < M) by (unfold M; destruct (ms_metrics ms); [congruence|cbn; lia]).
  destruct (saves_exist sets (length scenarios) steps Ne C A) as (seqs & E & L & F & R).
  pose proof (uniform_saves sets (length scenarios) steps seqs idx ms A Hm Nm F R) as U. fold M in U.
  assert (F1 : Forall (fun x => length x = length scenarios) seqs) by (eapply Forall_impl; [|exact F]; intros x [H _]; exact H).
  assert (HL : Forall (fun l => length l = 1 + M * length scenarios) (wide_header p (ms_metrics ms) scenarios)).
  { unfold wide_header. repeat constructor; cbn [length]; rewrite (flat_map_length_const _ M); try lia; apply Forall_forall; intros; rewrite ?map_length, ?repeat_length; reflexivity. }
  exists (flat_map (line p idx) seqs). repeat split.
  - unfold wide_run. rewrite Hm, (run_as_fold _ _ _ _ _ _ E). unfold wide_header at 1. rewrite (wide_fold p idx M HM (length scenarios)); [reflexivity|exact U|exact F1|].
    unfold wide_header in HL. inversion HL; assumption.
  - apply Forall_app. split; [exact HL|]. apply lines_length; assumption.
  - apply recorded_yields in H1. destruct H1 as (ys & Hy & ->). apply (lines_shown p idx M HM s j seqs ys U). exact (R s idx ms j ys H Hm H0 Hy).
  - apply recorded_yields in H1. destruct H1 as (ys & Hy & ->). apply (lines_shown p idx M HM s j seqs ys U). exact (R s idx ms j ys H Hm H0 Hy).
Qed.
