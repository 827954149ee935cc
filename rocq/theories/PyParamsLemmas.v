(** Lemmas about Python parameters. *)
From Coq Require Import QArith.
From Verif Require Import Base PyParams PyParamsSpec.
Local Open Scope string_scope.
Local Open Scope list_scope.
Local Open Scope nat_scope.

(** ** Hash maps *)

Lemma hget_hinsert {A} k k' (a : A) m : hget k (hinsert k' a m) = if String.eqb k k' then Some a else hget k m.
Proof.
  induction m as [|[k0 a0] m IH]; simpl; [reflexivity|].
  destruct (String.eqb_spec k' k0) as [->|Hn]; simpl.
  - destruct (String.eqb_spec k k0); reflexivity.
  - rewrite IH. destruct (String.eqb_spec k k0) as [->|]; [|reflexivity].
    destruct (String.eqb_spec k0 k') as [->|]; [contradiction|reflexivity].
Qed.

(** ** Bringing the values up to date *)

Lemma update_values_spec {Em A B} (f : A -> res Em B) ms vs :
  let '(r, vs') := update_values f ms vs in
  (forall k, ~ In k (map fst ms) -> hget k vs' = hget k vs) /\
  (NoDup (map fst ms) -> r = Ok tt -> forall k m, In (k, m) ms -> exists v, f m = Ok v /\ hget k vs' = Some v) /\
  (r = Ok tt -> forall k m, In (k, m) ms -> exists v, f m = Ok v) /\
  (forall e, r = Err e -> exists k m, In (k, m) ms /\ f m = Err e) /\
  (r = Panic -> exists k m, In (k, m) ms /\ f m = Panic).
Proof.
  revert vs. induction ms as [|[k m] ms IH]; intros vs; simpl.
  - repeat split; try (intros; contradiction); intros; discriminate.
  - destruct (f m) as [v|e|] eqn:Ef.
    + specialize (IH (hinsert k v vs)). destruct (update_values f ms (hinsert k v vs)) as [r vs'] eqn:E.
      destruct IH as (I1 & I2 & I3 & I4 & I5). split; [|split; [|split; [|split]]].
      * intros k' Hk'. rewrite I1 by (intros Hc; apply Hk'; right; exact Hc). rewrite hget_hinsert.
        destruct (String.eqb_spec k' k) as [->|]; [|reflexivity]. exfalso. apply Hk'. left. reflexivity.
      * intros Hnd Hr k' m' [Heq|Hin].
        -- injection Heq as <- <-. exists v. split; [exact Ef|]. inversion Hnd; subst.
           rewrite I1 by assumption. rewrite hget_hinsert, String.eqb_refl. reflexivity.
        -- inversion Hnd; subst. apply I2; try assumption. reflexivity.
      * intros Hr k' m' [Heq|Hin]; [injection Heq as <- <-; exists v; exact Ef|exact (I3 Hr k' m' Hin)].
      * intros e He. destruct (I4 e He) as (k' & m' & Hin & Hf). exists k', m'. split; [right; exact Hin|exact Hf].
      * intros He. destruct (I5 He) as (k' & m' & Hin & Hf). exists k', m'. split; [right; exact Hin|exact Hf].
    + repeat split; try discriminate. intros e' [= <-]. exists k, m. split; [left; reflexivity|exact Ef].
    + repeat split; try discriminate. intros _. exists k, m. split; [left; reflexivity|exact Ef].
Qed.

(** An info object that has nothing under keys that are not configured. *)
Definition clean {M I} (c : common M I) (i : info) : Prop :=
  (forall k, ~ In k (map fst (pc_metrics c)) -> hget k (in_metrics i) = None) /\
  (forall k, ~ In k (map fst (pc_indices c)) -> hget k (in_indices i) = None).

Lemma update_info_spec {Em M I} (c : common M I) (ctx : context Em M I) i :
  distinct_keys c -> clean c i ->
  let '(r, i') := update_info c ctx i in
  clean c i' /\
  (r = Ok tt -> available c ctx /\ shows c ctx i') /\
  (forall x, r <> Ok x -> ~ available c ctx) /\
  (forall e, r = Err e -> metric_failure c ctx (Err (MetricErr e))) /\
  (r = Panic -> metric_failure c ctx Panic).
Proof.
  intros [N1 N2] [C1 C2]. unfold update_info.
  pose proof (update_values_spec (cx_metric ctx) (pc_metrics c) (in_metrics i)) as U1.
  destruct (update_values (cx_metric ctx) (pc_metrics c) (in_metrics i)) as [r1 ms].
  destruct U1 as (A1 & A2 & A3 & A4 & A5).
  pose proof (update_values_spec (cx_index ctx) (pc_indices c) (in_indices i)) as U2.
  destruct (update_values (cx_index ctx) (pc_indices c) (in_indices i)) as [r2 is].
  destruct U2 as (B1 & B2 & B3 & B4 & B5).
  destruct r1 as [[]|e1|].
  - split; [|split; [|split; [|split]]].
    + split; simpl; intros k Hk; [rewrite A1 by exact Hk; exact (C1 k Hk)|rewrite B1 by exact Hk; exact (C2 k Hk)].
    + intros ->. split; [split; [exact (A3 eq_refl)|exact (B3 eq_refl)]|].
      split; [reflexivity|]. split; [reflexivity|].
      split; [|split; [|split]].
      * intros k m v Hin Hv. destruct (A2 N1 eq_refl k m Hin) as (v' & Hv' & Hg).
        rewrite Hv in Hv'. injection Hv' as <-. unfold get_metric. simpl. rewrite Hg. reflexivity.
      * intros k Hk. unfold get_metric. simpl. rewrite A1 by exact Hk. rewrite (C1 k Hk). reflexivity.
      * intros k m v Hin Hv. destruct (B2 N2 eq_refl k m Hin) as (v' & Hv' & Hg).
        rewrite Hv in Hv'. injection Hv' as <-. unfold get_index. simpl. rewrite Hg. reflexivity.
      * intros k Hk. unfold get_index. simpl. rewrite B1 by exact Hk. rewrite (C2 k Hk). reflexivity.
    + intros x Hx [_ Hav]. destruct r2 as [[]|e2|]; [destruct x; exact (Hx eq_refl)| |].
      * destruct (B4 e2 eq_refl) as (k & m & Hin & Hf). destruct (Hav k m Hin) as [v Hv]. rewrite Hf in Hv. discriminate Hv.
      * destruct (B5 eq_refl) as (k & m & Hin & Hf). destruct (Hav k m Hin) as [v Hv]. rewrite Hf in Hv. discriminate Hv.
    + intros e ->. destruct (B4 e eq_refl) as (k & m & Hin & Hf). right; right; left. exists k, m, e. repeat split; assumption.
    + intros ->. destruct (B5 eq_refl) as (k & m & Hin & Hf). right; right; right. exists k, m. repeat split; assumption.
  - split; [|split; [|split; [|split]]].
    + split; simpl; intros k Hk; [rewrite A1 by exact Hk; exact (C1 k Hk)|exact (C2 k Hk)].
    + discriminate.
    + intros _ _ [Hav _]. destruct (A4 e1 eq_refl) as (k & m & Hin & Hf). destruct (Hav k m Hin) as [v Hv]. rewrite Hf in Hv. discriminate Hv.
    + intros e [= <-]. destruct (A4 e1 eq_refl) as (k & m & Hin & Hf). left. exists k, m, e1. repeat split; assumption.
    + discriminate.
  - split; [|split; [|split; [|split]]].
    + split; simpl; intros k Hk; [rewrite A1 by exact Hk; exact (C1 k Hk)|exact (C2 k Hk)].
    + discriminate.
    + intros _ _ [Hav _]. destruct (A5 eq_refl) as (k & m & Hin & Hf). destruct (Hav k m Hin) as [v Hv]. rewrite Hf in Hv. discriminate Hv.
    + discriminate.
    + intros _. destruct (A5 eq_refl) as (k & m & Hin & Hf). right; left. exists k, m. repeat split; assumption.
Qed.

(** ** Values *)

Section Values.
  Context {E : Type}.
  Variable str_of : pyval -> string.

  Lemma key_text_py k s : key_text str_of k s <-> py_to_string str_of k = s.
  Proof. destruct k; simpl; split; intros H; subst; reflexivity. Qed.

  Lemma integer_cases v : (exists z, integer v z /\ (v = PyInt z \/ exists b, v = PyBool b)) \/ (forall z, ~ integer v z).
  Proof.
    destruct v as [| [|] | | | | | |]; try (right; intros z H; inversion H; fail); left;
      eexists; (split; [constructor|]); try (left; reflexivity); right; eexists; reflexivity.
  Qed.

  Lemma extract_u64_spec v :
    (forall z, integer v z -> in_u64 z -> extract_u64 v = Ok z) /\
    (forall z, integer v z -> ~ in_u64 z -> extract_u64 v = Err OverflowError) /\
    ((forall z, ~ integer v z) -> extract_u64 v = Err TypeError).
  Proof.
    unfold in_u64. assert (HU : U64_MAX = (2 ^ 64 - 1)%Z) by reflexivity. split; [|split].
    - intros z H Hr. inversion H; subst; simpl; try reflexivity.
      destruct (0 <=? z)%Z eqn:E1, (z <=? U64_MAX)%Z eqn:E2; simpl; try reflexivity; lia.
    - intros z H Hr. inversion H; subst; simpl; [|exfalso; apply Hr; lia|exfalso; apply Hr; lia].
      destruct (0 <=? z)%Z eqn:E1, (z <=? U64_MAX)%Z eqn:E2; simpl; try reflexivity. exfalso. apply Hr. lia.
    - intros H. destruct v as [| [|] | z | | | | |]; try reflexivity; exfalso; eapply H; constructor.
  Qed.

  (** One more item at the end. *)
  Lemma says_snoc {A} (reads : pyval -> A -> Prop) k v items s x :
    says str_of reads (items ++ [(k, v)]) s x <->
    (key_text str_of k s /\ reads v x) \/ (says str_of reads items s x /\ ~ (key_text str_of k s /\ exists y, reads v y)).
  Proof.
    split.
    - intros (l1 & k' & v' & l2 & Heq & Hk & Hv & Hl).
      destruct l2 as [|p l2 _] using rev_ind.
      + apply app_inj_tail in Heq. destruct Heq as [_ [= -> ->]]. left. split; assumption.
      + rewrite app_comm_cons, app_assoc in Heq. apply app_inj_tail in Heq. destruct Heq as [-> <-]. right. split.
        * exists l1, k', v', l2. repeat split; try assumption. intros k1 v1 x1 Hin. apply Hl. apply in_or_app. left. exact Hin.
        * intros [Hk1 [y Hy]]. apply (Hl k v y); [apply in_or_app; right; left; reflexivity|exact Hk1|exact Hy].
    - intros [[Hk Hv]|[(l1 & k' & v' & l2 & -> & Hk & Hv & Hl) Hno]].
      + exists items, k, v, []. repeat split; try assumption. intros k' v' x' [].
      + exists l1, k', v', (l2 ++ [(k, v)]). split; [rewrite <- app_assoc; reflexivity|]. repeat split; try assumption.
        intros k1 v1 x1 Hin Hk1 Hv1. apply in_app_or in Hin. destruct Hin as [Hin|[Heq|[]]].
        * exact (Hl k1 v1 x1 Hin Hk1 Hv1).
        * injection Heq as <- <-. apply Hno. split; [exact Hk1|]. exists x1. exact Hv1.
  Qed.

  Definition described (items : list (pyval * pyval)) (m : multi_value) : Prop :=
    (forall s q, hget s (mv_values m) = Some q <-> says str_of is_float items s q) /\
    (forall s z, hget s (mv_indices m) = Some z <-> says str_of integer items s z).

  Lemma insert_described {A} (reads : pyval -> A -> Prop) (vs : list (string * A)) items k v a :
    (forall s x, hget s vs = Some x <-> says str_of reads items s x) ->
    reads v a -> (forall b, reads v b -> b = a) ->
    forall s x, hget s (hinsert (py_to_string str_of k) a vs) = Some x <-> says str_of reads (items ++ [(k, v)]) s x.
  Proof.
    intros Hd Hv Hu s x. rewrite hget_hinsert, says_snoc. destruct (String.eqb_spec s (py_to_string str_of k)) as [->|Hn].
    - split.
      + intros [= <-]. left. split; [apply key_text_py; reflexivity|exact Hv].
      + intros [[_ Hr]|[_ Hno]]; [rewrite (Hu x Hr); reflexivity|].
        exfalso. apply Hno. split; [apply key_text_py; reflexivity|exists a; exact Hv].
    - assert (Hk : ~ key_text str_of k s) by (intros Hk; apply key_text_py in Hk; congruence).
      rewrite Hd. split.
      + intros H. right. split; [exact H|]. intros [H1 _]. exact (Hk H1).
      + intros [[H1 _]|[H _]]; [contradiction|exact H].
  Qed.
  Lemma skip_described {A} (reads : pyval -> A -> Prop) (vs : list (string * A)) items k v :
    (forall s x, hget s vs = Some x <-> says str_of reads items s x) ->
    (forall b, ~ reads v b) ->
    forall s x, hget s vs = Some x <-> says str_of reads (items ++ [(k, v)]) s x.
  Proof.
    intros Hd Hv s x. rewrite says_snoc, Hd. split.
    - intros H. right. split; [exact H|]. intros [_ [y Hy]]. exact (Hv y Hy).
    - intros [[_ H]|[H _]]; [destruct (Hv _ H)|exact H].
  Qed.

  Lemma integer_unique v a b : integer v a -> integer v b -> b = a.
  Proof. intros H1 H2. inversion H1; subst; inversion H2; reflexivity. Qed.

  Lemma extract_items_Ok items : forall done m, described done m ->
    (forall k x, In (k, x) items -> (exists q, is_float x q) \/ exists z, integer x z /\ in_u64 z) ->
    exists m', extract_items str_of items m = Ok m' /\ described (done ++ items) m'.
  Proof.
    induction items as [|[k v] items IH]; intros done m Hd Hall.
    - exists m. rewrite app_nil_r. split; [reflexivity|exact Hd].
    - assert (Hrest : forall k x, In (k, x) items -> (exists q, is_float x q) \/ exists z, integer x z /\ in_u64 z)
        by (intros k0 x0 H0; apply (Hall k0 x0); right; exact H0).
      replace (done ++ (k, v) :: items) with ((done ++ [(k, v)]) ++ items) by (rewrite <- app_assoc; reflexivity).
      destruct Hd as [Hd1 Hd2]. destruct (Hall k v (or_introl eq_refl)) as [[q Hq]|(z & Hz & Hr)].
      + unfold is_float in Hq. subst v. simpl. apply IH; [|exact Hrest]. split; simpl.
        * apply insert_described; [exact Hd1|reflexivity|]. intros b Hb. injection Hb as <-. reflexivity.
        * apply skip_described; [exact Hd2|]. intros b Hb. inversion Hb.
      + assert (He : extract_items str_of ((k, v) :: items) m =
                     extract_items str_of items (mkMulti (mv_values m) (hinsert (py_to_string str_of k) z (mv_indices m)))).
        { pose proof (proj1 (extract_u64_spec v) z Hz Hr) as Hx. simpl. inversion Hz; subst; rewrite Hx; reflexivity. }
        rewrite He. apply IH; [|exact Hrest]. split; simpl.
        * apply skip_described; [exact Hd1|]. intros b Hb. unfold is_float in Hb. subst v. inversion Hz.
        * apply insert_described; [exact Hd2|exact Hz|]. intros b Hb. exact (integer_unique v z b Hz Hb).
  Qed.

  Lemma extract_items_Err items : forall m k x, In (k, x) items -> (forall q, ~ is_float x q) ->
    (forall z, integer x z -> ~ in_u64 z) -> exists e, extract_items str_of items m = Err e.
  Proof.
    assert (Hu : forall v, (exists z, extract_u64 v = Ok z) \/ (exists e, extract_u64 v = Err e)).
    { intros v. unfold extract_u64. destruct v; try (right; eexists; reflexivity); [left; eexists; reflexivity|].
      destruct (_ && _); [left|right]; eexists; reflexivity. }
    induction items as [|[k0 v0] items IH]; intros m k x Hin Hf Hi; [destruct Hin|].
    destruct Hin as [Heq|Hin].
    - injection Heq as -> ->. simpl. destruct x as [|b|z|q|s|l|l|n]; try (exists ValueError; reflexivity).
      + exfalso. destruct b; [apply (Hi 1%Z)|apply (Hi 0%Z)]; try constructor; unfold in_u64; lia.
      + pose proof (Hi z (IntI z)) as Hn. rewrite (proj1 (proj2 (extract_u64_spec (PyInt z))) z (IntI z) Hn). eexists. reflexivity.
      + exfalso. exact (Hf q eq_refl).
    - simpl. destruct v0 as [|b|z|q|s|l|l|n]; try (exists ValueError; reflexivity); try exact (IH _ k x Hin Hf Hi).
      destruct (Hu (PyInt z)) as [[z' ->]|[e ->]]; [exact (IH _ k x Hin Hf Hi)|eexists; reflexivity].
  Qed.

  Lemma extracted_returns t v : returns (E := E) str_of t v (extracted str_of t v).
  Proof.
    destruct t; simpl; unfold extracted, extract.
    - split.
      + intros q H. inversion H; subst; reflexivity.
      + intros H. destruct v as [| [|] | z | q | | | |]; try reflexivity; exfalso; eapply H; constructor.
    - destruct (extract_u64_spec v) as (H1 & H2 & H3). split; [|split].
      + intros z Hz Hr. rewrite (H1 z Hz Hr). reflexivity.
      + intros z Hz Hr. rewrite (H2 z Hz Hr). reflexivity.
      + intros H. rewrite (H3 H). reflexivity.
    - split; [|split].
      + intros items -> Hall. simpl.
        destruct (extract_items_Ok items [] (mkMulti [] [])) as (m & -> & [Hm1 Hm2]); [|exact Hall|].
        * split; simpl; intros s x; (split; [discriminate|]); intros (l1 & k & v & l2 & Heq & _); destruct l1; discriminate Heq.
        * exists m. split; [reflexivity|]. split; assumption.
      + intros items k x -> Hin Hf Hi. simpl. destruct (extract_items_Err items (mkMulti [] []) k x Hin Hf Hi) as [e ->].
        exists e. reflexivity.
      + intros H. destruct v as [| | | | | |items|]; try reflexivity. exfalso. exact (H items eq_refl).
  Qed.
End Values.

(** ** JSON *)

Section JsonInd.
  Variable P : json -> Prop.
  Hypothesis Hnull : P JNull.
  Hypothesis Hbool : forall b, P (JBool b).
  Hypothesis Hnum : forall n, P (JNum n).
  Hypothesis Hstr : forall s, P (JStr s).
  Hypothesis Harr : forall l, Forall P l -> P (JArr l).
  Hypothesis Hobj : forall l, Forall (fun kv => P (snd kv)) l -> P (JObj l).
  Fixpoint json_ind' (v : json) : P v :=
    match v with
    | JNull => Hnull
    | JBool b => Hbool b
    | JNum n => Hnum n
    | JStr s => Hstr s
    | JArr l => Harr l ((fix go l := match l return Forall P l with [] => Forall_nil _ | x :: l => Forall_cons x (json_ind' x) (go l) end) l)
    | JObj l => Hobj l ((fix go l := match l return Forall (fun kv => P (snd kv)) l with [] => Forall_nil _ | x :: l => Forall_cons x (json_ind' (snd x)) (go l) end) l)
    end.
End JsonInd.

Lemma into_py_same v : fits v -> same_value v (into_py v).
Proof.
  induction v as [| | n | |l IH|l IH] using json_ind'; intros Hf; simpl; try constructor.
  - destruct n as [z|z|q]; simpl; try constructor. inversion Hf; subst.
    assert (I64_MAX = (2 ^ 63 - 1)%Z) by reflexivity.
    destruct (z <=? I64_MAX)%Z eqn:E; [constructor|lia].
  - inversion Hf; subst. clear Hf. induction l as [|x l IHl]; simpl; [apply Forall2_nil|].
    inversion IH; subst. inversion H0; subst. apply Forall2_cons; [|apply IHl]; auto.
  - inversion Hf; subst. clear Hf. induction l as [|x l IHl]; simpl; [apply Forall2_nil|].
    inversion IH; subst. inversion H0; subst. apply Forall2_cons; [|apply IHl; auto]. simpl. split; [reflexivity|auto].
Qed.

(** ** Runs *)

Lemma nth_set_state {S} (l : list S) n s i :
  nth_error (set_state l n s) i = if i =? n then match nth_error l n with Some _ => Some s | None => None end else nth_error l i.
Proof.
  revert n i. induction l as [|x l IH]; intros [|n] [|i]; simpl; try reflexivity; try apply IH.
  destruct (i =? n); reflexivity.
Qed.
Lemma nth_set_info l n s i :
  nth_error (set_info l n s) i = if i =? n then match nth_error l n with Some _ => Some s | None => None end else nth_error l i.
Proof.
  revert n i. induction l as [|x l IH]; intros [|n] [|i]; simpl; try reflexivity; try apply IH.
  destruct (i =? n); reflexivity.
Qed.

(** The info object an instance has, if any, is clean. *)
Definition tidy {W M I} (c : common M I) (w : world W) (o : option nat) : Prop :=
  forall r, o = Some r -> exists i, nth_error (w_infos w) r = Some i /\ clean c i.

Section Ensure.
  Context {W Em M I : Type}.
  Variable c : common M I.

  Lemma ensure_info_spec o (ctx : context Em M I) (w : world W) :
    tidy c w o ->
    let '(r, w') := ensure_info o ctx w in
    w_user w' = w_user w /\ (exists i, nth_error (w_infos w') r = Some i /\ clean c i) /\
    (forall o', tidy c w o' -> tidy c w' o').
  Proof.
    intros Ht. unfold ensure_info. destruct o as [r|].
    - split; [reflexivity|]. split; [exact (Ht r eq_refl)|auto].
    - split; [reflexivity|]. split.
      + eexists. cbn [w_infos]. split; [rewrite nth_error_app2 by lia; rewrite Nat.sub_diag; reflexivity|].
        split; intros k _; reflexivity.
      + intros o' Ho r Hr. destruct (Ho r Hr) as (i & Hi & Hc). exists i. split; [|exact Hc]. cbn [w_infos].
        rewrite nth_error_app1; [exact Hi|]. apply nth_error_Some. rewrite Hi. discriminate.
  Qed.

  Lemma set_info_tidy (w : world W) (u : W) r i o :
    clean c i -> tidy c w o -> tidy c (mkWorld u (set_info (w_infos w) r i)) o.
  Proof.
    intros Hc Ho r' Hr'. destruct (Ho r' Hr') as (i' & Hi' & Hc'). cbn [w_infos]. rewrite nth_set_info.
    destruct (Nat.eqb_spec r' r) as [->|]; [rewrite Hi'; exists i; split; [reflexivity|exact Hc]|exists i'; split; assumption].
  Qed.
End Ensure.

Section RunClass.
  Context {W Obj Em M I St : Type}.
  Variable str_of : pyval -> string.
  Variable cls : pyclass W Obj.
  Variable c : common M I.
  Variable t : rtype.
  Variable start : St.
  Variable step : pmethod -> info -> St -> res pyerr pyval * St.
  Variable exists_in : W -> Obj -> Prop.
  Variable remembers : W -> Obj -> St.
  Hypothesis Hnew : forall w, exists o w', instantiate cls w = (Ok o, w') /\ ~ exists_in w o /\ exists_in w' o /\ remembers w' o = start /\
         (forall o', exists_in w o' -> exists_in w' o' /\ remembers w' o' = remembers w o').
  Hypothesis Hhas : forall w o m, exists_in w o -> has_method cls w o m = class_has cls m.
  Hypothesis Hcall : forall w o m infos r i, exists_in w o -> nth_error infos r = Some i ->
         exists v w', call_method cls w infos o m r = (v, w') /\ step m i (remembers w o) = (v, remembers w' o) /\
           exists_in w' o /\
           (forall o', o' <> o -> exists_in w o' -> exists_in w' o' /\ remembers w' o' = remembers w o').
  Hypothesis Hkeys : distinct_keys c.

  Lemma class_call_spec m (ctx : context Em M I) s (w : world W) r s' w' :
    exists_in (w_user w) (it_obj s) -> tidy c w (it_info s) ->
    class_call str_of cls c t m ctx s w = (r, s', w') ->
    it_obj s' = it_obj s /\ exists_in (w_user w') (it_obj s) /\ tidy c w' (it_info s') /\
    one_call str_of c t (class_has cls) step m ctx (remembers (w_user w) (it_obj s)) r (remembers (w_user w') (it_obj s)) /\
    (forall o', o' <> it_obj s -> exists_in (w_user w) o' ->
       exists_in (w_user w') o' /\ remembers (w_user w') o' = remembers (w_user w) o') /\
    (forall o', tidy c w o' -> tidy c w' o').
  Proof.
    intros Hex Hti. unfold class_call. pose proof (ensure_info_spec c (it_info s) ctx w Hti) as He.
    destruct (ensure_info (it_info s) ctx w) as [q w1]. destruct He as (Hu & (i & Hi & Hc) & Hp).
    cbv zeta. cbn [it_obj it_info]. rewrite Hu. rewrite (Hhas _ _ m Hex). destruct (class_has cls m) eqn:Em'.
    2:{ intros [= <- <- <-]. cbn [it_obj it_info]. rewrite ?Hu. split; [reflexivity|]. split; [exact Hex|].
        split; [intros r' [= <-]; exists i; split; assumption|]. split.
        - left. repeat split; exact Em'.
        - split; [intros o' _ Ho; split; [exact Ho|reflexivity]|exact Hp]. }
    rewrite Hi. pose proof (update_info_spec c ctx i Hkeys Hc) as Hup. destruct (update_info c ctx i) as [u i'].
    destruct Hup as (Hc' & Hok & Hna & Herr & Hpan).
    assert (Hn : nth_error (set_info (w_infos w1) q i') q = Some i') by (rewrite nth_set_info, Nat.eqb_refl, Hi; reflexivity).
    assert (Hq : forall u : W, tidy c (mkWorld u (set_info (w_infos w1) q i')) (Some q)).
    { intros u' r' [= <-]. exists i'. split; [exact Hn|exact Hc']. }
    assert (Hpp : forall (u : W) o', tidy c w o' -> tidy c (mkWorld u (set_info (w_infos w1) q i')) o').
    { intros u' o' Ho. apply set_info_tidy; [exact Hc'|exact (Hp o' Ho)]. }
    destruct u as [[]|e|].
    - cbn [w_user w_infos]. rewrite ?Hu.
      destruct (Hcall (w_user w) (it_obj s) m (set_info (w_infos w1) q i') q i' Hex Hn) as (v & u' & Hcm & Hst & Hex' & Hoth).
      rewrite Hcm. destruct (Hok eq_refl) as [Hav Hsh].
      intros H.
      assert (Hr : gives str_of t v r /\ s' = mkInternal (it_obj s) (Some q) /\ w' = mkWorld u' (set_info (w_infos w1) q i')).
      { destruct v as [v|e|]; injection H as <- <- <-; (split; [|split; reflexivity]); simpl; [apply extracted_returns|reflexivity|reflexivity]. }
      destruct Hr as (Hg & -> & ->). cbn [it_obj it_info w_user]. split; [reflexivity|]. split; [exact Hex'|]. split; [apply Hq|].
      split; [|split; [exact Hoth|intros o'; apply Hpp]].
      right. right. split; [reflexivity || exact Em'|]. split; [exact Hav|]. exists i', v. split; [exact Hsh|]. split; [exact Hst|exact Hg].
    - intros [= <- <- <-]. cbn [it_obj it_info w_user]. rewrite ?Hu. split; [reflexivity|]. split; [exact Hex|]. split; [apply Hq|].
      split; [|split; [intros o' _ Ho; split; [exact Ho|reflexivity]|intros o'; apply Hpp]].
      right. left. split; [exact Em'|]. split; [apply (Hna tt); discriminate|]. split; [exact (Herr e eq_refl)|reflexivity].
    - intros [= <- <- <-]. cbn [it_obj it_info w_user]. rewrite ?Hu. split; [reflexivity|]. split; [exact Hex|]. split; [apply Hq|].
      split; [|split; [intros o' _ Ho; split; [exact Ho|reflexivity]|intros o'; apply Hpp]].
      right. left. split; [exact Em'|]. split; [apply (Hna tt); discriminate|]. split; [exact (Hpan eq_refl)|reflexivity].
  Qed.

  (** Different scenarios have different objects. *)
  Definition ready_class (ss : list (internal Obj)) (w : world W) : Prop :=
    (forall i s, nth_error ss i = Some s -> exists_in (w_user w) (it_obj s) /\ tidy c w (it_info s)) /\
    (forall i j s s', nth_error ss i = Some s -> nth_error ss j = Some s' -> i <> j -> it_obj s <> it_obj s').

  Lemma run_class_spec (calls : list (nat * (pmethod * context Em M I))) : forall ss w,
    ready_class ss w ->
    length (run_class str_of cls c t calls ss w) = length calls /\
    forall i s, nth_error ss i = Some s ->
      follows str_of c t (class_has cls) step (remembers (w_user w) (it_obj s)) (of_scenario i calls)
        (results_of i calls (run_class str_of cls c t calls ss w)).
  Proof.
    induction calls as [|[j [m ctx]] calls IH]; intros ss w [R1 R2]; simpl.
    - split; [reflexivity|]. intros i s _. apply FollowsNil.
    - destruct (nth_error ss j) as [s|] eqn:Ej.
      + destruct (R1 j s Ej) as [Hex Hti].
        destruct (class_call str_of cls c t m ctx s w) as [[r s'] w'] eqn:Ec.
        destruct (class_call_spec m ctx s w r s' w' Hex Hti Ec) as (Ho & Hex' & Hti' & Hone & Hoth & Hp).
        assert (HR : ready_class (set_state ss j s') w').
        { split.
          - intros i s1. rewrite nth_set_state, Ej. destruct (Nat.eqb_spec i j) as [->|Hij].
            + intros [= <-]. rewrite Ho. split; assumption.
            + intros H1. destruct (R1 i s1 H1) as [H2 H3]. split; [|exact (Hp _ H3)].
              apply Hoth; [exact (R2 i j s1 s H1 Ej Hij)|exact H2].
          - intros i i' s1 s2. rewrite !nth_set_state, Ej. destruct (Nat.eqb_spec i j) as [->|Hij]; destruct (Nat.eqb_spec i' j) as [->|Hij'].
            + intros _ _ H. contradiction.
            + intros [= <-] H2 _. rewrite Ho. apply (R2 j i' s s2 Ej H2). congruence.
            + intros H1 [= <-] _. rewrite Ho. exact (R2 i j s1 s H1 Ej Hij).
            + intros H1 H2. exact (R2 i i' s1 s2 H1 H2). }
        destruct (IH _ _ HR) as [IHl IHf]. split; [simpl; rewrite IHl; reflexivity|].
        intros i s1 H1. unfold of_scenario, results_of, of_scenario in *. cbn [map combine filter fst].
        destruct (Nat.eqb_spec j i) as [->|Hji].
        * rewrite Ej in H1. injection H1 as <-. cbn [map snd].
          specialize (IHf i s'). rewrite nth_set_state, Nat.eqb_refl, Ej, Ho in IHf. specialize (IHf eq_refl).
          eapply FollowsCons; [exact Hone|exact IHf].
        * specialize (IHf i s1). rewrite nth_set_state in IHf. destruct (Nat.eqb_spec i j); [congruence|]. specialize (IHf H1).
          destruct (R1 i s1 H1) as [H2 _].
          rewrite (proj2 (Hoth (it_obj s1) (R2 i j s1 s H1 Ej ltac:(congruence)) H2)) in IHf. exact IHf.
      + destruct (IH ss w (conj R1 R2)) as [IHl IHf]. split; [simpl; rewrite IHl; reflexivity|].
        intros i s1 H1. unfold of_scenario, results_of, of_scenario in *. cbn [map combine filter fst].
        destruct (Nat.eqb_spec j i) as [->|Hji]; [rewrite Ej in H1; discriminate H1|]. exact (IHf i s1 H1).
  Qed.

  Lemma setup_all_spec n : forall w, exists ss w',
    setup_all cls n w = (Ok ss, w') /\ length ss = n /\ ready_class ss w' /\
    (forall i s, nth_error ss i = Some s -> remembers (w_user w') (it_obj s) = start /\ ~ exists_in (w_user w) (it_obj s)) /\
    (forall o, exists_in (w_user w) o -> exists_in (w_user w') o /\ remembers (w_user w') o = remembers (w_user w) o).
  Proof.
    induction n as [|n IH]; intros w.
    - exists [], w. split; [reflexivity|]. split; [reflexivity|]. split; [split|split].
      + intros [|i] s H; discriminate H.
      + intros [|i] j s s' H; discriminate H.
      + intros [|i] s H; discriminate H.
      + intros o Ho. split; [exact Ho|reflexivity].
    - destruct (Hnew (w_user w)) as (o & u & Hi & Hno & Hex & Hst & Hkeep).
      set (w1 := mkWorld u (w_infos w)).
      destruct (IH w1) as (ss & w' & Hs & Hlen & [R1 R2] & Hstart & Hk).
      exists (mkInternal o None :: ss), w'.
      assert (Hw1 : class_setup cls w = (Ok (mkInternal o None), w1)) by (unfold class_setup; rewrite Hi; reflexivity).
      destruct (Hk o Hex) as [Hex' Hst'].
      split; [cbn [setup_all]; rewrite Hw1, Hs; reflexivity|]. split; [simpl; rewrite Hlen; reflexivity|].
      split; [split|split].
      + intros [|i] s H; simpl in H; [|exact (R1 i s H)]. injection H as <-. split; [exact Hex'|]. intros r Hr. discriminate Hr.
      + intros [|i] [|j] s s' H H' Hij; simpl in H, H'; try contradiction.
        * injection H as <-. destruct (Hstart j s' H') as [_ Hne]. cbn [it_obj]. intros ->. exact (Hne Hex).
        * injection H' as <-. destruct (Hstart i s H) as [_ Hne]. cbn [it_obj]. intros Heq. apply Hne. rewrite Heq. exact Hex.
        * apply (R2 i j s s' H H'). congruence.
      + intros [|i] s H; simpl in H.
        * injection H as <-. cbn [it_obj]. split; [rewrite Hst'; exact Hst|exact Hno].
        * destruct (Hstart i s H) as [H1 H2]. split; [exact H1|]. intros H3. apply H2. exact (proj1 (Hkeep _ H3)).
      + intros o' Ho'. destruct (Hkeep o' Ho') as [H1 H2]. destruct (Hk o' H1) as [H3 H4].
        split; [exact H3|]. unfold w1 in H4. cbn [w_user] in H4. rewrite H4. exact H2.
  Qed.
End RunClass.

Section RunFunc.
  Context {W Em M I : Type}.
  Variable str_of : pyval -> string.
  Variable f : pyfunction W.
  Variable g : info -> res pyerr pyval.
  Variable c : common M I.
  Variable t : rtype.
  Hypothesis Hf : forall w infos r i, nth_error infos r = Some i -> fst (f w infos r) = g i.
  Hypothesis Hkeys : distinct_keys c.

  Lemma func_call_spec (ctx : context Em M I) s (w : world W) r s' w' :
    tidy c w s -> func_call str_of f c t ctx s w = (r, s', w') ->
    one_call str_of c t (fun _ => true) (fun _ i (u : unit) => (g i, u)) Before ctx tt r tt /\
    tidy c w' s' /\ (forall o', tidy c w o' -> tidy c w' o').
  Proof.
    intros Hti. unfold func_call. pose proof (ensure_info_spec c s ctx w Hti) as He.
    destruct (ensure_info s ctx w) as [q w1]. destruct He as (Hu & (i & Hi & Hc) & Hp).
    rewrite Hi. pose proof (update_info_spec c ctx i Hkeys Hc) as Hup. destruct (update_info c ctx i) as [u i'].
    destruct Hup as (Hc' & Hok & Hna & Herr & Hpan).
    assert (Hn : nth_error (set_info (w_infos w1) q i') q = Some i') by (rewrite nth_set_info, Nat.eqb_refl, Hi; reflexivity).
    assert (Hq : forall u : W, tidy c (mkWorld u (set_info (w_infos w1) q i')) (Some q)).
    { intros u' r' [= <-]. exists i'. split; [exact Hn|exact Hc']. }
    assert (Hpp : forall (u : W) o', tidy c w o' -> tidy c (mkWorld u (set_info (w_infos w1) q i')) o').
    { intros u' o' Ho. apply set_info_tidy; [exact Hc'|exact (Hp o' Ho)]. }
    destruct u as [[]|e|].
    - cbn [w_user w_infos]. pose proof (Hf (w_user w1) (set_info (w_infos w1) q i') q i' Hn) as Hg.
      destruct (f (w_user w1) (set_info (w_infos w1) q i') q) as [v u']. simpl in Hg. subst v.
      destruct (Hok eq_refl) as [Hav Hsh]. intros H.
      assert (Hr : gives str_of t (g i') r /\ s' = Some q /\ w' = mkWorld u' (set_info (w_infos w1) q i')).
      { destruct (g i') as [v|e|]; injection H as <- <- <-; (split; [|split; reflexivity]); simpl; [apply extracted_returns|reflexivity|reflexivity]. }
      destruct Hr as (Hgv & -> & ->). split; [|split; [apply Hq|apply Hpp]].
      right. right. split; [reflexivity|]. split; [exact Hav|]. exists i', (g i'). split; [exact Hsh|]. split; [reflexivity|exact Hgv].
    - intros [= <- <- <-]. split; [|split; [apply Hq|apply Hpp]].
      right. left. split; [reflexivity|]. split; [apply (Hna tt); discriminate|]. split; [exact (Herr e eq_refl)|reflexivity].
    - intros [= <- <- <-]. split; [|split; [apply Hq|apply Hpp]].
      right. left. split; [reflexivity|]. split; [apply (Hna tt); discriminate|]. split; [exact (Hpan eq_refl)|reflexivity].
  Qed.

  Lemma run_func_spec (calls : list (nat * context Em M I)) : forall ss w,
    (forall i s, nth_error ss i = Some s -> tidy c w s) ->
    (forall i ctx, In (i, ctx) calls -> i < length ss) ->
    Forall2 (fun call r => one_call str_of c t (fun _ => true) (fun _ i (u : unit) => (g i, u)) Before (snd call) tt r tt)
      calls (run_func str_of f c t calls ss w).
  Proof.
    induction calls as [|[j ctx] calls IH]; intros ss w R Hin; simpl; [apply Forall2_nil|].
    destruct (nth_error ss j) as [s|] eqn:Ej.
    - destruct (func_call str_of f c t ctx s w) as [[r s'] w'] eqn:Ec.
      destruct (func_call_spec ctx s w r s' w' (R j s Ej) Ec) as (Hone & Hti & Hp).
      apply Forall2_cons; [exact Hone|]. apply IH.
      + intros i s1. rewrite nth_set_state, Ej. destruct (Nat.eqb_spec i j); [intros [= <-]; exact Hti|].
        intros H1. exact (Hp _ (R i s1 H1)).
      + intros i ctx' H. replace (length (set_state ss j s')) with (length ss); [apply (Hin i ctx'); right; exact H|].
        clear. revert j. induction ss as [|x ss IHs]; intros [|j]; simpl; try reflexivity. rewrite <- IHs. reflexivity.
    - exfalso. specialize (Hin j ctx (or_introl eq_refl)). apply nth_error_None in Ej. lia.
  Qed.
End RunFunc.
