(** Lemmas for C69. *)
From Coq Require Import Ascii QArith DecimalString DecimalNat Lia.
From Verif Require Import Base SchemaNodes LpDynLemmas V1Convert V1ConvertSpec.
Local Open Scope string_scope.
Local Open Scope list_scope.
Local Open Scope nat_scope.

(** *** Generated names *)
Fixpoint dash_free (s : string) : Prop := match s with EmptyString => True | String c r => c <> "-"%char /\ dash_free r end.
Lemma dash_free_app a b : dash_free (a ++ b) -> dash_free b.
Proof. induction a as [|c a IH]; cbn; [auto | intros [_ H]; exact (IH H)]. Qed.
Lemma dash_free_uint u : dash_free (NilEmpty.string_of_uint u).
Proof. induction u; cbn; [exact I|..]; (split; [discriminate | assumption]). Qed.
Lemma dash_free_dec k : dash_free (dec k).
Proof. unfold dec, NilZero.string_of_uint. destruct (Nat.to_uint k); cbn; try (split; [discriminate | exact I]); (split; [discriminate | apply dash_free_uint]). Qed.
Lemma to_uint_some k : Nat.to_uint k <> Decimal.Nil.
Proof.
  intros E. unfold Nat.to_uint in E. pose proof (DecimalNat.Unsigned.of_to k) as H. unfold Nat.to_uint in H. rewrite E in H. cbn in H. subst k. discriminate E.
Qed.
Lemma dec_inj i j : dec i = dec j -> i = j.
Proof.
  unfold dec. intros E. assert (Some (Nat.to_uint i) = Some (Nat.to_uint j)) as E'.
  { rewrite <- (NilZero.usu (Nat.to_uint i)) by apply to_uint_some. rewrite <- (NilZero.usu (Nat.to_uint j)) by apply to_uint_some. rewrite E. reflexivity. }
  injection E' as E'. apply DecimalNat.Unsigned.to_uint_inj. exact E'.
Qed.
Lemma dash_split a : forall b x y, dash_free x -> dash_free y -> (a ++ "-p" ++ x = b ++ "-p" ++ y)%string -> a = b /\ x = y.
Proof.
  induction a as [|c a IH]; intros [|c' b] x y Hx Hy E; cbn in E.
  - injection E as E. auto.
  - exfalso. injection E as Ec E. destruct b as [|c2 b]; cbn in E; [injection E as E1 E2; discriminate E1|]. injection E as Ec2 E. subst x.
    apply dash_free_app in Hx. cbn in Hx. destruct Hx as [Hx _]. congruence.
  - exfalso. injection E as Ec E. destruct a as [|c2 a]; cbn in E; [injection E as E1 E2; discriminate E1|]. injection E as Ec2 E. subst y.
    apply dash_free_app in Hy. cbn in Hy. destruct Hy as [Hy _]. congruence.
  - injection E as -> E. destruct (IH b x y Hx Hy E) as [-> ->]. auto.
Qed.
Lemma generated_inj o k o' k' : generated o k = generated o' k' -> o = o' /\ k = k'.
Proof.
  unfold generated. intros E. destruct (dash_split _ _ _ _ (dash_free_dec k) (dash_free_dec k') E) as [-> E']. split; [reflexivity | exact (dec_inj _ _ E')].
Qed.

(** *** Induction on values and parameters *)
Section Ind.
  Variables (Pv : v1_value -> Prop) (Pp : v1_param -> Prop).
  Hypothesis (Hc : forall q, Pv (VConst q)) (Hr : forall n, Pv (VRef n)) (Ht : forall t ok, Pv (VTable t ok)) (Hi : forall p, Pp p -> Pv (VInline p))
    (Hcore : forall kind meta values other e, Forall (fun x => Pv (snd x)) values -> Pp (PCore kind meta values other e))
    (Hdata : forall meta u t c s, Pp (PData meta u t c s)).
  Fixpoint value_ind (v : v1_value) : Pv v :=
    match v with
    | VConst q => Hc q
    | VRef n => Hr n
    | VTable t ok => Ht t ok
    | VInline p => Hi p (param_ind p)
    end
  with param_ind (p : v1_param) : Pp p :=
    match p with
    | PCore kind meta values other e => Hcore kind meta values other e
        ((fix go vs : Forall (fun x => Pv (snd x)) vs := match vs with [] => Forall_nil _ | x :: r => Forall_cons x (value_ind (snd x)) (go r) end) values)
    | PData meta u t c s => Hdata meta u t c s
    end.
  Lemma v1_induction : (forall v, Pv v) /\ (forall p, Pp p).
  Proof. split; [exact value_ind | exact param_ind]. Qed.
End Ind.

Lemma inside_core kind meta values other e : inside_p (PCore kind meta values other e) = PCore kind meta values other e :: inside_vs values.
Proof. cbn [inside_p]. f_equal. unfold inside_vs. induction values as [|[a v] vs IH]; [reflexivity|]. cbn [flat_map snd]. rewrite <- IH. reflexivity. Qed.
Lemma names_core kind meta values other e : names_p (PCore kind meta values other e) = given (PCore kind meta values other e) ++ names_vs values.
Proof. cbn [names_p]. f_equal. unfold names_vs. induction values as [|[a v] vs IH]; [reflexivity|]. cbn [flat_map snd]. rewrite <- IH. reflexivity. Qed.
Lemma tidy_core is_data kind meta values other e : tidy_p is_data (PCore kind meta values other e) <-> meta <> None /\ e <> EndFallback /\ tidy_vs is_data false values.
Proof.
  cbn [tidy_p]. assert (forall vs, (fix go vs := match vs with [] => True | (_, s, v) :: r => tidy_v is_data false s v /\ go r end) vs <-> tidy_vs is_data false vs) as H.
  { induction vs as [|[[a s] v] vs IH]; [split; [constructor | auto]|]. rewrite IH. unfold tidy_vs. rewrite Forall_cons_iff. reflexivity. }
  rewrite H. reflexivity.
Qed.

(** *** What a value means before references to data are updated *)
Definition pre_value := same_value (fun _ => False) (fun _ _ => False).
Definition pre_param := same_param (fun _ => False) (fun _ _ => False).
Definition pre_values := same_values (fun _ => False) (fun _ _ => False).

(** A time series comes from a [DataFrame]. *)
Definition from_data (I : list v1_param) (s : v2_series) : Prop :=
  exists meta t c sc, In (PData meta (Some (s2_url s)) t c sc) I /\ forall n, meta = Some (Some n) -> s2_name s = n.
Lemma from_data_mono I J s : incl I J -> from_data I s -> from_data J s.
Proof. intros H (m & t & c & sc & Hin & Hn). exists m, t, c, sc. auto. Qed.

(** *** One component: what is added to the data *)

(** Names that may be used inside [owner] with counts from [c] to [c']. *)
Definition mine (owner : string) (E : list string) (c c' : nat) (x : string) : Prop :=
  In x E \/ exists k, c <= k < c' /\ x = generated owner k.
Definition added_names (np : list v2_param) (ns : list v2_series) : list string := map p2_name np ++ map s2_name ns.
Record grew (owner : string) (E : list string) (I : list v1_param) (d d' : conv_data) (np : list v2_param) (ns : list v2_series) : Prop := {
  gr_params : cd_params d' = cd_params d ++ np;
  gr_series : cd_series d' = cd_series d ++ ns;
  gr_count : cd_count d <= cd_count d';
  gr_nodup : NoDup (added_names np ns);
  gr_mine : forall x, In x (added_names np ns) -> mine owner E (cd_count d) (cd_count d') x;
  gr_from : forall F G, incl (cd_params d') F -> incl (cd_series d') G -> Forall (fun p2 => exists p, In p I /\ pre_param F G p p2) np;
  gr_data : Forall (from_data I) ns }.
(** The data seen so far has no name that this component may use. *)
Definition fresh (owner : string) (E : list string) (d : conv_data) : Prop :=
  forall s, In s (cd_series d) -> ~ In (s2_name s) E /\ forall k, cd_count d <= k -> s2_name s <> generated owner k.
Definition no_generated (owner : string) (E : list string) : Prop := forall x k, In x E -> x <> generated owner k.

Lemma mine_weaken owner E c c' E2 c2 c2' x : (forall y, In y E -> In y E2) -> c2 <= c -> c' <= c2' -> mine owner E c c' x -> mine owner E2 c2 c2' x.
Proof. intros HE H1 H2 [H | (k & Hk & ->)]; [left; auto | right; exists k; split; [lia | reflexivity]]. Qed.
Lemma mine_disj owner E E' a b c x : no_generated owner E -> no_generated owner E' -> (forall y, In y E -> ~ In y E') ->
  mine owner E a b x -> mine owner E' b c x -> False.
Proof.
  intros N N' D [H | (k & Hk & ->)] [H' | (k' & Hk' & E2)].
  - exact (D _ H H').
  - subst x. exact (N _ _ H eq_refl).
  - exact (N' _ _ H' eq_refl).
  - apply generated_inj in E2. lia.
Qed.
Lemma grew_refl owner E I d : grew owner E I d d [] [].
Proof. constructor; rewrite ?app_nil_r; auto; [constructor | intros x []]. Qed.
Lemma NoDup_swap {A} (a b c d : list A) : NoDup ((a ++ b) ++ (c ++ d)) -> NoDup ((a ++ c) ++ (b ++ d)).
Proof.
  intros H. apply (Permutation.Permutation_NoDup (l := (a ++ b) ++ (c ++ d))); [|exact H].
  rewrite <- !app_assoc. apply Permutation.Permutation_app_head. rewrite !app_assoc. apply Permutation.Permutation_app_tail. apply Permutation.Permutation_app_comm.
Qed.
Lemma In_swap {A} (a b c d : list A) x : In x ((a ++ c) ++ (b ++ d)) <-> In x (a ++ b) \/ In x (c ++ d).
Proof. rewrite !in_app_iff. tauto. Qed.
Lemma grew_trans owner E E' I I' d d1 d2 np ns np' ns' :
  NoDup (E ++ E') -> no_generated owner (E ++ E') ->
  grew owner E I d d1 np ns -> grew owner E' I' d1 d2 np' ns' -> grew owner (E ++ E') (I ++ I') d d2 (np ++ np') (ns ++ ns').
Proof.
  intros ND NG [P1 S1 C1 N1 M1 U1 V1] [P2 S2 C2 N2 M2 U2 V2].
  assert (no_generated owner E) as NGE by (intros x k Hx; apply NG; apply in_or_app; left; exact Hx).
  assert (no_generated owner E') as NGE' by (intros x k Hx; apply NG; apply in_or_app; right; exact Hx).
  constructor.
  - rewrite P2, P1, app_assoc. reflexivity.
  - rewrite S2, S1, app_assoc. reflexivity.
  - lia.
  - unfold added_names in *. rewrite !map_app. apply NoDup_swap. apply NoDup_app_intro; [exact N1 | exact N2 |].
    intros x Hx Hx'. refine (mine_disj owner E E' _ _ _ x NGE NGE' _ (M1 x Hx) (M2 x Hx')). intros y Hy Hy'. exact (NoDup_app_disj _ _ y ND Hy Hy').
  - intros x. unfold added_names. rewrite !map_app, In_swap. intros [Hx | Hx].
    + apply (mine_weaken owner E (cd_count d) (cd_count d1)); [intros; apply in_or_app; auto | lia | lia | exact (M1 x Hx)].
    + apply (mine_weaken owner E' (cd_count d1) (cd_count d2)); [intros; apply in_or_app; auto | lia | lia | exact (M2 x Hx)].
  - intros F G HF HG. apply Forall_app. split.
    + eapply Forall_impl; [|apply (U1 F G); [intros x Hx; apply HF; rewrite P2; apply in_or_app; auto | intros x Hx; apply HG; rewrite S2; apply in_or_app; auto]].
      intros p2 (p & Hp & Hs). exists p. split; [apply in_or_app; auto | exact Hs].
    + eapply Forall_impl; [|exact (U2 F G HF HG)]. intros p2 (p & Hp & Hs). exists p. split; [apply in_or_app; auto | exact Hs].
  - apply Forall_app. split; [eapply Forall_impl; [|exact V1] | eapply Forall_impl; [|exact V2]]; intros s; apply from_data_mono; intros x Hx; apply in_or_app; auto.
Qed.
Lemma fresh_next owner E E' I d d1 np ns : NoDup (E ++ E') -> no_generated owner (E ++ E') -> fresh owner (E ++ E') d -> grew owner E I d d1 np ns -> fresh owner E' d1.
Proof.
  intros ND NG F [P1 S1 C1 N1 M1 _ _] s Hs. rewrite S1 in Hs. apply in_app_or in Hs. destruct Hs as [Hs | Hs].
  - destruct (F s Hs) as [H1 H2]. split; [intros H; apply H1; apply in_or_app; auto | intros k Hk; apply H2; lia].
  - assert (mine owner E (cd_count d) (cd_count d1) (s2_name s)) as M by (apply M1; apply in_or_app; right; apply in_map; exact Hs). destruct M as [M | (k & Hk & M)].
    + split; [exact (fun H => NoDup_app_disj _ _ _ ND M H) | intros k _; apply NG; apply in_or_app; auto].
    + split; [intros H; rewrite M in H; exact (NG _ k (in_or_app _ _ _ (or_intror H)) eq_refl) | intros k' Hk' H; rewrite M in H; apply generated_inj in H; lia].
Qed.

Definition value_spec (v : v1_value) : Prop := forall s owner d is_data top,
  tidy_v is_data top s v -> NoDup (names_v v) -> no_generated owner (names_v v) -> fresh owner (names_v v) d ->
  match conv_value v s (Some owner) d with
  | CPanic => True
  | CErr _ d' => exists np ns, grew owner (names_v v) (inside_v v) d d' np ns
  | COk m d' => exists np ns, grew owner (names_v v) (inside_v v) d d' np ns /\
      forall F G, incl (cd_params d') F -> incl (cd_series d') G -> pre_value F G v m
  end.
Definition values_spec (vs : list (string * fsort * v1_value)) : Prop := forall mk owner d is_data top,
  tidy_vs is_data top vs -> NoDup (names_vs vs) -> no_generated owner (names_vs vs) -> fresh owner (names_vs vs) d ->
  match conv_values conv_value mk (Some owner) vs d with
  | CPanic => True
  | CErr e d' => (exists attr, e = mk attr) /\ exists np ns, grew owner (names_vs vs) (inside_vs vs) d d' np ns
  | COk ms d' => exists np ns, grew owner (names_vs vs) (inside_vs vs) d d' np ns /\
      forall F G, incl (cd_params d') F -> incl (cd_series d') G -> pre_values F G vs ms
  end.
(** A parameter: what it adds, and its own name. *)
Definition param_spec (p : v1_param) : Prop := forall owner d is_data,
  tidy_p is_data p -> NoDup (names_p p) -> no_generated owner (names_p p) -> fresh owner (names_p p) d ->
  match conv_param p (Some owner) d with
  | CPanic => True
  | CErr e d' => (forall n, given_name p = Some n -> exists attr, e = ErParameter n attr) /\ exists np ns, grew owner (names_p p) (inside_p p) d d' np ns
  | COk (IsParam p2) d' => exists np ns,
      grew owner (names_p p) (inside_p p) d (mkData (cd_count d') (cd_params d' ++ [p2]) (cd_series d')) (np ++ [p2]) ns /\ cd_params d' = cd_params d ++ np /\
      forall F G, incl (cd_params d') F -> incl (cd_series d') G -> pre_param F G p p2
  | COk (IsSeries n r) d' => locatable p = true /\ (exists ns, grew owner (names_p p) (inside_p p) d d' [] ns) /\ (forall m, given_name p = Some m -> n = m) /\
      forall G, incl (cd_series d') G -> reads G p r
  end.

Lemma values_spec_list vs : Forall (fun x => value_spec (snd x)) vs -> values_spec vs.
Proof.
  induction 1 as [|[[attr s] v] vs Hv _ IH]; intros mk owner d is_data top Ht ND NG F.
  - cbn. exists [], []. split; [apply grew_refl | intros; constructor].
  - cbn [snd] in Hv. change (names_vs ((attr, s, v) :: vs)) with (names_v v ++ names_vs vs) in *. change (inside_vs ((attr, s, v) :: vs)) with (inside_v v ++ inside_vs vs). unfold tidy_vs in Ht. rewrite Forall_cons_iff in Ht. destruct Ht as [Ht Hts]. cbn [fst snd] in Ht.
    cbn [conv_values]. specialize (Hv s owner d is_data top Ht (NoDup_app_l _ _ ND)).
    assert (no_generated owner (names_v v)) as NGv by (intros x k Hx; apply NG; apply in_or_app; auto).
    assert (fresh owner (names_v v) d) as Fv by (intros x Hx; destruct (F x Hx) as [F1 F2]; split; [intros H; apply F1; apply in_or_app; auto | exact F2]).
    specialize (Hv NGv Fv).
    assert (no_generated owner (names_vs vs)) as NGs by (intros x k Hx; apply NG; apply in_or_app; auto).
    destruct (conv_value v s (Some owner) d) as [m d1 | e d1 |]; cbn [wrap cbind]; [| |exact I].
    + destruct Hv as (np & ns & Hg & Hm). specialize (IH mk owner d1 is_data top Hts (NoDup_app_r _ _ ND) NGs (fresh_next _ _ _ _ _ _ _ _ ND NG F Hg)).
      destruct (conv_values conv_value mk (Some owner) vs d1) as [ms d2 | e d2 |]; cbn [cbind]; [| |exact I].
      * destruct IH as (np' & ns' & Hg' & Hms). exists (np ++ np'), (ns ++ ns'). split; [exact (grew_trans _ _ _ _ _ _ _ _ _ _ _ _ ND NG Hg Hg')|].
        intros FF GG HF HG. constructor; [|exact (Hms FF GG HF HG)]. apply Hm.
        -- intros x Hx. apply HF. rewrite (gr_params _ _ _ _ _ _ _ Hg'). apply in_or_app. auto.
        -- intros x Hx. apply HG. rewrite (gr_series _ _ _ _ _ _ _ Hg'). apply in_or_app. auto.
      * destruct IH as (He & np' & ns' & Hg'). split; [exact He|]. exists (np ++ np'), (ns ++ ns'). exact (grew_trans _ _ _ _ _ _ _ _ _ _ _ _ ND NG Hg Hg').
    + split; [exists attr; reflexivity|]. destruct Hv as (np & ns & [P1 S1 C1 N1 M1 U1 V1]). exists np, ns. constructor; try assumption;
      [intros x Hx | intros FF GG HF HG; eapply Forall_impl; [|exact (U1 FF GG HF HG)]; intros p2 (p & Hp & Hs); exists p; split; [apply in_or_app; auto | exact Hs]
      | eapply Forall_impl; [|exact V1]; intros x; apply from_data_mono; intros y Hy; apply in_or_app; auto].
      apply (mine_weaken owner (names_v v) (cd_count d) (cd_count d1)); [intros; apply in_or_app; auto | lia | lia | exact (M1 x Hx)].
Qed.

(** *** Names *)
Definition took (owner : string) (meta : option (option string)) (d d' : conv_data) (name : string) : Prop :=
  cd_params d' = cd_params d /\ cd_series d' = cd_series d /\
  match meta with
  | Some (Some n) => name = n /\ cd_count d' = cd_count d
  | _ => name = generated owner (cd_count d) /\ cd_count d' = S (cd_count d)
  end.
Lemma take_name_spec meta owner d name d' : meta <> None -> take_name meta (Some owner) d = (name, d') -> took owner meta d d' name.
Proof.
  intros Hm. destruct meta as [[n|]|]; [| |congruence]; cbn [take_name]; intros E; injection E as <- <-; repeat split.
Qed.
Lemma took_mine owner meta d d' name rest : meta <> None -> took owner meta d d' name ->
  NoDup ((match meta with Some (Some n) => [n] | _ => [] end) ++ rest) -> no_generated owner ((match meta with Some (Some n) => [n] | _ => [] end) ++ rest) ->
  mine owner (match meta with Some (Some n) => [n] | _ => [] end) (cd_count d) (cd_count d') name /\
  forall c', mine owner rest (cd_count d') c' name -> False.
Proof.
  intros Hm (_ & _ & T) ND NG. destruct meta as [[n|]|]; [| |congruence]; destruct T as [-> Hc].
  - split; [left; left; reflexivity|]. intros c' [H | (k & _ & E)].
    + exact (NoDup_app_disj _ _ n ND (or_introl eq_refl) H).
    + exact (NG n k (or_introl eq_refl) E).
  - split; [right; exists (cd_count d); split; [lia | reflexivity]|]. intros c' [H | (k & Hk & E)].
    + exact (NG _ _ H eq_refl).
    + apply generated_inj in E. lia.
Qed.
Lemma took_fresh owner meta d d' name rest : took owner meta d d' name -> fresh owner ((match meta with Some (Some n) => [n] | _ => [] end) ++ rest) d -> fresh owner rest d'.
Proof.
  intros (_ & Hs & T) F s Hin. rewrite Hs in Hin. destruct (F s Hin) as [F1 F2]. split; [intros H; apply F1; apply in_or_app; auto|].
  intros k Hk. apply F2. destruct meta as [[n|]|]; destruct T as [_ T]; lia.
Qed.
Lemma took_count owner meta d d' name : took owner meta d d' name -> cd_count d <= cd_count d'.
Proof. intros (_ & _ & T). destruct meta as [[n|]|]; destruct T as [_ T]; lia. Qed.

(** The values of a parameter after its name has been taken. *)
Lemma grew_after owner meta I I' d d1 d' name rest np ns : incl I I' -> took owner meta d d1 name -> grew owner rest I d1 d' np ns ->
  grew owner ((match meta with Some (Some n) => [n] | _ => [] end) ++ rest) I' d d' np ns.
Proof.
  intros HI T [P S C N M U V]. pose proof (took_count _ _ _ _ _ T) as Hc. destruct T as (Tp & Ts & _). constructor; [rewrite P, Tp; reflexivity | rewrite S, Ts; reflexivity | lia | exact N | | |].
  - intros x Hx. apply (mine_weaken owner rest (cd_count d1) (cd_count d')); [intros; apply in_or_app; auto | lia | lia | exact (M x Hx)].
  - intros FF GG HF HG. eapply Forall_impl; [|exact (U FF GG HF HG)]. intros p2 (p & Hp & Hs). exists p. auto.
  - eapply Forall_impl; [|exact V]. intros x. apply from_data_mono. exact HI.
Qed.

Lemma is_whole_value q : is_whole q = true -> (q == inject_Z (Z.of_nat (Z.to_nat (Qnum (Qred q)))))%Q.
Proof.
  unfold is_whole. rewrite Bool.andb_true_iff, Pos.eqb_eq, Z.leb_le. intros [Hd Hn]. rewrite Z2Nat.id by exact Hn.
  rewrite <- (Qred_correct q) at 1. destruct (Qred q) as [n dd]. cbn [Qnum Qden] in *. subst dd. reflexivity.
Qed.

Lemma given_meta kind meta values other e : given (PCore kind meta values other e) = match meta with Some (Some n) => [n] | _ => [] end.
Proof. destruct meta as [[n|]|]; reflexivity. Qed.

Lemma core_spec kind meta values other e : values_spec values -> param_spec (PCore kind meta values other e).
Proof.
  intros Hvs owner d is_data Ht. rewrite names_core, given_meta, inside_core. apply tidy_core in Ht. destruct Ht as (Hm & He & Hts). intros ND NG F. cbn [conv_param].
  assert (no_generated owner (names_vs values)) as NGs by (intros x k Hx; apply NG; apply in_or_app; auto).
  assert (forall x : v1_param, incl (inside_vs values) (x :: inside_vs values)) as HI by (intros x y Hy; right; exact Hy).
  destruct e as [| | attr | attr | |]; [| | | |congruence|exact I].
  - destruct (take_name meta (Some owner) d) as [name d1] eqn:Et. apply (take_name_spec _ _ _ _ _ Hm) in Et. cbn [or_name].
    specialize (Hvs (ErParameter name) owner d1 is_data false Hts (NoDup_app_r _ _ ND) NGs (took_fresh _ _ _ _ _ _ Et F)).
    destruct (conv_values conv_value (ErParameter name) (Some owner) values d1) as [ms d' | er d' |]; cbn [cbind]; [| |exact I].
    + destruct Hvs as (np & ns & Hg & Hms). exists np, ns.
      pose proof (took_mine _ _ _ _ _ _ Hm Et ND NG) as [Hmine Hnot].
      pose proof (grew_after _ _ _ _ _ _ _ _ _ _ _ (HI (PCore kind meta values other EndOk)) Et Hg) as [P S C N M U V].
      split; [constructor; cbn [cd_params cd_series cd_count p2_name]|split; [exact P|]].
      * rewrite P, app_assoc. reflexivity.
      * exact S.
      * exact C.
      * unfold added_names in *. rewrite map_app. cbn [map p2_name]. rewrite <- (app_nil_r (map s2_name ns)). apply NoDup_swap. rewrite app_nil_r. apply NoDup_app_intro; [exact N | repeat constructor; intros [] |].
        intros x Hx [<- | []]. exact (Hnot _ (gr_mine _ _ _ _ _ _ _ Hg _ Hx)).
      * intros x Hx. unfold added_names in Hx. rewrite map_app in Hx. cbn [map p2_name] in Hx. rewrite !in_app_iff in Hx. destruct Hx as [[Hx | [<- | []]] | Hx].
        -- apply M. apply in_or_app. auto.
        -- refine (mine_weaken owner _ (cd_count d) (cd_count d1) _ (cd_count d) (cd_count d') _ _ (le_n _) _ Hmine); [intros y Hy; apply in_or_app; left; exact Hy | exact (gr_count _ _ _ _ _ _ _ Hg)].
        -- apply M. apply in_or_app. auto.
      * intros FF GG HF HG. cbn [cd_params cd_series] in HF, HG.
        assert (incl (cd_params d') FF) as HF' by (intros x Hx; apply HF; apply in_or_app; auto).
        apply Forall_app. split; [exact (U FF GG HF' HG)|]. constructor; [|constructor]. eexists. split; [left; reflexivity|]. constructor; try reflexivity; [|exact (Hms FF GG HF' HG)].
        intros n ->. destruct Et as (_ & _ & -> & _). reflexivity.
      * exact V.
      * intros FF GG HF HG. constructor; try reflexivity; [|exact (Hms FF GG HF HG)]. intros n ->. destruct Et as (_ & _ & -> & _). reflexivity.
    + destruct Hvs as ((attr & ->) & np & ns & Hg). split.
      * intros n E. exists attr. destruct meta as [[m|]|]; cbn in E; try congruence. injection E as ->. destruct Et as (_ & _ & -> & _). reflexivity.
      * exists np, ns. exact (grew_after _ _ _ _ _ _ _ _ _ _ _ (HI _) Et Hg).
  - split; [|exists [], []; apply grew_refl]. intros n E. exists "". unfold own_name. destruct meta as [[m|]|]; cbn in E; try congruence. 
  - destruct (take_name meta (Some owner) d) as [name d1] eqn:Et. apply (take_name_spec _ _ _ _ _ Hm) in Et. split.
    + intros n E. exists attr. destruct meta as [[m|]|]; cbn in E; try congruence. injection E as ->. destruct Et as (_ & _ & -> & _). reflexivity.
    + exists [], []. refine (grew_after _ _ _ _ _ _ _ _ _ _ _ (HI _) Et _). apply grew_refl.
  - destruct (take_name meta (Some owner) d) as [name d1] eqn:Et. apply (take_name_spec _ _ _ _ _ Hm) in Et. cbn [or_name].
    specialize (Hvs (ErParameter name) owner d1 is_data false Hts (NoDup_app_r _ _ ND) NGs (took_fresh _ _ _ _ _ _ Et F)).
    assert (forall a n, given_name (PCore kind meta values other (EndLate attr)) = Some n -> exists attr, ErParameter name a = ErParameter n attr) as Hname.
    { intros a n E. exists a. destruct meta as [[m|]|]; cbn in E; try congruence. injection E as ->. destruct Et as (_ & _ & -> & _). reflexivity. }
    destruct (conv_values conv_value (ErParameter name) (Some owner) values d1) as [ms d' | er d' |]; cbn [cbind]; [| |exact I].
    + destruct Hvs as (np & ns & Hg & _). split; [exact (Hname attr)|]. exists np, ns. exact (grew_after _ _ _ _ _ _ _ _ _ _ _ (HI _) Et Hg).
    + destruct Hvs as ((a & ->) & np & ns & Hg). split; [exact (Hname a)|]. exists np, ns. exact (grew_after _ _ _ _ _ _ _ _ _ _ _ (HI _) Et Hg).
Qed.

Lemma data_spec meta u t c s : param_spec (PData meta u t c s).
Proof.
  intros owner d is_data Hm ND NG F. cbn [tidy_p] in Hm. cbn [conv_param]. unfold conv_dataframe.
  assert (names_p (PData meta u t c s) = match meta with Some (Some n) => [n] | _ => [] end ++ []) as En by (destruct meta as [[n|]|]; reflexivity).
  rewrite En in *. clear En. change (inside_p (PData meta u t c s)) with [PData meta u t c s].
  destruct (take_name meta (Some owner) d) as [name d1] eqn:Et. apply (take_name_spec _ _ _ _ _ Hm) in Et.
  pose proof (took_mine _ _ _ _ _ _ Hm Et ND NG) as [Hmine _].
  assert (forall a n, given_name (PData meta u t c s) = Some n -> exists attr, ErParameter name a = ErParameter n attr) as Hname.
  { intros a n E. exists a. destruct meta as [[m|]|]; cbn in E; try congruence. injection E as ->. destruct Et as (_ & _ & -> & _). reflexivity. }
  assert (forall n, given_name (PData meta u t c s) = Some n -> name = n) as Hname'.
  { intros n E. destruct (Hname "" n E) as (a & E'). congruence. }
  assert (grew owner (match meta with Some (Some n) => [n] | _ => [] end ++ []) [PData meta u t c s] d d1 [] []) as G0 by (refine (grew_after _ _ _ _ _ _ _ _ _ _ _ (incl_refl _) Et _); apply grew_refl).
  destruct u as [u|].
  - assert (existsb (fun s0 => String.eqb (s2_name s0) name) (cd_series d1) = false) as Ex.
    { destruct (existsb _ _) eqn:Ex; [|reflexivity]. exfalso. apply existsb_exists in Ex. destruct Ex as (s0 & Hs0 & E). apply String.eqb_eq in E.
      destruct Et as (_ & Es & Tn). rewrite Es in Hs0. destruct (F s0 Hs0) as [F1 F2]. destruct meta as [[n|]|]; [| |congruence]; destruct Tn as [-> _].
      - apply F1. rewrite E. left. reflexivity.
      - exact (F2 _ (le_n _) E). }
    rewrite Ex.
    assert (grew owner (match meta with Some (Some n) => [n] | _ => [] end ++ []) [PData meta (Some u) t c s] d (mkData (cd_count d1) (cd_params d1) (cd_series d1 ++ [mkV2Series name u])) [] [mkV2Series name u]) as G1.
    { pose proof (took_count _ _ _ _ _ Et) as Hc. destruct Et as (Ep & Es & _). constructor; cbn [cd_params cd_series cd_count].
      - rewrite Ep, app_nil_r. reflexivity.
      - rewrite Es. reflexivity.
      - exact Hc.
      - cbn. repeat constructor; intros [].
      - intros x [<- | []]. rewrite app_nil_r. exact Hmine.
      - constructor.
      - constructor; [|constructor]. exists meta, t, c, s. split; [left; reflexivity|]. cbn [s2_name]. intros n ->. exact (Hname' n eq_refl). }
    destruct c as [c|], s as [s|].
    + split; [exact (Hname "column")|]. exists [], [mkV2Series name u]. exact G1.
    + split; [reflexivity|]. split; [exists [mkV2Series name u]; exact G1|]. split; [exact Hname'|].
      intros G HG. cbn. split; [apply HG; cbn; apply in_or_app; right; left; reflexivity|]. repeat split. exact Hname'.
    + split; [reflexivity|]. split; [exists [mkV2Series name u]; exact G1|]. split; [exact Hname'|].
      intros G HG. cbn. split; [apply HG; cbn; apply in_or_app; right; left; reflexivity|]. repeat split. exact Hname'.
    + split; [reflexivity|]. split; [exists [mkV2Series name u]; exact G1|]. split; [exact Hname'|].
      intros G HG. cbn. split; [apply HG; cbn; apply in_or_app; right; left; reflexivity|]. repeat split. exact Hname'.
  - destruct t as [t|].
    + destruct c as [c|], s as [s|].
      * split; [exact (Hname "column")|]. exists [], []. exact G0.
      * split; [reflexivity|]. split; [exists []; exact G0|]. split; [exact Hname'|]. intros G _. cbn. auto.
      * split; [reflexivity|]. split; [exists []; exact G0|]. split; [exact Hname'|]. intros G _. cbn. auto.
      * split; [reflexivity|]. split; [exists []; exact G0|]. split; [exact Hname'|]. intros G _. cbn. auto.
    + split; [exact (Hname "url")|]. exists [], []. exact G0.
Qed.

Theorem conversion_spec : (forall v, value_spec v) /\ (forall p, param_spec p).
Proof.
  apply v1_induction.
  - intros q s owner d is_data top _ _ _ _. destruct s; cbn [conv_value].
    + exists [], []. split; [apply grew_refl | intros; constructor].
    + destruct (is_whole q) eqn:E; exists [], []; [split; [apply grew_refl | intros; constructor; exact (is_whole_value q E)] | apply grew_refl].
  - intros n s owner d is_data top _ _ _ _. cbn [conv_value]. exists [], []. split; [apply grew_refl | intros; constructor; intros []].
  - intros t ok s owner d is_data top _ _ _ _. cbn [conv_value]. destruct ok; exists [], []; [split; [apply grew_refl | intros; constructor] | apply grew_refl].
  - intros p Hp s owner d is_data top Ht ND NG F. cbn [conv_value names_v tidy_v] in *. specialize (Hp owner d is_data Ht ND NG F).
    destruct (conv_param p (Some owner) d) as [r d' | e d' |]; cbn [cbind]; [|exact (proj2 Hp)|exact I]. destruct r as [p2 | n r].
    + destruct Hp as (np & ns & Hg & _ & Hm). exists (np ++ [p2]), ns. split; [exact Hg|]. cbn [cd_params cd_series]. intros FF GG HF HG. apply same_inline.
      * apply HF. apply in_or_app. right. left. reflexivity.
      * apply Hm; [intros x Hx; apply HF; apply in_or_app; auto | exact HG].
    + destruct Hp as (_ & (ns & Hg) & _ & Hr). exists [], ns. split; [exact Hg|]. intros FF GG _ HG. apply same_inline_data. exact (Hr GG HG).
  - intros kind meta values other e H. apply core_spec. apply values_spec_list. exact H.
  - intros. apply data_spec.
Qed.
Lemma values_ok vs : values_spec vs.
Proof. apply values_spec_list. apply Forall_forall. intros x _. apply conversion_spec. Qed.

(** A parameter of the file itself: its name takes the place of the owner. *)
Lemma conv_global p n d : given_name p = Some n -> conv_param p None d = conv_param p (Some n) d.
Proof.
  destruct p as [kind meta values other e | meta u t c s]; destruct meta as [[m|]|]; cbn [given_name]; try discriminate; intros E; injection E as ->; reflexivity.
Qed.
