(** C73: model files of several networks. *)
From Coq Require Import QArith.
From Verif Require Import Base Scenario Calendar Timestep Run MultiNetwork MultiNetworkSpec MultiNetworkLemmas NetworkBuildLemmas Props_Multi.
From Verif Require Import SchemaDomain SchemaMulti SchemaMultiSpec SchemaMultiLemmas.
Local Open Scope string_scope. Local Open Scope list_scope. Local Open Scope nat_scope.

(** The model builder accepts lists of networks with different names whose
    transfers are from others and have different names. *)
Section Total.
Context {E Builder Net Maps Unresolved Metric : Type}.
Variable build_network : Builder -> list (string * nat) -> res E (Net * Maps).
Variable resolve : Maps -> Unresolved -> res E Metric.
Hypothesis Hbuild : forall b numbers, exists nm, build_network b numbers = Ok nm.
Hypothesis Hres : forall maps u, exists m, resolve maps u = Ok m.

Lemma transfers_map_total net (ts : list (transfer_builder (Unresolved := Unresolved))) : forall i m,
  NoDup (map tb_name ts) -> (forall t, In t ts -> lookup (tb_name t) m = None) -> exists m', transfers_map (E := E) net i ts m = Ok m'.
Proof.
  induction ts as [|t ts IH]; intros i m Hnd Hm; [exists m; reflexivity|]. cbn [transfers_map]. rewrite (Hm t (or_introl eq_refl)).
  cbn [map] in Hnd. apply NoDup_cons_iff in Hnd. destruct Hnd as [Hni Hnd]. apply IH; [exact Hnd|]. intros t' Ht'.
  rewrite lookup_app, (Hm t' (or_intror Ht')). cbn. destruct (String.eqb_spec (tb_name t) (tb_name t')) as [He|]; [|reflexivity].
  exfalso. apply Hni. rewrite He. apply in_map. exact Ht'.
Qed.
Lemma build_networks_total (bs : list (entry_builder (Builder := Builder) (Unresolved := Unresolved))) : forall i m,
  NoDup (map eb_name bs) -> (forall b, In b bs -> lookup (eb_name b) m = None) -> (forall b, In b bs -> NoDup (map tb_name (eb_transfers b))) ->
  exists nets maps m', build_networks build_network i bs m = Ok (nets, maps, m') /\
    map (fun n => (fst (fst n), snd n)) nets = map (fun b => (eb_name b, eb_transfers b)) bs.
Proof.
  induction bs as [|b bs IH]; intros i m Hnd Hm Ht; [exists [], [], m; split; reflexivity|]. cbn [build_networks].
  destruct (transfers_map_total (eb_name b) (eb_transfers b) 0 [] (Ht b (or_introl eq_refl)) (fun _ _ => eq_refl)) as (tm & ->). cbn [rbind].
  destruct (Hbuild (eb_network b) tm) as (nm & ->). cbn [tag rbind]. rewrite (Hm b (or_introl eq_refl)).
  cbn [map] in Hnd. apply NoDup_cons_iff in Hnd. destruct Hnd as [Hni Hnd].
  destruct (IH (S i) (m ++ [(eb_name b, i)]) Hnd) as (nets & maps & m' & -> & Hmap).
  - intros b' Hb'. rewrite lookup_app, (Hm b' (or_intror Hb')). cbn. destruct (String.eqb_spec (eb_name b) (eb_name b')) as [He|]; [|reflexivity].
    exfalso. apply Hni. rewrite He. apply in_map. exact Hb'.
  - intros b' Hb'. exact (Ht b' (or_intror Hb')).
  - cbn [rbind]. eexists. eexists. eexists. split; [reflexivity|]. cbn [map fst snd]. rewrite Hmap. reflexivity.
Qed.
Lemma build_multi_total (bs : list (entry_builder (Builder := Builder) (Unresolved := Unresolved))) : NoDup (map eb_name bs) ->
  (forall b t, In b bs -> In t (eb_transfers b) -> tb_from t <> eb_name b /\ In (tb_from t) (map eb_name bs)) ->
  (forall b, In b bs -> NoDup (map tb_name (eb_transfers b))) -> exists es, build_multi build_network resolve bs = Ok es.
Proof.
  intros Hnd Hfrom Htn. unfold build_multi.
  destruct (build_networks_total bs 0 [] Hnd (fun _ _ => eq_refl) Htn) as (nets & maps & m & Hb & Hmap). rewrite Hb. cbn [rbind].
  destruct (build_networks_spec (X := unit) build_network resolve (fun _ _ _ => Panic) (fun _ => []) 0 bs [] nets maps m Hb) as (Hm & _ & _ & Hln & Hlm & _). cbn [app] in Hm.
  assert (Hlook : forall n, In n (map eb_name bs) -> exists k, lookup n m = Some k /\ nth_error (map eb_name bs) k = Some n).
  { intros n Hin. apply In_nth_error in Hin. destruct Hin as [k Hk]. exists k. split; [|exact Hk]. rewrite Hm, <- (map_length eb_name).
    exact (lookup_combine_seq _ 0 k n Hnd Hk). }
  assert (Hn : forall k n, nth_error nets k = Some n -> nth_error (map eb_name bs) k = Some (fst (fst n)) /\
            forall t, In t (snd n) -> tb_from t <> fst (fst n) /\ In (tb_from t) (map eb_name bs)).
  { intros k n Hk. apply (map_nth_error (fun n => (fst (fst n), snd n))) in Hk. rewrite Hmap, nth_error_map in Hk. destruct (nth_error bs k) as [b|] eqn:Eb; [|discriminate Hk].
    cbn in Hk. injection Hk as Hk1 Hk2. rewrite nth_error_map, Eb. cbn. rewrite <- Hk1, <- Hk2. split; [reflexivity|]. intros t Ht. exact (Hfrom b t (nth_error_In _ _ Eb) Ht). }
  assert (G : forall l me, (forall k n, nth_error l k = Some n -> nth_error nets (me + k) = Some n) -> exists es, build_entries resolve m maps me l = Ok es).
  { induction l as [|[[name net] ts] l IH]; intros me Hl; [exists []; reflexivity|]. cbn [build_entries].
    pose proof (Hl 0 _ eq_refl) as H0. rewrite Nat.add_0_r in H0. destruct (Hn _ _ H0) as [Hname Hts]. cbn [fst snd] in *.
    assert (Hr : exists trs, rmap (build_transfer (E := E) resolve m maps me name) ts = Ok trs).
    { clear H0 IH Hl. induction ts as [|t ts IHt]; [exists []; reflexivity|]. cbn [rmap]. unfold build_transfer at 1.
      destruct (Hts t (or_introl eq_refl)) as [Ha Hi]. destruct (Hlook _ Hi) as (k & -> & Hk).
      destruct (nth_error_lt_Some maps k) as [mp Hmp]; [rewrite Hlm, <- (map_length eb_name); exact (nth_error_Some_lt _ _ _ Hk)|]. unfold index_or_panic. rewrite Hmp. cbn [rbind].
      destruct (Hres mp (tb_metric t)) as (mm & ->). cbn [tag rbind].
      destruct (from_indices k me) as [fr|] eqn:Ef.
      - cbn [rbind]. destruct IHt as (trs & ->); [intros t' Ht'; exact (Hts t' (or_intror Ht'))|]. cbn. eauto.
      - exfalso. unfold from_indices in Ef. destruct (k ?= me) eqn:Ec; try discriminate Ef. apply Nat.compare_eq_iff in Ec. subst k. congruence. }
    destruct Hr as (trs & ->). cbn [rbind]. destruct (IH (S me)) as (es & ->); [|cbn; eauto].
    intros k n Hk. replace (S me + k) with (me + S k) by lia. exact (Hl (S k) n Hk). }
  apply (G nets 0). intros k n Hk. exact Hk.
Qed.
End Total.

Section C73.
Set Default Proof Using "Type".
Context {E Schema Loaded Builder FileMetric Unresolved Net Maps Metric X : Type}.
Notation file_transfer := (file_transfer (FileMetric := FileMetric)).
Notation file_entry := (file_entry (Schema := Schema) (FileMetric := FileMetric)).
Notation entry := (entry (Net := Net) (Metric := Metric)).
Variable read : path -> res E Schema.
Variable add_to_network : Schema -> model_domain -> option path -> list file_transfer -> res E (Builder * Loaded).
Variable load_metric : Loaded -> model_domain -> option path -> FileMetric -> Builder -> res E (Builder * Unresolved).
Variable build_network : Builder -> list (string * nat) -> res E (Net * Maps).
Variable resolve : Maps -> Unresolved -> res E Metric.
Variable get_value : Metric -> Net -> local (X := X) -> res E Q.
Variable operations : Net -> list (timestep -> scenario_index -> list Q -> X -> res E X).
Variable initial : Net -> scenario_index -> res E X.

Lemma file_parts fuel ft fs dp (file : list file_entry) dom bs (es : list entry) :
  create_model read add_to_network load_metric fuel ft fs dp file = Ok (dom, bs) -> build_multi build_network resolve bs = Ok es ->
  domain_of_file fuel ft fs = Ok dom /\ NoDup (map fe_name file) /\ length es = length file /\ (length bs = length file /\ map eb_name bs = map fe_name file) /\
  (forall k f, nth_error file k = Some f -> exists b, nth_error bs k = Some b /\ eb_name b = fe_name f /\ Forall2 carries (fe_transfers f) (eb_transfers b)) /\
  (forall k f e b maps, nth_error file k = Some f -> nth_error es k = Some e -> nth_error bs k = Some b -> built_from build_network b e maps ->
     exists L b0, network_of read add_to_network load_metric build_network dom dp file f e L b0 (eb_network b) maps /\
       forall k' f' b' i t tb, nth_error file k' = Some f' -> nth_error bs k' = Some b' -> nth_error (fe_transfers f') i = Some t ->
         nth_error (eb_transfers b') i = Some tb -> xf_from t = fe_name f ->
         forall m, resolve maps (tb_metric tb) = Ok m -> metric_of load_metric resolve dom dp file t L b0 (eb_network b) maps m).
Proof.
  intros Hc Hb. unfold create_model in Hc. apply rbind_Ok in Hc. destruct Hc as (dom' & Hdom & Hc).
  apply rbind_Ok in Hc. destruct Hc as ([nets m] & Hnets & Hc). apply rbind_Ok in Hc. destruct Hc as ([nets' tbss] & Htr & Hc). injection Hc as -> <-. cbn [fst snd] in *.
  assert (Hdom' : domain_of_file fuel ft fs = Ok dom) by (destruct (domain_of_file fuel ft fs); congruence || discriminate Hdom).
  destruct (load_networks_Ok _ _ _ _ _ _ _ _ _ Hnets) as [HF Hm]. rewrite app_nil_r in Hm.
  destruct (load_all_flat _ _ _ _ _ _ _ _ Htr) as [Hflat Hcar].
  assert (Hl1 : length nets = length file) by (symmetry; exact (Forall2_length' _ _ _ HF)).
  assert (Hl2 : length nets' = length file) by (rewrite (load_transfers_length _ _ _ _ _ _ _ _ Hflat); exact Hl1).
  assert (Hl3 : length tbss = length file) by (symmetry; exact (Forall2_length' _ _ _ Hcar)).
  destruct (make_entries_spec file nets' tbss Hl2 Hl3) as [Hnames Hent].
  destruct (C35_build build_network resolve _ _ Hb) as (Hnd & Hlen & _).
  rewrite Hnames in Hnd.
  assert (Hlb : length (make_entries file nets' tbss) = length file) by (rewrite <- (map_length eb_name), Hnames, map_length; reflexivity).
  split; [exact Hdom'|]. split; [exact Hnd|]. split; [congruence|]. split; [exact (conj Hlb Hnames)|]. split.
  { intros k f Hk. destruct (Hent k f Hk) as (n & tbs & _ & Ht & He). exists (EntryBuilder (fe_name f) (fst n) tbs). split; [exact He|]. split; [reflexivity|].
    exact (Forall2_nth_error _ _ _ _ _ _ Hcar Hk Ht). }
  intros k f e b maps Hk He Hbk [Hen (numbers & Hbn & Hnum)].
  destruct (Hent k f Hk) as (n & tbs & Hn' & Ht & Hmk). rewrite Hmk in Hbk. injection Hbk as <-. cbn [eb_network eb_transfers eb_name] in *.
  destruct (nth_error_lt_Some nets k) as [[b0 L] HL]; [rewrite Hl1; exact (nth_error_Some_lt _ _ _ Hk)|].
  pose proof (Forall2_nth_error _ _ _ _ _ _ HF Hk HL) as Hload. cbn beta in Hload. apply load_network_Ok in Hload. destruct Hload as (s & Hs & Hadd).
  assert (Hname : nth_error (map fe_name file) k = Some (fe_name f)) by (rewrite nth_error_map, Hk; reflexivity).
  assert (Hlook : forall n', lookup n' m = Some k <-> n' = fe_name f).
  { rewrite <- (map_length fe_name file) in Hm. rewrite Hm. intros n'. split.
    - intros H. apply lookup_rev_inv in H. congruence.
    - intros ->. apply lookup_rev_map; assumption. }
  destruct (load_transfers_network _ _ _ m (fe_name f) k _ Hlook _ _ _ _ _ Hflat HL) as (b1 & Hb1 & Hprep).
  rewrite Hb1 in Hn'. injection Hn' as <-. cbn [fst] in *.
  exists L, b0. split.
  - split; [exact Hen|]. exists s, numbers. split; [exact Hs|]. split; [exact Hadd|]. split; [exact Hprep|]. split; [exact Hbn|].
    intros i t Hi. pose proof (Forall2_nth_error _ _ _ _ _ _ Hcar Hk Ht) as Hc. cbn beta in Hc.
    destruct (nth_error_lt_Some tbs i) as [tb Htb]; [rewrite <- (Forall2_length' _ _ _ Hc); exact (nth_error_Some_lt _ _ _ Hi)|].
    destruct (Forall2_nth_error _ _ _ _ _ _ Hc Hi Htb) as [Hn _]. rewrite <- Hn. apply Hnum. exact Htb.
  - intros k' f' b' i t tb Hk' Hb' Hi Htb Hfrom mt Hres.
    destruct (Hent k' f' Hk') as (n2 & tbs2 & _ & Ht2 & Hmk2). rewrite Hmk2 in Hb'. injection Hb' as <-. cbn [eb_transfers] in Htb.
    assert (Hk2 : nth_error (map fe_transfers file) k' = Some (fe_transfers f')) by (rewrite nth_error_map, Hk'; reflexivity).
    destruct (concat_split _ k' _ i t Hk2 Hi) as (before & after & Econ & Elen).
    rewrite Econ in Hflat. destruct (load_transfers_one _ _ _ m (fe_name f) k before t after Hlook Hfrom _ _ _ _ _ Hflat HL) as (c1 & c2 & c' & u & tb' & Htb' & Hu & Hc' & Hp1 & Hl & Hp2).
    assert (HF2 : Forall2 (fun l m => length l = length m) (map fe_transfers file) tbss).
    { clear - Hcar. induction Hcar as [|f tbs file tbss H _ IH]; cbn [map]; constructor; [exact (Forall2_length' _ _ _ H) | exact IH]. }
    rewrite Elen, (concat_firstn_length _ _ k' HF2), (concat_nth tbss k' tbs2 i Ht2 (nth_error_Some_lt _ _ _ Htb)), Htb in Htb'. injection Htb' as <-.
    rewrite Hb1 in Hc'. injection Hc' as <-.
    exists (filter (from_is (fe_name f)) before), (filter (from_is (fe_name f)) after), c1, c2, u.
    split; [|split; [exact Hp1|split; [exact Hl|split; [exact Hp2 | rewrite <- Hu; exact Hres]]]].
    unfold asked_of. rewrite Econ, filter_app. cbn [filter]. rewrite Hfrom, String.eqb_refl. reflexivity.
Qed.

(** Every network of the model is the one the entry of the file at its place means,
    no two have the same name, and every transfer names another of them. *)
Theorem C73_networks : forall fuel ft fs dp file dom bs (es : list entry),
  create_model read add_to_network load_metric fuel ft fs dp file = Ok (dom, bs) -> build_multi build_network resolve bs = Ok es ->
  domain_of_file fuel ft fs = Ok dom /\ NoDup (map fe_name file) /\ length es = length file /\
  (forall k f e, nth_error file k = Some f -> nth_error es k = Some e ->
     exists L b0 b maps, network_of read add_to_network load_metric build_network dom dp file f e L b0 b maps) /\
  (forall f t, In f file -> In t (fe_transfers f) -> xf_from t <> fe_name f /\ In (xf_from t) (map fe_name file)).
Proof.
  intros fuel ft fs dp file dom bs es Hc Hb. destruct (file_parts _ _ _ _ _ _ _ _ Hc Hb) as (H1 & H2 & H3 & [H4 H4'] & H5 & H6).
  destruct (C35_build build_network resolve bs es Hb) as (_ & _ & Hbf & Htf).
  split; [exact H1|]. split; [exact H2|]. split; [exact H3|]. split.
  - intros k f e Hk He. destruct (H5 k f Hk) as (b & Hb' & _). destruct (Hbf k b e Hb' He) as (maps & Hm).
    destruct (H6 k f e b maps Hk He Hb' Hm) as (L & b0 & Hn & _). exists L, b0, (eb_network b), maps. exact Hn.
  - intros f t Hf Ht. apply In_nth_error in Hf. destruct Hf as [k Hk]. destruct (H5 k f Hk) as (b & Hb' & Hname & Hcar).
    destruct (Forall2_In_l _ _ _ _ Hcar Ht) as (tb & Htb & Hn & Hfr & _). destruct (Htf b tb (nth_error_In _ _ Hb') Htb) as [Ha Hi].
    rewrite <- Hfr, <- Hname. split; [exact Ha|]. rewrite <- H4'. exact Hi.
Qed.

(** In every time-step of the file, and for every scenario of the file, every
    transfer delivers its metric in the network it names. *)
Theorem C73_run : forall fuel ft fs dp file dom bs (es : list entry) start final,
  create_model read add_to_network load_metric fuel ft fs dp file = Ok (dom, bs) -> build_multi build_network resolve bs = Ok es ->
  setup_multi initial es (dom_indices (md_scenarios dom)) = Ok start ->
  run_multi get_value operations (md_time dom) es (dom_indices (md_scenarios dom)) start = Ok final ->
  exists history, length history = S (length (md_time dom)) /\ nth_error history 0 = Some start /\
    nth_error history (length (md_time dom)) = Some final /\
    forall i t old new, nth_error (md_time dom) i = Some t -> nth_error history i = Some old -> nth_error history (S i) = Some new ->
      file_step read add_to_network load_metric build_network resolve get_value operations dom dp file es (dom_indices (md_scenarios dom)) t old new.
Proof.
  intros fuel ft fs dp file dom bs es start final Hc Hb Hs Hr. destruct (file_parts _ _ _ _ _ _ _ _ Hc Hb) as (H1 & H2 & H3 & [H4 H4'] & H5 & H6).
  destruct (C35_run build_network resolve get_value operations initial bs es _ _ start final Hb (file_domain_numbered _ _ _ _ H1) Hs Hr) as (h & Hh1 & Hh2 & Hh3 & Hh4).
  exists h. split; [exact Hh1|]. split; [exact Hh2|]. split; [exact Hh3|]. intros i t old new Ht Ho Hn.
  destruct (Hh4 i t old new Ht Ho Hn) as [_ Hstep]. clear - Hstep H4 H5 H6.
  intros k f e j s l Hk He Hj Hl. destruct (H5 k f Hk) as (b & Hbk & Hname & Hcar).
  destruct (Hstep k b e j s l Hbk He Hj Hl) as (l' & Hp & Hop & Hlen & Htr). exists l'. split; [exact Hp|]. split; [exact Hop|].
  split; [rewrite Hlen; symmetry; exact (Forall2_length' _ _ _ Hcar)|].
  intros i' tr Hi. destruct (nth_error_lt_Some (eb_transfers b) i') as [tb Htb]; [rewrite <- (Forall2_length' _ _ _ Hcar); exact (nth_error_Some_lt _ _ _ Hi)|].
  destruct (Htr i' tb Htb) as (v & Hv & Hd). exists v. split; [exact Hv|].
  destruct (Forall2_nth_error _ _ _ _ _ _ Hcar Hi Htb) as (Htn & Htf & Hti). unfold delivers in Hd. unfold file_delivers. rewrite <- Hti.
  assert (G : (exists m b e maps metric source,
        nth_error bs m = Some b /\ eb_name b = tb_from tb /\ m <> k /\
        nth_error es m = Some e /\ built_from build_network b e maps /\ resolve maps (tb_metric tb) = Ok metric /\
        (m < k -> place new m j = Some source) /\ (k < m -> place old m j = Some source) /\
        get_value metric (en_network e) source = Ok v) ->
     exists m f e L b0 b maps metric source,
        nth_error file m = Some f /\ fe_name f = xf_from tr /\ m <> k /\ nth_error es m = Some e /\
        network_of read add_to_network load_metric build_network dom dp file f e L b0 b maps /\ metric_of load_metric resolve dom dp file tr L b0 b maps metric /\
        (m < k -> place new m j = Some source) /\ (k < m -> place old m j = Some source) /\
        get_value metric (en_network e) source = Ok v).
  { intros (m & bm & em & maps & metric & source & Hm1 & Hm2 & Hm3 & Hm4 & Hm5 & Hm6 & Hm7 & Hm8 & Hm9).
    destruct (nth_error_lt_Some file m) as [fm Hfm]; [rewrite <- H4; exact (nth_error_Some_lt _ _ _ Hm1)|].
    destruct (H5 m fm Hfm) as (bm' & Hbm' & Hnm & _). rewrite Hm1 in Hbm'. injection Hbm' as <-.
    destruct (H6 m fm em bm maps Hfm Hm4 Hm1 Hm5) as (L & b0 & Hno & Hmo). exists m, fm, em, L, b0, (eb_network bm), maps, metric, source.
    split; [exact Hfm|]. split; [congruence|]. split; [exact Hm3|]. split; [exact Hm4|]. split; [exact Hno|].
    split; [|auto]. apply (Hmo k f b i' tr tb Hk Hbk Hi Htb); [congruence | exact Hm6]. }
  destruct (tb_initial tb) as [x|]; [destruct (is_first t); [exact Hd | exact (G Hd)] | exact (G Hd)].
Qed.

(** Where nothing goes wrong inside a network, a file is accepted exactly if its
    scenarios and dates are, its networks can be read, their names are different,
    every transfer names another network of the file, and the transfers of a
    network have different names. *)
Theorem C73_accepted :
  (forall s dom dp ts, exists bl, add_to_network s dom dp ts = Ok bl) ->
  (forall L dom dp m b, exists r, load_metric L dom dp m b = Ok r) ->
  (forall b numbers, exists nm, build_network b numbers = Ok nm) ->
  (forall maps u, exists m, resolve maps u = Ok m) ->
  forall fuel ft fs dp file dom,
  ((exists bs es, create_model read add_to_network load_metric fuel ft fs dp file = Ok (dom, bs) /\ build_multi build_network resolve bs = Ok es) <->
   domain_of_file fuel ft fs = Ok dom /\
   (forall f, In f file -> exists s, means_schema read dp (fe_network f) s) /\
   NoDup (map fe_name file) /\
   (forall f t, In f file -> In t (fe_transfers f) -> xf_from t <> fe_name f /\ In (xf_from t) (map fe_name file)) /\
   (forall f, In f file -> NoDup (map xf_name (fe_transfers f)))).
Proof.
  intros Hadd Hload Hbuild Hres fuel ft fs dp file dom. split.
  - intros (bs & es & Hc & Hb). destruct (C73_networks _ _ _ _ _ _ _ _ Hc Hb) as (H1 & H2 & H3 & H4 & H5).
    assert (Hn : forall f, In f file -> exists (e : entry) L b0 b maps, network_of read add_to_network load_metric build_network dom dp file f e L b0 b maps).
    { intros f Hf. apply In_nth_error in Hf. destruct Hf as [k Hk]. destruct (nth_error_lt_Some es k) as [e He]; [rewrite H3; exact (nth_error_Some_lt _ _ _ Hk)|].
      destruct (H4 k f e Hk He) as (L & b0 & b & maps & Hn). exists e, L, b0, b, maps. exact Hn. }
    split; [exact H1|]. split; [|split; [exact H2|split; [exact H5|]]].
    + intros f Hf. destruct (Hn f Hf) as (e & L & b0 & b & maps & _ & s & nu & Hs & _). exists s. exact Hs.
    + intros f Hf. destruct (Hn f Hf) as (e & L & b0 & b & maps & _ & s & nu & _ & _ & _ & _ & Hnum).
      apply NoDup_nth_error. intros i j Hi Hij. rewrite map_length in Hi.
      destruct (nth_error_lt_Some (fe_transfers f) i Hi) as [t Ht]. rewrite !nth_error_map, Ht in Hij. cbn in Hij.
      destruct (nth_error (fe_transfers f) j) as [t'|] eqn:Ht'; [|discriminate Hij]. injection Hij as Hij.
      pose proof (Hnum i t Ht) as N1. pose proof (Hnum j t' Ht') as N2. congruence.
  - intros (H1 & H2 & H3 & H4 & H5).
    assert (Hnets : forall es i m, (forall f, In f es -> exists s, means_schema read dp (fe_network f) s) ->
              exists nets m', load_networks read add_to_network dom dp i es m = Ok (nets, m')).
    { clear - Hadd. induction es as [|e es IH]; intros i m He; [exists [], m; reflexivity|]. cbn [load_networks].
      destruct (He e (or_introl eq_refl)) as (s & Hs). destruct (Hadd s dom dp (fe_transfers e)) as (bl & Hbl).
      rewrite (proj2 (load_network_Ok read add_to_network dom dp e bl)) by (exists s; auto). cbn [rbind].
      destruct (IH (S i) ((fe_name e, i) :: m)) as (nets & m' & ->); [intros f Hf; apply He; right; exact Hf|]. cbn. eauto. }
    destruct (Hnets file 0 [] H2) as (nets & m & Hn). destruct (load_networks_Ok _ _ _ _ _ _ _ _ _ Hn) as [HF Hm]. rewrite app_nil_r in Hm.
    assert (Hl : length nets = length file) by (symmetry; exact (Forall2_length' _ _ _ HF)).
    assert (Hlook : forall n, In n (map fe_name file) -> exists k, lookup n m = Some k /\ k < length file).
    { intros n Hin. apply In_nth_error in Hin. destruct Hin as [k Hk]. exists k. split.
      - rewrite Hm, <- (map_length fe_name). apply lookup_rev_map; assumption.
      - rewrite <- (map_length fe_name). exact (nth_error_Some_lt _ _ _ Hk). }
    assert (Htrs : forall ts nets0, length nets0 = length file -> (forall t, In t ts -> In (xf_from t) (map fe_name file)) ->
              exists nets1 tbs, load_transfers load_metric dom dp m nets0 ts = Ok (nets1, tbs)).
    { clear - Hlook Hload. induction ts as [|t ts IH]; intros nets0 Hl0 Ht; [exists nets0, []; reflexivity|]. cbn [load_transfers]. unfold load_transfer.
      destruct (Hlook _ (Ht t (or_introl eq_refl))) as (k & -> & Hk). rewrite <- Hl0 in Hk. destruct (nth_error_lt_Some nets0 k Hk) as [bl Hbl]. unfold index_or_panic. rewrite Hbl. cbn [rbind].
      destruct (Hload (snd bl) dom dp (xf_metric t) (fst bl)) as (r & ->). cbn [tagf rbind fst snd].
      destruct (IH (SchemaMulti.set_nth nets0 k (fst r, snd bl))) as (n1 & tbs & ->); [rewrite set_nth_length'; exact Hl0 | intros t' Ht'; apply Ht; right; exact Ht'|]. cbn. eauto. }
    assert (Hall : forall (es : list file_entry) nets0, length nets0 = length file -> (forall f t, In f es -> In t (fe_transfers f) -> In (xf_from t) (map fe_name file)) ->
              exists nets1 tbss, load_all_transfers load_metric dom dp m nets0 es = Ok (nets1, tbss)).
    { clear - Htrs. induction es as [|e es IH]; intros nets0 Hl0 He; [exists nets0, []; reflexivity|]. cbn [load_all_transfers].
      destruct (Htrs (fe_transfers e) nets0 Hl0) as (n1 & tbs & Ht); [intros t Ht; exact (He e t (or_introl eq_refl) Ht)|]. rewrite Ht. cbn [rbind fst snd].
      destruct (IH n1) as (n2 & tbss & ->); [rewrite (load_transfers_length _ _ _ _ _ _ _ _ Ht); exact Hl0 | intros f t Hf Ht'; exact (He f t (or_intror Hf) Ht')|]. cbn. eauto. }
    destruct (Hall file nets Hl) as (nets' & tbss & Htr); [intros f t Hf Ht; exact (proj2 (H4 f t Hf Ht))|].
    destruct (load_all_flat _ _ _ _ _ _ _ _ Htr) as [Hflat Hcar].
    assert (Hl2 : length nets' = length file) by (rewrite (load_transfers_length _ _ _ _ _ _ _ _ Hflat); exact Hl).
    assert (Hl3 : length tbss = length file) by (symmetry; exact (Forall2_length' _ _ _ Hcar)).
    destruct (make_entries_spec file nets' tbss Hl2 Hl3) as [Hnames Hent].
    set (bs := make_entries file nets' tbss) in *.
    assert (Hlb : length bs = length file) by (rewrite <- (map_length eb_name), Hnames, map_length; reflexivity).
    assert (Hbs : forall k b, nth_error bs k = Some b -> exists f, nth_error file k = Some f /\ eb_name b = fe_name f /\ Forall2 carries (fe_transfers f) (eb_transfers b)).
    { intros k b Hk. destruct (nth_error_lt_Some file k) as [f Hf]; [rewrite <- Hlb; exact (nth_error_Some_lt _ _ _ Hk)|].
      destruct (Hent k f Hf) as (n & tbs & _ & Ht & He). rewrite Hk in He. injection He as ->. exists f. split; [exact Hf|]. split; [reflexivity|].
      exact (Forall2_nth_error _ _ _ _ _ _ Hcar Hf Ht). }
    assert (Hcreate : create_model read add_to_network load_metric fuel ft fs dp file = Ok (dom, bs)).
    { unfold create_model. rewrite H1. cbn [rbind]. rewrite Hn. cbn [rbind fst snd]. rewrite Htr. reflexivity. }
    destruct (build_multi_total build_network resolve Hbuild Hres bs) as (es & Hes).
    + rewrite Hnames. exact H3.
    + intros b t Hb Ht. apply In_nth_error in Hb. destruct Hb as [k Hk]. destruct (Hbs k b Hk) as (f & Hf & Hname & Hc).
      destruct (Forall2_In_r _ _ _ _ Hc Ht) as (t0 & Ht0 & _ & Hfr & _). rewrite Hfr, Hname, Hnames. exact (H4 f t0 (nth_error_In _ _ Hf) Ht0).
    + intros b Hb. apply In_nth_error in Hb. destruct Hb as [k Hk]. destruct (Hbs k b Hk) as (f & Hf & _ & Hc).
      replace (map tb_name (eb_transfers b)) with (map xf_name (fe_transfers f)); [exact (H5 f (nth_error_In _ _ Hf))|].
      clear - Hc. induction Hc as [|t tb ts tbs (H & _) _ IH]; [reflexivity|]. cbn [map]. rewrite H, IH. reflexivity.
    + exists bs, es. split; [exact Hcreate | exact Hes].
Qed.

End C73.
Print Assumptions C73_accepted.
Print Assumptions C73_networks.
Print Assumptions C73_run.

(** [validate] accepts a file exactly if each network written in it is valid. *)
Theorem C73_validate_partial : forall {E Schema FileMetric : Type} (validate : Schema -> res E unit) (file : list (file_entry (Schema := Schema) (FileMetric := FileMetric))),
  (validate_file validate file = Ok tt <-> forall f s, In f file -> fe_network f = Inline s -> validate s = Ok tt).
Proof.
  intros E Schema FileMetric validate file. induction file as [|f file IH]; cbn [validate_file].
  - split; [intros _ f s [] | reflexivity].
  - destruct (fe_network f) as [p|s] eqn:Ef.
    + rewrite IH. split; intros H f' s' Hin Hn; [destruct Hin as [<-|Hin]; [congruence | exact (H f' s' Hin Hn)] | exact (H f' s' (or_intror Hin) Hn)].
    + split.
      * intros H. apply rbind_Ok in H. destruct H as ([] & Hv & H). rewrite IH in H. intros f' s' [<-|Hin] Hn; [congruence | exact (H f' s' Hin Hn)].
      * intros H. rewrite (H f s (or_introl eq_refl) Ef). cbn. apply IH. intros f' s' Hin. exact (H f' s' (or_intror Hin)).
Qed.
Print Assumptions C73_validate_partial.

(** A concrete world: a network is a number; loading a metric counts it in the
    builder, and the metric's value is its factor times the network's datum. *)
Definition C73_read (p : path) : res string nat :=
  if pa_absolute p then match pa_parts p with ["data"; "south.json"] => Ok 3 | _ => Err "no such file" end else Err "no such file".
Definition C73_add (s : nat) (_ : model_domain) (_ : option path) (_ : list (file_transfer (FileMetric := Q))) : res string (nat * string) := Ok (s, "tables").
Definition C73_load (_ : string) (_ : model_domain) (_ : option path) (m : Q) (b : nat) : res string (nat * Q) := Ok (b + 10, m).
Definition C73_file : list (file_entry (Schema := nat) (FileMetric := Q)) := [
  FileEntry "North" (Inline 1) [FileTransfer "South" 2%Q "b" None; FileTransfer "Middle" 1%Q "a" (Some 7%Q)];
  FileEntry "Middle" (Inline 2) [FileTransfer "North" 1%Q "a" None];
  FileEntry "South" (AtPath (Path false ["south.json"])) [FileTransfer "Middle" 1%Q "a" None] ].
Definition C73_time := FileTime (DateTime (Date 2020 1 1) 0) (DateTime (Date 2020 1 2) 0) (Days 1).
Example C73_example :
  match create_model C73_read C73_add C73_load 10 C73_time None (Some (Path true ["data"])) C73_file with
  | Ok (dom, bs) =>
      match build_multi ex_build ex_resolve bs with
      | Ok es => map en_network es = [11; 22; 13] /\
          match setup_multi ex_initial es (dom_indices (md_scenarios dom)) with
          | Ok start => exists final, run_multi ex_get ex_operations (md_time dom) es (dom_indices (md_scenarios dom)) start = Ok final
          | _ => False
          end
      | _ => False
      end
  | _ => False
  end /\
  create_model C73_read C73_add C73_load 10 C73_time None None C73_file = Err (FeRead (Path false ["south.json"]) "no such file").
Proof. split; [vm_compute; split; [reflexivity | eexists; reflexivity] | vm_compute; reflexivity]. Qed.

(** Problems of a network in a file of its own are not found by [validate]. *)
Theorem C73_validate_refuted :
  exists (validate : nat -> res string unit) (s : nat), validate s = Err "duplicate node name" /\
    means_schema C73_read (Some (Path true ["data"])) (AtPath (Path false ["south.json"])) s /\
    validate_file validate C73_file = Ok tt.
Proof.
  exists (fun n => if n =? 3 then Err "duplicate node name" else Ok tt), 3. split; [reflexivity|]. split; [apply MeansInData; reflexivity | reflexivity].
Qed.
Print Assumptions C73_validate_refuted.
