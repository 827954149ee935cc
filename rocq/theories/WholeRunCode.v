(** Metrics can be numbered: an injection of metrics into the natural numbers,
    for the examples of C85. *)
From stdpp Require Import countable strings.
From Coq Require Import QArith.
From Verif Require Import Network NetworkBuild SchemaNodes SchemaVirtual MetricSets.

#[local] Instance q_eq : EqDecision Q. Proof. solve_decision. Defined.
#[local] Instance q_count : Countable Q.
Proof. refine (inj_countable' (fun q => (Qnum q, Qden q)) (fun p => Qmake (fst p) (snd p)) _). intros [n d]. reflexivity. Qed.
#[local] Instance metric_eq : EqDecision Network.metric. Proof. solve_decision. Defined.
#[local] Instance metric_count : Countable Network.metric.
Proof.
  refine (inj_countable' (fun m => match m with MConst q => inl q | MDyn k => inr k end) (fun s => match s with inl q => MConst q | inr k => MDyn k end) _).
  intros []; reflexivity.
Qed.
#[local] Instance umetric_eq : EqDecision umetric. Proof. solve_decision. Defined.
#[local] Instance umetric_count : Countable umetric.
Proof.
  refine (inj_countable'
    (A := (Q + (Network.metric + ((string * string) * option string + ((string * string) + (nat * (string * option string) + (bool * list (string * option string) +
          list ((string * option string) * (string * option string))))))))%type)
    (fun m => match m with
      | UConst q => inl q | UOther m => inr (inl m) | UParam p k => inr (inr (inl (p, k))) | UParamAfter p => inr (inr (inr (inl p)))
      | UNodeInFlow u => inr (inr (inr (inr (inl (0, u))))) | UNodeOutFlow u => inr (inr (inr (inr (inl (1, u)))))
      | UNodeVolume u => inr (inr (inr (inr (inl (2, u))))) | UNodeMaxVolume u => inr (inr (inr (inr (inl (3, u)))))
      | UNodePropVolume u => inr (inr (inr (inr (inl (4, u))))) | UNodeMaxFlow u => inr (inr (inr (inr (inl (5, u)))))
      | UAggStorageVolume u => inr (inr (inr (inr (inl (6, u))))) | UAggStoragePropVolume u => inr (inr (inr (inr (inl (7, u)))))
      | UMultiNodeInFlow us => inr (inr (inr (inr (inr (inl (true, us))))))
      | UMultiNodeOutFlow us => inr (inr (inr (inr (inr (inl (false, us))))))
      | UMultiEdgeFlow es => inr (inr (inr (inr (inr (inr es))))) end)
    (fun s => match s with
      | inl q => UConst q | inr (inl m) => UOther m | inr (inr (inl (p, k))) => UParam p k | inr (inr (inr (inl p))) => UParamAfter p
      | inr (inr (inr (inr (inl (0, u))))) => UNodeInFlow u | inr (inr (inr (inr (inl (1, u))))) => UNodeOutFlow u
      | inr (inr (inr (inr (inl (2, u))))) => UNodeVolume u | inr (inr (inr (inr (inl (3, u))))) => UNodeMaxVolume u
      | inr (inr (inr (inr (inl (4, u))))) => UNodePropVolume u | inr (inr (inr (inr (inl (5, u))))) => UNodeMaxFlow u
      | inr (inr (inr (inr (inl (6, u))))) => UAggStorageVolume u | inr (inr (inr (inr (inl (_, u))))) => UAggStoragePropVolume u
      | inr (inr (inr (inr (inr (inl (true, us)))))) => UMultiNodeInFlow us
      | inr (inr (inr (inr (inr (inl (false, us)))))) => UMultiNodeOutFlow us
      | inr (inr (inr (inr (inr (inr es))))) => UMultiEdgeFlow es end) _).
  intros []; reflexivity.
Qed.
#[local] Instance vmetric_eq : EqDecision vmetric. Proof. solve_decision. Defined.
#[local] Instance vmetric_count : Countable vmetric.
Proof.
  refine (inj_countable'
    (fun m => match m with
      | VmAggInFlow u => (0, u) | VmAggOutFlow u => (1, u) | VmAggVolume u => (2, u) | VmAggPropVolume u => (3, u)
      | VmVsVolume u => (4, u) | VmVsPropVolume u => (5, u) end)
    (fun s => match s with
      | (0, u) => VmAggInFlow u | (1, u) => VmAggOutFlow u | (2, u) => VmAggVolume u | (3, u) => VmAggPropVolume u
      | (4, u) => VmVsVolume u | (_, u) => VmVsPropVolume u end) _).
  intros []; reflexivity.
Qed.
#[local] Instance return_eq : EqDecision return_value. Proof. solve_decision. Defined.
#[local] Instance lmetric_eq : EqDecision lmetric. Proof. solve_decision. Defined.

(** Metrics on the network. *)
Definition net_code (m : lmetric) : nat :=
  match m with
  | LmNode u => encode_nat (inl (inl u) : umetric + vmetric + umetric * string)
  | LmVirtual v => encode_nat (inl (inr v) : umetric + vmetric + umetric * string)
  | LmEdge u l => encode_nat (inr (u, l) : umetric + vmetric + umetric * string)
  | _ => 0
  end.
Definition net_decode (n : nat) : option lmetric :=
  match decode_nat n : option (umetric + vmetric + umetric * string) with
  | Some (inl (inl u)) => Some (LmNode u)
  | Some (inl (inr v)) => Some (LmVirtual v)
  | Some (inr (u, l)) => Some (LmEdge u l)
  | None => None
  end.

(** The metrics of a list have the first numbers. *)
Fixpoint place (m : lmetric) (l : list lmetric) : option nat :=
  match l with [] => None | x :: tl => if decide (m = x) then Some 0 else option_map S (place m tl) end.
Definition code (l : list lmetric) (m : lmetric) : nat := match place m l with Some k => k | None => length l + net_code m end.
Definition decode (l : list lmetric) (n : nat) : option lmetric :=
  match nth_error l n with Some m => Some m | None => net_decode (n - length l) end.

Lemma place_nth m l k : place m l = Some k -> nth_error l k = Some m.
Proof.
  revert k. induction l as [|x l IH]; intros k H; cbn [place] in H; [discriminate|]. destruct (decide (m = x)) as [->|]; [injection H as <-; reflexivity|].
  destruct (place m l) as [j|]; [|discriminate]. injection H as <-. exact (IH j eq_refl).
Qed.
Lemma decode_code l m : match m with LmNode _ | LmVirtual _ | LmEdge _ _ => True | _ => False end -> decode l (code l m) = Some m.
Proof.
  intros Hm. unfold decode, code. destruct (place m l) as [k|] eqn:E; [rewrite (place_nth _ _ _ E); reflexivity|].
  rewrite (proj2 (nth_error_None _ _)) by lia. replace (length l + net_code m - length l) with (net_code m) by lia.
  destruct m; try contradiction; unfold net_decode, net_code; rewrite decode_encode_nat; reflexivity.
Qed.
