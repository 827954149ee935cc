(** Specification vocabulary for C80. *)
From Coq Require Import Ascii String ZArith.
From Verif Require Import Base Run Launch.
Local Open Scope string_scope.
Local Open Scope list_scope.
Local Open Scope Z_scope.

(** How many threads work on a run: those of the pool, or the one that called. *)
Definition workers (processors : Z) (l : launch) : Z :=
  match pool processors l with Some n => n | None => 1 end.

(** The interior point solvers take all scenarios at once, the others one each. *)
Definition interior_point (b : backend) : Prop := b = SvIpmSimd \/ b = SvClF32 \/ b = SvClF64.
Definition right_manner (l : launch) : Prop :=
  la_manner l = AllScenarios <-> interior_point (la_solver l).

(** The solvers Python knows, and whether the keyword that drops the requirements
    is one of theirs.  The two OpenCL solvers are separate, see C80. *)
Inductive py_solver : string -> backend -> bool -> Prop :=
| py_clp : py_solver "clp" SvClp false
| py_cbc : py_solver "cbc" SvCbc false
| py_highs : py_solver "highs" SvHighs false
| py_simd : py_solver "ipm-simd" SvIpmSimd true.

(** A number in Python that fits. *)
Inductive number : pyvalue -> Z -> Prop :=
| number_int : forall z, 0 <= z < 2 ^ 64 -> number (PyInt z) z
| number_true : number (PyBool true) 1
| number_false : number (PyBool false) 0.
(** The keyword arguments a solver takes. *)
Inductive understood (ignoring : bool) : string -> pyvalue -> Prop :=
| understood_threads : forall v n, number v n -> understood ignoring "threads" v
| understood_parallel : forall b, understood ignoring "parallel" (PyBool b)
| understood_ignore : forall b, ignoring = true -> understood ignoring "ignore_feature_requirements" (PyBool b).
(** The number of threads a dictionary asks for: one unless it asks for a parallel
    run, and then as many as it says, by default one per processor. *)
Inductive asks_for (processors : Z) (d : dict) : Z -> Prop :=
| asks_one : ~ In ("parallel", PyBool true) d -> asks_for processors d 1
| asks_number : forall v n, In ("parallel", PyBool true) d -> In ("threads", v) d -> number v n -> n <> 0 -> asks_for processors d n
| asks_all : In ("parallel", PyBool true) d -> (forall v n, In ("threads", v) d -> number v n -> n = 0) ->
    asks_for processors d processors.

(** A file's name that ends in [.json], with something before it. *)
Definition json_name (n : string) : Prop := exists stem, stem <> "" /\ n = (stem ++ ".json")%string.
