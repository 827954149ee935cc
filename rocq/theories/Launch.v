(** Starting a run and converting files: pywr-cli/src/main.rs, the Python
    functions of pywr-core/src/models/simple.rs and multi.rs and of
    pywr-python/pywr/__init__.py and cli.py, the settings of the solvers
    (pywr-core/src/solvers/*/settings.rs), and stepping a model by hand
    (models/simple.rs).

    Left out: parsing of the command line by clap and click (the options are given
    as a record), the tolerances and other settings of the interior point solvers
    (neither interface can change them), logging. *)
From Coq Require Import Ascii String ZArith.
From Verif Require Import Base Run.
Local Open Scope string_scope.
Local Open Scope list_scope.
Local Open Scope Z_scope.

(** The solvers: main.rs 26-41 [Solver]. *)
Inductive backend := SvClp | SvHighs | SvCbc | SvClF32 | SvClF64 | SvIpmSimd | SvMicroLp.

(** clp/settings.rs 9-13, cbc/settings.rs 9-13, highs/settings.rs 9-13,
    microlp/settings.rs 4-8, and the common part of ipm_simd/settings.rs 11-17 and
    ipm_ocl/settings.rs. *)
Record settings := mkSettings { se_parallel : bool; se_threads : Z; se_ignore : bool }.
(** The builders: [Default] (e.g. clp/settings.rs 59-64) and the setters (66-90). *)
Definition default_settings : settings := mkSettings false 0 false.
Definition with_parallel (s : settings) : settings := mkSettings true (se_threads s) (se_ignore s).
Definition with_threads (n : Z) (s : settings) : settings := mkSettings (se_parallel s) n (se_ignore s).
Definition with_ignore (s : settings) : settings := mkSettings (se_parallel s) (se_threads s) true.

(** How the model is run: [run] with one solver per scenario, or
    [run_multi_scenario] with one solver for all the scenarios. *)
Inductive manner := PerScenario | AllScenarios.
Record launch := mkLaunch { la_solver : backend; la_manner : manner; la_settings : settings }.

(** A run of a file: where the data and the outputs are.  Directories are strings. *)
Record file_run := mkFileRun {
  fr_file : string * string; (* directory and name *)
  fr_data : option string; fr_output : option string; fr_launch : launch }.

(** *** The command line *)

(** main.rs 89-105: the options of [run]. *)
Record run_options := mkRunOptions {
  ro_model : string * string; ro_solver : backend; ro_data : option string; ro_output : option string;
  ro_threads : Z; ro_ignore : bool }.
Definition or_else {A} (o : option A) (d : A) : option A := match o with Some a => Some a | None => Some d end.
(** main.rs 285-295, repeated for each solver up to 378. *)
Definition cli_settings (threads : Z) (ignore : bool) : settings :=
  let s := default_settings in
  let s := if 1 <? threads then with_threads threads (with_parallel s) else s in
  if ignore then with_ignore s else s.
(** The branches of the matches in main.rs 284-378 and 391-405. *)
Definition cli_manner (b : backend) : manner :=
  match b with
  | SvClp => PerScenario
  | SvCbc => PerScenario
  | SvHighs => PerScenario
  | SvClF32 => AllScenarios
  | SvClF64 => AllScenarios
  | SvIpmSimd => AllScenarios
  | SvMicroLp => PerScenario
  end.
(** main.rs 269-380 [run]; reading, building and running unwrap their errors. *)
Definition cli_run (o : run_options) : file_run :=
  mkFileRun (ro_model o) (or_else (ro_data o) (fst (ro_model o))) (ro_output o)
            (mkLaunch (ro_solver o) (cli_manner (ro_solver o)) (cli_settings (ro_threads o) (ro_ignore o))).
(** main.rs 106-119, 160-166 and 382-407 [run_multi]: [threads] is dropped, and
    there is no option to ignore requirements. *)
Definition cli_run_multi (o : run_options) : file_run :=
  mkFileRun (ro_model o) (or_else (ro_data o) (fst (ro_model o))) (ro_output o)
            (mkLaunch (ro_solver o) (cli_manner (ro_solver o)) default_settings).
(** The names clap derives from the variants of [Solver] (kebab case). *)
Definition cli_name (b : backend) : string :=
  match b with
  | SvClp => "clp" | SvHighs => "highs" | SvCbc => "cbc" | SvClF32 => "clipmf32" | SvClF64 => "clipmf64"
  | SvIpmSimd => "ipm-simd" | SvMicroLp => "microlp"
  end.

(** *** Python *)

(** A keyword argument's value, and pyo3's [extract]: a [bool] is an [int] in
    Python, an [int] is not a [bool]. *)
Inductive pyvalue := PyInt (z : Z) | PyBool (b : bool) | PyOther.
Definition extract_usize (v : pyvalue) : option Z :=
  match v with
  | PyInt z => if (0 <=? z) && (z <? 2 ^ 64) then Some z else None
  | PyBool b => Some (if b then 1 else 0)
  | PyOther => None
  end.
Definition extract_bool (v : pyvalue) : option bool := match v with PyBool b => Some b | _ => None end.
(** A dictionary. *)
Definition dict := list (string * pyvalue).
Fixpoint get_item (k : string) (d : dict) : option pyvalue :=
  match d with
  | [] => None
  | (k', v) :: rest => if String.eqb k k' then Some v else get_item k rest
  end.
Definition del_item (k : string) (d : dict) : dict := filter (fun p => negb (String.eqb k (fst p))) d.

Inductive py_error := WrongType (key : string) | UnknownKeywords (left : dict) | UnknownSolver (name : string).

(** clp/settings.rs 98-101: [threads]; the rest is what follows. *)
Definition take_threads (d : dict) (s : settings) (rest : dict -> settings -> dict * res py_error settings)
  : dict * res py_error settings :=
  match get_item "threads" d with
  | None => rest d s
  | Some v => match extract_usize v with
              | None => (d, Err (WrongType "threads"))
              | Some n => rest (del_item "threads" d) (with_threads n s)
              end
  end.
(** clp/settings.rs 103-108 and ipm_simd/settings.rs 164-170: a switch. *)
Definition take_switch (key : string) (on : settings -> settings) (d : dict) (s : settings)
    (rest : dict -> settings -> dict * res py_error settings) : dict * res py_error settings :=
  match get_item key d with
  | None => rest d s
  | Some v => match extract_bool v with
              | None => (d, Err (WrongType key))
              | Some b => rest (del_item key d) (if b then on s else s)
              end
  end.
(** clp/settings.rs 110-114. *)
Definition no_more (d : dict) (s : settings) : dict * res py_error settings :=
  match d with [] => (d, Ok s) | _ => (d, Err (UnknownKeywords d)) end.
(** clp/settings.rs 92-118, cbc/settings.rs 92-118, highs/settings.rs 91-119: the
    dictionary is the caller's, which is changed. *)
Definition build_settings_py (kwargs : option dict) : option dict * res py_error settings :=
  match kwargs with
  | None => (None, Ok default_settings)
  | Some d =>
      let (d', r) := take_threads d default_settings (fun d s => take_switch "parallel" with_parallel d s no_more) in
      (Some d', r)
  end.
(** ipm_simd/settings.rs 145-181. *)
Definition build_ipm_simd_settings_py (kwargs : option dict) : option dict * res py_error settings :=
  match kwargs with
  | None => (None, Ok default_settings)
  | Some d =>
      let (d', r) := take_threads d default_settings (fun d s => take_switch "parallel" with_parallel d s (fun d s =>
                       take_switch "ignore_feature_requirements" with_ignore d s no_more)) in
      (Some d', r)
  end.

(** simple.rs 653-704 and multi.rs 899-951 [run_py]; [enabled] are the solvers
    compiled in.  What becomes of the dictionary, and the run that is started. *)
Definition run_py (enabled : backend -> bool) (name : string) (kwargs : option dict) : option dict * res py_error launch :=
  let go b m (p : option dict * res py_error settings) :=
    (fst p, rbind (snd p) (fun s => Ok (mkLaunch b m s))) in
  if String.eqb name "clp" && enabled SvClp then go SvClp PerScenario (build_settings_py kwargs)
  else if String.eqb name "cbc" && enabled SvCbc then go SvCbc PerScenario (build_settings_py kwargs)
  else if String.eqb name "highs" && enabled SvHighs then go SvHighs PerScenario (build_settings_py kwargs)
  else if String.eqb name "ipm-simd" && enabled SvIpmSimd then go SvIpmSimd AllScenarios (build_ipm_simd_settings_py kwargs)
  else if String.eqb name "clipm-f32" && enabled SvClF32 then (kwargs, Ok (mkLaunch SvClF32 AllScenarios default_settings))
  else if String.eqb name "clipm-f64" && enabled SvClF64 then (kwargs, Ok (mkLaunch SvClF64 AllScenarios default_settings))
  else (kwargs, Err (UnknownSolver name)).
(** Calls one after the other with the same dictionary. *)
Fixpoint run_py_calls (enabled : backend -> bool) (names : list string) (kwargs : option dict) : list (res py_error launch) :=
  match names with
  | [] => []
  | n :: rest => let (k, r) := run_py enabled n kwargs in r :: run_py_calls enabled rest k
  end.
(** __init__.py 43-64 [run_from_path]; cli.py 26-47 calls it with its options. *)
Definition run_from_path (enabled : backend -> bool) (file : string * string) (data output : option string) (solver : string)
  : res py_error file_run :=
  let data := match data with Some p => Some p | None => Some (fst file) end in
  let output := match output with Some p => Some p | None => Some (fst file) end in
  rbind (snd (run_py enabled solver None)) (fun l => Ok (mkFileRun file data output l)).

(** *** Threads *)

(** rayon's [ThreadPoolBuilder::num_threads]: 0 is the number of processors. *)
Definition pool_size (processors n : Z) : Z := if n =? 0 then processors else n.
(** simple.rs 511-522 and 568-574, multi.rs 784-795 and 843-849: [None] is the
    thread that called, without a pool. *)
Definition pool (processors : Z) (l : launch) : option Z :=
  let s := la_settings l in
  match la_manner l with
  | PerScenario => if se_parallel s then Some (pool_size processors (se_threads s)) else None
  | AllScenarios => Some (pool_size processors (if se_parallel s then se_threads s else 1))
  end.

(** *** Stepping by hand *)
Section Stepping.
Context {E Local TS SC Rec : Type}.
Variable save : TS -> list SC -> list Local -> Rec -> res E Rec.
Variable ops : list (TS -> SC -> Local -> res E Local).

(** simple.rs 327-347: [step] is given a pool or not; a pool follows a schedule. *)
Definition step_with (pool : option (list nat)) (t : TS) (scs : list SC) (ls : list Local) : option (res E (list Local)) :=
  match pool with
  | None => Some (step ops t scs ls)
  | Some schedule => step_par ops t schedule scs ls
  end.
(** Calls of [step] one after the other. *)
Fixpoint steps_by_hand (timesteps : list TS) (scs : list SC) (pools : list (option (list nat))) (m : @model_state Local Rec)
  : @step_result E Local Rec :=
  match pools with
  | [] => Stepped m
  | p :: rest =>
      match model_step save timesteps scs (step_with p) m with
      | Stepped m' => steps_by_hand timesteps scs rest m'
      | r => r
      end
  end.
(** simple.rs 502-537 [run_with_state]: the pool is the one the settings ask for;
    [schedules] are the ones it will follow. *)
Definition run_with_state (fuel : nat) (timesteps : list TS) (scs : list SC) (s : settings) (schedules : nat -> list nat)
    (m : @model_state Local Rec) : option (res E (@model_state Local Rec)) :=
  run_loop save fuel timesteps scs
    (fun i => step_with (if se_parallel s then Some (schedules i) else None)) m.
End Stepping.

(** *** Converting files *)

(** The extension of a file's name (Rust's [Path::extension]): what follows the
    last dot, unless that is the first character. *)
Fixpoint after_last_dot (s : string) : option string :=
  match s with
  | EmptyString => None
  | String c rest => match after_last_dot rest with
                     | Some e => Some e
                     | None => if Ascii.eqb c "."%char then Some rest else None
                     end
  end.
Definition extension (name : string) : option string :=
  match name with EmptyString => None | String _ rest => after_last_dot rest end.

Inductive convert_error := CannotRead | CannotParse | HasErrors | CannotWrite | OutputNotDirectory | OutputIsDirectory.

Section Convert.
(** The text of a file, a v1 file and a v2 file; reading and writing them and the
    conversion (C69, C78) are parameters, for models and for networks. *)
Context {text v1 v2 error : Type}.
Variable parse : text -> option v1.
Variable from_v1 : v1 -> v2 * list error.
Variable print : v2 -> text.

(** Files by directory and name. *)
Definition files := string * string -> option text.
Definition path_eqb (p q : string * string) : bool := String.eqb (fst p) (fst q) && String.eqb (snd p) (snd q).
Definition write (p : string * string) (t : text) (fs : files) : files := fun q => if path_eqb q p then Some t else fs q.

(** main.rs 253-267 [handle_conversion_errors]. *)
Definition handle_conversion_errors (errors : list error) (stop : bool) : res convert_error unit :=
  match errors with
  | [] => Ok tt
  | _ => if stop then Err HasErrors else Ok tt
  end.
(** main.rs 216-251 [v1_to_v2]; [writable] says where a file can be written.
    A write that fails leaves the file as it was (simplification). *)
Definition v1_to_v2 (writable : string * string -> bool) (stop : bool) (inp out : string * string) (fs : files)
  : files * res convert_error unit :=
  match fs inp with
  | None => (fs, Err CannotRead)
  | Some t =>
      match parse t with
      | None => (fs, Err CannotParse)
      | Some v =>
          let (schema, errors) := from_v1 v in
          match handle_conversion_errors errors stop with
          | Ok _ => if writable out then (write out (print schema) fs, Ok tt) else (fs, Err CannotWrite)
          | Err e => (fs, Err e)
          | Panic => (fs, Panic)
          end
      end
  end.

(** An entry of a directory; [None] is one that could not be read, which
    [flatten] drops. *)
Record entry := mkEntry { en_name : string; en_is_file : bool }.
Definition selected (e : entry) : bool :=
  en_is_file e && match extension (en_name e) with Some x => String.eqb x "json" | None => false end.
(** main.rs 185-204: the loop; the listing is taken at the start. *)
Fixpoint convert_entries (writable : string * string -> bool) (stop : bool) (d o : string) (l : list (option entry)) (fs : files)
  : files * res convert_error unit :=
  match l with
  | [] => (fs, Ok tt)
  | None :: rest => convert_entries writable stop d o rest fs
  | Some e :: rest =>
      if selected e then
        match v1_to_v2 writable stop (d, en_name e) (o, en_name e) fs with
        | (fs', Ok _) => convert_entries writable stop d o rest fs'
        | (fs', r) => (fs', r)
        end
      else convert_entries writable stop d o rest fs
  end.
(** What a path of the command line is. *)
Inductive target := TDirectory (d : string) (listing : list (option entry)) | TFile (p : string * string).
(** main.rs 179-214 [convert]. *)
Definition convert (writable : string * string -> bool) (stop : bool) (inp out : target) (fs : files)
  : files * res convert_error unit :=
  match inp, out with
  | TDirectory d l, TDirectory o _ => convert_entries writable stop d o l fs
  | TDirectory _ _, TFile _ => (fs, Err OutputNotDirectory)
  | TFile _, TDirectory _ _ => (fs, Err OutputIsDirectory)
  | TFile p, TFile q => v1_to_v2 writable stop p q fs
  end.
End Convert.
