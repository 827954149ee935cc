(** What a user expects of the files that a model's data comes from. *)
From Coq Require Import Ascii String QArith.
From Verif Require Import Base Calendar Timestep Timeseries SchemaOutputs DataFiles.
From Verif Require PyParams.
Local Open Scope string_scope.
Local Open Scope list_scope.
Local Open Scope nat_scope.

(** ** Hashes as they are written *)

(** The value of a digit; [any_digit_value] also reads upper case. *)
Definition digit_value (c : ascii) : option nat :=
  let n := nat_of_ascii c in
  if (48 <=? n) && (n <=? 57) then Some (n - 48)
  else if (97 <=? n) && (n <=? 102) then Some (n - 87)
  else None.
Definition any_digit_value (c : ascii) : option nat :=
  let n := nat_of_ascii c in
  if (65 <=? n) && (n <=? 70) then Some (n - 55) else digit_value c.
(** [h] writes the bytes of a digest: two digits for each of them. *)
Fixpoint writes (digit : ascii -> option nat) (h bytes : string) : Prop :=
  match h, bytes with
  | EmptyString, EmptyString => True
  | String a (String b h), String c bytes =>
      (exists x y, digit a = Some x /\ digit b = Some y /\ nat_of_ascii c = 16 * x + y) /\ writes digit h bytes
  | _, _ => False
  end.
Definition spells : string -> string -> Prop := writes digit_value.
Definition spells_any_case : string -> string -> Prop := writes any_digit_value.
Fixpoint has_capital (h : string) : Prop :=
  match h with EmptyString => False | String c h => 65 <= nat_of_ascii c <= 70 \/ has_capital h end.

(** The content of a file is the one that a checksum is for. *)
Definition is_for (md5 sha256 : string -> string) (c : checksum) (content : string) : Prop :=
  match c with MD5 h => spells h (md5 content) | SHA256 h => spells h (sha256 content) end.

(** ** Places *)

(** Where a file named in a model is: a relative name is meant from the data
    directory, if one is given. *)
Definition place (data_path : option path) (url : path) : path :=
  match data_path with
  | Some dir => if pa_absolute url then url else mkPath (pa_absolute dir) (pa_parts dir ++ pa_parts url)
  | None => url
  end.
(** The file is not changed while the model is loaded. *)
Definition unchanged (fs : disk) (p : path) : Prop := forall j k, fs j p = fs k p.
(** The same file is there in two file systems. *)
Definition same_file (fs fs' : disk) (p : path) : Prop := forall k, fs k p = fs' k p.

(** A name that ends in a dot and [e]. *)
Fixpoint no_dot (e : string) : Prop := match e with EmptyString => True | String c e => c <> "."%char /\ no_dot e end.
Definition ends_in (e : string) (p : path) : Prop :=
  exists dirs stem, stem <> "" /\ no_dot e /\ pa_parts p = dirs ++ [(stem ++ String "." e)%string].
(** [e] is the word [w], which has no capital letters, in small or capital
    letters. *)
Fixpoint any_case (w e : string) : Prop :=
  match w, e with
  | EmptyString, EmptyString => True
  | String a w, String b e => (b = a \/ 65 <= nat_of_ascii b <= 90 /\ nat_of_ascii b + 32 = nat_of_ascii a) /\ any_case w e
  | _, _ => False
  end.
Definition format_of (w : string) (p : path) : Prop := exists e, ends_in e p /\ any_case w e.

(** ** Maps *)
Definition mentions {A} (k : string) (m : list (string * A)) : Prop := exists v, In (k, v) m.

(** Keywords that pandas gets from pywr, for each kind of file. *)
Definition taken (f : pandas_format) : list string :=
  ["path"; "index_col"] ++
  match f with
  | PfCsv => ["filepath_or_buffer"; "parse_dates"]
  | PfExcel => ["io"]
  | PfHdf => ["path_or_buf"]
  end.
Definition suffix_word (f : pandas_format) : string := match f with PfCsv => "csv" | PfExcel => "xlsx" | PfHdf => "h5" end.
(** The column that pandas makes the index: the one that is named, or the first;
    HDF5 files have theirs. *)
Definition index_for (f : pandas_format) (time_col : option string) : option index_col :=
  match f with
  | PfHdf => None
  | _ => Some (match time_col with Some c => ByName c | None => ByPosition 0 end)
  end.

(** What is loaded of a data frame: its times are the column that is named, or
    else its first, and it is fitted to the time-steps of the model (C50). *)
Definition shaped {raw} (columns : raw -> list string) (with_time : raw -> string -> sres frame) (steps : list timestep) (s : series) (df : raw) (f : frame) : Prop :=
  exists c f0, match se_time_col s with Some c' => c = c' | None => exists rest, columns df = c :: rest end /\
    with_time df c = Ok f0 /\ align_and_resample steps f0 = Ok f.
