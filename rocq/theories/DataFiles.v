(** The files that the data of a model comes from: where they are looked for,
    their checksums, and what is done with their content.  Sources:
    pywr-schema/src/digest.rs, data_tables/mod.rs, timeseries/polars_dataset.rs,
    timeseries/pandas.rs, timeseries/pandas_load.py, timeseries/mod.rs,
    parameters/tables.rs.  The content of a file is a string of bytes.  What other
    libraries do is a parameter: the two digests, the csv crate, polars, pandas and
    HDF5 as functions of the content.  What is done with tables, data frames and
    arrays once they are read is Tables.v, Timeseries.v and Lookups.v. *)
From Coq Require Import Ascii String QArith.
From Verif Require Import Base Calendar Timestep Scenario Lookups Tables Timeseries SchemaOutputs.
From Verif Require Launch PyParams.
Local Open Scope string_scope.
Local Open Scope list_scope.
Local Open Scope nat_scope.

(** The files: what is at a path each time the disk is looked at.  [None] if it
    cannot be opened or read; a file may be changed between two looks. *)
Definition disk := nat -> path -> option string.

(** ** Checksums *)

(** [hex::encode]: two lower case digits for each byte. *)
Definition hex_digit (n : nat) : ascii :=
  nth n ["0"%char; "1"%char; "2"%char; "3"%char; "4"%char; "5"%char; "6"%char; "7"%char; "8"%char; "9"%char;
         "a"%char; "b"%char; "c"%char; "d"%char; "e"%char; "f"%char] "?"%char.
Fixpoint hex_encode (bytes : string) : string :=
  match bytes with
  | EmptyString => EmptyString
  | String b rest => String (hex_digit (nat_of_ascii b / 16)) (String (hex_digit (nat_of_ascii b mod 16)) (hex_encode rest))
  end.

(** digest.rs 35-38 [Checksum], 14-28 [ChecksumError]. *)
Inductive checksum := MD5 (hash : string) | SHA256 (hash : string).
Inductive checksum_error := ChecksumMismatch (actual expected : string) (p : path) | ChecksumIo (p : path).

(** digest.rs 78-104 [validate_hex_digest]. *)
Definition validate_hex_digest (digest : string -> string) (content : option string) (p : path) (expected : string) : res checksum_error unit :=
  match content with
  | None => Err (ChecksumIo p)
  | Some s =>
      let actual := hex_encode (digest s) in
      if String.eqb actual expected then Ok tt else Err (ChecksumMismatch actual expected p)
  end.

(** digest.rs 53-75: the checksum of a v1 file, an entry for each algorithm. *)
Definition lookup (k : string) {A} (m : list (string * A)) : option A := option_map snd (find (fun e => String.eqb (fst e) k) m).
Definition checksum_v1 (m : list (string * string)) : option checksum :=
  match lookup "md5" m with
  | Some h => Some (MD5 h)
  | None => match lookup "sha256" m with Some h => Some (SHA256 h) | None => None end
  end.

(** ** Paths *)

(** data_tables/mod.rs 143-152 [make_path]. *)
Definition make_path (table_path : path) (data_path : option path) : path :=
  if is_relative table_path
  then match data_path with Some dp => path_join dp table_path | None => table_path end
  else table_path.
(** polars_dataset.rs 41-47, pandas.rs 73-79. *)
Definition series_path (url : path) (data_path : option path) : path :=
  if pa_absolute url then url
  else match data_path with Some dp => path_join dp url | None => url end.
(** tables.rs 42-50. *)
Definition array_path (url : path) (data_path : option path) : path :=
  match data_path with
  | Some dp => if is_relative url then path_join dp url else url
  | None => url
  end.

(** [Path::extension]: of the last component, unless that is "..".
    Simplification: names are UTF-8. *)
Definition path_extension (p : path) : option string :=
  match rev (pa_parts p) with
  | [] => None
  | name :: _ => if String.eqb name ".." then None else Launch.extension name
  end.
(** [str::to_lowercase], Python's [str.lower].  Simplification: only the letters
    of ASCII are changed. *)
Definition lower_char (c : ascii) : ascii :=
  let n := nat_of_ascii c in if (65 <=? n) && (n <=? 90) then ascii_of_nat (n + 32) else c.
Fixpoint lower (s : string) : string := match s with EmptyString => EmptyString | String c r => String (lower_char c) (lower r) end.

Section Files.
(** The digests of a file. *)
Variables md5 sha256 : string -> string.
(** [str::parse] of a number. *)
Variable parse_f64 : string -> option Q.
Variable parse_i64 : string -> option Z.
(** The records of a CSV file (the csv crate). *)
Variable csv_parse : string -> list csv_record.

(** digest.rs 41-47 [Checksum::check]. *)
Definition check (c : checksum) (content : option string) (p : path) : res checksum_error unit :=
  match c with
  | MD5 hash => validate_hex_digest md5 content p hash
  | SHA256 hash => validate_hex_digest sha256 content p hash
  end.
Definition check_opt (c : option checksum) (content : option string) (p : path) : res checksum_error unit :=
  match c with Some c => check c content p | None => Ok tt end.

(** ** Tables *)

(** data_tables/mod.rs 91-100 [CsvDataTable]. *)
Record file_table := mkFileTable { ft_name : string; ft_type : value_type; ft_lookup : Tables.lookup; ft_url : path; ft_checksum : option checksum }.
Inductive file_table_error := TableChecksum (e : checksum_error) | TableContent (e : table_error).
Definition content_error {A} (x : tres A) : res file_table_error A :=
  match x with Ok a => Ok a | Err e => Err (TableContent e) | Panic => Panic end.
(** The table read, without its checksum. *)
Definition table_def_of (d : file_table) (content : option string) : table_def :=
  mkTableDef (ft_name d) (ft_type d) (ft_lookup d) (option_map csv_parse content).
(** data_tables/mod.rs 103-135 [load_f64]: the checksum is of the file as it is
    at look [k], and the data is read at look [k + 1]. *)
Definition load_file_table (data_path : option path) (fs : disk) (k : nat) (d : file_table) : res file_table_error loaded_table :=
  let fp := make_path (ft_url d) data_path in
  match check_opt (ft_checksum d) (fs k fp) fp with
  | Ok _ => content_error (load_table parse_f64 parse_i64 (table_def_of d (fs (S k) fp)))
  | Err e => Err (TableChecksum e)
  | Panic => Panic
  end.
(** data_tables/mod.rs 267-293 [from_schema]. *)
Inductive file_tables_error := InFileTable (name : string) (e : file_table_error) | DuplicateFileTable (name : string).
Fixpoint load_file_tables (data_path : option path) (fs : disk) (k : nat) (defs : list file_table) (tables : list (string * loaded_table))
  : res file_tables_error (list (string * loaded_table)) :=
  match defs with
  | [] => Ok tables
  | d :: ds =>
      match load_file_table data_path fs k d with
      | Ok t => if existsb (fun p => String.eqb (fst p) (ft_name d)) tables then Err (DuplicateFileTable (ft_name d))
                else load_file_tables data_path fs (k + 2) ds ((ft_name d, t) :: tables)
      | Err e => Err (InFileTable (ft_name d) e)
      | Panic => Panic
      end
  end.

(** ** Time series *)

(** A data frame as it is read: the names of its columns and, with the column
    that holds the times, its rows (or an error of polars). *)
Context {raw : Type}.
Variable raw_columns : raw -> list string.
Variable with_time : raw -> string -> sres frame.
(** polars' reader of CSV files, with the number of rows from which it infers the
    types. *)
Variable polars_csv : option nat -> string -> option raw.
(** What pandas makes of a file given the column with the index and the other
    keywords; [None] if it raises an exception. *)
Inductive pandas_format := PfCsv | PfExcel | PfHdf.
Inductive index_col := ByName (name : string) | ByPosition (n : nat).
Variable pandas_read : pandas_format -> option index_col -> list (string * PyParams.pyval) -> string -> option raw.

(** polars_dataset.rs 11-32, pandas.rs 12-33; timeseries/mod.rs 83-91. *)
Inductive series_source :=
| Polars (infer_schema_length : option nat)
| Pandas (kwargs : option (list (string * PyParams.json))).
Record series := mkSeries { se_name : string; se_time_col : option string; se_url : path; se_checksum : option checksum; se_source : series_source }.

(** timeseries/mod.rs 39-81 [TimeseriesError]. *)
Inductive series_error :=
| SeriesChecksum (e : checksum_error)
| SeriesContent (e : ts_error)
| UnsupportedFileFormat (ext : string)
| UnparsableFileFormat
| SeriesRead
| SeriesPython
| PythonNotEnabled.
Notation seres := (res series_error).

(** polars_dataset.rs 54-94: the frame that is read. *)
Definition polars_read (infer : option nat) (fp : path) (content : option string) : seres raw :=
  match path_extension fp with
  | None => Err UnparsableFileFormat
  | Some ext =>
      let ext := lower ext in
      if String.eqb ext "csv" then
        match content with
        | None => Err SeriesRead
        | Some s => match polars_csv infer s with Some df => Ok df | None => Err SeriesRead end
        end
      else if String.eqb ext "parquet" then Panic
      else Err (UnsupportedFileFormat ext)
  end.

(** Python's [Path.suffix], without the dot: nothing if it would be empty. *)
Definition python_suffix (p : path) : string := match path_extension p with Some e => e | None => "" end.
Definition has_key {A} (k : string) (m : list (string * A)) : bool := existsb (fun e => String.eqb (fst e) k) m.
(** pandas_load.py 7-23 called as in pandas.rs 91-121: a keyword that a call
    also gets from elsewhere is a TypeError. *)
Definition pandas_call (fp : path) (content : option string) (index : index_col) (kwargs : list (string * PyParams.pyval)) : seres raw :=
  let read format index own :=
    if existsb (fun k => has_key k kwargs) own then Err SeriesPython
    else match content with
         | None => Err SeriesPython
         | Some s => match pandas_read format index kwargs s with Some df => Ok df | None => Err SeriesPython end
         end in
  if has_key "path" kwargs || has_key "index_col" kwargs then Err SeriesPython
  else
    let suffix := lower (python_suffix fp) in
    if String.eqb suffix "csv" then read PfCsv (Some index) ["filepath_or_buffer"; "parse_dates"]
    else if String.eqb suffix "xlsx" then read PfExcel (Some index) ["io"]
    else if String.eqb suffix "h5" then read PfHdf None ["path_or_buf"]
    else Err SeriesPython.

(** polars_dataset.rs 39-108 and pandas.rs 67-135 [load]; pandas.rs 46-50 when
    Python is not compiled in. *)
Definition time_column (s : series) (df : raw) : seres string :=
  match se_time_col s with
  | Some c => Ok c
  | None => match raw_columns df with c :: _ => Ok c | [] => Panic end
  end.
Definition frame_error {A} (x : sres A) : seres A :=
  match x with Ok a => Ok a | Err e => Err (SeriesContent e) | Panic => Panic end.
Definition load_series (python : bool) (steps : list timestep) (data_path : option path) (fs : disk) (k : nat) (s : series) : seres frame :=
  let fp := series_path (se_url s) data_path in
  let checked (read : seres raw) : seres frame :=
    match check_opt (se_checksum s) (fs k fp) fp with
    | Ok _ =>
        rbind read (fun df =>
        rbind (time_column s df) (fun c =>
        frame_error (rbind (with_time df c) (align_and_resample steps))))
    | Err e => Err (SeriesChecksum e)
    | Panic => Panic
    end in
  match se_source s with
  | Polars infer => checked (polars_read infer fp (fs (S k) fp))
  | Pandas kwargs =>
      if python then
        checked (pandas_call fp (fs (S k) fp)
                   (match se_time_col s with Some c => ByName c | None => ByPosition 0 end)
                   (PyParams.load_kwargs_py kwargs))
      else Err PythonNotEnabled
  end.
(** timeseries/mod.rs 162-185 [from_schema]. *)
Inductive file_series_error := InFileSeries (name : string) (e : series_error) | DuplicateFileSeries (name : string).
Fixpoint load_all_series (python : bool) (steps : list timestep) (data_path : option path) (fs : disk) (k : nat) (defs : list series) (acc : list (string * frame))
  : res file_series_error (list (string * frame)) :=
  match defs with
  | [] => Ok acc
  | s :: ds =>
      match load_series python steps data_path fs k s with
      | Ok f => if existsb (fun p => String.eqb (fst p) (se_name s)) acc then Err (DuplicateFileSeries (se_name s))
                else load_all_series python steps data_path fs (k + 2) ds ((se_name s, f) :: acc)
      | Err e => Err (InFileSeries (se_name s) e)
      | Panic => Panic
      end
  end.

(** timeseries/mod.rs 478-507: the time series of a v1 data frame with a url;
    [kwargs] is a map. *)
Definition remove {A} (k : string) (m : list (string * A)) : list (string * A) := filter (fun e => negb (String.eqb (fst e) k)) m.
Definition series_v1 (name : string) (url : path) (kwargs : list (string * PyParams.json)) (sums : option (list (string * string))) : series :=
  let time_col := match lookup "index_col" kwargs with Some (PyParams.JStr s) => Some s | _ => None end in
  let kwargs := remove "index_col" kwargs in
  let kwargs := match path_extension url with
                | Some ext => if String.eqb ext "csv" then remove "parse_dates" kwargs else kwargs
                | None => kwargs
                end in
  mkSeries name time_col url (match sums with Some m => checksum_v1 m | None => None end) (Pandas (Some kwargs)).

(** ** Arrays of HDF5 files *)

(** A two-dimensional array: its rows and the number of its columns. *)
Record array2 := mkArray2 { a2_rows : list (list Q); a2_width : nat }.
(** HDF5: the dataset of a group read as a two-dimensional array of numbers. *)
Variable hdf5_read : string -> string -> string -> option array2.

(** tables.rs 15-29 [TablesArrayParameter], and the builder it makes. *)
Record tables_array := mkTablesArray {
  ta_name : string; ta_node : string; ta_wh : string; ta_scenario : option string; ta_checksum : option checksum;
  ta_url : path; ta_offset : option Z }.
Inductive array_builder :=
| BArray1 (values : list Q) (offset : option Z)
| BArray2 (values : array2) (group : string) (offset : option Z).
Inductive array_error := ArrayChecksum (e : checksum_error) | HDF5Error | FeatureNotEnabled.
(** [slice_move(s![.., 0])] of a row; ndarray panics if there is no column, also
    if there is no row. *)
Definition first_column (a : array2) : res array_error (list Q) :=
  if a2_width a =? 0 then Panic else Ok (map (fun r => nth 0 r 0%Q) (a2_rows a)).
(** tables.rs 33-94, 96-106 [add_to_network]. *)
Definition load_array (hdf5 : bool) (data_path : option path) (fs : disk) (k : nat) (p : tables_array) : res array_error array_builder :=
  if hdf5 then
    let pth := array_path (ta_url p) data_path in
    match check_opt (ta_checksum p) (fs k pth) pth with
    | Ok _ =>
        match fs (S k) pth with
        | None => Err HDF5Error
        | Some s =>
            match hdf5_read s (ta_wh p) (ta_node p) with
            | None => Err HDF5Error
            | Some a =>
                match ta_scenario p with
                | Some g => Ok (BArray2 a g (ta_offset p))
                | None => rbind (first_column a) (fun v => Ok (BArray1 v (ta_offset p)))
                end
            end
        end
    | Err e => Err (ArrayChecksum e)
    | Panic => Panic
    end
  else Err FeatureNotEnabled.
(** tables.rs 108-138: of a v1 parameter; [None] is the error for its checksum. *)
Definition array_v1 (name node wh : string) (scenario : option string) (sums : option (list (string * string))) (url : path) : option tables_array :=
  match sums with
  | None => Some (mkTablesArray name node wh scenario None url None)
  | Some m => match checksum_v1 m with
              | Some c => Some (mkTablesArray name node wh scenario (Some c) url None)
              | None => None
              end
  end.

(** array.rs 268-346 [build] and 40-82, 179-250 [compute] of the parameter made
    from the builder in time-step [t] of scenario [s] (Lookups.v); [group] finds
    the group of a name. *)
Inductive array_run_error := ArLookup (e : lookup_error) | ArScenario (e : scenario_error) | ArGroup.
Definition array_value (checked : bool) (d : scenario_domain) (group : string -> option nat) (b : array_builder) (s : scenario_index) (t : Z) : res array_run_error Q :=
  match b with
  | BArray1 values offset => match array1_compute checked values offset t with Ok v => Ok v | Err e => Err (ArLookup e) | Panic => Panic end
  | BArray2 a g offset =>
      match group g with
      | None => Err ArGroup
      | Some k =>
          match array2_build d k (a2_rows a) with
          | Err e => Err (ArScenario e)
          | Panic => Panic
          | Ok kept =>
              match simulation_index_for_group s k with
              | Ok column =>
                  match array2_compute checked kept (match kept with r :: _ => Z.of_nat (length r) | [] => 0%Z end) offset (Z.of_nat column) t with
                  | Ok v => Ok v
                  | Err e => Err (ArLookup e)
                  | Panic => Panic
                  end
              | Err e => Err (ArScenario e)
              | Panic => Panic
              end
          end
      end
  end.
End Files.
