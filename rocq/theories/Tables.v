(** External data tables.  Sources: pywr-schema/src/data_tables/scalar.rs,
    vec.rs and mod.rs.  A CSV file is the list of its records, the first of which
    is the header; reading it with the csv crate (not modelled) gives these
    records.  Numbers are read by [parse_f64] and [parse_i64], which are arguments
    ([str::parse], not modelled); NaN and infinities are not represented.  A
    [ScalarTable<N>] is a number of keys together with its map.  Files and their
    checksums are in DataFiles.v. *)
From Coq Require Import QArith Qround.
From Verif Require Import Base.
Local Open Scope string_scope.
Local Open Scope list_scope.
Local Open Scope nat_scope.

Notation csv_record := (list string).

(** mod.rs 158-194 [TableError]; the variants with a text are told apart by
    where they come from. *)
Inductive table_error :=
| EntryNotFound
| WrongKeySize (expected given : nat)
| KeyParse
| TableIO
| CsvUnequalLengths     (* the csv crate's error *)
| CsvHeaderRows         (* "Not enough header rows" *)
| CsvRowLength          (* "Row length does not match header length" *)
| FormatNotSupported
| TableParseFloat
| WrongTableFormat
| TooManyColumns (found expected : nat)
| TooManyRows (found expected : nat)
| U64ConversionError.
Notation tres := (res table_error).

(** scalar.rs 9-13 [TableScalarValue]. *)
Inductive scalar_value := SFloat (q : Q) | SInt (z : Z).
(** scalar.rs 15-22. *)
Definition as_f64 (v : scalar_value) : Q := match v with SFloat q => q | SInt z => inject_Z z end.
(** scalar.rs 24-42; [as u64] of a float saturates. *)
Definition U64_MAX : Z := 18446744073709551615.
Definition try_as_u64 (v : scalar_value) : option Z :=
  match v with
  | SFloat q => if Qle_bool 0 q && Qeq_bool q (inject_Z (Qfloor q)) then Some (Z.min (Qfloor q) U64_MAX) else None
  | SInt z => if (0 <=? z)%Z then Some z else None
  end.

(** csv::Reader with its default settings: the first record is the header, and
    a record of another length than it is an error. *)
Definition csv_headers (f : list csv_record) : csv_record := match f with [] => [] | h :: _ => h end.
Definition csv_records (f : list csv_record) : list (tres csv_record) :=
  match f with
  | [] => []
  | h :: rs => map (fun r => if length r =? length h then Ok r else Err CsvUnequalLengths) rs
  end.

(** std's [HashMap<[String; N], V>] with [insert] and [get]. *)
Section Map.
Context {V : Type}.
Definition keys_eqb (k k' : list string) : bool := if list_eq_dec string_dec k k' then true else false.
Definition hm_insert (m : list (list string * V)) (p : list string * V) : list (list string * V) :=
  p :: filter (fun q => negb (keys_eqb (fst q) (fst p))) m.
Definition hm_collect (l : list (list string * V)) : list (list string * V) := fold_left hm_insert l [].
Definition hm_get (k : list string) (m : list (list string * V)) : option V :=
  option_map snd (find (fun q => keys_eqb (fst q) k) m).
End Map.
(** [filter_map(|(k, v)| v.map(|v| (k, v)))], and [if let Some(v) = value]. *)
Definition with_value {V} (l : list (list string * option V)) : list (list string * V) :=
  flat_map (fun p => match snd p with Some v => [(fst p, v)] | None => [] end) l.

(** A table with its number of keys [N]. *)
Record table (V : Type) := mkTable { tb_keys : nat; tb_values : list (list string * V) }.
Arguments mkTable {V}.
Arguments tb_keys {V}.
Arguments tb_values {V}.

(** scalar.rs 63-77 [ScalarTable::get_scalar], vec.rs 13-31 [VecTable::get_vec];
    the match in scalar.rs 87-95 and vec.rs 45-52 selects the same function for
    every size. *)
Definition table_get {V} (t : table V) (key : list string) : tres V :=
  if length key =? tb_keys t
  then match hm_get key (tb_values t) with Some v => Ok v | None => Err EntryNotFound end
  else Err (WrongKeySize (tb_keys t) (length key)).

(** [(0..N).map(|i| record.get(i).ok_or(KeyParse))], e.g. scalar.rs 246-250. *)
Definition record_key (n : nat) (r : csv_record) : tres (list string) :=
  rmap (fun i => match nth_error r i with Some s => Ok s | None => Err KeyParse end) (seq 0 n).

(** scalar.rs 165-173, 286-294; vec.rs 128-136: the first header row, without
    the first [skip] columns, one list for each column. *)
Definition first_headers (skip : nat) (f : list csv_record) : list (list string) := map (fun s => [s]) (skipn skip (csv_headers f)).
(** [for (i, header) in record.iter().skip(C).enumerate() { col_headers[i].push(..) }]:
    scalar.rs 180-183, 301-303; vec.rs 143-145. *)
Fixpoint push_headers (hs : list string) (cols : list (list string)) : tres (list (list string)) :=
  match hs, cols with
  | [], _ => Ok cols
  | _ :: _, [] => Panic
  | h :: hs, c :: cols => rbind (push_headers hs cols) (fun r => Ok ((c ++ [h]) :: r))
  end.
(** scalar.rs 178-188, 299-308; vec.rs 141-150: the next header rows. *)
Fixpoint next_headers (n skip : nat) (recs : list (tres csv_record)) (cols : list (list string))
  : tres (list (list string) * list (tres csv_record)) :=
  match n with
  | O => Ok (cols, recs)
  | S n => match recs with
           | Ok r :: rest => rbind (push_headers (skipn skip r) cols) (next_headers n skip rest)
           | _ => Err CsvHeaderRows
           end
  end.

Section Parse.
Variable parse_f64 : string -> option Q.
Variable parse_i64 : string -> option Z.

(** scalar.rs 45-56 [TableScalarValue::from_str]. *)
Definition parse_scalar (s : string) : option scalar_value :=
  match parse_f64 s with
  | Some q => Some (SFloat q)
  | None => option_map SInt (parse_i64 s)
  end.

(** scalar.rs 234-273 [load_csv_rows_scalar_table]. *)
Definition load_csv_rows_scalar (n : nat) (f : list csv_record) : tres (table scalar_value) :=
  rbind (rmap (fun result =>
    rbind result (fun r =>
    rbind (record_key n r) (fun key =>
    let values := map parse_scalar (skipn n r) in
    if 1 <? length values then Err (TooManyColumns (length values + n) (1 + n))
    else match values with v :: _ => Ok (key, v) | [] => Panic end))) (csv_records f))
  (fun values => Ok (mkTable n (with_value (hm_collect values)))).

(** scalar.rs 280-343 [load_csv_cols_scalar_table]. *)
Definition load_csv_cols_scalar (n : nat) (f : list csv_record) : tres (table scalar_value) :=
  rbind (next_headers (n - 1) 0 (csv_records f) (first_headers 0 f)) (fun hr =>
  let '(cols, recs) := hr in
  rbind (rmap (fun result => rbind result (fun r => Ok (map parse_scalar r))) recs) (fun rows =>
  if 1 <? length rows then Err (TooManyRows (length rows + n) (1 + n))
  else match rows with
       | row :: _ => Ok (mkTable n (hm_collect (with_value (combine cols row))))
       | [] => Panic
       end)).

(** scalar.rs 144-230 [load_csv_row_col_scalar_table]: [r] header rows and [c]
    key columns. *)
Definition load_csv_row_col_scalar (r c : nat) (f : list csv_record) : tres (table scalar_value) :=
  rbind (next_headers (r - 1) c (csv_records f) (first_headers c f)) (fun hr =>
  let '(cols, recs) := hr in
  rbind (rmap (fun result =>
    rbind result (fun rec =>
    rbind (record_key c rec) (fun key =>
    Ok (key, map parse_scalar (skipn c rec))))) recs) (fun rows =>
  Ok (mkTable (r + c) (hm_collect (flat_map (fun row =>
    with_value (map (fun p => (fst row ++ fst p, snd p)) (combine cols (snd row)))) rows))))).

(** vec.rs 87-116 [load_csv_row_vec_table]. *)
Definition parse_or_error (s : string) : tres Q := match parse_f64 s with Some q => Ok q | None => Err TableParseFloat end.
Definition load_csv_rows_vec (n : nat) (f : list csv_record) : tres (table (list Q)) :=
  rbind (rmap (fun result =>
    rbind result (fun r =>
    rbind (record_key n r) (fun key =>
    rbind (rmap parse_or_error (skipn n r)) (fun values => Ok (key, values))))) (csv_records f))
  (fun values => Ok (mkTable n (hm_collect values))).

(** vec.rs 118-186 [load_csv_col_vec_table]. *)
Definition load_csv_cols_vec (n : nat) (f : list csv_record) : tres (table (list Q)) :=
  rbind (next_headers (n - 1) 0 (csv_records f) (first_headers 0 f)) (fun hr =>
  let '(cols, recs) := hr in
  rbind (rmap (fun result =>
    rbind result (fun r =>
    rbind (rmap parse_or_error r) (fun values =>
    if length values =? length cols then Ok values else Err CsvRowLength))) recs) (fun rows =>
  rbind (rmap (fun ih => rbind (rmap (fun row => index_or_panic row (fst ih)) rows) (fun vs => Ok (snd ih, vs)))
              (combine (seq 0 (length cols)) cols)) (fun values =>
  Ok (mkTable n (hm_collect values))))).

(** scalar.rs 98-107 [from_csv_row], 111-120 [from_csv_col]: with three and four
    keys, too, a [LoadedScalarTable::Two] is made. *)
Definition from_csv_row_scalar (rows : nat) (f : list csv_record) : tres (table scalar_value) :=
  match rows with
  | 1 => load_csv_rows_scalar 1 f
  | 2 => load_csv_rows_scalar 2 f
  | 3 => load_csv_rows_scalar 2 f
  | 4 => load_csv_rows_scalar 2 f
  | _ => Err FormatNotSupported
  end.
Definition from_csv_col_scalar (cols : nat) (f : list csv_record) : tres (table scalar_value) :=
  match cols with
  | 1 => load_csv_cols_scalar 1 f
  | 2 => load_csv_cols_scalar 2 f
  | 3 => load_csv_cols_scalar 2 f
  | 4 => load_csv_cols_scalar 2 f
  | _ => Err FormatNotSupported
  end.
(** scalar.rs 123-136 [from_csv_row_col]. *)
Definition from_csv_row_col_scalar (rows cols : nat) (f : list csv_record) : tres (table scalar_value) :=
  match rows, cols with
  | 1, 1 => load_csv_row_col_scalar 1 1 f
  | 1, 2 => load_csv_row_col_scalar 1 2 f
  | 2, 1 => load_csv_row_col_scalar 2 1 f
  | 2, 2 => load_csv_row_col_scalar 2 2 f
  | _, _ => Err FormatNotSupported
  end.
(** vec.rs 54-68, 70-84. *)
Definition from_csv_row_vec (rows : nat) (f : list csv_record) : tres (table (list Q)) :=
  match rows with
  | 1 => load_csv_rows_vec 1 f
  | 2 => load_csv_rows_vec 2 f
  | 3 => load_csv_rows_vec 3 f
  | 4 => load_csv_rows_vec 4 f
  | _ => Err FormatNotSupported
  end.
Definition from_csv_col_vec (cols : nat) (f : list csv_record) : tres (table (list Q)) :=
  match cols with
  | 1 => load_csv_cols_vec 1 f
  | 2 => load_csv_cols_vec 2 f
  | 3 => load_csv_cols_vec 3 f
  | 4 => load_csv_cols_vec 4 f
  | _ => Err FormatNotSupported
  end.

(** mod.rs 41-45, 81-101: the definition of a table in a model file, with the
    content of the file it names, if that can be opened. *)
Inductive lookup := LookupRow (cols : nat) | LookupCol (rows : nat) | LookupBoth (rows cols : nat).
Inductive value_type := ScalarTable | ArrayTable.
Record table_def := mkTableDef { td_name : string; td_type : value_type; td_lookup : lookup; td_file : option (list csv_record) }.
(** mod.rs 196-200 [LoadedTable]. *)
Inductive loaded_table := FloatVec (t : table (list Q)) | FloatScalar (t : table scalar_value).

(** mod.rs 104-135 [load_f64]. *)
Definition load_table (d : table_def) : tres loaded_table :=
  let opened {A} (g : list csv_record -> tres A) : tres A := match td_file d with Some f => g f | None => Err TableIO end in
  match td_type d, td_lookup d with
  | ScalarTable, LookupRow rows =>
      match rows with 1 | 2 | 3 | 4 => rbind (opened (from_csv_row_scalar rows)) (fun t => Ok (FloatScalar t)) | _ => Err FormatNotSupported end
  | ScalarTable, LookupCol cols =>
      match cols with 1 | 2 | 3 | 4 => rbind (opened (from_csv_col_scalar cols)) (fun t => Ok (FloatScalar t)) | _ => Err FormatNotSupported end
  | ScalarTable, LookupBoth rows cols =>
      match rows, cols with
      | 1, 1 | 1, 2 | 2, 1 | 2, 2 => rbind (opened (from_csv_row_col_scalar rows cols)) (fun t => Ok (FloatScalar t))
      | _, _ => Err FormatNotSupported
      end
  | ArrayTable, LookupRow rows =>
      match rows with 1 | 2 | 3 | 4 => rbind (opened (from_csv_row_vec rows)) (fun t => Ok (FloatVec t)) | _ => Err FormatNotSupported end
  | ArrayTable, LookupCol cols =>
      match cols with 1 | 2 | 3 | 4 => rbind (opened (from_csv_col_vec cols)) (fun t => Ok (FloatVec t)) | _ => Err FormatNotSupported end
  | ArrayTable, LookupBoth _ _ => Err FormatNotSupported
  end.

(** mod.rs 203-233 [LoadedTable]'s methods. *)
Definition loaded_vec_f64 (t : loaded_table) (key : list string) : tres (list Q) :=
  match t with FloatVec t => table_get t key | _ => Err WrongTableFormat end.
Definition loaded_scalar_f64 (t : loaded_table) (key : list string) : tres Q :=
  match t with FloatScalar t => rbind (table_get t key) (fun v => Ok (as_f64 v)) | _ => Err WrongTableFormat end.
Definition loaded_scalar_u64 (t : loaded_table) (key : list string) : tres Z :=
  match t with
  | FloatScalar t => rbind (table_get t key) (fun v => match try_as_u64 v with Some z => Ok z | None => Err U64ConversionError end)
  | _ => Err WrongTableFormat
  end.

(** mod.rs 234-257: errors of a collection. *)
Inductive collection_error :=
| InTable (name : string) (e : table_error)
| DuplicateTableName (name : string)
| TableNotFound (name : string).
Notation cres := (res collection_error).
Definition in_table {A} (name : string) (x : tres A) : cres A :=
  match x with Ok a => Ok a | Err e => Err (InTable name e) | Panic => Panic end.

(** mod.rs 267-293 [from_schema]; the map is the list of its entries. *)
Fixpoint load_tables (defs : list table_def) (tables : list (string * loaded_table)) : cres (list (string * loaded_table)) :=
  match defs with
  | [] => Ok tables
  | d :: ds =>
      rbind (in_table (td_name d) (load_table d)) (fun t =>
      if existsb (fun p => String.eqb (fst p) (td_name d)) tables then Err (DuplicateTableName (td_name d))
      else load_tables ds ((td_name d, t) :: tables))
  end.
(** mod.rs 295-299 [get_table]. *)
Definition get_table (tables : list (string * loaded_table)) (name : string) : cres loaded_table :=
  match find (fun p => String.eqb (fst p) name) tables with Some p => Ok (snd p) | None => Err (TableNotFound name) end.

(** parameters/mod.rs 944-947 [TableIndex]; mod.rs 336-344 [TableDataRef] and
    347-364 its key. *)
Inductive table_index := IxSingle (s : string) | IxMulti (l : list string).
Record table_ref := mkTableRef { tr_table : string; tr_column : option table_index; tr_row : option table_index }.
Definition index_key (i : option table_index) : list string :=
  match i with None => [] | Some (IxSingle s) => [s] | Some (IxMulti l) => l end.
Definition ref_key (r : table_ref) : list string := index_key (tr_row r) ++ index_key (tr_column r).

(** mod.rs 301-333. *)
Definition collection_scalar_f64 (tables : list (string * loaded_table)) (r : table_ref) : cres Q :=
  rbind (get_table tables (tr_table r)) (fun t => in_table (tr_table r) (loaded_scalar_f64 t (ref_key r))).
Definition collection_scalar_u64 (tables : list (string * loaded_table)) (r : table_ref) : cres Z :=
  rbind (get_table tables (tr_table r)) (fun t => in_table (tr_table r) (loaded_scalar_u64 t (ref_key r))).
Definition collection_vec_f64 (tables : list (string * loaded_table)) (r : table_ref) : cres (list Q) :=
  rbind (get_table tables (tr_table r)) (fun t => in_table (tr_table r) (loaded_vec_f64 t (ref_key r))).
End Parse.
