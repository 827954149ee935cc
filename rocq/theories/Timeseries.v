(** Time series data: pywr-schema/src/timeseries/align_and_resample.rs, mod.rs,
    and pywr-core/src/timestep.rs 60-97 (durations in milliseconds and as text).
    Polars' operations on data frames are modelled as its documentation
    describes them: a stable sort, filters, [group_by_dynamic] with windows from
    the first row, closed on the left and labelled with it, [mean] over the
    values that are not null, [upsample] as a left join of the new times with
    the frame, and [fill_null] forward.  Columns are numeric.  The time column
    is the first component of a row, in milliseconds, and is never null;
    parsing of files is not modelled. *)
From Coq Require Import QArith Qround.
From Verif Require Import Base Calendar Timestep.
Local Open Scope string_scope.
Local Open Scope list_scope.
Local Open Scope Z_scope.

(** A row of a data frame: its time and its other cells ([None] is null). *)
Notation ts_row := (Z * list (option Q))%type.
Record frame := mkFrame { fr_columns : list string; fr_rows : list ts_row }.

(** mod.rs 39-81 [TimeseriesError]; errors of polars are [PolarsError]. *)
Inductive ts_error :=
| TimeseriesNotFound
| TimeseriesDurationNotFound
| DataFrameTimestepMismatch
| TimeseriesColumnOrScenarioRequired
| ColumnNotFound
| PolarsError.
Notation sres := (res ts_error).

(** timestep.rs 67-69 [milliseconds]. *)
Definition NS_PER_MS : Z := 1000000.
Definition milliseconds (duration : Z) : Z := duration / NS_PER_MS.
(** timestep.rs 73-97 [duration_string], as the list of the numbers and units
    written. *)
Inductive time_unit := UDay | UHour | UMinute | USecond | UMilli.
Definition unit_ms (u : time_unit) : Z :=
  match u with UDay => 86400000 | UHour => 3600000 | UMinute => 60000 | USecond => 1000 | UMilli => 1 end.
Definition duration_string (ms : Z) : list (Z * time_unit) :=
  let part n u := if 0 <? n then [(n, u)] else [] in
  part (ms / unit_ms UDay) UDay ++
  part ((ms mod unit_ms UDay) / unit_ms UHour) UHour ++
  part ((ms mod unit_ms UHour) / unit_ms UMinute) UMinute ++
  part ((ms mod unit_ms UMinute) / unit_ms USecond) USecond ++
  part (ms mod unit_ms USecond) UMilli.
(** Polars' [Duration::parse] of such a text; an empty text is a duration of
    zero, which [group_by_dynamic] and [upsample] refuse. *)
Definition parse_duration (l : list (Z * time_unit)) : Z := fold_right (fun p a => fst p * unit_ms (snd p) + a) 0 l.

(** align_and_resample.rs 94-100, 112-117: the date of a time-step down to the
    second. *)
Definition NS_PER_SEC : Z := 1000000000.
Definition date_ms (t : timestep) : Z := instant (ts_date t) / NS_PER_SEC * 1000.

(** align_and_resample.rs 15-24: sorted by time, the order of rows with the same
    time being kept. *)
Fixpoint insert_row (r : ts_row) (l : list ts_row) : list ts_row :=
  match l with
  | [] => [r]
  | x :: l' => if fst r <=? fst x then r :: l else x :: insert_row r l'
  end.
Definition sort_rows (l : list ts_row) : list ts_row := fold_right insert_row [] l.

(** align_and_resample.rs 91-107 [slice_start], 109-123 [slice_end]. *)
Definition slice_start (start : Z) (l : list ts_row) : list ts_row := filter (fun r => start <=? fst r) l.
Definition slice_end (stop : Z) (l : list ts_row) : list ts_row := filter (fun r => fst r <=? stop) l.

(** align_and_resample.rs 30-38: the distinct differences between times. *)
Fixpoint diffs (l : list ts_row) : list Z :=
  match l with
  | x :: (y :: _) as l' => fst y - fst x :: diffs l'
  | _ => []
  end.
Definition durations (l : list ts_row) : list Z := nodup Z.eq_dec (diffs l).

(** The values of a column that are not null, and their mean. *)
Definition known_values (j : nat) (l : list ts_row) : list Q :=
  flat_map (fun r : ts_row => match nth_error (snd r) j with Some (Some q) => [q] | _ => [] end) l.
Definition mean_of (l : list Q) : option Q :=
  match l with [] => None | _ => Some (fold_right Qplus 0 l / inject_Z (Z.of_nat (length l)))%Q end.

(** align_and_resample.rs 53-70: windows of length [every] from the first row,
    those without rows left out. *)
Definition last_time (l : list ts_row) (t0 : Z) : Z := last (map fst l) t0.
Definition downsample (every : Z) (width : nat) (l : list ts_row) : list ts_row :=
  match l with
  | [] => []
  | (t0, _) :: _ =>
      flat_map (fun i =>
        let left := t0 + Z.of_nat i * every in
        match filter (fun r : ts_row => (left <=? fst r) && (fst r <? left + every)) l with
        | [] => []
        | rows => [(left, map (fun j => mean_of (known_values j rows)) (seq 0 width))]
        end) (seq 0 (S (Z.to_nat ((last_time l t0 - t0) / every))))
  end.

(** align_and_resample.rs 72-78: the times from the first to the last row in
    steps of [every], each with the cells of the row with that time, and then
    with the last value that is not null. *)
Fixpoint fill_forward (before : list (option Q)) (l : list ts_row) : list ts_row :=
  match l with
  | [] => []
  | (t, cells) :: l' =>
      let filled := map (fun p : option Q * option Q => match fst p with Some q => Some q | None => snd p end) (combine cells before) in
      (t, filled) :: fill_forward filled l'
  end.
Definition upsample (every : Z) (width : nat) (l : list ts_row) : list ts_row :=
  match l with
  | [] => []
  | (t0, _) :: _ =>
      fill_forward (repeat None width) (map (fun i =>
        let t := t0 + Z.of_nat i * every in
        match find (fun r : ts_row => fst r =? t) l with
        | Some r => (t, snd r)
        | None => (t, repeat None width)
        end) (seq 0 (S (Z.to_nat ((last_time l t0 - t0) / every)))))
  end.

(** align_and_resample.rs 7-89 [align_and_resample], the time column dropped by
    the caller. *)
Definition align_and_resample (steps : list timestep) (f : frame) : sres frame :=
  match steps with
  | [] => Panic
  | first :: _ =>
      let rows := slice_start (date_ms first) (sort_rows (fr_rows f)) in
      match durations rows with
      | _ :: _ :: _ => Panic
      | [] => Err TimeseriesDurationNotFound
      | [spacing] =>
          let every := parse_duration (duration_string (milliseconds (ts_duration first))) in
          let width := length (fr_columns f) in
          rbind (match milliseconds (ts_duration first) ?= spacing with
                 | Gt => if every <=? 0 then Err PolarsError else Ok (downsample every width rows)
                 | Lt => if every <=? 0 then Err PolarsError else Ok (upsample every width rows)
                 | Eq => Ok rows
                 end) (fun resampled =>
          let out := slice_end (date_ms (last steps first)) resampled in
          if (length out =? length steps)%nat then Ok (mkFrame (fr_columns f) out)
          else Err DataFrameTimestepMismatch)
      end
  end.

(** mod.rs 166-187 [from_schema]: the data sets, by name. *)
Inductive ts_load_error := InTimeseries (name : string) (e : ts_error) | DuplicateTimeseriesName (name : string).
Fixpoint load_timeseries (steps : list timestep) (defs : list (string * frame)) (acc : list (string * frame)) : res ts_load_error (list (string * frame)) :=
  match defs with
  | [] => Ok acc
  | (name, f) :: ds =>
      match align_and_resample steps f with
      | Ok f' => if existsb (fun p => String.eqb (fst p) name) acc then Err (DuplicateTimeseriesName name)
                 else load_timeseries steps ds ((name, f') :: acc)
      | Err e => Err (InTimeseries name e)
      | Panic => Panic
      end
  end.

(** mod.rs 425-437 [TimeseriesReference]; a reference is made where a value or
    where an index is needed. *)
Inductive ts_columns := ByScenario (name : string) | ByColumn (name : string).
Inductive wanted := AsValue | AsIndex.
Record ts_reference := mkTsRef { tsr_name : string; tsr_columns : option ts_columns; tsr_as : wanted }.

(** array.rs: the array parameters that references create.  [None] in a
    two-dimensional array is not-a-number. *)
Inductive ts_array := Array1 (values : list Q) | Array2 (values : list (list (option Q))) (group : string).
Record ts_param := mkTsParam { tp_name : string; tp_parent : string; tp_as : wanted; tp_array : ts_array }.

(** Casts to [UInt64]: of a number without the part behind the point; null if
    that is out of range. *)
Definition truncated (q : Q) : Z := Z.quot (Qnum q) (Zpos (Qden q)).
Definition cast_cell (w : wanted) (q : Q) : option Q :=
  match w with
  | AsValue => Some q
  | AsIndex => if (0 <=? truncated q) && (truncated q <? 2 ^ 64) then Some (inject_Z (truncated q)) else None
  end.
Definition cast_opt (w : wanted) (o : option Q) : option Q := match o with Some q => cast_cell w q | None => None end.

(** [df.column(col)], cast and made an array, which fails if there is a null. *)
Fixpoint column_position (col : string) (l : list string) : option nat :=
  match l with
  | [] => None
  | c :: l' => if String.eqb c col then Some O else option_map S (column_position col l')
  end.
Definition column_array (w : wanted) (f : frame) (col : string) : sres (list Q) :=
  match column_position col (fr_columns f) with
  | None => Err PolarsError
  | Some j => rmap (fun r : ts_row => match cast_opt w (nth j (snd r) None) with Some q => Ok q | None => Err PolarsError end) (fr_rows f)
  end.
(** [df.to_ndarray]: a null is not-a-number, or an error for integers. *)
Definition frame_array (w : wanted) (f : frame) : sres (list (list (option Q))) :=
  rmap (fun r : ts_row => match w with
                 | AsValue => Ok (snd r)
                 | AsIndex => rmap (fun o => match cast_opt w o with Some q => Ok (Some q) | None => Err PolarsError end) (snd r)
                 end) (fr_rows f).

(** parameters/mod.rs 2999-3003 [contains_name], for parameters with a parent;
    it does not tell values from indices. *)
Definition has_param (params : list ts_param) (name parent : string) : bool :=
  existsb (fun p => String.eqb (tp_name p) name && String.eqb (tp_parent p) parent) params.
Definition find_frame (ts : list (string * frame)) (name : string) : sres frame :=
  match find (fun p => String.eqb (fst p) name) ts with Some p => Ok (snd p) | None => Err TimeseriesNotFound end.

(** mod.rs 182-328 [load_column_*], [load_single_column_*] and [load_df_*]: the
    name of the parameter, created unless there is one with that name. *)
Definition add_unless (params : list ts_param) (name parent : string) (w : wanted) (a : ts_array) : list ts_param * (string * string) :=
  (if has_param params name parent then params else params ++ [mkTsParam name parent w a], (name, parent)).
Definition load_column (ts : list (string * frame)) (params : list ts_param) (w : wanted) (name col : string) : sres (list ts_param * (string * string)) :=
  rbind (find_frame ts name) (fun f =>
  rbind (column_array w f col) (fun a => Ok (add_unless params col name w (Array1 a)))).
Definition load_single_column (ts : list (string * frame)) (params : list ts_param) (w : wanted) (name : string) : sres (list ts_param * (string * string)) :=
  rbind (find_frame ts name) (fun f =>
  match fr_columns f with
  | _ :: _ :: _ => Err TimeseriesColumnOrScenarioRequired
  | [] => Err ColumnNotFound
  | [col] => rbind (column_array w f col) (fun a => Ok (add_unless params col name w (Array1 a)))
  end).
Definition load_df (ts : list (string * frame)) (params : list ts_param) (w : wanted) (name scenario : string) : sres (list ts_param * (string * string)) :=
  rbind (find_frame ts name) (fun f =>
  rbind (frame_array w f) (fun a => Ok (add_unless params scenario name w (Array2 a scenario)))).
(** metric.rs 128-142, 740-757. *)
Definition load_reference (ts : list (string * frame)) (params : list ts_param) (r : ts_reference) : sres (list ts_param * (string * string)) :=
  match tsr_columns r with
  | Some (ByScenario s) => load_df ts params (tsr_as r) (tsr_name r) s
  | Some (ByColumn c) => load_column ts params (tsr_as r) (tsr_name r) c
  | None => load_single_column ts params (tsr_as r) (tsr_name r)
  end.
(** The references of a model file, in the order they are loaded in. *)
Fixpoint load_references (ts : list (string * frame)) (params : list ts_param) (rs : list ts_reference) : sres (list ts_param * list (string * string)) :=
  match rs with
  | [] => Ok (params, [])
  | r :: rs' =>
      rbind (load_reference ts params r) (fun pn =>
      rbind (load_references ts (fst pn) rs') (fun pns => Ok (fst pns, snd pn :: snd pns)))
  end.
(** The parameter a name stands for. *)
Definition find_param (params : list ts_param) (n : string * string) : option ts_param :=
  find (fun p => String.eqb (tp_name p) (fst n) && String.eqb (tp_parent p) (snd n)) params.
