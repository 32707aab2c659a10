(** internal/rows/row.go: shifting a row, its keys, and the table made of it. *)
From Coq Require Import ZArith.
From Verif.Model Require Import Base View Rows.
Open Scope N_scope.

(** External, roaring's Shift(1) (called at internal/rows/row.go:720-733): every member one higher; the largest
    64 bit value is shifted out. *)
Definition bitmap_shift (b : nset) : nset := flat_map (fun v => if v + 1 <? two64 then [v + 1] else []) b.
(** internal/rows/row.go:720-733, RowSegment.Shift. *)
Definition seg_shift (s : segment) : segment := seg_of (g_shard s) (bitmap_shift (g_data s)).
(** internal/rows/row.go:480-493, the loop of Shift ([segments] reuses the array [work] is read from; an element is read
    before it is overwritten). *)
Fixpoint shift_loop (n : nat) (r : row) : row :=
  match n with O => r | S k => shift_loop k (map seg_shift r) end.
(** internal/rows/row.go:473-495, Shift; None is the error for negative arguments. *)
Definition row_shift (n : Z) (r : row) : option row :=
  if (n <? 0)%Z then None else Some (shift_loop (Z.to_nat n) r).

(** internal/rows/row.go:17-24, DataType. *)
Inductive data_type := TString | TInt64 | TFloat64 | TTimestamp.
(** internal/rows/row.go:65-68, ColumnInfo. *)
Record column_info := ColumnInfo { ci_name : string; ci_type : data_type }.
(** internal/rows/row.go:72-77, Value: four pointers. *)
Record value := Value { v_string : option string; v_int : option N; v_double : option N; v_timestamp : option N }.
(** internal/rows/row.go:79-83, StringValue. *)
Definition string_value (s : string) : value := Value (Some s) None None None.
(** internal/rows/row.go:84-88, IntValue. *)
Definition int_value (n : N) : value := Value None (Some n) None None.
(** internal/rows/row.go:90-95, Value.String. *)
Definition value_string (v : value) : string := match v_string v with Some s => s | None => ""%string end.
(** internal/rows/row.go:97-102, Value.Int. *)
Definition value_int (v : value) : N := match v_int v with Some n => n | None => 0 end.
(** internal/rows/row.go:104-109, Value.Float64 (bits): the test is on the integer pointer, the dereference on the
    other; None is the nil dereference. *)
Definition value_float64 (v : value) : option N :=
  match v_int v with Some _ => v_double v | None => Some 0 end.

(** internal/rows/row.go:112-117, Value.Time: milliseconds from 1970 to the instant it tells; the zero time.Time is the beginning of the year 1. *)
Definition value_time (v : value) : Z := match v_timestamp v with Some n => int64_of_u64 n | None => (-62135596800000)%Z end.

(** internal/rows/row.go:115-138, Row with its keys, index, field and NoSplit. *)
Record full_row := FullRow { fr_segments : row; fr_keys : list string; fr_index : string; fr_field : string; fr_no_split : bool }.
(** internal/rows/row.go:192-223, Clone (the segments: Model/RowHeap.v). *)
Definition row_clone (r : full_row) : full_row := FullRow (fr_segments r) (fr_keys r) (fr_index r) (fr_field r) false.
(** internal/rows/row.go:60-63, RowResult; nil headers are the empty list. *)
Record row_result := RowResult { rr_headers : list column_info; rr_columns : list value }.
(** internal/rows/row.go:161-172 and 178-186, the results handed to the callback: headers with the first only. *)
Fixpoint results (ci : list column_info) (vs : list value) : list row_result :=
  match vs with [] => [] | v :: t => RowResult ci [v] :: results [] t end.
(** internal/rows/row.go:159-190, ToRows: the calls of the callback. *)
Definition row_results (r : full_row) : list row_result :=
  match fr_keys r with
  | [] => results [ColumnInfo "_id" TInt64] (map int_value (row_columns (fr_segments r)))
  | keys => results [ColumnInfo "_id" TString] (map string_value keys)
  end.
(** internal/rows/row.go:159-190, ToRows with a callback that may fail: the calls made and whether it ended well. *)
Fixpoint deliver (fails : nat -> row_result -> bool) (i : nat) (rs : list row_result) : list row_result * bool :=
  match rs with
  | [] => ([], true)
  | r :: t => if fails i r then ([r], false) else let '(l, ok) := deliver fails (S i) t in (r :: l, ok)
  end.
(** internal/rows/row.go:159-190, ToRows. *)
Definition to_rows (fails : nat -> row_result -> bool) (r : full_row) : list row_result * bool := deliver fails 0 (row_results r).
(** internal/rows/row.go:55-58, Table. *)
Record table := Table { t_headers : list column_info; t_rows : list (list value) }.
(** internal/rows/row.go:30-53 and 149-157, RowsToTable and ToTable: the headers are those of the first result. *)
Definition to_table (r : full_row) : table :=
  fold_left (fun t rr => Table (match t_rows t with [] => rr_headers rr | _ => t_headers t end) (t_rows t ++ [rr_columns rr]))
    (fst (to_rows (fun _ _ => false) r)) (Table [] []).

(** internal/rows/row.go:498-501 and 736-743, the answer of SetBit: whether the bitmap of the (possibly new) segment did
    not have the column. *)
Fixpoint set_changes_in (shard i : N) (r : row) : bool :=
  match r with
  | [] => true
  | s :: t => if shard <=? g_shard s
              then if g_shard s =? shard then negb (smem i (g_data s)) else true
              else set_changes_in shard i t
  end.
(** internal/rows/row.go:498-501, SetBit. *)
Definition set_changes (i : N) (r : row) : bool := set_changes_in (i / shard_width) i r.
