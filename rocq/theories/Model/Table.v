(** internal/dataframe/dataframe.go and internal/arrow3/parquet.go: the record of a view as columns.  Model/Dataframe.v describes a view by
    its rows; here the rows are Arrow columns, appended to, written as one chunk after the other and read back column by
    column.  internal/dataframe imports the published module github.com/gernest/arrow3 v0.0.3 (go.mod:15), of which
    internal/arrow3 is the copy in this repository: the model is that of the copy.
    Trusted: a parquet file gives back the columns written to it. *)
From Verif.Model Require Import Base Labels View Otlp Transform Dataframe Arrow.

(** External, arrow.NewChunked and WriteColumnChunked (called at internal/arrow3/parquet.go:69-71): the values of the chunks one
    after the other; the offsets of a list go on where the child ends. *)
Fixpoint col_append (a b : col) {struct a} : col :=
  match a, b with
  | ColScalar x, ColScalar y => ColScalar (x ++ y)
  | ColBytes x, ColBytes y => ColBytes (x ++ y)
  | ColList s c, ColList s' c' => ColList (s ++ map (fun p => (fst p, (snd p + col_len c)%nat)) s') (col_append c c')
  | ColStruct v cs, ColStruct v' cs' =>
      ColStruct (v ++ v') ((fix go (xs ys : list col) {struct xs} : list col := match xs, ys with x :: xs, y :: ys => col_append x y :: go xs ys | _, _ => [] end) cs cs')
  | _, _ => a
  end.
(** internal/arrow3/parquet.go:66-79, the loop over the columns of the first record, for two records. *)
Fixpoint record_append (xs ys : list col) : list col :=
  match xs, ys with x :: xs, y :: ys => col_append x y :: record_append xs ys | _, _ => [] end.
(** internal/arrow3/parquet.go:54-80, WriteParquetRecords; there is always a first record. *)
Definition write_records (rs : list (list col)) : list col := match rs with [] => [] | r :: t => fold_left record_append t r end.
(** External, arrow.Record.NumRows (called at internal/dataframe/dataframe.go:228). *)
Definition num_rows (r : list col) : nat := match r with [] => O | c :: _ => col_len c end.

Section Table.
  Variable any : Type.
  Variable marshal : any -> option string.
  Variable unmarshal : string -> any.
  Notation fval := (fval any).

  (** External, protoreflect: a new message has no field set (internal/arrow3/node.go:53). *)
  Definition unset (f : field) : fval := let '(Field il _ _) := f in if il then FList [] else FSingle None.
  (** internal/arrow3/parquet.go:21-47, Read with a list of columns, then internal/arrow3/node.go:42-95, unmarshal: the record has only the
      chosen top level fields; of the others nothing is set. *)
  Fixpoint read_chosen (fs : list field) (chosen : list bool) (cs : list col) (row : nat) : option (list fval) :=
    match fs, chosen, cs with
    | Field il p k :: fs, b :: chosen, c :: cs =>
        match (if b then read_cell any il p k (read_value any unmarshal k) c row else Some (unset (Field il p k))), read_chosen fs chosen cs row with
        | Some y, Some ys => Some (y :: ys)
        | _, _ => None
        end
    | [], [], [] => Some []
    | _, _, _ => None
    end.

  (** internal/dataframe/dataframe.go:231-249: the messages are appended to a builder, made a record, written after the old one.
      None: building panics. *)
  Definition append_messages (fs : list field) (old : option (list col)) (ms : list (list fval)) : option (list col) :=
    match new_schema fs with
    | None => None
    | Some cols =>
        match new_record (fold_left (fun cs m => write_message any marshal fs m cs) ms cols) with
        | None => None
        | Some b => Some (match old with None => write_records [b] | Some r => write_records [r; b] end)
        end
    end.
  (** internal/dataframe/dataframe.go:164-258: one transaction after the other on the same view. *)
  Fixpoint append_batches (fs : list field) (old : option (list col)) (batches : list (list (list fval))) : option (option (list col)) :=
    match batches with
    | [] => Some old
    | b :: t => match append_messages fs old b with None => None | Some r => append_batches fs (Some r) t end
    end.

  (** proto/rq/v1/scan.proto:83-89, message Data: a oneof of three messages, whose fields are parameters here. *)
  Variables metrics_fields logs_fields traces_fields : list field.
  (** proto/rq/v1/scan.proto:83-89. *)
  Definition data_fields : list field :=
    [Field false true (KMsg metrics_fields); Field false true (KMsg logs_fields); Field false true (KMsg traces_fields)].
  (** External, protobuf: the three payloads as trees of fields (appended at internal/dataframe/dataframe.go:237-239). *)
  Variable of_metrics : list (resource_group metric) -> list fval.
  Variable of_logs : list (resource_group log_record) -> list fval.
  Variable of_traces : list (resource_group span) -> list fval.
  (** internal/dataframe/dataframe.go:231 and 237-239: the message of a row; blanks are an empty Data. *)
  Definition data_message (d : data) : list fval :=
    match d with
    | DMetrics l => [FSingle (Some (VMsg (of_metrics l))); FSingle None; FSingle None]
    | DLogs l => [FSingle None; FSingle (Some (VMsg (of_logs l))); FSingle None]
    | DTraces l => [FSingle None; FSingle None; FSingle (Some (VMsg (of_traces l)))]
    | DNone => [FSingle None; FSingle None; FSingle None]
    end.
  (** internal/dataframe/dataframe.go:190-249, appendView with columns: [lastId] comes from the number of rows of the old record. *)
  Definition append_view_columns (old : option (list col)) (samples : list sample) : option (list col) :=
    append_messages data_fields old
      (map data_message (new_rows (match old with None => 0 | Some r => N.of_nat (num_rows r) - 1 end) samples)).
  (** internal/dataframe/dataframe.go:164-258: saves one after the other. *)
  Fixpoint append_views_columns (old : option (list col)) (batches : list (list sample)) : option (option (list col)) :=
    match batches with
    | [] => Some old
    | b :: t => match append_view_columns old b with None => None | Some r => append_views_columns (Some r) t end
    end.
  (** internal/dataframe/columns.go:32-59: the columns of a signal are those below its own field. *)
  Definition signal_columns (signal : Z) : list bool :=
    [Z.eqb signal RESOURCE_METRICS; Z.eqb signal RESOURCE_LOGS; Z.eqb signal RESOURCE_TRACES].
  (** internal/dataframe/dataframe.go:44-79: one row of a view, read for one signal. *)
  Definition read_signal (signal : Z) (r : list col) (row : nat) : option (list fval) := read_chosen data_fields (signal_columns signal) r row.
End Table.

(** External, strings.HasPrefix (called at internal/dataframe/columns.go:42-55). *)
Fixpoint has_prefix (s p : string) : bool :=
  match p, s with
  | EmptyString, _ => true
  | String a p, String b s => Ascii.eqb a b && has_prefix s p
  | _, EmptyString => false
  end.
(** internal/dataframe/columns.go:40-57, NewColumns: the leaf columns of each signal, by number; [paths] are the paths of all leaf
    columns in order. *)
Fixpoint new_columns (i : nat) (paths : list string) : list nat * list nat * list nat :=
  match paths with
  | [] => ([], [], [])
  | p :: t => let '(m, l, s) := new_columns (S i) t in
              if has_prefix p "metrics." then (i :: m, l, s)
              else if has_prefix p "logs." then (m, i :: l, s)
              else if has_prefix p "traces." then (m, l, i :: s)
              else (m, l, s)
  end.
