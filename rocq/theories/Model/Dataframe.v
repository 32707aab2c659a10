(** internal/dataframe/dataframe.go: sample data stored per view as one record (a parquet table with one
    row per sample id) together with one set of ids per signal.
    Trusted: a badger update transaction is atomic; writing a record as parquet and reading it back is the
    identity on rows (arrow3, external); a blank row reads as an empty Data.  The schema object comes from a
    pool; it is assumed to carry no rows left over from a failed call. *)
From Verif.Model Require Import Base Labels View Otlp Transform.

(** internal/dataframe/dataframe.go:175-178 and 252-255: the four keys of a view (record and three sets), written together. *)
Record frame := Frame { fr_rows : list data; fr_metrics : nset; fr_traces : nset; fr_logs : nset }.
(** internal/dataframe/dataframe.go:175-178, 252-255: the keys of all views in the database. *)
Definition frames := amap string frame.

(** internal/dataframe/dataframe.go:180-189, setSample. *)
Definition set_sample (f : frame) (s : sample) : frame :=
  match smp_data s with
  | DMetrics _ => Frame (fr_rows f) (sadd (smp_id s) (fr_metrics f)) (fr_traces f) (fr_logs f)
  | DTraces _ => Frame (fr_rows f) (fr_metrics f) (sadd (smp_id s) (fr_traces f)) (fr_logs f)
  | DLogs _ => Frame (fr_rows f) (fr_metrics f) (fr_traces f) (sadd (smp_id s) (fr_logs f))
  | DNone => f
  end.

(** internal/dataframe/dataframe.go:231-240: the rows appended for a list of samples.  The loop
    [for i := lastId + 1; i < s.Id; i++] appends s.Id - (lastId + 1) blanks, or none. *)
Fixpoint new_rows (last : N) (samples : list sample) : list data :=
  match samples with
  | [] => []
  | s :: t => repeat DNone (N.to_nat (smp_id s - (last + 1))) ++ smp_data s :: new_rows (smp_id s) t
  end.

(** internal/dataframe/dataframe.go:164-258, appendView, when every step succeeds.  [lastId] starts at 0 when the view does
    not exist yet, at NumRows-1 otherwise (225-229; a stored record always has a row). *)
Definition append_view (old : option frame) (samples : list sample) : frame :=
  match old with
  | None => let f := fold_left set_sample samples (Frame [] [] [] []) in
            Frame (new_rows 0 samples) (fr_metrics f) (fr_traces f) (fr_logs f)
  | Some o => let f := fold_left set_sample samples o in
              Frame (fr_rows o ++ new_rows (N.of_nat (List.length (fr_rows o)) - 1) samples) (fr_metrics f) (fr_traces f) (fr_logs f)
  end.

(** internal/dataframe/dataframe.go:140-153, the first half of Append: samples grouped by the views of their MinTs.  [q] is
    the QuantizedTime reused for every sample. *)
Definition group_sample (vs : list string) (s : sample) (m : amap string (list sample)) : amap string (list sample) :=
  fold_left (fun m v => aset String.eqb v (match aget String.eqb v m with Some l => l | None => [] end ++ [s]) m) vs m.
(** internal/dataframe/dataframe.go:144-153, the loop over the samples. *)
Fixpoint group_samples (q : quantized_time) (l : list (sample * N)) (m : amap string (list sample)) : option (amap string (list sample)) :=
  match l with
  | [] => Some m
  | (s, min_ts) :: t =>
      let q' := qt_set q (int64_of_u64 min_ts) in
      match views_buf batch_quantum q' with
      | None => None
      | Some vs => group_samples q' t (group_sample vs s m)
      end
  end.

(** internal/dataframe/dataframe.go:155-160, the second half: one transaction per view, in the order the map yields them. *)
Definition append_step (fs : frames) (g : string * list sample) : frames :=
  aset String.eqb (fst g) (append_view (aget String.eqb (fst g) fs) (snd g)) fs.
(** internal/dataframe/dataframe.go:155-160, the loop over the views. *)
Definition append_steps (fs : frames) (order : list (string * list sample)) : frames := fold_left append_step order fs.

(** internal/dataframe/dataframe.go:83-91, the set consulted for a signal; the caller only passes the three signals. *)
Definition signal_set (signal : Z) (f : frame) : nset :=
  if Z.eqb signal RESOURCE_METRICS then fr_metrics f
  else if Z.eqb signal RESOURCE_TRACES then fr_traces f
  else if Z.eqb signal RESOURCE_LOGS then fr_logs f else [].

(** internal/dataframe/dataframe.go:44-54 and internal/dataframe/columns.go:32-59: only the columns below the signal's own field are read, so a
    row holding another signal comes back without data. *)
Definition only_signal (signal : Z) (d : data) : data :=
  match d with
  | DMetrics _ => if Z.eqb signal RESOURCE_METRICS then d else DNone
  | DTraces _ => if Z.eqb signal RESOURCE_TRACES then d else DNone
  | DLogs _ => if Z.eqb signal RESOURCE_LOGS then d else DNone
  | DNone => DNone
  end.

(** internal/dataframe/dataframe.go:101-138 read and 75-79 readRows: [fault] says whether accessing the view fails.  A row
    number beyond the record yields None (the arrow arrays are indexed without a check). *)
Definition read_view (fault : string -> bool) (fs : frames) (signal : Z) (rows : nset) (v : string) : option (list (option data)) :=
  if fault v then None else
  match aget String.eqb v fs with
  | None => Some []
  | Some f => Some (map (fun id => option_map (only_signal signal) (nth_error (fr_rows f) (N.to_nat id))) (sinter (signal_set signal f) rows))
  end.
(** internal/dataframe/dataframe.go:81-99 View and 56-73 Unmarshal: the views in order, stopping at the first error. *)
Fixpoint read_views (fault : string -> bool) (fs : frames) (signal : Z) (rows : nset) (vs : list string) : option (list (option data)) :=
  match vs with
  | [] => Some []
  | v :: t => match read_view fault fs signal rows v with
              | None => None
              | Some a => match read_views fault fs signal rows t with None => None | Some b => Some (a ++ b) end
              end
  end.
