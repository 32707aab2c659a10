(** Every kind of key the server writes to its single badger database (cmd/rq/main.go:84-106). *)
From Verif.Model Require Import Base KV Slice Sequence Translate.

(** The three sets of internal/dataframe/dataframe.go:24-28. *)
Inductive signal := SigMetrics | SigTraces | SigLogs.

(** internal/dataframe/dataframe.go:24-28, setsMetrics / setsTraces / setsLogs. *)
Definition set_prefix (s : signal) : string :=
  match s with
  | SigMetrics => "sets_metrics_"
  | SigTraces => "sets_traces_"
  | SigLogs => "sets_logs_"
  end.

(** internal/batch/time.go:12, Prefix = view.StdView + "_". *)
Definition view_prefix : string := "std_".

(** The keys written at internal/translate/translate.go:76-108, internal/seq/seq.go:15-25 and internal/dataframe/dataframe.go:252-255. *)
Inductive db_entry :=
| ELabel (label : string)     (* internal/translate/translate.go:76-108 and 124, keys ++ label *)
| EId (id : N)                (* internal/translate/translate.go:91-93, ids ++ big endian id *)
| ETranslateSeq               (* internal/translate/translate.go:20 *)
| ESampleSeq                  (* internal/seq/seq.go:16-18 *)
| EFrame (v : string)         (* internal/dataframe/dataframe.go:175, the view name itself, always "std_..." *)
| ESet (s : signal) (v : string).  (* internal/dataframe/dataframe.go:176-178 *)

(** The bytes of each key; [kp], [ip], [sp]: those of the translator's keys, ids and sequence key slices (internal/translate/translate.go:19-28). *)
Definition entry_key (kp ip sp : string) (e : db_entry) : string :=
  match e with
  | ELabel l => append kp l
  | EId n => append ip (u64be n)
  | ETranslateSeq => sp
  | ESampleSeq => sample_seq_key
  | EFrame v => append view_prefix v
  | ESet s v => append (set_prefix s) (append view_prefix v)
  end.
