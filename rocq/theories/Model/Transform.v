(** internal/transform: extraction of index labels and of the time span of a sample.
    The context is a state machine; the translation function of the caller is a parameter, itself
    stateful (it allocates column ids). *)
From Verif.Model Require Import Base Labels Otlp.

Section Transform.
Context {S : Type} (translate : S -> string -> S * N).

(** internal/transform/transform.go:21-29, type Context ([c_label] keeps its Resource between samples and batches). *)
Record ctx := Ctx { c_tr : S; c_min : N; c_max : N; c_pos : nset; c_label : label }.

(** internal/transform/transform.go:151-158, Label: clear key and value, let [f] fill the label, translate, record. *)
Definition do_label (c : ctx) (f : label -> label) : ctx :=
  let l0 := Label (l_resource (c_label c)) (l_prefix (c_label c)) "" "" in
  let l := f l0 in
  let '(s, col) := translate (c_tr c) (encode l) in
  Ctx s (c_min c) (c_max c) (sadd col (c_pos c)) l.

(** internal/labels/labels.go:25-38 *)
Definition with_prefix (p : Z) (l : label) : label := Label (l_resource l) p (l_key l) (l_value l).
(** internal/labels/labels.go:32-35, WithKey. *)
Definition with_key (k : string) (l : label) : label := Label (l_resource l) (l_prefix l) k (l_value l).
(** internal/labels/labels.go:37-40, WithValue. *)
Definition with_value (v : string) (l : label) : label := Label (l_resource l) (l_prefix l) (l_key l) v.

(** internal/transform/transform.go:109-113: a label with prefix and key, the shape used throughout. *)
Definition label_key (p : Z) (k : string) (c : ctx) : ctx := do_label c (fun l => with_key k (with_prefix p l)).

(** internal/transform/transform.go:160-167, init: the signal marker, with whatever resource the label still has. *)
Definition ctx_init (c : ctx) : ctx := do_label c (fun l => with_prefix PREFIX_UNKNOWN l).

(** internal/transform/transform.go:81-84, WithResource. *)
Definition with_resource (r : Z) (c : ctx) : ctx :=
  Ctx (c_tr c) (c_min c) (c_max c) (c_pos c)
      (Label r (l_prefix (c_label c)) (l_key (c_label c)) (l_value (c_label c))).

(** internal/transform/transform.go:169-181, attributes. *)
Definition attributes (p : Z) (kvs : list key_value) (c : ctx) : ctx :=
  fold_left (fun c kv =>
    let s := get_string (kv_val kv) in
    if nonempty s then do_label c (fun l => with_value s (with_key (kv_key kv) (with_prefix p l))) else c) kvs c.

(** internal/transform/transform.go:183-189, Timestamp. *)
Definition timestamp (ts : N) (c : ctx) : ctx :=
  let mn := if c_min c =? 0 then ts else c_min c in
  Ctx (c_tr c) (N.min mn ts) (N.max (c_max c) ts) (c_pos c) (c_label c).
(** internal/transform/transform.go:199-205, Range. *)
Definition range (st en : N) (c : ctx) : ctx :=
  let mn := if c_min c =? 0 then st else c_min c in
  Ctx (c_tr c) (N.min mn st) (N.max (c_max c) en) (c_pos c) (c_label c).

(** internal/transform/transform.go:108-118, addResource. *)
Definition add_resource {A} (g : resource_group A) (c : ctx) : ctx :=
  let c := if nonempty (rg_schema g) then label_key PREFIX_RESOURCE_SCHEMA (rg_schema g) c else c in
  match rg_resource g with Some r => attributes PREFIX_RESOURCE_ATTRIBUTES (r_attrs r) c | None => c end.

(** internal/transform/transform.go:125-149, addScope. *)
Definition add_scope {A} (g : scope_group A) (c : ctx) : ctx :=
  let c := if nonempty (sg_schema g) then label_key PREFIX_SCOPE_SCHEMA (sg_schema g) c else c in
  match sg_scope g with
  | None => c
  | Some r =>
      let c := if nonempty (s_name r) then label_key PREFIX_SCOPE_NAME (s_name r) c else c in
      let c := if nonempty (s_version r) then label_key PREFIX_SCOPE_VERSION (s_version r) c else c in
      attributes PREFIX_SCOPE_ATTRIBUTES (s_attrs r) c
  end.

(** internal/transform/metrics.go:52-55, addDataBase. *)
Definition add_point (p : point) (c : ctx) : ctx := attributes PREFIX_ATTRIBUTES (p_attrs p) (timestamp (p_time p) c).

(** internal/transform/metrics.go:15-44, the body of the loop over metrics; the five cases are the same loop. *)
Definition transform_metric (m : metric) (c : ctx) : ctx :=
  let c := label_key PREFIX_NAME (m_name m) c in
  match m_data m with
  | Some d => fold_left (fun c p => add_point p c) (md_points d) c
  | None => c
  end.

(** internal/transform/logs.go:16-38. *)
Definition transform_log (r : log_record) (c : ctx) : ctx :=
  let c := timestamp (lr_time r) c in
  let c := if nonempty (lr_severity r) then label_key PREFIX_LOGS_LEVEL (lr_severity r) c else c in
  let c := attributes PREFIX_ATTRIBUTES (lr_attrs r) c in
  let c := match lr_span r with Some b => label_key PREFIX_SPAN_ID (hex_encode b) c | None => c end in
  match lr_trace r with Some b => label_key PREFIX_TRACE_ID (hex_encode b) c | None => c end.

(** internal/transform/trace.go:15-44. *)
Definition transform_span (s : span) (c : ctx) : ctx :=
  let c := if nonempty (sp_name s) then label_key PREFIX_NAME (sp_name s) c else c in
  let c := match sp_trace s with Some b => label_key PREFIX_TRACE_ID (hex_encode b) c | None => c end in
  let c := match sp_span s with Some b => label_key PREFIX_SPAN_ID (hex_encode b) c | None => c end in
  let c := match sp_parent s with Some b => label_key PREFIX_PARENT_SPAN_ID (hex_encode b) c | None => c end in
  range (sp_start s) (sp_end s) c.

(** internal/transform/metrics.go:10-47, internal/transform/logs.go:11-41, internal/transform/trace.go:11-47: the common nesting of the three. *)
Definition transform_group {A} (item : A -> ctx -> ctx) (g : resource_group A) (c : ctx) : ctx :=
  fold_left (fun c sg => fold_left (fun c it => item it c) (sg_items sg) (add_scope sg c))
    (rg_scopes g) (add_resource g c).

(** internal/transform/transform.go:62-79, data. *)
Definition transform_data (d : data) (c : ctx) : ctx :=
  match d with
  | DMetrics l => fold_left (fun c g => transform_group transform_metric g c) l (with_resource RESOURCE_METRICS c)
  | DTraces l => fold_left (fun c g => transform_group transform_span g c) l (with_resource RESOURCE_TRACES c)
  | DLogs l => fold_left (fun c g => transform_group transform_log g c) l (with_resource RESOURCE_LOGS c)
  | DNone => c
  end.

(** proto/rq/v1/sample.proto:23-30, message Sample (MinTs and MaxTs are outputs). *)
Record sample := Sample { smp_id : N; smp_data : data }.
(** internal/transform/transform.go:45-60: what processSample leaves behind, the entry handed to batch.Add plus the two time stamps written into the sample. *)
Record filed := Filed { f_id : N; f_min : N; f_max : N; f_cols : nset }.

(** internal/transform/transform.go:45-60, processSample. *)
Definition process_sample (c : ctx) (s : sample) : ctx * filed :=
  let c := Ctx (c_tr c) 0 0 [] (c_label c) in
  let c := ctx_init c in
  let c := transform_data (smp_data s) c in
  (c, Filed (smp_id s) (c_min c) (c_max c) (c_pos c)).

(** internal/transform/transform.go:38-43, ProcessSamples, without the final Build. *)
Fixpoint process_samples (c : ctx) (l : list sample) : ctx * list filed :=
  match l with
  | [] => (c, [])
  | s :: t => let '(c1, f) := process_sample c s in
              let '(c2, fs) := process_samples c1 t in (c2, f :: fs)
  end.

(** internal/transform/transform.go:31-36, NewContext. *)
Definition new_ctx (s : S) : ctx := Ctx s 0 0 [] label_reset.
End Transform.
Arguments ctx : clear implicits.
