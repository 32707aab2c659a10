(** OTLP payloads (go.opentelemetry.io/proto/otlp, external) as trees.  The three signals share the
    resource / scope nesting, so the nesting is generic in the item type (metric, log record, span).
    Simplification: repeated message fields have no nil entries and oneof wrappers are not nil, which is
    what protobuf decoding produces; fields no modelled function looks at are kept as an opaque string
    ([..._rest]) so that losing them would be visible. *)
From Verif.Model Require Import Base.

(** External, opentelemetry/proto/common/v1 AnyValue: only string values are looked into (internal/transform/transform.go:169-181). *)
Inductive any_value := AVString (s : string) | AVOther (raw : string).
(** External, common/v1 KeyValue; the value may be nil (read at internal/visit/visit.go:286-307). *)
Record key_value := KV { kv_key : string; kv_val : option any_value }.

(** External, AnyValue.GetStringValue on a possibly nil value (called at internal/transform/transform.go:171). *)
Definition get_string (v : option any_value) : string :=
  match v with Some (AVString s) => s | _ => "" end.

(** External, resource/v1 Resource (read at internal/transform/transform.go:108-118). *)
Record resource := Resource { r_attrs : list key_value; r_rest : string }.
(** External, common/v1 InstrumentationScope (read at internal/transform/transform.go:125-149). *)
Record scope := Scope { s_name : string; s_version : string; s_attrs : list key_value; s_rest : string }.

(** External, ScopeMetrics, ScopeLogs and ScopeSpans (read at internal/transform/transform.go:125-149). *)
Record scope_group (A : Type) := SGroup { sg_schema : string; sg_scope : option scope; sg_items : list A }.
(** External, ResourceMetrics, ResourceLogs and ResourceSpans (read at internal/transform/metrics.go:10-50). *)
Record resource_group (A : Type) := RGroup { rg_schema : string; rg_resource : option resource; rg_scopes : list (scope_group A) }.
Arguments SGroup {A}. Arguments sg_schema {A}. Arguments sg_scope {A}. Arguments sg_items {A}.
Arguments RGroup {A}. Arguments rg_schema {A}. Arguments rg_resource {A}. Arguments rg_scopes {A}.

(** External, metrics/v1: one data point of any of the five metric kinds (read at internal/transform/metrics.go:52-55). *)
Record point := Point { p_time : N; p_attrs : list key_value; p_rest : string }.
(** External, metrics/v1: the oneof Metric.data (read at internal/transform/metrics.go:19-43). *)
Inductive mkind := KGauge | KSum | KHistogram | KExpHistogram | KSummary.
(** External, metrics/v1 Gauge, Sum, Histogram, ExponentialHistogram, Summary. Aggregation temporality and monotonicity are 0/false for kinds that lack them. *)
Record mdata := MData { md_kind : mkind; md_temporality : Z; md_monotonic : bool; md_points : list point }.
(** External, metrics/v1 Metric (read at internal/transform/metrics.go:15-43). *)
Record metric := Metric { m_name : string; m_desc : string; m_unit : string; m_data : option mdata }.

(** External, logs/v1 LogRecord; byte fields distinguish nil (None) from empty (read at internal/transform/logs.go:16-38). *)
Record log_record := LogRecord {
  lr_time : N; lr_severity : string; lr_attrs : list key_value;
  lr_trace : option string; lr_span : option string; lr_rest : string }.
(** External, trace/v1 Span (read at internal/transform/trace.go:15-44). *)
Record span := Span {
  sp_name : string; sp_trace : option string; sp_span : option string; sp_parent : option string;
  sp_start : N; sp_end : N; sp_attrs : list key_value; sp_rest : string }.

(** proto/rq/v1/scan.proto:83-89, message Data. *)
Inductive data :=
| DMetrics (l : list (resource_group metric))
| DTraces (l : list (resource_group span))
| DLogs (l : list (resource_group log_record))
| DNone.

(** External, encoding/hex: one digit (called at internal/transform/trace.go:22-37). *)
Definition hex_digit (n : N) : ascii := if n <? 10 then ascii_of_N (48 + n) else ascii_of_N (87 + n).
(** External, encoding/hex.EncodeToString (called at internal/transform/trace.go:22-37). *)
Fixpoint hex_encode (s : string) : string :=
  match s with
  | EmptyString => ""
  | String c t => String (hex_digit (N_of_ascii c / 16)) (String (hex_digit (N_of_ascii c mod 16)) (hex_encode t))
  end.
