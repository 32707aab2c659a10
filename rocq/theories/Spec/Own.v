(** Conditions that are true of one of the server's own spans or metrics: the vocabulary of C95. *)
From Verif.Model Require Import Base Labels Otlp Store SelfTrace SelfMetrics.
From Verif.Spec Require Import Groups.

(** One condition of a query and a span: its name, its trace id in hexadecimal, the name, version or schema URL of
    its scope, or a text attribute of its resource.  Empty values cannot be asked for. *)
Inductive span_fits (sd : sdk_span) : scan_filter -> Prop :=
| sf_name : sd_name sd <> "" -> span_fits sd (FBase PREFIX_NAME (sd_name sd))
| sf_trace : sd_trace sd <> "" -> span_fits sd (FBase PREFIX_TRACE_ID (hex_encode (sd_trace sd)))
| sf_scope_name : ss_name (sd_scope sd) <> "" -> span_fits sd (FBase PREFIX_SCOPE_NAME (ss_name (sd_scope sd)))
| sf_scope_version : ss_version (sd_scope sd) <> "" -> span_fits sd (FBase PREFIX_SCOPE_VERSION (ss_version (sd_scope sd)))
| sf_scope_schema : ss_schema (sd_scope sd) <> "" -> span_fits sd (FBase PREFIX_SCOPE_SCHEMA (ss_schema (sd_scope sd)))
| sf_resource k v : In (Attr k (AString v)) (own_attributes sd) -> v <> "" -> span_fits sd (FAttr PREFIX_RESOURCE_ATTRIBUTES k v).

(** One condition and a metric [m] collected under scope [s] of collection [rm]. *)
Inductive metric_fits (rm : sdk_collection) (s : sdk_scope) (m : sdk_metric) : scan_filter -> Prop :=
| mf_name : sm_name m <> "" -> metric_fits rm s m (FBase PREFIX_NAME (sm_name m))
| mf_scope_name : ss_name s <> "" -> metric_fits rm s m (FBase PREFIX_SCOPE_NAME (ss_name s))
| mf_scope_version : ss_version s <> "" -> metric_fits rm s m (FBase PREFIX_SCOPE_VERSION (ss_version s))
| mf_scope_schema : ss_schema s <> "" -> metric_fits rm s m (FBase PREFIX_SCOPE_SCHEMA (ss_schema s))
| mf_schema : sr_schema (rm_resource rm) <> "" -> metric_fits rm s m (FBase PREFIX_RESOURCE_SCHEMA (sr_schema (rm_resource rm)))
| mf_resource k v : In (Attr k (AString v)) (sr_attrs (rm_resource rm)) -> v <> "" -> metric_fits rm s m (FAttr PREFIX_RESOURCE_ATTRIBUTES k v).
