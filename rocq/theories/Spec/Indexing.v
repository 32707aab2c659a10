(** Which labels a payload should be indexed under, and its time span: the documented meaning, written
    as plain membership statements about the payload tree. *)
From Verif.Model Require Import Base Labels Otlp.

(** A string attribute with a non-empty value. *)
Definition has_attr (kvs : list key_value) (k v : string) : Prop := In (KV k (Some (AVString v))) kvs /\ v <> "".

Section Group.
  Context {A : Type} (signal : Z) (item_label : A -> label -> Prop).
  Definition resource_label (g : resource_group A) (l : label) : Prop :=
    (rg_schema g <> "" /\ l = Label signal PREFIX_RESOURCE_SCHEMA (rg_schema g) "") \/
    (exists r k v, rg_resource g = Some r /\ has_attr (r_attrs r) k v /\ l = Label signal PREFIX_RESOURCE_ATTRIBUTES k v).
  Definition scope_label (g : scope_group A) (l : label) : Prop :=
    (sg_schema g <> "" /\ l = Label signal PREFIX_SCOPE_SCHEMA (sg_schema g) "") \/
    (exists s, sg_scope g = Some s /\
       ((s_name s <> "" /\ l = Label signal PREFIX_SCOPE_NAME (s_name s) "") \/
        (s_version s <> "" /\ l = Label signal PREFIX_SCOPE_VERSION (s_version s) "") \/
        (exists k v, has_attr (s_attrs s) k v /\ l = Label signal PREFIX_SCOPE_ATTRIBUTES k v))).
  Definition group_label (gs : list (resource_group A)) (l : label) : Prop :=
    exists g, In g gs /\ (resource_label g l \/
      exists sg, In sg (rg_scopes g) /\ (scope_label sg l \/ exists it, In it (sg_items sg) /\ item_label it l)).
End Group.

Definition attr_label (signal : Z) (kvs : list key_value) (l : label) : Prop :=
  exists k v, has_attr kvs k v /\ l = Label signal PREFIX_ATTRIBUTES k v.
Definition id_label (signal prefix : Z) (id : option string) (l : label) : Prop :=
  exists b, id = Some b /\ l = Label signal prefix (hex_encode b) "".

Definition metric_label (m : metric) (l : label) : Prop :=
  l = Label RESOURCE_METRICS PREFIX_NAME (m_name m) "" \/
  exists d p, m_data m = Some d /\ In p (md_points d) /\ attr_label RESOURCE_METRICS (p_attrs p) l.
Definition log_label (r : log_record) (l : label) : Prop :=
  (lr_severity r <> "" /\ l = Label RESOURCE_LOGS PREFIX_LOGS_LEVEL (lr_severity r) "") \/
  attr_label RESOURCE_LOGS (lr_attrs r) l \/
  id_label RESOURCE_LOGS PREFIX_SPAN_ID (lr_span r) l \/ id_label RESOURCE_LOGS PREFIX_TRACE_ID (lr_trace r) l.
Definition span_label (s : span) (l : label) : Prop :=
  (sp_name s <> "" /\ l = Label RESOURCE_TRACES PREFIX_NAME (sp_name s) "") \/
  id_label RESOURCE_TRACES PREFIX_TRACE_ID (sp_trace s) l \/ id_label RESOURCE_TRACES PREFIX_SPAN_ID (sp_span s) l \/
  id_label RESOURCE_TRACES PREFIX_PARENT_SPAN_ID (sp_parent s) l.

Definition documented_label (d : data) (l : label) : Prop :=
  match d with
  | DMetrics gs => group_label RESOURCE_METRICS metric_label gs l
  | DTraces gs => group_label RESOURCE_TRACES span_label gs l
  | DLogs gs => group_label RESOURCE_LOGS log_label gs l
  | DNone => False
  end.

(** The signal of a payload. *)
Definition signal_of (d : data) : Z :=
  match d with DMetrics _ => RESOURCE_METRICS | DTraces _ => RESOURCE_TRACES | DLogs _ => RESOURCE_LOGS | DNone => 0 end.

(** Time stamps of a payload as (start, end) pairs, in document order. *)
Definition items {A} (gs : list (resource_group A)) : list A :=
  flat_map (fun g => flat_map sg_items (rg_scopes g)) gs.
Definition record_times (d : data) : list (N * N) :=
  match d with
  | DMetrics gs => flat_map (fun m => match m_data m with
                                      | Some md => map (fun p => (p_time p, p_time p)) (md_points md)
                                      | None => [] end) (items gs)
  | DTraces gs => map (fun s => (sp_start s, sp_end s)) (items gs)
  | DLogs gs => map (fun r => (lr_time r, lr_time r)) (items gs)
  | DNone => []
  end.
