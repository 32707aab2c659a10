(** When a saved record should be part of the answer of a query. *)
From Verif.Model Require Import Base Labels Otlp Store.
From Verif.Spec Require Import Trim Merge.

(** A record as a client sees it: who it is about, and the record; see [records] in Merge.v. *)
Definition seen : Type := string * list key_value * (string * (string * string * list key_value)) * record.
Definition seen_record (r : full_record) : record :=
  match r with RPoint n _ _ k _ _ p => IPoint n k p | RLog l => ILog l | RSpan s => ISpan s end.
Definition as_seen (e : entry) : seen :=
  let '((rs, r), (ss, s), x) := e in
  (rs, attrs_of_resource r, (ss, (name_of_scope s, version_of_scope s, attrs_of_scope s)), seen_record x).

(** Conditions that index and trimming understand alike: one value per property, not empty, on properties the
    signal has; trace ids in lower case hexadecimal; attributes of resource or scope. *)
Definition text_properties (signal : Z) : list Z :=
  [PREFIX_RESOURCE_SCHEMA; PREFIX_SCOPE_SCHEMA; PREFIX_SCOPE_NAME; PREFIX_SCOPE_VERSION] ++
  (if Z.eqb signal RESOURCE_METRICS then [PREFIX_NAME] else if Z.eqb signal RESOURCE_TRACES then [PREFIX_NAME; PREFIX_TRACE_ID] else [PREFIX_LOGS_LEVEL]).
Definition attr_properties : list Z := [PREFIX_RESOURCE_ATTRIBUTES; PREFIX_SCOPE_ATTRIBUTES].
Definition answerable (signal : Z) (fs : list scan_filter) : Prop :=
  (exists f, In f fs /\ f <> FOther) /\
  (forall p v, In (FBase p v) fs -> In p (text_properties signal) /\ v <> "" /\ (p = PREFIX_TRACE_ID -> is_hex v = true /\ lower v = v)) /\
  (forall p v v', In (FBase p v) fs -> In (FBase p v') fs -> v = v') /\
  (forall p k v, In (FAttr p k v) fs -> In p attr_properties /\ v <> "").
