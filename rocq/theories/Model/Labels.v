(** internal/labels/labels.go and internal/keys/keys.go: the textual keys of the index. *)
From Verif.Model Require Import Base.

(** proto/rq/v1/resource.proto:6 (also Scan.SCOPE for 0..3, proto/rq/v1/scan.proto:32-37). *)
Definition RESOURCE_METRICS : Z := 1.
(** proto/rq/v1/resource.proto:7. *)
Definition RESOURCE_TRACES : Z := 2.
(** proto/rq/v1/resource.proto:8. *)
Definition RESOURCE_LOGS : Z := 3.
(** proto/rq/v1/resource.proto:9. *)
Definition RESOURCE_SAMPLE_ID : Z := 4.
(** proto/rq/v1/resource.proto:10. *)
Definition RESOURCE_TRANSLATE_ID : Z := 5.

(** proto/rq/v1/sample.proto:7, enum PREFIX; BaseProp and AttributeProp use the same numbers (proto/rq/v1/scan.proto:39-57). *)
Definition PREFIX_UNKNOWN : Z := 0.
(** proto/rq/v1/sample.proto:9. *)
Definition PREFIX_RESOURCE_ATTRIBUTES : Z := 1.
(** proto/rq/v1/sample.proto:10. *)
Definition PREFIX_SCOPE_SCHEMA : Z := 2.
(** proto/rq/v1/sample.proto:11. *)
Definition PREFIX_SCOPE_NAME : Z := 3.
(** proto/rq/v1/sample.proto:12. *)
Definition PREFIX_SCOPE_VERSION : Z := 4.
(** proto/rq/v1/sample.proto:13. *)
Definition PREFIX_SCOPE_ATTRIBUTES : Z := 5.
(** proto/rq/v1/sample.proto:14. *)
Definition PREFIX_NAME : Z := 6.
(** proto/rq/v1/sample.proto:15. *)
Definition PREFIX_ATTRIBUTES : Z := 7.
(** proto/rq/v1/sample.proto:16. *)
Definition PREFIX_TRACE_ID : Z := 8.
(** proto/rq/v1/sample.proto:17. *)
Definition PREFIX_SPAN_ID : Z := 9.
(** proto/rq/v1/sample.proto:18. *)
Definition PREFIX_PARENT_SPAN_ID : Z := 10.
(** proto/rq/v1/sample.proto:19. *)
Definition PREFIX_LOGS_LEVEL : Z := 11.
(** proto/rq/v1/sample.proto:20. *)
Definition PREFIX_DATA : Z := 12.
(** proto/rq/v1/sample.proto:8. *)
Definition PREFIX_RESOURCE_SCHEMA : Z := 13.

(** internal/labels/labels.go:10-16, type Label (the scratch buffer [buf] is not observable: every caller uses the
    returned bytes before the next Encode). Resource and Prefix are protobuf enums, i.e. any int32. *)
Record label := Label { l_resource : Z; l_prefix : Z; l_key : string; l_value : string }.

(** internal/labels/labels.go:42-48, Label.Encode: "%d:%d:%s" then "=%s" when the value is not empty. *)
Definition encode (l : label) : string :=
  append (show_Z (l_resource l))
    (append ":" (append (show_Z (l_prefix l))
       (append ":" (append (l_key l)
          (if nonempty (l_value l) then append "=" (l_value l) else ""))))).

(** internal/labels/labels.go:54-61, Label.Reset. *)
Definition label_reset : label := Label 0 0 "" "".

(** internal/keys/keys.go:47-50, Sample.Encode: "%d:%d". *)
Definition sample_key (resource : Z) (id : N) : string :=
  append (show_Z resource) (append ":" (show_N id)).

(** internal/keys/keys.go:56-59, Sample.Prefix: "%d:". *)
Definition sample_prefix (resource : Z) : string := append (show_Z resource) ":".
