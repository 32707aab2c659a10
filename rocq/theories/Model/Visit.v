(** internal/visit: trimming a result down to the records that satisfy the conditions of a scan, and
    internal/js/rq.go:78-99, the caller.  [h] is xxhash.Sum64 (Model/XxHash.v, a parameter here), [h0] the
    same over a Digest that was not Reset.  None stands for a nil pointer panic. *)
From Verif.Model Require Import Base Labels View Otlp Transform Store.

(** External, encoding/hex (called at internal/visit/visit.go:194-219): the value of a digit. *)
Definition hex_val (c : ascii) : option N :=
  let n := N_of_ascii c in
  if (48 <=? n) && (n <=? 57) then Some (n - 48)
  else if (97 <=? n) && (n <=? 102) then Some (n - 87)
  else if (65 <=? n) && (n <=? 70) then Some (n - 55) else None.
(** External, encoding/hex.DecodeString (called at internal/visit/visit.go:194-219); None is an error (odd length or a byte that is no digit). *)
Fixpoint hex_decode (s : string) : option string :=
  match s with
  | EmptyString => Some ""
  | String _ EmptyString => None
  | String a (String b t) =>
      match hex_val a, hex_val b, hex_decode t with
      | Some x, Some y, Some r => Some (String (ascii_of_N (x * 16 + y)) r)
      | _, _, _ => None
      end
  end.

(** internal/visit/visit.go:65-79, type All: twelve sets of hashes and the time window. *)
Record visitor := Visitor {
  v_resource_schema : nset; v_resource_attr : nset; v_scope_schema : nset; v_scope_name : nset; v_scope_version : nset;
  v_scope_attr : nset; v_attr : nset; v_name : nset; v_trace : nset; v_span : nset; v_parent : nset; v_level : nset;
  v_start : N; v_end : N }.
(** internal/visit/visit.go:81-83 New and 124-151 Reset/Release: a visitor from the pool is empty. *)
Definition visitor_new : visitor := Visitor [] [] [] [] [] [] [] [] [] [] [] [] 0 0.

Section Visit.
Context (h h0 : string -> N).
(** internal/visit/visit.go:163-169, attr: the condition's hash comes from a Digest variable without Reset. *)
Definition attr_text (k v : string) : string := append k (append "=" v).
(** internal/visit/visit.go:163-169, attr: the condition's hash comes from a Digest variable without Reset. *)
Definition attr_hash (k v : string) : N := h0 (attr_text k v).

(** internal/visit/visit.go:87-122 Compile and 153-223, the Set functions.  An id that is not valid hexadecimal is an
    error that Compile ignores. *)
Definition add_id (id : string) (s : nset) : nset := match hex_decode id with Some b => sadd (h b) s | None => s end.
(** internal/visit/visit.go:87-122 Compile and 153-223, the Set functions. *)
Definition compile_filter (o : visitor) (f : scan_filter) : visitor :=
  let '(Visitor rs ra ss sn sv sa a n t sp p l st en) := o in
  match f with
  | FBase prop v =>
      if Z.eqb prop PREFIX_RESOURCE_SCHEMA then Visitor (sadd (h v) rs) ra ss sn sv sa a n t sp p l st en
      else if Z.eqb prop PREFIX_SCOPE_SCHEMA then Visitor rs ra (sadd (h v) ss) sn sv sa a n t sp p l st en
      else if Z.eqb prop PREFIX_SCOPE_NAME then Visitor rs ra ss (sadd (h v) sn) sv sa a n t sp p l st en
      else if Z.eqb prop PREFIX_SCOPE_VERSION then Visitor rs ra ss sn (sadd (h v) sv) sa a n t sp p l st en
      else if Z.eqb prop PREFIX_NAME then Visitor rs ra ss sn sv sa a (sadd (h v) n) t sp p l st en
      else if Z.eqb prop PREFIX_TRACE_ID then Visitor rs ra ss sn sv sa a n (add_id v t) sp p l st en
      else if Z.eqb prop PREFIX_SPAN_ID then Visitor rs ra ss sn sv sa a n t (add_id v sp) p l st en
      else if Z.eqb prop PREFIX_PARENT_SPAN_ID then Visitor rs ra ss sn sv sa a n t sp (add_id v p) l st en
      else if Z.eqb prop PREFIX_LOGS_LEVEL then Visitor rs ra ss sn sv sa a n t sp p (sadd (h v) l) st en
      else o
  | FAttr prop k v =>
      if Z.eqb prop PREFIX_RESOURCE_ATTRIBUTES then Visitor rs (sadd (attr_hash k v) ra) ss sn sv sa a n t sp p l st en
      else if Z.eqb prop PREFIX_SCOPE_ATTRIBUTES then Visitor rs ra ss sn sv (sadd (attr_hash k v) sa) a n t sp p l st en
      else if Z.eqb prop PREFIX_ATTRIBUTES then Visitor rs ra ss sn sv (sadd (attr_hash k v) sa) a n t sp p l st en
      else o
  | FOther => o
  end.
(** internal/visit/visit.go:87-122, Compile. *)
Definition compile_all (fs : list scan_filter) (o : visitor) : visitor := fold_left compile_filter fs o.
(** internal/visit/visit.go:225-227. *)
Definition set_time_range (st en : N) (o : visitor) : visitor :=
  let '(Visitor rs ra ss sn sv sa a n t sp p l _ _) := o in Visitor rs ra ss sn sv sa a n t sp p l st en.

(** internal/visit/visit.go:229-284: an empty set accepts everything. *)
Definition accept_text (s : nset) (x : string) : bool := sempty s || smem (h x) s.
(** internal/visit/visit.go:272-280: a nil byte slice hashes like an empty one. *)
Definition id_bytes (b : option string) : string := match b with Some b => b | None => "" end.
(** internal/visit/visit.go:282-284, AcceptTimestamp. *)
Definition accept_time (o : visitor) (ts : N) : bool := (v_start o <=? ts) && (ts <? v_end o).
(** internal/visit/visit.go:286-307, matchAttr: here the Digest is Reset; k.Value.Value dereferences a nil Value. *)
Fixpoint attr_hashes (ls : list key_value) (b : nset) : option nset :=
  match ls with
  | [] => Some b
  | k :: t => match kv_val k with
              | None => None
              | Some (AVString v) => attr_hashes t (sadd (h (attr_text (kv_key k) v)) b)
              | Some (AVOther _) => attr_hashes t b
              end
  end.
(** internal/visit/visit.go:286-307, matchAttr. *)
Definition match_attr (a : nset) (ls : list key_value) : option bool :=
  if sempty a then Some true
  else match attr_hashes ls [] with
       | None => None
       | Some b => Some (scard (sinter b a) =? scard a)
       end.
(** External, Go's && evaluates its right operand only if needed (internal/visit/visit.go:20-41). *)
Definition and_then (a : bool) (b : option bool) : option bool := if a then b else Some false.

(** internal/visit/visit.go:20-23 AcceptResource, 25-30 AcceptScope, 38-41 AcceptDataPoint. *)
Definition accept_resource {A} (o : visitor) (g : resource_group A) : option bool :=
  and_then (accept_text (v_resource_schema o) (rg_schema g))
    (match_attr (v_resource_attr o) (match rg_resource g with Some r => r_attrs r | None => [] end)).
(** internal/visit/visit.go:25-30, AcceptScope. *)
Definition accept_scope {A} (o : visitor) (s : scope_group A) : option bool :=
  and_then (accept_text (v_scope_schema o) (sg_schema s) &&
            accept_text (v_scope_name o) (match sg_scope s with Some x => s_name x | None => "" end) &&
            accept_text (v_scope_version o) (match sg_scope s with Some x => s_version x | None => "" end))
    (match_attr (v_scope_attr o) (match sg_scope s with Some x => s_attrs x | None => [] end)).
(** internal/visit/visit.go:38-41, AcceptDataPoint. *)
Definition accept_point (o : visitor) (p : point) : option bool :=
  and_then (accept_time o (p_time p)) (match_attr (v_attr o) (p_attrs p)).

(** internal/visit/metrics.go:24-156, the loops over the points: keep what is accepted, in order. *)
Fixpoint keep {A} (p : A -> option bool) (l : list A) : option (list A) :=
  match l with
  | [] => Some []
  | a :: t => match p a with
              | None => None
              | Some b => match keep p t with None => None | Some r => Some (if b then a :: r else r) end
              end
  end.
(** internal/visit/metrics.go:9-174, internal/visit/logs.go:9-52, internal/visit/trace.go:9-54, the loops over groups and records: keep what is accepted, in order. *)
Fixpoint keep_map {A B} (f : A -> option (option B)) (l : list A) : option (list B) :=
  match l with
  | [] => Some []
  | a :: t => match f a with
              | None => None
              | Some b => match keep_map f t with None => None | Some r => Some (match b with Some x => x :: r | None => r end) end
              end
  end.

(** internal/visit/metrics.go:24-156: name and accepted points; description and unit are not copied; temporality for
    sums and the two histograms, monotonicity for sums. *)
Definition trimmed_data (d : mdata) (points : list point) : mdata :=
  match md_kind d with
  | KSum => MData KSum (md_temporality d) (md_monotonic d) points
  | KHistogram => MData KHistogram (md_temporality d) false points
  | KExpHistogram => MData KExpHistogram (md_temporality d) false points
  | KGauge => MData KGauge 0 false points
  | KSummary => MData KSummary 0 false points
  end.
(** internal/visit/metrics.go:24-156, the loop over metrics. *)
Definition visit_metric (o : visitor) (m : metric) : option (option metric) :=
  if accept_text (v_name o) (m_name m) then
    match m_data m with
    | None => Some None
    | Some d => match keep (accept_point o) (md_points d) with
                | None => None
                | Some [] => Some None
                | Some points => Some (Some (Metric (m_name m) "" "" (Some (trimmed_data d points))))
                end
    end
  else Some None.
(** internal/visit/logs.go:24-28. *)
Definition visit_log (o : visitor) (r : log_record) : option (option log_record) :=
  match and_then (accept_text (v_level o) (lr_severity r) && accept_time o (lr_time r)) (match_attr (v_attr o) (lr_attrs r)) with
  | None => None
  | Some b => Some (if b then Some r else None)
  end.
(** internal/visit/trace.go:24-30: the parent id condition is applied to the span's own id. *)
Definition visit_span (o : visitor) (s : span) : option (option span) :=
  match and_then (accept_text (v_name o) (sp_name s) && accept_time o (sp_start s) && accept_text (v_trace o) (id_bytes (sp_trace s)) &&
                  accept_text (v_parent o) (id_bytes (sp_span s))) (match_attr (v_attr o) (sp_attrs s)) with
  | None => None
  | Some b => Some (if b then Some s else None)
  end.

(** internal/visit/metrics.go:9-174, internal/visit/logs.go:9-52, internal/visit/trace.go:9-54: the common nesting.  The new scope has no schema. *)
Definition visit_scope {A} (item : A -> option (option A)) (o : visitor) (s : scope_group A) : option (option (scope_group A)) :=
  match accept_scope o s with
  | None => None
  | Some false => Some None
  | Some true => match keep_map item (sg_items s) with
                 | None => None
                 | Some [] => Some None
                 | Some l => Some (Some (SGroup "" (sg_scope s) l))
                 end
  end.
(** internal/visit/metrics.go:9-174, internal/visit/logs.go:9-52, internal/visit/trace.go:9-54: the outer nesting. *)
Definition visit_resource {A} (item : A -> option (option A)) (o : visitor) (g : resource_group A) : option (option (resource_group A)) :=
  match accept_resource o g with
  | None => None
  | Some false => Some None
  | Some true => match keep_map (visit_scope item o) (rg_scopes g) with
                 | None => None
                 | Some [] => Some None
                 | Some l => Some (Some (RGroup (rg_schema g) (rg_resource g) l))
                 end
  end.
(** internal/visit/visit.go:43-62, Visit. *)
Definition visit (o : visitor) (d : data) : option data :=
  match d with
  | DMetrics l => option_map DMetrics (keep_map (visit_resource (visit_metric o) o) l)
  | DLogs l => option_map DLogs (keep_map (visit_resource (visit_log o) o) l)
  | DTraces l => option_map DTraces (keep_map (visit_resource (visit_span o) o) l)
  | DNone => Some DNone
  end.

(** External, the conversion uint64(t.UnixNano()) (internal/js/rq.go:78-99). *)
Definition u64_of_int64 (z : Z) : N := Z.to_N (z mod Z.of_N two64).
(** internal/js/rq.go:78-99, JS.Scan, after the store answered: [d] is its result (None is nil), [wall] the clock.
    The outer None is a panic: Visit dereferences a nil result.  Simplification: UnixNano is exact (times
    between 1678 and 2262). *)
Definition js_scan (wall : Z) (sc : scan) (d : option data) : option (option data) :=
  match sc_range (sc_times sc), sc_filters sc with
  | None, [] => Some d
  | _, _ =>
      let '(st, en) := time_bounds wall (sc_times sc) in
      match d with
      | None => None
      | Some d => option_map Some (visit (compile_all (sc_filters sc) (set_time_range (u64_of_int64 st) (u64_of_int64 en) visitor_new)) d)
      end
  end.
End Visit.
