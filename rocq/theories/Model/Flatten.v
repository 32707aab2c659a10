(** internal/f2: metrics flattened to one row per data point, with an index of the labels of every row.
    (The package is built and tested but not yet wired into the server.)
    Simplifications: the translator is a fixed function from labels to columns (f2/translate.go; that its answers are
    stable is C06 and C10), ids come from a counter (f2/id.go; C05), the digest of a serialised bitmap is a function of
    the set; payloads of histograms and summaries, and exemplars, are opaque; the arrow builder behind
    [build.Append] is the list of rows (C61). A nil attribute value makes the result [None] (a panic). *)
From Verif.Model Require Import Base Otlp View.
Open Scope N_scope.

(** The data points read at internal/f2/metrics.go:112-237 (OTLP messages, external). *)
Record fpoint := FPoint { fp_start : N; fp_time : N; fp_attrs : list key_value; fp_num : option (Z + N); fp_body : string; fp_exemplars : string }.
(** The kinds of data told apart at internal/f2/metrics.go:82-101. *)
Inductive fdata :=
| FGauge (l : list fpoint) | FSum (temporality : Z) (monotonic : bool) (l : list fpoint)
| FHist (temporality : Z) (l : list fpoint) | FExp (temporality : Z) (l : list fpoint) | FSummary (l : list fpoint) | FNoData.
(** A metric as read at internal/f2/metrics.go:75-80 (OTLP message, external). *)
Record fmetric := FMetric { fm_name : string; fm_desc : string; fm_unit : string; fm_data : fdata }.

(** proto/store/v1/format.proto:40-75, message Metric. *)
Record frow := FRow {
  w_id : N; w_kind : N; w_name : string; w_desc : string; w_unit : string; w_start : N; w_time : N;
  w_gauge : option N; w_hist : option string; w_exp : option string; w_summary : option string;
  w_temporality : Z; w_monotonic : bool; w_exemplars : string; w_attrs : list key_value; w_hash : N }.
(** internal/f2/pool.go:29-36: a message from the pool is reset. *)
Definition fresh_row : frow := FRow 0 0 "" "" "" 0 0 None None None None 0 false "" [] 0.

(** internal/f2/metrics.go:30-35 type Metrics: next id, the positions, the rows appended so far. *)
Record fstate := FState { f_next : N; f_positions : nset; f_rows : list frow }.

(** internal/f2/attr.go:13-19 type Attr: attributes and label sets of the resource and the scope at hand. *)
Record fattr := FAttr { a_resource : list key_value; a_scope : list key_value; a_rb : nset; a_sb : nset }.

Section Flatten.
Context (tr : string -> N) (digest : nset -> N) (float_of_int : Z -> N).

(** internal/f2/attr.go:77-97 do and toString: the bitmap is cleared first, whatever was in it; values that are not strings
    are skipped. *)
Fixpoint add_labels (b : nset) (kv : list key_value) : option nset :=
  match kv with
  | [] => Some b
  | v :: t => match kv_val v with
              | None => None
              | Some (AVString s) => add_labels (sadd (tr (append (kv_key v) (append "=" s))) b) t
              | Some (AVOther _) => add_labels b t
              end
  end.
(** internal/f2/attr.go:77-87, do. *)
Definition attr_do (b : nset) (kv : list key_value) : option nset := let cleared : nset := [] in add_labels cleared kv.

(** internal/f2/attr.go:25-29 Resource, 31-35 Scope. *)
Definition attr_resource (a : fattr) (r : option resource) : option fattr :=
  let attrs := match r with Some x => r_attrs x | None => [] end in
  match attr_do (a_rb a) attrs with None => None | Some b => Some (FAttr attrs (a_scope a) b (a_sb a)) end.
(** internal/f2/attr.go:31-35, Scope. *)
Definition attr_scope (a : fattr) (s : option scope) : option fattr :=
  let attrs := match s with Some x => s_attrs x | None => [] end in
  match attr_do (a_sb a) attrs with None => None | Some b => Some (FAttr (a_resource a) attrs (a_rb a) b) end.

(** internal/f2/attr.go:37-49 Attr and 69-75 name. *)
Definition attr_attr (a : fattr) (name : string) (kv : list key_value) : option (list key_value * nset * N) :=
  let ab := sunion (sunion [] (a_rb a)) (a_sb a) in
  match attr_do ab kv with
  | None => None
  | Some ab1 =>
      let ab2 := sadd (tr (append "__name__" (append "=" name))) ab1 in
      Some (a_resource a ++ a_scope a ++ kv, ab2, digest ab2)
  end.

(** The five loops assign these fields of the message before the common part (internal/f2/metrics.go:113-122, 140-149, 164-170,
    187-197, 214-227); here those of numbers. *)
Definition set_number (mx : frow) (p : fpoint) : frow :=
  FRow (w_id mx) (w_kind mx) (w_name mx) (w_desc mx) (w_unit mx) (fp_start p) (fp_time p)
    (match fp_num p with Some (inl i) => Some (float_of_int i) | Some (inr d) => Some d | None => w_gauge mx end)
    (w_hist mx) (w_exp mx) (w_summary mx) (w_temporality mx) (w_monotonic mx) (fp_exemplars p) (w_attrs mx) (w_hash mx).
(** internal/f2/metrics.go:187-197. *)
Definition set_hist (mx : frow) (p : fpoint) : frow :=
  FRow (w_id mx) (w_kind mx) (w_name mx) (w_desc mx) (w_unit mx) (fp_start p) (fp_time p)
    (w_gauge mx) (Some (fp_body p)) (w_exp mx) (w_summary mx) (w_temporality mx) (w_monotonic mx) (fp_exemplars p) (w_attrs mx) (w_hash mx).
(** internal/f2/metrics.go:214-227. *)
Definition set_exp (mx : frow) (p : fpoint) : frow :=
  FRow (w_id mx) (w_kind mx) (w_name mx) (w_desc mx) (w_unit mx) (fp_start p) (fp_time p)
    (w_gauge mx) (w_hist mx) (Some (fp_body p)) (w_summary mx) (w_temporality mx) (w_monotonic mx) (fp_exemplars p) (w_attrs mx) (w_hash mx).
(** internal/f2/metrics.go:164-170. *)
Definition set_summary (mx : frow) (p : fpoint) : frow :=
  FRow (w_id mx) (w_kind mx) (w_name mx) (w_desc mx) (w_unit mx) (fp_start p) (fp_time p)
    (w_gauge mx) (w_hist mx) (w_exp mx) (Some (fp_body p)) (w_temporality mx) (w_monotonic mx) (w_exemplars mx) (w_attrs mx) (w_hash mx).

(** The common part (internal/f2/metrics.go:123-130 and its four copies): attributes, hash and id, positions, append. The message
    [mx] is kept for the next point. *)
Definition emit (a : fattr) (p : fpoint) (mx : frow) (st : fstate) : option (frow * fstate) :=
  match attr_attr a (w_name mx) (fp_attrs p) with
  | None => None
  | Some (attrs, columns, hash) =>
      let id := f_next st in
      let mx' := FRow id (w_kind mx) (w_name mx) (w_desc mx) (w_unit mx) (w_start mx) (w_time mx)
                   (w_gauge mx) (w_hist mx) (w_exp mx) (w_summary mx) (w_temporality mx) (w_monotonic mx) (w_exemplars mx) attrs hash in
      Some (mx', FState (id + 1) (fold_left (fun s c => sadd (pos id c) s) columns (f_positions st)) (f_rows st ++ [mx']))
  end.
(** The loops over the points, internal/f2/metrics.go:112-131, 139-158, 163-179, 186-206, 213-236. *)
Fixpoint each_point (set : frow -> fpoint -> frow) (a : fattr) (mx : frow) (l : list fpoint) (st : fstate) : option fstate :=
  match l with
  | [] => Some st
  | p :: t => match emit a p (set mx p) st with None => None | Some (mx', st') => each_point set a mx' t st' end
  end.

(** internal/f2/metrics.go:76-83, 136-137: what is set before the loop over the points. *)
Definition with_head (m : fmetric) (kind : N) (temporality : Z) (monotonic : bool) : frow :=
  FRow 0 kind (fm_name m) (fm_desc m) (fm_unit m) 0 0 None None None None temporality monotonic "" [] 0.
(** internal/f2/metrics.go:76-102: dispatch on the kind of data. *)
Definition append_metric (a : fattr) (m : fmetric) (st : fstate) : option fstate :=
  match fm_data m with
  | FGauge l => each_point set_number a (with_head m 0 0 false) l st
  | FSum t mono l => each_point set_number a (with_head m 1 t mono) l st
  | FHist t l => each_point set_hist a (with_head m 2 t false) l st
  | FExp t l => each_point set_exp a (with_head m 3 t false) l st
  | FSummary l => each_point set_summary a (with_head m 4 0 false) l st
  | FNoData => Some st
  end.
(** internal/f2/metrics.go:75-103. *)
Fixpoint append_metrics (a : fattr) (l : list fmetric) (st : fstate) : option fstate :=
  match l with [] => Some st | m :: t => match append_metric a m st with None => None | Some st' => append_metrics a t st' end end.
(** internal/f2/metrics.go:72-105. *)
Fixpoint append_scopes (a : fattr) (l : list (scope_group fmetric)) (st : fstate) : option (fattr * fstate) :=
  match l with
  | [] => Some (a, st)
  | g :: t => match attr_scope a (sg_scope g) with
              | None => None
              | Some a' => match append_metrics a' (sg_items g) st with None => None | Some st' => append_scopes a' t st' end
              end
  end.
(** internal/f2/metrics.go:70-106. *)
Fixpoint append_resources (a : fattr) (l : list (resource_group fmetric)) (st : fstate) : option fstate :=
  match l with
  | [] => Some st
  | g :: t => match attr_resource a (rg_resource g) with
              | None => None
              | Some a' => match append_scopes a' (rg_scopes g) st with None => None | Some (a'', st') => append_resources a'' t st' end
              end
  end.
(** internal/f2/metrics.go:66-107 Append: the attribute state comes reset from its pool (internal/f2/attr.go:51-62). *)
Definition append_data (l : list (resource_group fmetric)) (st : fstate) : option fstate := append_resources (FAttr [] [] [] []) l st.
End Flatten.
