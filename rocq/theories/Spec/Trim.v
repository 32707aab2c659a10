(** Which records of a result satisfy the conditions of a scan, read off the list of conditions. *)
From Verif.Model Require Import Base Labels Otlp Store.

(** The records of a payload with all they say, and everything said about them by the resource and scope
    they sit in: (schema, resource), (schema, scope), record. *)
Inductive full_record :=
| RPoint (name desc unit : string) (kind : mkind) (temporality : Z) (monotonic : bool) (p : point)
| RLog (l : log_record)
| RSpan (s : span).
Definition entry : Type := (string * option resource) * (string * option scope) * full_record.
Definition entries_of {A} (parts : A -> list full_record) (gs : list (resource_group A)) : list entry :=
  flat_map (fun g => flat_map (fun s => flat_map (fun a =>
    map (fun r => ((rg_schema g, rg_resource g), (sg_schema s, sg_scope s), r)) (parts a)) (sg_items s)) (rg_scopes g)) gs.
(** Temporality exists for sums and histograms only, monotonicity for sums only. *)
Definition has_temporality (k : mkind) : bool := match k with KSum | KHistogram | KExpHistogram => true | _ => false end.
Definition is_sum (k : mkind) : bool := match k with KSum => true | _ => false end.
Definition metric_parts (m : metric) : list full_record :=
  match m_data m with
  | None => []
  | Some d => map (fun p => RPoint (m_name m) (m_desc m) (m_unit m) (md_kind d) (if has_temporality (md_kind d) then md_temporality d else 0%Z)
                                   (if is_sum (md_kind d) then md_monotonic d else false) p) (md_points d)
  end.
Definition log_parts (l : log_record) : list full_record := [RLog l].
Definition span_parts (s : span) : list full_record := [RSpan s].
Definition entries (d : data) : list entry :=
  match d with
  | DMetrics gs => entries_of metric_parts gs
  | DLogs gs => entries_of log_parts gs
  | DTraces gs => entries_of span_parts gs
  | DNone => []
  end.

(** No group without a record. *)
Definition no_empty_group {A} (full : A -> Prop) (gs : list (resource_group A)) : Prop :=
  Forall (fun g => rg_scopes g <> [] /\ Forall (fun s => sg_items s <> [] /\ Forall full (sg_items s)) (rg_scopes g)) gs.
Definition no_empty (d : data) : Prop :=
  match d with
  | DMetrics gs => no_empty_group (fun m => metric_parts m <> []) gs
  | DLogs gs => no_empty_group (fun _ => True) gs
  | DTraces gs => no_empty_group (fun _ => True) gs
  | DNone => True
  end.

(** The values asked for one property, the attributes asked for one property. *)
Definition texts (fs : list scan_filter) (p : Z) : list string :=
  flat_map (fun f => match f with FBase q v => if Z.eqb q p then [v] else [] | _ => [] end) fs.
Definition pairs (fs : list scan_filter) (p : Z) : list (string * string) :=
  flat_map (fun f => match f with FAttr q k v => if Z.eqb q p then [(k, v)] else [] | _ => [] end) fs.

(** Several values for one property: any of them will do.  No value: anything will do. *)
Definition one_of (l : list string) (x : string) : bool := match l with [] => true | _ => existsb (String.eqb x) l end.
(** Attributes: every one must be there, as a string attribute. *)
Definition is_attr (kv : string * string) (a : key_value) : bool :=
  String.eqb (kv_key a) (fst kv) && match kv_val a with Some (AVString v) => String.eqb v (snd kv) | _ => false end.
Definition all_there (l : list (string * string)) (attrs : list key_value) : bool := forallb (fun kv => existsb (is_attr kv) attrs) l.
(** Ids are written in hexadecimal, in either case; an absent id is the empty one. *)
Definition lower_ascii (c : ascii) : ascii :=
  let n := N_of_ascii c in if (65 <=? n) && (n <=? 90) then ascii_of_N (n + 32) else c.
Fixpoint lower (s : string) : string := match s with EmptyString => EmptyString | String c t => String (lower_ascii c) (lower t) end.
Definition the_id (b : option string) : string := match b with Some b => b | None => EmptyString end.
Definition id_one_of (l : list string) (b : option string) : bool :=
  match l with [] => true | _ => existsb (fun a => String.eqb (lower a) (hex_encode (the_id b))) l end.

Definition attrs_of_resource (r : option resource) := match r with Some r => r_attrs r | None => [] end.
Definition attrs_of_scope (s : option scope) := match s with Some s => s_attrs s | None => [] end.
Definition name_of_scope (s : option scope) := match s with Some s => s_name s | None => "" end.
Definition version_of_scope (s : option scope) := match s with Some s => s_version s | None => "" end.

(** The window [st, en) in Unix nanoseconds. *)
Definition in_window (st en : Z) (t : N) : bool := (st <=? Z.of_N t)%Z && (Z.of_N t <? en)%Z.

Definition wanted_resource (fs : list scan_filter) (schema : string) (r : option resource) : bool :=
  one_of (texts fs PREFIX_RESOURCE_SCHEMA) schema && all_there (pairs fs PREFIX_RESOURCE_ATTRIBUTES) (attrs_of_resource r).
Definition wanted_scope (fs : list scan_filter) (schema : string) (s : option scope) : bool :=
  one_of (texts fs PREFIX_SCOPE_SCHEMA) schema && one_of (texts fs PREFIX_SCOPE_NAME) (name_of_scope s) &&
  one_of (texts fs PREFIX_SCOPE_VERSION) (version_of_scope s) && all_there (pairs fs PREFIX_SCOPE_ATTRIBUTES) (attrs_of_scope s).
Definition wanted_record (fs : list scan_filter) (st en : Z) (r : full_record) : bool :=
  match r with
  | RPoint name _ _ _ _ _ p =>
      one_of (texts fs PREFIX_NAME) name && in_window st en (p_time p) && all_there (pairs fs PREFIX_ATTRIBUTES) (p_attrs p)
  | RLog l =>
      one_of (texts fs PREFIX_LOGS_LEVEL) (lr_severity l) && in_window st en (lr_time l) && all_there (pairs fs PREFIX_ATTRIBUTES) (lr_attrs l) &&
      id_one_of (texts fs PREFIX_TRACE_ID) (lr_trace l) && id_one_of (texts fs PREFIX_SPAN_ID) (lr_span l)
  | RSpan s =>
      one_of (texts fs PREFIX_NAME) (sp_name s) && in_window st en (sp_start s) && all_there (pairs fs PREFIX_ATTRIBUTES) (sp_attrs s) &&
      id_one_of (texts fs PREFIX_TRACE_ID) (sp_trace s) && id_one_of (texts fs PREFIX_SPAN_ID) (sp_span s) &&
      id_one_of (texts fs PREFIX_PARENT_SPAN_ID) (sp_parent s)
  end.
Definition wanted (fs : list scan_filter) (st en : Z) (e : entry) : bool :=
  let '((rs, r), (ss, s), x) := e in wanted_resource fs rs r && wanted_scope fs ss s && wanted_record fs st en x.

(** The same conditions as the code tests them (findings: an attribute condition on the record is tested on
    its scope, the parent id condition on the span's own id, span id conditions and all id conditions on
    logs are not tested, ids that are no hexadecimal are ignored). *)
Definition is_hex_ascii (c : ascii) : bool :=
  let n := N_of_ascii c in ((48 <=? n) && (n <=? 57)) || ((97 <=? n) && (n <=? 102)) || ((65 <=? n) && (n <=? 70)).
Fixpoint is_hex (s : string) : bool :=
  match s with EmptyString => true | String a (String b t) => is_hex_ascii a && is_hex_ascii b && is_hex t | _ => false end.
Definition hex_only (l : list string) : list string := filter is_hex l.
Definition executed_scope (fs : list scan_filter) (schema : string) (s : option scope) : bool :=
  wanted_scope fs schema s && all_there (pairs fs PREFIX_ATTRIBUTES) (attrs_of_scope s).
Definition executed_record (fs : list scan_filter) (st en : Z) (r : full_record) : bool :=
  match r with
  | RPoint name _ _ _ _ _ p => one_of (texts fs PREFIX_NAME) name && in_window st en (p_time p)
  | RLog l => one_of (texts fs PREFIX_LOGS_LEVEL) (lr_severity l) && in_window st en (lr_time l)
  | RSpan s => one_of (texts fs PREFIX_NAME) (sp_name s) && in_window st en (sp_start s) &&
               id_one_of (hex_only (texts fs PREFIX_TRACE_ID)) (sp_trace s) && id_one_of (hex_only (texts fs PREFIX_PARENT_SPAN_ID)) (sp_span s)
  end.
Definition executed (fs : list scan_filter) (st en : Z) (e : entry) : bool :=
  let '((rs, r), (ss, s), x) := e in wanted_resource fs rs r && executed_scope fs ss s && executed_record fs st en x.

(** What trimming drops from a record it keeps: the schema of the scope, description and unit. *)
Definition forget_record (r : full_record) : full_record :=
  match r with RPoint n _ _ k t m p => RPoint n "" "" k t m p | r => r end.
Definition forget (e : entry) : entry := let '(r, (_, s), x) := e in (r, ("", s), forget_record x).

(** The texts a payload is tested for, and the texts asked for. *)
Definition pair_text (k v : string) : string := append k (append "=" v).
Definition attr_words (l : list key_value) : list string :=
  flat_map (fun a => match kv_val a with Some (AVString v) => [pair_text (kv_key a) v] | _ => [] end) l.
Definition words_of {A} (item : A -> list string) (gs : list (resource_group A)) : list string :=
  flat_map (fun g => rg_schema g :: attr_words (attrs_of_resource (rg_resource g)) ++
    flat_map (fun s => sg_schema s :: name_of_scope (sg_scope s) :: version_of_scope (sg_scope s) :: attr_words (attrs_of_scope (sg_scope s)) ++
      flat_map item (sg_items s)) (rg_scopes g)) gs.
Definition words (d : data) : list string :=
  match d with
  | DMetrics gs => words_of (fun m => [m_name m]) gs
  | DLogs gs => words_of (fun l => [lr_severity l]) gs
  | DTraces gs => words_of (fun s => [sp_name s; the_id (sp_trace s); the_id (sp_span s)]) gs
  | DNone => []
  end.
(** The attributes of resources and scopes. *)
Definition attrs_in {A} (gs : list (resource_group A)) : list key_value :=
  flat_map (fun g => attrs_of_resource (rg_resource g) ++ flat_map (fun s => attrs_of_scope (sg_scope s)) (rg_scopes g)) gs.
Definition head_attrs (d : data) : list key_value :=
  match d with DMetrics gs => attrs_in gs | DLogs gs => attrs_in gs | DTraces gs => attrs_in gs | DNone => [] end.
Definition same_signal (a b : data) : Prop :=
  match a, b with DMetrics _, DMetrics _ | DLogs _, DLogs _ | DTraces _, DTraces _ | DNone, DNone => True | _, _ => False end.

(** ------ What trimming cannot take: an attribute without a value (legal in protobuf) where attributes are looked at. *)
(** The resources of a payload with the scopes under them. *)
Definition heads_of {A} (gs : list (resource_group A)) : list ((string * option resource) * list (string * option scope)) :=
  map (fun g => ((rg_schema g, rg_resource g), map (fun s => (sg_schema s, sg_scope s)) (rg_scopes g))) gs.
Definition heads (d : data) : list ((string * option resource) * list (string * option scope)) :=
  match d with DMetrics gs => heads_of gs | DLogs gs => heads_of gs | DTraces gs => heads_of gs | DNone => [] end.
Definition valueless (attrs : list key_value) : bool := existsb (fun a => match kv_val a with None => true | _ => false end) attrs.
Definition asked_for {A} (l : list A) : bool := match l with [] => false | _ => true end.
(** The attributes of a resource are looked at if its schema is accepted and some resource attribute is asked for; those of a
    scope if its resource is accepted, its schema, name and version are, and some attribute of scope or record is asked for. *)
Definition bad_resource (fs : list scan_filter) (schema : string) (r : option resource) : bool :=
  one_of (texts fs PREFIX_RESOURCE_SCHEMA) schema && asked_for (pairs fs PREFIX_RESOURCE_ATTRIBUTES) && valueless (attrs_of_resource r).
Definition bad_scope (fs : list scan_filter) (schema : string) (s : option scope) : bool :=
  one_of (texts fs PREFIX_SCOPE_SCHEMA) schema && one_of (texts fs PREFIX_SCOPE_NAME) (name_of_scope s) && one_of (texts fs PREFIX_SCOPE_VERSION) (version_of_scope s) &&
  (asked_for (pairs fs PREFIX_SCOPE_ATTRIBUTES) || asked_for (pairs fs PREFIX_ATTRIBUTES)) && valueless (attrs_of_scope s).
Definition cannot_trim (fs : list scan_filter) (d : data) : bool :=
  existsb (fun g => bad_resource fs (fst (fst g)) (snd (fst g)) ||
    (wanted_resource fs (fst (fst g)) (snd (fst g)) && existsb (fun s => bad_scope fs (fst s) (snd s)) (snd g))) (heads d).
