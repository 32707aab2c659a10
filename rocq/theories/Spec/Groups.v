(** Where a telemetry item sits inside a grouped OTLP message: the resource attributes, the scope and the
    item; and what "the fields of a span are kept" means. *)
From Verif.Model Require Import Base Otlp SelfTrace.

Definition resource_attributes (r : option resource) : list key_value := match r with Some r => r_attrs r | None => [] end.
(** (scope name, scope version, scope schema URL); a missing scope is the empty one. *)
Definition scope_identity {A} (g : scope_group A) : string * string * string :=
  (match sg_scope g with Some s => (s_name s, s_version s) | None => (""%string, ""%string) end, sg_schema g).
Definition placements {A} (out : list (resource_group A)) : list (list key_value * (string * string * string) * A) :=
  flat_map (fun g => flat_map (fun s => map (fun x => (resource_attributes (rg_resource g), scope_identity s, x)) (sg_items s)) (rg_scopes g)) out.

(** A group that says nothing about its resource but attributes and schema URL, and nothing about its scopes but name, version
    and schema URL: no scope attributes, no counts of dropped attributes. *)
Definition bare_group {A} (g : resource_group A) : Prop :=
  match rg_resource g with Some r => r_rest r = ""%string | None => True end /\
  forall sg, In sg (rg_scopes g) -> match sg_scope sg with Some s => s_attrs s = [] /\ s_rest s = ""%string | None => True end.

(** The spans of a list with nil entries. *)
Definition given (l : list (option sdk_span)) : list sdk_span := flat_map (fun o => match o with Some sd => [sd] | None => [] end) l.
Definition own_attributes (sd : sdk_span) : list attr := match sd_resource sd with Some r => sr_attrs r | None => [] end.
Definition own_schema (sd : sdk_span) : string := match sd_resource sd with Some r => sr_schema r | None => ""%string end.
Definition own_scope (sd : sdk_span) : string * string * string := (ss_name (sd_scope sd), ss_version (sd_scope sd), ss_schema (sd_scope sd)).

(** What the API can produce: kinds and codes in their ranges, int64 times, non-negative 32-bit
    counters, attributes with a real value (an empty slice is left out: OTLP arrays have no
    element type, so an empty one does not tell which type it was), 8-byte parent ids. *)
Definition sane_attr (a : attr) : Prop := match at_value a with AInvalid | ABools [] | AInts [] | AFloats [] | AStrings [] => False | _ => True end.
Definition sane_time (t : Z) : Prop := (- 2 ^ 63 <= t < 2 ^ 63)%Z.
Definition sane_count (n : Z) : Prop := (0 <= n < 2 ^ 32)%Z.
Record sane_rest (r : sdk_rest) : Prop := {
  sane_code : (sx_code r <= 2)%N; sane_kind : (sx_kind r <= 5)%N;
  sane_links : Forall (fun l => Forall sane_attr (sl_attrs l) /\ sane_count (sl_dropped l)) (sx_links r);
  sane_events : Forall (fun e => Forall sane_attr (se_attrs e) /\ sane_time (se_time e) /\ sane_count (se_dropped e)) (sx_events r);
  sane_counts : sane_count (sx_dropped_attrs r) /\ sane_count (sx_dropped_events r) /\ sane_count (sx_dropped_links r) }.
Record sane_span (sd : sdk_span) : Prop := {
  sane_start : sane_time (sd_start sd); sane_end : sane_time (sd_end sd); sane_attrs : Forall sane_attr (sd_attrs sd);
  sane_parent : String.length (sd_parent sd) = 8%nat; sane_others : sane_rest (sd_rest sd) }.
(** The span without its resource and scope, and without the trace state of its links. *)
Definition without_states (r : sdk_rest) : sdk_rest :=
  SdkRest (sx_state r) (sx_code r) (sx_message r) (sx_kind r) (map (fun l => SdkLink (sl_trace l) (sl_id l) "" (sl_attrs l) (sl_dropped l)) (sx_links r))
    (sx_events r) (sx_dropped_attrs r) (sx_dropped_events r) (sx_dropped_links r).
Definition fields_kept (sd : sdk_span) :=
  (sd_name sd, sd_trace sd, sd_id sd, sd_parent sd, sd_start sd, sd_end sd, sd_attrs sd, without_states (sd_rest sd)).

(** What the OTLP span [o] of the span [sd] has to say, field by field.  Times and counters are the same
    numbers in 64 and 32 bits without a sign; the status codes (API: unset 0, error 1, ok 2; OTLP: unset 0,
    ok 1, error 2) and the kinds are given by name in both enumerations. *)
Definition unsigned (bits : Z) (z : Z) (n : N) : Prop := exists k : Z, (Z.of_N n = z + k * 2 ^ bits /\ 0 <= Z.of_N n < 2 ^ bits)%Z.
Definition api_codes : list (string * N) := [("Unset", 0); ("Error", 1); ("Ok", 2)].
Definition otlp_codes : list (string * N) := [("Unset", 0); ("Ok", 1); ("Error", 2)].
Definition api_kinds : list (string * N) := [("Unspecified", 0); ("Internal", 1); ("Server", 2); ("Client", 3); ("Producer", 4); ("Consumer", 5)].
Definition otlp_kinds : list (string * N) := [("Unspecified", 0); ("Internal", 1); ("Server", 2); ("Client", 3); ("Producer", 4); ("Consumer", 5)].
Definition same_name (l l' : list (string * N)) (a b : N) : Prop := exists name, In (name, a) l /\ In (name, b) l'.
Section Says.
  Variable enc : any_tree -> string.
  Definition same_attr (a : attr) (kv : key_value) : Prop := kv = KV (at_key a) (Some (any_of enc (at_value a))).
  Definition link_says (l : sdk_link) (o : otlp_link) : Prop :=
    ol_trace o = sl_trace l /\ ol_id o = sl_id l /\ Forall2 same_attr (sl_attrs l) (ol_attrs o) /\ unsigned 32 (sl_dropped l) (ol_dropped o).
  Definition event_says (e : sdk_event) (o : otlp_event) : Prop :=
    oe_name o = se_name e /\ unsigned 64 (se_time e) (oe_time o) /\ Forall2 same_attr (se_attrs e) (oe_attrs o) /\ unsigned 32 (se_dropped e) (oe_dropped o).
  Definition rest_says (r : sdk_rest) (o : otlp_rest) : Prop :=
    ox_state o = sx_state r /\ ox_message o = sx_message r /\ same_name api_codes otlp_codes (sx_code r) (ox_code o) /\ same_name api_kinds otlp_kinds (sx_kind r) (ox_kind o) /\
    Forall2 link_says (sx_links r) (ox_links o) /\ Forall2 event_says (sx_events r) (ox_events o) /\
    unsigned 32 (sx_dropped_attrs r) (ox_dropped_attrs o) /\ unsigned 32 (sx_dropped_events r) (ox_dropped_events o) /\ unsigned 32 (sx_dropped_links r) (ox_dropped_links o).
  (** The parent id of a root span is eight zero bytes: OTLP leaves it out. *)
  Definition zero_id : string := let z := Ascii.zero in String z (String z (String z (String z (String z (String z (String z (String z EmptyString))))))).
  Definition span_says (enc_rest : otlp_rest -> string) (sd : sdk_span) (o : span) : Prop :=
    sp_name o = sd_name sd /\ sp_trace o = Some (sd_trace sd) /\ sp_span o = Some (sd_id sd) /\
    sp_parent o = (if String.eqb (sd_parent sd) zero_id then None else Some (sd_parent sd)) /\
    unsigned 64 (sd_start sd) (sp_start o) /\ unsigned 64 (sd_end sd) (sp_end o) /\ Forall2 same_attr (sd_attrs sd) (sp_attrs o) /\
    exists r, sp_rest o = enc_rest r /\ rest_says (sd_rest sd) r.
End Says.
