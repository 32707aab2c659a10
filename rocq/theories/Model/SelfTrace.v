(** internal/self/trace/tracetransform: the server's own spans as OTLP (internal/self/trace/tracetransform/span.go, internal/self/trace/tracetransform/attribute.go,
    internal/self/trace/tracetransform/instrumentation.go, internal/self/trace/tracetransform/resource.go), and the exporter (internal/self/trace.go). *)
From Verif.Model Require Import Base Otlp.

(** go.opentelemetry.io/otel/attribute (external). *)
Inductive attr_value :=
| ABool (b : bool) | ABools (l : list bool) | AInt (z : Z) | AInts (l : list Z) | AFloat (bits : N) | AFloats (l : list N)
| AString (s : string) | AStrings (l : list string) | AInvalid.
(** External, attribute.KeyValue (read at internal/self/trace/tracetransform/attribute.go:45-47). *)
Record attr := Attr { at_key : string; at_value : attr_value }.
(** External, common/v1 AnyValue, as far as internal/self/trace/tracetransform/attribute.go:50-99 builds it. *)
Inductive any_tree := TBool (b : bool) | TInt (z : Z) | TDouble (bits : N) | TString (s : string) | TArray (l : list any_tree).
(** internal/self/trace/tracetransform/attribute.go:50-99, Value. *)
Definition tree_of (v : attr_value) : any_tree :=
  match v with
  | ABool b => TBool b
  | ABools l => TArray (map TBool l)
  | AInt z => TInt z
  | AInts l => TArray (map TInt l)
  | AFloat b => TDouble b
  | AFloats l => TArray (map TDouble l)
  | AString s => TString s
  | AStrings l => TArray (map TString l)
  | AInvalid => TString "INVALID"
  end.

(** External, sdk/resource.Resource (read at internal/self/trace/tracetransform/resource.go:12-17): attributes are a normalised set, so two resources are Equivalent iff the lists are equal (the schema URL does not take part). Simplification: a float slice holding NaN makes a resource different from itself; not modelled. *)
Record sdk_resource := SdkResource { sr_attrs : list attr; sr_schema : string }.
(** External, sdk/instrumentation.Scope (read at internal/self/trace/tracetransform/instrumentation.go:11-19). *)
Record sdk_scope := SdkScope { ss_name : string; ss_version : string; ss_schema : string }.
(** External, sdk/trace.Link (read at internal/self/trace/tracetransform/span.go:135-157). *)
Record sdk_link := SdkLink { sl_trace : string; sl_id : string; sl_state : string; sl_attrs : list attr; sl_dropped : Z }.
(** External, sdk/trace.Event (read at internal/self/trace/tracetransform/span.go:160-176). *)
Record sdk_event := SdkEvent { se_name : string; se_time : Z; se_attrs : list attr; se_dropped : Z }.
(** External, the rest of sdk/trace.ReadOnlySpan (read at internal/self/trace/tracetransform/span.go:85-115). Status codes and span kinds are the numbers of the API (codes.Unset 0, Error 1, Ok 2; trace.SpanKindUnspecified 0, Internal 1, Server 2, Client 3, Producer 4, Consumer 5). *)
Record sdk_rest := SdkRest {
  sx_state : string; sx_code : N; sx_message : string; sx_kind : N; sx_links : list sdk_link; sx_events : list sdk_event;
  sx_dropped_attrs : Z; sx_dropped_events : Z; sx_dropped_links : Z }.
(** External, sdk/trace.ReadOnlySpan (read at internal/self/trace/tracetransform/span.go:85-115). Times are Unix nanoseconds; ids are their bytes. *)
Record sdk_span := SdkSpan {
  sd_resource : option sdk_resource; sd_scope : sdk_scope; sd_name : string; sd_trace : string; sd_id : string;
  sd_parent : string; sd_start : Z; sd_end : Z; sd_attrs : list attr; sd_rest : sdk_rest }.
(** External, trace/v1 Span_Link (built at internal/self/trace/tracetransform/span.go:135-157). *)
Record otlp_link := OLink { ol_trace : string; ol_id : string; ol_state : string; ol_attrs : list key_value; ol_dropped : N }.
(** External, trace/v1 Span_Event (built at internal/self/trace/tracetransform/span.go:160-176). *)
Record otlp_event := OEvent { oe_name : string; oe_time : N; oe_attrs : list key_value; oe_dropped : N }.
(** External, trace/v1 Span: status, kind, links, events and counters (built at internal/self/trace/tracetransform/span.go:85-115). *)
Record otlp_rest := ORest {
  ox_state : string; ox_code : N; ox_message : string; ox_kind : N; ox_links : list otlp_link; ox_events : list otlp_event;
  ox_dropped_attrs : N; ox_dropped_events : N; ox_dropped_links : N }.

(** External, attribute.Distinct equality (used by the map of internal/self/trace/tracetransform/span.go:22): one attribute. *)
Definition attr_eqb (a b : attr) : bool :=
  let list_eqb {A} (e : A -> A -> bool) := fix go (l m : list A) := match l, m with [], [] => true | x :: l, y :: m => e x y && go l m | _, _ => false end in
  String.eqb (at_key a) (at_key b) &&
  match at_value a, at_value b with
  | ABool x, ABool y => Bool.eqb x y
  | ABools x, ABools y => list_eqb Bool.eqb x y
  | AInt x, AInt y => Z.eqb x y
  | AInts x, AInts y => list_eqb Z.eqb x y
  | AFloat x, AFloat y => N.eqb x y
  | AFloats x, AFloats y => list_eqb N.eqb x y
  | AString x, AString y => String.eqb x y
  | AStrings x, AStrings y => list_eqb String.eqb x y
  | AInvalid, AInvalid => true
  | _, _ => false
  end.
(** External, attribute.Distinct equality (used by the map of internal/self/trace/tracetransform/span.go:22). *)
Fixpoint attrs_eqb (l m : list attr) : bool := match l, m with [], [] => true | x :: l, y :: m => attr_eqb x y && attrs_eqb l m | _, _ => false end.
(** External, equality of sdk/instrumentation.Scope (used by the map of internal/self/trace/tracetransform/span.go:28). *)
Definition scope_eqb (a b : sdk_scope) : bool :=
  String.eqb (ss_name a) (ss_name b) && String.eqb (ss_version a) (ss_version b) && String.eqb (ss_schema a) (ss_schema b).
(** External, Resource.Equivalent, nil being the empty set (called at internal/self/trace/tracetransform/span.go:36). *)
Definition r_key (sd : sdk_span) : list attr := match sd_resource sd with Some r => sr_attrs r | None => [] end.
(** internal/self/trace/tracetransform/span.go:24-27, key. *)
Definition key : Type := list attr * sdk_scope.
(** internal/self/trace/tracetransform/span.go:24-28, equality of the keys of the map. *)
Definition key_eqb (a b : key) : bool := attrs_eqb (fst a) (fst b) && scope_eqb (snd a) (snd b).

Section Spans.
  (** The wire encoding of an AnyValue that is not a string (used as its opaque content in [Otlp]). *)
  Variable enc : any_tree -> string.
  (** The opaque content of a span in [Otlp]: everything but name, ids, times and attributes. *)
  Variable enc_rest : otlp_rest -> string.
  (** internal/self/trace/tracetransform/attribute.go:50-99, Value, as the trees of [Otlp]. *)
  Definition any_of (v : attr_value) : any_value := match tree_of v with TString s => AVString s | t => AVOther (enc t) end.
  (** internal/self/trace/tracetransform/attribute.go:13-46, KeyValues and Iterator. *)
  Definition key_values (l : list attr) : list key_value := map (fun a => KV (at_key a) (Some (any_of (at_value a)))) l.
  (** External, trace.SpanID.IsValid (called at internal/self/trace/tracetransform/span.go:110): not all zero. *)
  Definition valid_id (s : string) : bool := negb (forallb (fun c => Ascii.eqb c zero) (list_ascii_of_string s)).
  (** External, the conversion uint64(t.UnixNano()) (used at internal/self/trace/tracetransform/span.go:85-115). *)
  Definition u64_of (t : Z) : N := Z.to_N (t mod 2 ^ 64).
  (** External, the conversion uint32(n) (used at internal/self/trace/tracetransform/span.go:85-115). *)
  Definition u32_of (n : Z) : N := Z.to_N (n mod 2 ^ 32).
  (** internal/self/trace/tracetransform/span.go:118-132: OK is 1, ERROR 2, UNSET 0. *)
  Definition status_of (c : N) : N := if N.eqb c 2 then 1 else if N.eqb c 1 then 2 else 0.
  (** internal/self/trace/tracetransform/span.go:179-194: the OTLP numbers are INTERNAL 1, SERVER 2, CLIENT 3, PRODUCER 4, CONSUMER 5, UNSPECIFIED 0. *)
  Definition kind_of (k : N) : N :=
    if N.eqb k 1 then 1 else if N.eqb k 3 then 3 else if N.eqb k 2 then 2 else if N.eqb k 4 then 4 else if N.eqb k 5 then 5 else 0.
  (** internal/self/trace/tracetransform/span.go:135-157: the trace state is not copied. *)
  Definition link_of (l : sdk_link) : otlp_link := OLink (sl_trace l) (sl_id l) "" (key_values (sl_attrs l)) (u32_of (sl_dropped l)).
  (** internal/self/trace/tracetransform/span.go:160-176. *)
  Definition event_of (e : sdk_event) : otlp_event := OEvent (se_name e) (u64_of (se_time e)) (key_values (se_attrs e)) (u32_of (se_dropped e)).
  (** internal/self/trace/tracetransform/span.go:92-107. *)
  Definition rest_of (r : sdk_rest) : otlp_rest :=
    ORest (sx_state r) (status_of (sx_code r)) (sx_message r) (kind_of (sx_kind r)) (map link_of (sx_links r)) (map event_of (sx_events r))
          (u32_of (sx_dropped_attrs r)) (u32_of (sx_dropped_events r)) (u32_of (sx_dropped_links r)).
  (** internal/self/trace/tracetransform/span.go:85-115. *)
  Definition span_of (sd : sdk_span) : span :=
    Span (sd_name sd) (Some (sd_trace sd)) (Some (sd_id sd)) (if valid_id (sd_parent sd) then Some (sd_parent sd) else None)
         (u64_of (sd_start sd)) (u64_of (sd_end sd)) (key_values (sd_attrs sd)) (enc_rest (rest_of (sd_rest sd))).
  (** internal/self/trace/tracetransform/instrumentation.go:11-19. *)
  Definition scope_of (s : sdk_scope) : option scope :=
    if scope_eqb s (SdkScope "" "" "") then None else Some (Scope (ss_name s) (ss_version s) [] "").
  (** internal/self/trace/tracetransform/resource.go:12-17. *)
  Definition resource_of (r : option sdk_resource) : option resource := match r with None => None | Some r => Some (Resource (key_values (sr_attrs r)) "") end.

  (** internal/self/trace/tracetransform/span.go:17-80.  ScopeSpans are shared by pointer between the map [ssm] and the lists of the
      ResourceSpans: a heap of them, and indices into it. *)
  Record state := State {
    heap : list (scope_group span);
    ssm : amap key nat;
    rsm : amap (list attr) (string * option resource * list nat) }.
  (** External to the code: a change behind a pointer (internal/self/trace/tracetransform/span.go:52). *)
  Fixpoint update_nth {A} (n : nat) (f : A -> A) (l : list A) : list A :=
    match l, n with [], _ => [] | x :: t, O => f x :: t | x :: t, S n => x :: update_nth n f t end.
  (** internal/self/trace/tracetransform/span.go:52, the append. *)
  Definition add_span (sd : sdk_span) (g : scope_group span) : scope_group span := SGroup (sg_schema g) (sg_scope g) (sg_items g ++ [span_of sd]).
  (** internal/self/trace/tracetransform/span.go:31-73, the body of the loop. *)
  Definition step (st : state) (o : option sdk_span) : state :=
    match o with
    | None => st
    | Some sd =>
        let rk := r_key sd in
        let k := (rk, sd_scope sd) in
        let '(h, i, known) :=
          match aget key_eqb k (ssm st) with
          | Some i => (heap st, i, true)
          | None => (heap st ++ [SGroup (ss_schema (sd_scope sd)) (scope_of (sd_scope sd)) []], List.length (heap st), false)
          end in
        let h := update_nth i (add_span sd) h in
        let ssm' := aset key_eqb k i (ssm st) in
        match aget attrs_eqb rk (rsm st) with
        | None => State h ssm' (aset attrs_eqb rk (match sd_resource sd with Some r => sr_schema r | None => "" end, resource_of (sd_resource sd), [i]) (rsm st))
        | Some (schema, res, ids) =>
            if known then State h ssm' (rsm st) else State h ssm' (aset attrs_eqb rk (schema, res, ids ++ [i]) (rsm st))
        end
    end.
  (** External to the code: the default of a lookup that never fails. *)
  Definition no_group : scope_group span := SGroup "" None [].
  (** internal/self/trace/tracetransform/span.go:75-80: one entry of the map of resources. *)
  Definition resource_spans (h : list (scope_group span)) (e : list attr * (string * option resource * list nat)) : resource_group span :=
    let '(_, (schema, res, ids)) := e in RGroup schema res (map (fun i => nth i h no_group) ids).
  (** internal/self/trace/tracetransform/span.go:17-82, Spans. [order] is the iteration order of the map of resources. *)
  Definition spans_of (order : amap (list attr) (string * option resource * list nat) -> list (list attr * (string * option resource * list nat)))
    (sdl : list (option sdk_span)) : list (resource_group span) :=
    let st := fold_left step sdl (State [] [] []) in map (resource_spans (heap st)) (order (rsm st)).
End Spans.
