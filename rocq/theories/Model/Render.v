(** internal/render: the text a query script prints for metrics (internal/js/rq.go:131-134 RenderMetricsData).
    Simplifications: the pooled byte buffers (internal/render/pool.go) are strings; a nil pointer that the code dereferences makes the
    result [None] (a panic); the printed form of a float64 ([fmt] "%v"), the unit conversions of unit.go
    (time.Duration.String, humanize.IBytes) and strconv.IsPrint are parameters; text/tabwriter (external) is modelled
    for the tables this package writes, in which all lines have the same number of tab terminated cells, and for
    cells without tabs, vertical tabs, form feeds, line ends and the byte 255, which tabwriter reads as structure. *)
From Verif.Model Require Import Base Calendar Quote.
From Verif.Model Require Otlp.
Open Scope N_scope.

Local Infix "^^" := append (right associativity, at level 60).

(** External, common/v1 AnyValue as decoded from the wire: the value of a key may be missing (nil), the members of an array may not; [VUnset] is a message whose oneof is not set. Doubles are their 64 bits. Read at internal/render/attribute.go:20-60. *)
Inductive aval :=
| VStr (s : string) | VBool (b : bool) | VInt (z : Z) | VDouble (bits : N)
| VArr (l : list aval) | VKv (l : list (string * option aval)) | VBytes (s : string) | VUnset.

(** External, metrics/v1 NumberDataPoint as internal/render/metrics.go:108-134 reads it. *)
Record rpoint := RPoint { rp_time : N; rp_val : option (Z + N); rp_attrs : list (string * option aval) }.
(** External, the oneof Metric.data as internal/render/metrics.go:97-103 reads it. *)
Inductive rdata := RGauge (l : list rpoint) | RSum (l : list rpoint) | ROther (l : list rpoint) | RNone.
(** External, metrics/v1 Metric as internal/render/metrics.go:80-106 reads it. *)
Record rmetric := RMetric { rm_name : string; rm_desc : string; rm_unit : string; rm_data : rdata }.
(** External, metrics/v1 ScopeMetrics as internal/render/metrics.go:56-76 reads it. GetScope of a missing message gives empty fields. *)
Record rscope := RScope { rs_name : string; rs_version : string; rs_schema : string; rs_attrs : list (string * option aval); rs_metrics : list rmetric }.
(** External, metrics/v1 ResourceMetrics as internal/render/metrics.go:35-54 reads it. GetResource of a missing message gives empty fields. *)
Record rresource := RResource { rr_schema : string; rr_attrs : list (string * option aval); rr_scopes : list rscope }.
(** internal/render/metrics.go:13-17 MetricsFormatOption. *)
Record options := Options { o_resource : bool; o_scope : bool; o_metrics : bool }.

(** External, fmt's verb x on a byte slice: lower case hexadecimal (internal/render/attribute.go:20-60). *)
Definition hex_bytes := Otlp.hex_encode.

Section Render.
Context (is_print : N -> bool) (show_double : N -> string).
(** internal/render/attribute.go:20-60 value. *)
Fixpoint value (v : aval) : option string :=
  match v with
  | VStr s => Some (quote is_print s)
  | VBool b => Some (if b then "true" else "false")
  | VInt z => Some (show_Z z)
  | VDouble b => Some (show_double b)
  | VArr l =>
      match (fix members (first : bool) (l : list aval) : option string :=
               match l with
               | [] => Some ""
               | a :: t =>
                   match value a with
                   | None => None
                   | Some x => match members false t with
                               | None => None
                               | Some y => Some ((if first then "" else ", ") ^^ x ^^ y)
                               end
                   end
               end) true l with
      | None => None
      | Some x => Some ("[" ^^ x ^^ "]")
      end
  | VKv l =>
      match (fix entries (first : bool) (l : list (string * option aval)) : option string :=
               match l with
               | [] => Some ""
               | (k, o) :: t =>
                   match o with
                   | None => None
                   | Some a =>
                       match value a with
                       | None => None
                       | Some x => match entries false t with
                                   | None => None
                                   | Some y => Some ((if first then " " else ", ") ^^ k ^^ " = " ^^ x ^^ y)
                                   end
                       end
                   end
               end) true l with
      | None => None
      | Some x => Some ("{" ^^ x ^^ (match l with [] => "" | _ => " " end) ^^ "}")
      end
  | VBytes s => Some (hex_bytes s)
  | VUnset => Some ""
  end.

(** internal/render/attribute.go:11-18 attr. *)
Definition attr (l : list (string * option aval)) : option string := value (VKv l).

(** text/tabwriter (external), padchar ' ', padding 1, minwidth 0: the widths of the columns and one formatted line.
    A line is its tab terminated cells and the text behind the last tab; cells are measured in runes. *)
Definition line : Type := list string * string.
(** External, text/tabwriter (internal/render/metrics.go:41): padding. *)
Fixpoint spaces (n : nat) : string := match n with O => "" | S m => String " " (spaces m) end.
(** External, utf8.RuneCount: a rune is counted at each byte sequence DecodeRune takes off. *)
Fixpoint rune_count_fuel (fuel : nat) (s : string) : nat :=
  match fuel, s with
  | S f, String c t => S (rune_count_fuel f (snd (decode (N_of_ascii c) t)))
  | _, _ => O
  end.
(** External, utf8.RuneCount (used by text/tabwriter, internal/render/metrics.go:41). *)
Definition rune_count (s : string) : nat := rune_count_fuel (String.length s) s.
(** External, text/tabwriter (internal/render/metrics.go:41): the widths of the columns. *)
Fixpoint column_widths (acc : list nat) (ls : list (list string)) : list nat :=
  match ls with
  | [] => acc
  | l :: t => column_widths (map (fun wc => Nat.max (fst wc) (S (rune_count (snd wc)))) (combine acc l)) t
  end.
(** External, text/tabwriter (internal/render/metrics.go:41): one cell; [right] is AlignRight. *)
Definition pad_cell (right : bool) (w : nat) (c : string) : string :=
  if right then spaces (w - rune_count c) ^^ c else c ^^ spaces (w - rune_count c).
(** External, text/tabwriter (internal/render/metrics.go:41): one line. *)
Definition format_line (right : bool) (ws : list nat) (l : line) : string :=
  String.concat "" (map (fun wc => pad_cell right (fst wc) (snd wc)) (combine ws (fst l))) ^^ snd l ^^ String (chr 10) "".
(** External, text/tabwriter (internal/render/metrics.go:41): NewWriter ... Flush on lines that all have [n] terminated cells. *)
Definition table (right : bool) (n : nat) (ls : list line) : string :=
  let ws := column_widths (repeat O n) (map fst ls) in
  String.concat "" (map (format_line right ws) ls).

(** The rest of internal/render/metrics.go works on floats and units. *)
Context (float_of_int : Z -> N) (format_unit : N -> string -> string).

(** internal/render/metrics.go:123-125 formatTime: "2006-01-02 15:04:05" of int64(ns), UTC. *)
Definition format_time (ns : N) : string :=
  let t := int64_of_u64 ns in
  let secs := ((t mod ns_day) / 1000000000)%Z in
  format_Y t ^^ "-" ^^ append_int2 (month_of t) ^^ "-" ^^ append_int2 (mday_of t) ^^ " " ^^
  append_int2 (secs / 3600) ^^ ":" ^^ append_int2 (secs / 60 mod 60) ^^ ":" ^^ append_int2 (secs mod 60).

(** internal/render/metrics.go:127-134 numericDataValue; a point without value counts as 0.0. *)
Definition numeric_value (p : rpoint) : N :=
  match rp_val p with Some (inl i) => float_of_int i | Some (inr d) => d | None => 0 end.

(** internal/render/metrics.go:108-121 numeric. The cells end in a blank before the tab. *)
Fixpoint point_lines (unit : string) (l : list rpoint) : option (list line) :=
  match l with
  | [] => Some []
  | p :: t =>
      match attr (rp_attrs p) with
      | None => None
      | Some a =>
          match point_lines unit t with
          | None => None
          | Some ls => Some (([format_time (rp_time p) ^^ " "; format_unit (numeric_value p) unit ^^ " "; a ^^ " "], "") :: ls)
          end
      end
  end.
(** internal/render/metrics.go:108-121, the first line of the table. *)
Definition header : line := (["TIMESTAMP "; "VALUE "; "ATTRIBUTES "], "").
(** internal/render/metrics.go:108-121, numeric. *)
Definition numeric (l : list rpoint) (unit : string) : option string :=
  match point_lines unit l with
  | None => None
  | Some ls => Some (table false 3 (header :: ls))
  end.

(** External, strings.Contains (called at internal/render/metrics.go:85). *)
Fixpoint contains (sub s : string) : bool :=
  String.prefix sub s || match s with EmptyString => false | String _ t => contains sub t end.

(** internal/render/metrics.go:80-106 metrics. *)
Definition effective_unit (m : rmetric) : string :=
  if String.eqb (rm_unit m) "" && contains "nanoseconds" (rm_desc m) then "ns" else rm_unit m.
(** internal/render/metrics.go:49: a line end. *)
Definition nl : string := String (chr 10) "".
(** internal/render/metrics.go:80-106, metrics. *)
Definition render_metric (o : options) (m : rmetric) : option string :=
  let unit := effective_unit m in
  let head := rm_name m ^^ nl ^^
    (if o_metrics o then table false 2 [(["description "; rm_desc m], ""); (["unit "; unit], "")] else "") in
  match rm_data m with
  | RGauge l | RSum l => match numeric l unit with Some t => Some (head ^^ t) | None => None end
  | _ => Some head
  end.

(** The loops of internal/render/metrics.go:26-31, 47-52 and 69-74: one text per element, separated by an empty line. *)
Fixpoint join_rendered {A} (f : A -> option string) (first : bool) (l : list A) : option string :=
  match l with
  | [] => Some ""
  | a :: t =>
      match f a with
      | None => None
      | Some x => match join_rendered f false t with
                  | None => None
                  | Some y => Some ((if first then "" else nl) ^^ x ^^ y)
                  end
      end
  end.

(** internal/render/metrics.go:56-76 scope. *)
Definition render_scope (o : options) (s : rscope) : option string :=
  match (if o_scope o
         then match attr (rs_attrs s) with
              | None => None
              | Some a => Some (table true 1 [(["scope.name "], rs_name s); (["scope.schema "], rs_schema s);
                                              (["scope.version "], rs_version s); (["scope.attributes "], a)])
              end
         else Some "") with
  | None => None
  | Some info =>
      match join_rendered (render_metric o) true (rs_metrics s) with
      | None => None
      | Some ms => Some ("--> " ^^ rs_name s ^^ nl ^^ info ^^ ms)
      end
  end.

(** internal/render/metrics.go:35-54 resource. *)
Definition render_resource (o : options) (r : rresource) : option string :=
  match (if o_resource o
         then match attr (rr_attrs r) with
              | None => None
              | Some a => Some (table true 1 [(["resource.schema "], rr_schema r); (["resource.attributes "], a)])
              end
         else Some "") with
  | None => None
  | Some info =>
      match join_rendered (render_scope o) true (rr_scopes r) with
      | None => None
      | Some ss => Some ("=== " ^^ rr_schema r ^^ nl ^^ info ^^ ss)
      end
  end.

(** internal/render/metrics.go:23-33 MetricsData. *)
Definition render_metrics_data (o : options) (l : list rresource) : option string :=
  join_rendered (render_resource o) true l.
End Render.
