(** internal/self/metrics/transform: the server's own metrics as OTLP (internal/self/metrics/transform/metricdata.go, internal/self/metrics/transform/error.go,
    internal/self/metrics/transform/attribute.go), and the exporter (internal/self/metrics.go). *)
From Verif.Model Require Import Base Otlp SelfTrace Service.

(** go.opentelemetry.io/otel/sdk/metric/metricdata (external).  The type parameter N is int64 or float64;
    floats are their bits; a time is Unix nanoseconds, None being the zero time.Time. *)
Inductive number := NumInt (z : Z) | NumFloat (bits : N).
(** External, go.opentelemetry.io/otel/sdk/metric/metricdata, read at internal/self/metrics/transform/metricdata.go:289-311: Exemplar. *)
Record exemplar := Exemplar { ex_attrs : list attr; ex_time : option Z; ex_value : number; ex_span : string; ex_trace : string }.
(** External, go.opentelemetry.io/otel/sdk/metric/metricdata, read at internal/self/metrics/transform/metricdata.go:135-157: DataPoint. *)
Record data_point := DataPoint { dp_attrs : list attr; dp_start : option Z; dp_time : option Z; dp_value : number; dp_exemplars : list exemplar }.
(** External, go.opentelemetry.io/otel/sdk/metric/metricdata, read at internal/self/metrics/transform/metricdata.go:176-201: HistogramDataPoint. *)
Record hist_point := HistPoint {
  hp_attrs : list attr; hp_start : option Z; hp_time : option Z; hp_count : N; hp_bounds : list N; hp_buckets : list N;
  hp_min : option number; hp_max : option number; hp_sum : number; hp_exemplars : list exemplar }.
(** External, go.opentelemetry.io/otel/sdk/metric/metricdata, read at internal/self/metrics/transform/metricdata.go:220-248: ExponentialHistogramDataPoint. *)
Record exp_point := ExpPoint {
  ep_attrs : list attr; ep_start : option Z; ep_time : option Z; ep_count : N; ep_min : option number; ep_max : option number; ep_sum : number;
  ep_scale : Z; ep_zero : N; ep_positive : Z * list N; ep_negative : Z * list N; ep_threshold : N; ep_exemplars : list exemplar }.
(** External, go.opentelemetry.io/otel/sdk/metric/metricdata, read at internal/self/metrics/transform/metricdata.go:324-339: SummaryDataPoint. *)
Record summary_point := SummaryPoint {
  mp_attrs : list attr; mp_start : option Z; mp_time : option Z; mp_count : N; mp_sum : N; mp_quantiles : list (N * N) }.
(** External, go.opentelemetry.io/otel/sdk/metric/metricdata, read at internal/self/metrics/transform/metricdata.go:77-107: Aggregation; temporality by its number (undefined 0, cumulative 1, delta 2). AUnknown: any other type, and nil. *)
Inductive aggregation :=
| AGauge (l : list data_point) | ASum (temporality : N) (monotonic : bool) (l : list data_point)
| AHistogram (temporality : N) (l : list hist_point) | AExponential (temporality : N) (l : list exp_point)
| ASummary (l : list summary_point) | AUnknown.
(** External, go.opentelemetry.io/otel/sdk/metric/metricdata, read at internal/self/metrics/transform/metricdata.go:77-83: Metrics. *)
Record sdk_metric := SdkMetric { sm_name : string; sm_desc : string; sm_unit : string; sm_data : aggregation }.
(** External, go.opentelemetry.io/otel/sdk/metric/metricdata, read at internal/self/metrics/transform/metricdata.go:38-58: ScopeMetrics. *)
Record sdk_scope_metrics := SdkScopeMetrics { sc_scope_of : sdk_scope; sc_metrics : list sdk_metric }.
(** External, go.opentelemetry.io/otel/sdk/metric/metricdata, read at internal/self/metrics/transform/metricdata.go:24-33: ResourceMetrics; Resource is dereferenced, the SDK always sets it. *)
Record sdk_collection := SdkCollection { rm_resource : sdk_resource; rm_scopes : list sdk_scope_metrics }.

(** External, the Go conversion float64(z) of an int64 (internal/self/metrics/transform/metricdata.go:180), as bits: round to nearest, ties to even. *)
Definition f64_of_int (z : Z) : N :=
  let m := Z.to_N (Z.abs z) in
  let sign := if (z <? 0)%Z then 2 ^ 63 else 0 in
  if m =? 0 then 0
  else
    let e := N.log2 m in
    if e <=? 52 then sign + (e + 1022) * 2 ^ 52 + m * 2 ^ (52 - e)
    else let s := e - 52 in
         let q := m / 2 ^ s in
         let r := m mod 2 ^ s in
         let q' := if (2 ^ (s - 1) <? r) || ((r =? 2 ^ (s - 1)) && N.odd q) then q + 1 else q in
         sign + (e + 1022) * 2 ^ 52 + q'.
(** internal/self/metrics/transform/metricdata.go:180: float64(n) for n of type int64 or float64. *)
Definition f64_of (n : number) : N := match n with NumInt z => f64_of_int z | NumFloat b => b end.

(** External, metrics/v1 Exemplar (built at internal/self/metrics/transform/metricdata.go:289-311). *)
Record otlp_exemplar := OExemplar { oxe_attrs : list key_value; oxe_time : N; oxe_value : number; oxe_span : string; oxe_trace : string }.
(** External, metrics/v1: the fields of a data point other than its time and attributes (built at internal/self/metrics/transform/metricdata.go:135-352). *)
Inductive otlp_point_rest :=
| ONumber (start : N) (value : number) (exemplars : list otlp_exemplar)
| OHistogram (start count sum : N) (buckets bounds : list N) (min max : option N) (exemplars : list otlp_exemplar)
| OExponential (start count sum : N) (scale : Z) (zero : N) (positive negative : Z * list N) (min max : option N) (exemplars : list otlp_exemplar)
| OSummary (start count sum : N) (quantiles : list (N * N)).

(** internal/self/metrics/transform/error.go:16-19, the two errors. *)
Inductive reason := UnknownAggregation | UnknownTemporality.
(** internal/self/metrics/transform/error.go:21-24, errMetric. *)
Record metric_error := MetricError { me_name : string; me_desc : string; me_unit : string; me_reason : reason }.

Section Metrics.
  Variable enc : any_tree -> string.
  Variable enc_point : otlp_point_rest -> string.
  (** internal/self/metrics/transform/metricdata.go:281-286, timeUnixNano. *)
  Definition time_unix_nano (t : option Z) : N := match t with None => 0 | Some t => u64_of t end.
  (** internal/self/metrics/transform/metricdata.go:262-272, Temporality: DELTA is 1, CUMULATIVE 2. *)
  Definition temporality_of (t : N) : option Z := if t =? 2 then Some 1%Z else if t =? 1 then Some 2%Z else None.
  (** internal/self/metrics/transform/metricdata.go:289-311, Exemplars. *)
  Definition exemplar_of (e : exemplar) : otlp_exemplar := OExemplar (key_values enc (ex_attrs e)) (time_unix_nano (ex_time e)) (ex_value e) (ex_span e) (ex_trace e).
  (** internal/self/metrics/transform/metricdata.go:135-157, DataPoints. *)
  Definition number_point (p : data_point) : point :=
    Point (time_unix_nano (dp_time p)) (key_values enc (dp_attrs p)) (enc_point (ONumber (time_unix_nano (dp_start p)) (dp_value p) (map exemplar_of (dp_exemplars p)))).
  (** internal/self/metrics/transform/metricdata.go:176-201, HistogramDataPoints. *)
  Definition hist_point_of (p : hist_point) : point :=
    Point (time_unix_nano (hp_time p)) (key_values enc (hp_attrs p))
      (enc_point (OHistogram (time_unix_nano (hp_start p)) (hp_count p) (f64_of (hp_sum p)) (hp_buckets p) (hp_bounds p)
        (option_map f64_of (hp_min p)) (option_map f64_of (hp_max p)) (map exemplar_of (hp_exemplars p)))).
  (** internal/self/metrics/transform/metricdata.go:220-257: the zero threshold is not copied. *)
  Definition exp_point_of (p : exp_point) : point :=
    Point (time_unix_nano (ep_time p)) (key_values enc (ep_attrs p))
      (enc_point (OExponential (time_unix_nano (ep_start p)) (ep_count p) (f64_of (ep_sum p)) (ep_scale p) (ep_zero p) (ep_positive p) (ep_negative p)
        (option_map f64_of (ep_min p)) (option_map f64_of (ep_max p)) (map exemplar_of (ep_exemplars p)))).
  (** internal/self/metrics/transform/metricdata.go:324-352, SummaryDataPoints. *)
  Definition summary_point_of (p : summary_point) : point :=
    Point (time_unix_nano (mp_time p)) (key_values enc (mp_attrs p)) (enc_point (OSummary (time_unix_nano (mp_start p)) (mp_count p) (mp_sum p) (mp_quantiles p))).
  (** internal/self/metrics/transform/metricdata.go:77-107 metric, with Gauge (110-116), Sum (120-132), Histogram (161-172),
      ExponentialHistogram (205-216), Summary (314-320). *)
  Definition data_of (a : aggregation) : mdata + reason :=
    match a with
    | AGauge l => inl (MData KGauge 0 false (map number_point l))
    | ASum t mono l => match temporality_of t with Some t => inl (MData KSum t mono (map number_point l)) | None => inr UnknownTemporality end
    | AHistogram t l => match temporality_of t with Some t => inl (MData KHistogram t false (map hist_point_of l)) | None => inr UnknownTemporality end
    | AExponential t l => match temporality_of t with Some t => inl (MData KExpHistogram t false (map exp_point_of l)) | None => inr UnknownTemporality end
    | ASummary l => inl (MData KSummary 0 false (map summary_point_of l))
    | AUnknown => inr UnknownAggregation
    end.
  (** internal/self/metrics/transform/metricdata.go:62-75, Metrics: the loop, with the metrics and errors collected so far. *)
  Fixpoint metrics_of (ms : list sdk_metric) (out : list metric) (errs : list metric_error) : list metric * list metric_error :=
    match ms with
    | [] => (out, errs)
    | m :: t => match data_of (sm_data m) with
                | inr r => metrics_of t out (errs ++ [MetricError (sm_name m) (sm_desc m) (sm_unit m) r])
                | inl d => metrics_of t (out ++ [Metric (sm_name m) (sm_desc m) (sm_unit m) (Some d)]) errs
                end
    end.
  (** internal/self/metrics/transform/metricdata.go:38-57, ScopeMetrics; internal/self/metrics/transform/error.go:54-66: the errors of a scope are flattened into one list. *)
  Fixpoint scope_metrics_of (l : list sdk_scope_metrics) (out : list (scope_group metric)) (errs : list metric_error) : list (scope_group metric) * list metric_error :=
    match l with
    | [] => (out, errs)
    | s :: t => let '(ms, es) := metrics_of (sc_metrics s) [] [] in
                scope_metrics_of t (out ++ [SGroup (ss_schema (sc_scope_of s)) (Some (Scope (ss_name (sc_scope_of s)) (ss_version (sc_scope_of s)) [] "")) ms]) (errs ++ es)
    end.
  (** internal/self/metrics/transform/metricdata.go:24-33, ResourceMetrics; an empty list of errors is nil (internal/self/metrics/transform/error.go:47-52). *)
  Definition resource_metrics_of (rm : sdk_collection) : resource_group metric * list metric_error :=
    let '(sms, errs) := scope_metrics_of (rm_scopes rm) [] [] in
    (RGroup (sr_schema (rm_resource rm)) (Some (Resource (key_values enc (sr_attrs (rm_resource rm))) "")) sms, errs).
  (** internal/self/metrics.go:20-32, Export: the request handed to the collector, if any, and the errors returned
      before it is. *)
  Definition export_metrics (rm : sdk_collection) : option request * list metric_error :=
    let '(g, errs) := resource_metrics_of rm in
    match errs with [] => (Some (RqMetrics [g]), []) | _ => (None, errs) end.
End Metrics.
