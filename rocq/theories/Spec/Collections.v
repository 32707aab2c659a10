(** Collections of the server's own metrics: which metrics can be expressed in OTLP, and what "nothing is
    lost" means for those that can. *)
From Verif.Model Require Import Base Otlp SelfTrace SelfMetrics.
From Verif.Spec Require Import Groups Doubles.

(** A known kind of aggregation and, where it has one, a known temporality (cumulative 1 or delta 2). *)
Definition known_temporality (t : N) : bool := (t =? 1) || (t =? 2).
Definition expressible (m : sdk_metric) : bool :=
  match sm_data m with
  | AGauge _ | ASummary _ => true
  | ASum t _ _ => known_temporality t
  | AHistogram t _ => known_temporality t
  | AExponential t _ => known_temporality t
  | AUnknown => false
  end.
(** The error expected for a metric that is not. *)
Definition expected_error (m : sdk_metric) : metric_error :=
  MetricError (sm_name m) (sm_desc m) (sm_unit m) (match sm_data m with AUnknown => UnknownAggregation | _ => UnknownTemporality end).

(** What the SDK can produce: attributes with values, times other than the epoch itself (which OTLP uses
    for "unknown") within int64 nanoseconds. *)
Definition sane_moment (t : option Z) : Prop := match t with None => True | Some t => sane_time t /\ t <> 0%Z end.
Definition sane_exemplar (e : exemplar) : Prop := Forall sane_attr (ex_attrs e) /\ sane_moment (ex_time e).
Definition sane_point (attrs : list attr) (start time : option Z) (exs : list exemplar) : Prop :=
  Forall sane_attr attrs /\ sane_moment start /\ sane_moment time /\ Forall sane_exemplar exs.
Definition sane_metric (m : sdk_metric) : Prop :=
  match sm_data m with
  | AGauge l | ASum _ _ l => Forall (fun p => sane_point (dp_attrs p) (dp_start p) (dp_time p) (dp_exemplars p)) l
  | AHistogram _ l => Forall (fun p => sane_point (hp_attrs p) (hp_start p) (hp_time p) (hp_exemplars p)) l
  | AExponential _ l => Forall (fun p => sane_point (ep_attrs p) (ep_start p) (ep_time p) (ep_exemplars p)) l
  | ASummary l => Forall (fun p => sane_point (mp_attrs p) (mp_start p) (mp_time p) []) l
  | AUnknown => True
  end.
(** The metric with sum, minimum and maximum of histograms as float64 and without the zero threshold of
    exponential histograms: what remains of it. *)
Definition as_float (n : number) : number := NumFloat (f64_of n).
Definition kept_metric (m : sdk_metric) : sdk_metric :=
  SdkMetric (sm_name m) (sm_desc m) (sm_unit m)
    match sm_data m with
    | AHistogram t l => AHistogram t (map (fun p => HistPoint (hp_attrs p) (hp_start p) (hp_time p) (hp_count p) (hp_bounds p) (hp_buckets p)
        (option_map as_float (hp_min p)) (option_map as_float (hp_max p)) (as_float (hp_sum p)) (hp_exemplars p)) l)
    | AExponential t l => AExponential t (map (fun p => ExpPoint (ep_attrs p) (ep_start p) (ep_time p) (ep_count p)
        (option_map as_float (ep_min p)) (option_map as_float (ep_max p)) (as_float (ep_sum p)) (ep_scale p) (ep_zero p) (ep_positive p) (ep_negative p) 0 (ep_exemplars p)) l)
    | a => a
    end.

(** The data points of a metric: when they were measured, and their attributes. *)
Definition sdk_points (m : sdk_metric) : list (option Z * list attr) :=
  match sm_data m with
  | AGauge l | ASum _ _ l => map (fun p => (dp_time p, dp_attrs p)) l
  | AHistogram _ l => map (fun p => (hp_time p, hp_attrs p)) l
  | AExponential _ l => map (fun p => (ep_time p, ep_attrs p)) l
  | ASummary l => map (fun p => (mp_time p, mp_attrs p)) l
  | AUnknown => []
  end.
Definition sdk_kind (m : sdk_metric) : option mkind :=
  match sm_data m with AGauge _ => Some KGauge | ASum _ _ _ => Some KSum | AHistogram _ _ => Some KHistogram | AExponential _ _ => Some KExpHistogram | ASummary _ => Some KSummary | AUnknown => None end.
(** [o] describes [m]: same name, description, unit and kind; the temporality (OTLP: delta 1, cumulative
    2) and monotonicity of [m]; one point per point of [m], in order, with its time and attributes. *)
Definition describes (enc : any_tree -> string) (m : sdk_metric) (o : metric) : Prop :=
  m_name o = sm_name m /\ m_desc o = sm_desc m /\ m_unit o = sm_unit m /\
  exists d, m_data o = Some d /\ Some (md_kind d) = sdk_kind m /\
    md_temporality d = match sm_data m with ASum t _ _ | AHistogram t _ | AExponential t _ => if t =? 2 then 1%Z else 2%Z | _ => 0%Z end /\
    md_monotonic d = match sm_data m with ASum _ b _ => b | _ => false end /\
    map (fun p => (p_time p, p_attrs p)) (md_points d) =
    map (fun p => (match fst p with Some t => Z.to_N (t mod 2 ^ 64) | None => 0 end, map (fun a => KV (at_key a) (Some (any_of enc (at_value a)))) (snd p))) (sdk_points m).

(** What the OTLP data points of [m] have to say, field by field.  A moment is Unix nanoseconds in 64 bits
    without a sign, 0 standing for the zero time; a number that OTLP keeps as a double is the nearest one. *)
Definition moment_says (t : option Z) (n : N) : Prop := match t with Some t => unsigned 64 t n | None => n = 0 end.
Definition number_says (x : number) (bits : N) : Prop := match x with NumInt z => nearest bits (z * 2 ^ 1074) | NumFloat b => bits = b end.
Definition maybe_says (x : option number) (bits : option N) : Prop := match x, bits with Some x, Some b => number_says x b | None, None => True | _, _ => False end.
Definition int64_number (x : number) : Prop := match x with NumInt z => (- 2 ^ 63 <= z < 2 ^ 63)%Z | NumFloat _ => True end.
Definition int64_maybe (x : option number) : Prop := match x with Some x => int64_number x | None => True end.
Section Points.
  Variable enc : any_tree -> string.
  Definition exemplar_says (e : exemplar) (o : otlp_exemplar) : Prop :=
    Forall2 (same_attr enc) (ex_attrs e) (oxe_attrs o) /\ moment_says (ex_time e) (oxe_time o) /\ oxe_value o = ex_value e /\ oxe_span o = ex_span e /\ oxe_trace o = ex_trace e.
  Definition number_point_says (p : data_point) (o : otlp_point_rest) : Prop :=
    exists start exs, o = ONumber start (dp_value p) exs /\ moment_says (dp_start p) start /\ Forall2 exemplar_says (dp_exemplars p) exs.
  Definition histogram_says (p : hist_point) (o : otlp_point_rest) : Prop :=
    exists start sum lo hi exs, o = OHistogram start (hp_count p) sum (hp_buckets p) (hp_bounds p) lo hi exs /\
      moment_says (hp_start p) start /\ number_says (hp_sum p) sum /\ maybe_says (hp_min p) lo /\ maybe_says (hp_max p) hi /\ Forall2 exemplar_says (hp_exemplars p) exs.
  Definition exponential_says (p : exp_point) (o : otlp_point_rest) : Prop :=
    exists start sum lo hi exs, o = OExponential start (ep_count p) sum (ep_scale p) (ep_zero p) (ep_positive p) (ep_negative p) lo hi exs /\
      moment_says (ep_start p) start /\ number_says (ep_sum p) sum /\ maybe_says (ep_min p) lo /\ maybe_says (ep_max p) hi /\ Forall2 exemplar_says (ep_exemplars p) exs.
  Definition summary_says (p : summary_point) (o : otlp_point_rest) : Prop :=
    exists start, o = OSummary start (mp_count p) (mp_sum p) (mp_quantiles p) /\ moment_says (mp_start p) start.
  (** Sums, minima and maxima that are integers are int64. *)
  Definition int64_metric (m : sdk_metric) : Prop :=
    match sm_data m with
    | AHistogram _ l => Forall (fun p => int64_number (hp_sum p) /\ int64_maybe (hp_min p) /\ int64_maybe (hp_max p)) l
    | AExponential _ l => Forall (fun p => int64_number (ep_sum p) /\ int64_maybe (ep_min p) /\ int64_maybe (ep_max p)) l
    | _ => True
    end.
  Definition points_say (m : sdk_metric) (l : list otlp_point_rest) : Prop :=
    match sm_data m with
    | AGauge ps | ASum _ _ ps => Forall2 number_point_says ps l
    | AHistogram _ ps => Forall2 histogram_says ps l
    | AExponential _ ps => Forall2 exponential_says ps l
    | ASummary ps => Forall2 summary_says ps l
    | AUnknown => False
    end.
End Points.
