(** Errors of the server's own metrics (internal/self/metrics/transform/error.go) and of stopping its own telemetry
    (internal/self/self.go). *)
From Verif.Model Require Import Base Otlp SelfTrace SelfMetrics Quote.
Open Scope N_scope.
Local Infix "^^" := append (right associativity, at level 60).

(** internal/self/metrics/transform/error.go:16-46 and the errors it wraps. A leaf has an identity: one of the two
    variables of error.go:16-19, or any other error value. EWrap is fmt.Errorf("%w: ...", e, ...)
    (internal/self/metrics/transform/metricdata.go:104, 269); EMulti is a *multiErr; EJoin is what errors.Join returns
    (internal/self/self.go:38). *)
Inductive leaf := LReason (r : reason) | LOther (id : N).
(** internal/self/metrics/transform/error.go:21-46; see above. *)
Inductive err :=
| ELeaf (l : leaf) (text : string)
| EWrap (e : err) (detail : string)
| EMetric (name desc unit : string) (e : err)
| EMulti (datatype : string) (es : list err)
| EJoin (es : list err).

(** internal/self/metrics/transform/error.go:47-52, errOrNil. *)
Definition err_or_nil (datatype : string) (es : list err) : option err := match es with [] => None | _ => Some (EMulti datatype es) end.
(** internal/self/metrics/transform/error.go:55-66, append. *)
Definition multi_append (es : list err) (e : err) : list err :=
  match e with EMulti _ other => es ++ other | _ => es ++ [e] end.

(** External, strings.Join (called at internal/self/metrics/transform/error.go:75). *)
Fixpoint join_with (sep : string) (l : list string) : string :=
  match l with [] => "" | [x] => x | x :: t => x ^^ sep ^^ join_with sep t end.
(** A line feed (internal/self/metrics/transform/error.go:74-75). *)
Definition lf : string := String (ascii_of_N 10) "".
(** A line feed and a tab (internal/self/metrics/transform/error.go:74-75). *)
Definition lf_tab : string := String (ascii_of_N 10) (String (ascii_of_N 9) "").
Section Texts.
  Context (is_print : N -> bool).
  (** internal/self/metrics/transform/error.go:30-33 errMetric.Error, 68-76 multiErr.Error; errors.Join separates the texts by line feeds. *)
  Fixpoint error_text (e : err) : string :=
    match e with
    | ELeaf _ t => t
    | EWrap e d => error_text e ^^ ": " ^^ d
    | EMetric n d u e => "invalid metric (name: " ^^ quote is_print n ^^ ", description: " ^^ quote is_print d ^^ ", unit: " ^^ quote is_print u ^^ "): " ^^ error_text e
    | EMulti dt es => let lines := (fix go (l : list err) : list string := match l with [] => [] | e :: t => ("* " ^^ error_text e) :: go t end) es in
                      show_N (N.of_nat (List.length lines)) ^^ " errors occurred transforming " ^^ dt ^^ ":" ^^ lf_tab ^^ join_with lf_tab lines
    | EJoin es => join_with lf ((fix go (l : list err) : list string := match l with [] => [] | e :: t => error_text e :: go t end) es)
    end.
End Texts.

(** The identities of errors (pointer equality in errors.Is, External). *)
Definition leaf_eqb (a b : leaf) : bool :=
  match a, b with
  | LReason UnknownAggregation, LReason UnknownAggregation | LReason UnknownTemporality, LReason UnknownTemporality => true
  | LOther i, LOther j => i =? j
  | _, _ => false
  end.
(** External, errors.Is(e, target) for a leaf as target: compares, asks the Is method
    (internal/self/metrics/transform/error.go:35-37 errMetric: errors.Is of the wrapped error; 94-100 multiErr: errors.Is of the first), then
    goes on with Unwrap (26-28 errMetric; 78-92 multiErr: nil, the only error, or a multiErr of all but the first). *)
Fixpoint errors_is (e : err) (target : leaf) {struct e} : bool :=
  match e with
  | ELeaf l _ => leaf_eqb l target
  | EWrap e _ => errors_is e target
  | EMetric _ _ _ e => errors_is e target || errors_is e target
  | EMulti _ es => (fix go (l : list err) : bool :=
                      match l with
                      | [] => false
                      | [e] => errors_is e target || errors_is e target
                      | e :: t => errors_is e target || go t
                      end) es
  | EJoin es => (fix go (l : list err) : bool := match l with [] => false | e :: t => errors_is e target || go t end) es
  end.

(** External, metricdata.Temporality.String (called by %s at internal/self/metrics/transform/metricdata.go:269). *)
Definition temporality_name (t : N) : string :=
  if t =? 0 then "undefinedTemporality" else if t =? 1 then "CumulativeTemporality" else if t =? 2 then "DeltaTemporality"
  else "Temporality(" ^^ show_N t ^^ ")".
Section Conversion.
  (** The name of the type of a metric's data, %T (internal/self/metrics/transform/metricdata.go:104). *)
  Context (type_name : sdk_metric -> string).
  (** internal/self/metrics/transform/metricdata.go:77-107 and 262-272, the error of converting one metric. *)
  Definition data_error (m : sdk_metric) : option err :=
    let by_temporality t := match temporality_of t with Some _ => None | None => Some (EWrap (ELeaf (LReason UnknownTemporality) "unknown temporality") (temporality_name t)) end in
    match sm_data m with
    | AGauge _ | ASummary _ => None
    | ASum t _ _ => by_temporality t
    | AHistogram t _ => by_temporality t
    | AExponential t _ => by_temporality t
    | AUnknown => Some (EWrap (ELeaf (LReason UnknownAggregation) "unknown aggregation") (type_name m))
    end.
  (** internal/self/metrics/transform/metricdata.go:62-75, Metrics, the errors. *)
  Fixpoint metrics_errors (ms : list sdk_metric) (errs : list err) : list err :=
    match ms with
    | [] => errs
    | m :: t => match data_error m with
                | Some e => metrics_errors t (multi_append errs (EMetric (sm_name m) (sm_desc m) (sm_unit m) e))
                | None => metrics_errors t errs
                end
    end.
  (** internal/self/metrics/transform/metricdata.go:38-57, ScopeMetrics, the errors. *)
  Fixpoint scopes_errors (l : list sdk_scope_metrics) (errs : list err) : list err :=
    match l with
    | [] => errs
    | s :: t => match err_or_nil "Metrics" (metrics_errors (sc_metrics s) []) with
                | Some e => scopes_errors t (multi_append errs e)
                | None => scopes_errors t errs
                end
    end.
  (** internal/self/metrics/transform/metricdata.go:24-33 ResourceMetrics and internal/self/metrics.go:20-32 Export: the error
      of the conversion. *)
  Definition conversion_error (rm : sdk_collection) : option err := err_or_nil "ScopeMetrics" (scopes_errors (rm_scopes rm) []).
End Conversion.

(** External, errors.Join (called at internal/self/self.go:38): nil errors are left out; nil if none is left. *)
Definition errors_join (l : list (option err)) : option err :=
  match flat_map (fun o => match o with Some e => [e] | None => [] end) l with [] => None | es => Some (EJoin es) end.
(** internal/self/self.go:33-39, closers.Shutdown: which parts were asked to stop, in order, and the error. [stop i] is
    the answer of part i. *)
Definition shutdown_all (stop : nat -> option err) (n : nat) : list nat * option err :=
  (seq 0 n, errors_join (map stop (seq 0 n))).
