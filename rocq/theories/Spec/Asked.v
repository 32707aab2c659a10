(** What the methods of a query script ask of a record, read off their names and comments (packages/rq/src/core.ts). *)
From Verif.Model Require Import Base Labels Otlp Duration ScanBuilder Script.
From Verif.Spec Require Import Gregorian Indexing Trim.
Open Scope Z_scope.

Definition record_name (r : full_record) : option string := match r with RPoint n _ _ _ _ _ _ => Some n | RSpan s => Some (sp_name s) | RLog _ => None end.
Definition record_time (r : full_record) : Z := Z.of_N match r with RPoint _ _ _ _ _ _ p => p_time p | RLog l => lr_time l | RSpan s => sp_start s end.
Definition record_attrs (r : full_record) : list key_value := match r with RPoint _ _ _ _ _ _ p => p_attrs p | RLog l => lr_attrs l | RSpan s => sp_attrs s end.
Definition has (attrs : list key_value) (k v : string) : Prop := In (KV k (Some (AVString v))) attrs.
Definition has_id (id : option string) (hex : string) : Prop := exists b, id = Some b /\ hex_encode b = hex.

(** [says m e]: the record [e] meets the condition made by calling [m]; settings ask nothing of a record. *)
Definition says (m : method) (e : entry) : Prop :=
  let '((rs, r), (ss, s), x) := e in
  match m with
  | ResourceSchema v => rs = v
  | ScopeSchema v => ss = v
  | ScopeName v => name_of_scope s = v
  | ScopeVersion v => version_of_scope s = v
  | Name v => record_name x = Some v
  | TraceId v => match x with RSpan s => has_id (sp_trace s) v | RLog l => has_id (lr_trace l) v | _ => False end
  | SpanId v => match x with RSpan s => has_id (sp_span s) v | RLog l => has_id (lr_span l) v | _ => False end
  | ParentSpanId v => match x with RSpan s => has_id (sp_parent s) v | _ => False end
  | LogLevel v => match x with RLog l => lr_severity l = v | _ => False end
  | ResourceAttr k v => has (attrs_of_resource r) k v
  | ScopeAttr k v => has (attrs_of_scope s) k v
  | Attribute k v => has (record_attrs x) k v
  | _ => True
  end.
(** The signal an object is about. *)
Definition class_signal (k : class) : Z := match k with Metrics _ => RESOURCE_METRICS | Trace => RESOURCE_TRACES | Logs => RESOURCE_LOGS end.
(** All a script says: the name given to the constructor, if not empty, and the methods called. *)
Definition said (k : class) (l : list (clock * method)) : list method :=
  match k with Metrics (Some name) => if String.eqb name "" then [] else [Name name] | _ => [] end ++ map snd l.

(** Conditions a script can rely on: values are not empty, properties belong to the signal, trace ids are in lower case
    hexadecimal; span ids, parent span ids and attributes of the record itself are left out. *)
Definition reliable (k : class) (m : method) : Prop :=
  match m with
  | ResourceSchema v | ScopeSchema v | ScopeName v | ScopeVersion v | ResourceAttr _ v | ScopeAttr _ v => v <> ""%string
  | Name v => v <> ""%string /\ k <> Logs
  | LogLevel v => v <> ""%string /\ k = Logs
  | TraceId v => k = Trace /\ exists b, b <> ""%string /\ hex_encode b = v
  | SpanId _ | ParentSpanId _ | Attribute _ _ => False
  | _ => True
  end.
(** Two calls of one method with one argument, and different arguments. *)
Definition contradict (m m' : method) : Prop :=
  match m, m' with
  | ResourceSchema v, ResourceSchema w | ScopeSchema v, ScopeSchema w | ScopeName v, ScopeName w | ScopeVersion v, ScopeVersion w
  | Name v, Name w | TraceId v, TraceId w | LogLevel v, LogLevel w => v <> w
  | _, _ => False
  end.
Definition is_condition (m : method) : Prop :=
  match m with
  | ResourceSchema _ | ScopeSchema _ | ScopeName _ | ScopeVersion _ | Name _ | TraceId _ | SpanId _ | ParentSpanId _ | LogLevel _
  | ResourceAttr _ _ | ScopeAttr _ _ | Attribute _ _ => True
  | _ => False
  end.
(** A script with at least one condition, all of them reliable, no property asked for with two values. *)
Definition clear_script (k : class) (l : list (clock * method)) : Prop :=
  (exists m, In m (said k l) /\ is_condition m) /\ (forall m, In m (said k l) -> reliable k m) /\
  (forall m m', In m (said k l) -> In m' (said k l) -> ~ contradict m m').
(** Durations that time.ParseDuration reads, and whose negation is an int64. *)
Definition good_duration (d : string) : Prop := exists ns, parse_duration d = Some ns /\ ns <> - 2 ^ 63.
Definition good_durations (l : list (clock * method)) : Prop := forall c m d, In (c, m) l -> m = Ago d \/ m = Offset d -> good_duration d.

(** The window methods; [in_window_of f c m t]: [m], called when the clock reads [c], asks for instants like [t]: the
    part before [c] of the local day, week (from Sunday), month or year of [c], or the given time back from [c]. *)
Definition is_window (m : method) : Prop := match m with Latest | Today | ThisWeek | ThisMonth | ThisYear | Ago _ => True | _ => False end.
Definition local_date (f : Z -> Z * Z * Z) (c : clock) (t : Z) : Z * Z * Z := f ((t + ck_zone c) / 86400000000000).
Definition year_month (d : Z * Z * Z) : Z * Z := let '(y, m, _) := d in (y, m).
Definition the_year (d : Z * Z * Z) : Z := let '(y, _, _) := d in y.
Definition sundays_before (c : clock) (t : Z) : Z := ((t + ck_zone c) / 86400000000000 - 3) / 7.
Definition in_window_of (f : Z -> Z * Z * Z) (c : clock) (m : method) (t : Z) : Prop :=
  t < ck_ns c /\
  match m with
  | Latest => ck_ns c - 15 * 60 * 1000000000 <= t
  | Today => local_date f c t = local_date f c (ck_ns c)
  | ThisWeek => sundays_before c t = sundays_before c (ck_ns c)
  | ThisMonth => year_month (local_date f c t) = year_month (local_date f c (ck_ns c))
  | ThisYear => the_year (local_date f c t) = the_year (local_date f c (ck_ns c))
  | Ago d => exists ns, parse_duration d = Some ns /\ ck_ns c - ns <= t
  | _ => False
  end.

(** The window of [m] begins at [t0]. *)
Definition begins (f : Z -> Z * Z * Z) (c : clock) (m : method) (t0 : Z) : Prop :=
  t0 <= ck_ns c /\ forall t, t0 <= t < ck_ns c <-> in_window_of f c m t.
(** Where a query over the window from [t0] to [en] looks, [t] being the time of the first record of a payload (all in UTC).
    Less than a day: the hours reached from [t0] in steps of an hour.  Less than 30 days: whole days, without the last.
    Less than 360 days: whole months, without the last; none at all if [en] is in the month after [t0]'s and that month has no
    such day as [t0]'s.  Else whole years, without the last. *)
Definition the_hour (t : Z) : Z := t / 3600000000000.
Definition the_day (t : Z) : Z := t / 86400000000000.
Definition the_month (f : Z -> Z * Z * Z) (t : Z) : Z := let '(y, m, _) := f (the_day t) in 12 * y + m.
Definition day_of_month (f : Z -> Z * Z * Z) (t : Z) : Z := let '(_, _, d) := f (the_day t) in d.
Definition month_length (f : Z -> Z * Z * Z) (t : Z) : Z := let '(y, m, _) := f (the_day t) in Gregorian.days_in_month y m.
Definition year_in (f : Z -> Z * Z * Z) (t : Z) : Z := the_year (f (the_day t)).
Definition consulted (f : Z -> Z * Z * Z) (t0 en t : Z) : Prop :=
  let days n := n * 86400000000000 in
  (en - t0 < days 1 /\ exists n, 0 <= n /\ t0 + n * 3600000000000 < en /\ the_hour t = the_hour (t0 + n * 3600000000000)) \/
  (days 1 <= en - t0 < days 30 /\ the_day t0 <= the_day t < the_day en) \/
  (days 30 <= en - t0 < days 360 /\ ~ (the_month f en = the_month f t0 + 1 /\ month_length f en < day_of_month f t0) /\
     the_month f t0 <= the_month f t < the_month f en) \/
  (days 360 <= en - t0 /\ year_in f t0 <= year_in f t < year_in f en).
