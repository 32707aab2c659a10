(** The scan builder a query script calls (internal/js/scan.go, packages/rq/src/core.ts). *)
From Verif.Model Require Import Base Labels Calendar View Store.
Open Scope Z_scope.

(** One method call on the builder (internal/js/scan.go:30-153); [latest()] of packages/rq/src/core.ts:124-126 is [CAgo "15m"].
    Simplification: goja's conversion of JavaScript numbers to int64 is done before the call. *)
Inductive call :=
| CResource (name : string) | CLimit (limit : Z) | COffset (duration : string) | CNow (ms : Z) | CReverse
| CResourceSchema (v : string) | CScopeSchema (v : string) | CScopeName (v : string) | CScopeVersion (v : string)
| CName (v : string) | CTraceID (v : string) | CSpanID (v : string) | CParentSpanID (v : string) | CLogLevel (v : string)
| CResourceAttr (k v : string) | CScopeAttr (k v : string) | CAttr (k v : string)
| CTimeRange (from to_ : Z) | CToday | CThisWeek | CThisMonth | CThisYear | CAgo (duration : string).

(** What JS.GetNow answers when a call runs (internal/js/rq.go:47-52; the command line passes time.Now, internal/commands/query/query.go:73):
    an instant in nanoseconds, and the offset of the clock's zone from UTC, in nanoseconds.
    Simplification: the zone has one offset (no daylight saving change inside the window). *)
Record clock := Clock { ck_ns : Z; ck_zone : Z }.

(** proto/rq/v1/scan.proto:39-50, enum BaseProp. *)
Definition P_RESOURCE_SCHEMA : Z := 13. Definition P_SCOPE_SCHEMA : Z := 2. Definition P_SCOPE_NAME : Z := 3.
(** proto/rq/v1/scan.proto:39-50, enum BaseProp. *)
Definition P_SCOPE_VERSION : Z := 4. Definition P_NAME : Z := 6. Definition P_TRACE_ID : Z := 8. Definition P_SPAN_ID : Z := 9.
(** proto/rq/v1/scan.proto:39-50, enum BaseProp. *)
Definition P_PARENT_SPAN_ID : Z := 10. Definition P_LOGS_LEVEL : Z := 11.
(** proto/rq/v1/scan.proto:52-57, enum AttributeProp. *)
Definition P_RESOURCE_ATTRIBUTES : Z := 1. Definition P_SCOPE_ATTRIBUTES : Z := 5. Definition P_ATTRIBUTES : Z := 7.

(** External, timestamppb.New: (Unix(), Nanosecond()) (called at internal/js/scan.go:155-160). *)
Definition pb_of_time (t : Z) : pb_time := (t / 1000000000, t mod 1000000000).
(** External, durationpb.New: d / 1e9 and d - secs*1e9, truncated division (called at internal/js/scan.go:45-52). *)
Definition pb_of_duration (d : Z) : pb_time := (Z.quot d 1000000000, Z.rem d 1000000000).
(** External, time.UnixMilli (called at internal/js/scan.go:54-57 and 111-115). *)
Definition unix_milli (ms : Z) : Z := ms * 1000000.

(** External, github.com/jinzhu/now v1.1.5 (called at internal/js/scan.go:117-143): the day of the clock in its zone. *)
Definition local_day (c : clock) : Z := day_of (ck_ns c + ck_zone c).
(** External, github.com/jinzhu/now v1.1.5 (called at internal/js/scan.go:117-143): the instant of local midnight of a day. *)
Definition midnight (c : clock) (day : Z) : Z := day * ns_day - ck_zone c.
(** External, github.com/jinzhu/now v1.1.5 (called at internal/js/scan.go:117-143): days since Sunday, the default WeekStartDay; day 0 (1 January 1970) was a Thursday. *)
Definition weekday (day : Z) : Z := (day + 4) mod 7.
(** External, github.com/jinzhu/now v1.1.5 (called at internal/js/scan.go:117-143): BeginningOfDay. *)
Definition beginning_of_day (c : clock) : Z := midnight c (local_day c).
(** External, github.com/jinzhu/now v1.1.5 (called at internal/js/scan.go:117-143): BeginningOfWeek. *)
Definition beginning_of_week (c : clock) : Z := midnight c (local_day c - weekday (local_day c)).
(** External, github.com/jinzhu/now v1.1.5 (called at internal/js/scan.go:117-143): BeginningOfMonth. *)
Definition beginning_of_month (c : clock) : Z :=
  let '(y, m, _) := date_of_day (local_day c) in midnight c (day_of_civil y m 1).
(** External, github.com/jinzhu/now v1.1.5 (called at internal/js/scan.go:117-143): BeginningOfYear. *)
Definition beginning_of_year (c : clock) : Z :=
  let '(y, _, _) := date_of_day (local_day c) in midnight c (day_of_civil y 1 1).

(** internal/js/scan.go:30-39, the assignment to Scope. *)
Definition set_scope (z : Z) (s : scan) : scan := Scan z (sc_filters s) (sc_times s) (sc_limit s) (sc_reverse s).
(** internal/js/scan.go:41-43, the assignment to Limit. *)
Definition set_limit (n : N) (s : scan) : scan := Scan (sc_scope s) (sc_filters s) (sc_times s) n (sc_reverse s).
(** internal/js/scan.go:59-61, the assignment to Reverse. *)
Definition set_reverse (b : bool) (s : scan) : scan := Scan (sc_scope s) (sc_filters s) (sc_times s) (sc_limit s) b.
(** internal/js/scan.go:45-57 and 155-160, the assignments to Now, Offset and TimeRange. *)
Definition set_times (t : scan_times) (s : scan) : scan := Scan (sc_scope s) (sc_filters s) t (sc_limit s) (sc_reverse s).
(** internal/js/scan.go:166-186, base and attr. *)
Definition add_filter (f : scan_filter) (s : scan) : scan :=
  Scan (sc_scope s) (sc_filters s ++ [f]) (sc_times s) (sc_limit s) (sc_reverse s).
(** internal/js/scan.go:155-160, rangeTS. *)
Definition range_ts (from to_ : Z) (s : scan) : scan :=
  set_times (ScanTimes (sc_now (sc_times s)) (sc_offset (sc_times s)) (Some (Some (pb_of_time from), Some (pb_of_time to_)))) s.
(** internal/js/scan.go:54-57, the assignment to Now. *)
Definition set_now (t : pb_time) (s : scan) : scan := set_times (ScanTimes (Some t) (sc_offset (sc_times s)) (sc_range (sc_times s))) s.
(** internal/js/scan.go:45-52, the assignment to Offset. *)
Definition set_offset (d : pb_time) (s : scan) : scan := set_times (ScanTimes (sc_now (sc_times s)) (Some d) (sc_range (sc_times s))) s.

(** internal/js/scan.go:23: a fresh &v1.Scan{}. *)
Definition empty_scan : scan := Scan 0 [] (ScanTimes None None None) 0%N false.
(** internal/js/scan.go:30-39, Resource: an unknown name changes nothing. *)
Definition resource_scope (name : string) : option Z :=
  if String.eqb name "metrics" then Some RESOURCE_METRICS
  else if String.eqb name "logs" then Some RESOURCE_LOGS
  else if String.eqb name "traces" then Some RESOURCE_TRACES else None.

Section Builder.
  (** time.ParseDuration (Go standard library): nanoseconds as an int64, or an error. *)
  Variable parse_duration : string -> option Z.

  (** internal/js/scan.go:30-153, one method call at a clock reading; the flag tells whether it returned without an
      error (goja turns a returned error into an exception of the script). *)
  Definition exec (s : scan) (c : clock) (x : call) : scan * bool :=
    match x with
    | CResource name => (match resource_scope name with Some z => set_scope z s | None => s end, true)
    | CLimit limit => (set_limit (Z.to_N (limit mod 2 ^ 64)) s, true)
    | COffset d => match parse_duration d with Some ns => (set_offset (pb_of_duration ns) s, true) | None => (s, false) end
    | CNow ms => (set_now (pb_of_time (unix_milli ms)) s, true)
    | CReverse => (set_reverse true s, true)
    | CResourceSchema v => (add_filter (FBase P_RESOURCE_SCHEMA v) s, true)
    | CScopeSchema v => (add_filter (FBase P_SCOPE_SCHEMA v) s, true)
    | CScopeName v => (add_filter (FBase P_SCOPE_NAME v) s, true)
    | CScopeVersion v => (add_filter (FBase P_SCOPE_VERSION v) s, true)
    | CName v => (add_filter (FBase P_NAME v) s, true)
    | CTraceID v => (add_filter (FBase P_TRACE_ID v) s, true)
    | CSpanID v => (add_filter (FBase P_SPAN_ID v) s, true)
    | CParentSpanID v => (add_filter (FBase P_PARENT_SPAN_ID v) s, true)
    | CLogLevel v => (add_filter (FBase P_LOGS_LEVEL v) s, true)
    | CResourceAttr k v => (add_filter (FAttr P_RESOURCE_ATTRIBUTES k v) s, true)
    | CScopeAttr k v => (add_filter (FAttr P_SCOPE_ATTRIBUTES k v) s, true)
    | CAttr k v => (add_filter (FAttr P_ATTRIBUTES k v) s, true)
    | CTimeRange from to_ => (range_ts (unix_milli from) (unix_milli to_) s, true)
    | CToday => (range_ts (beginning_of_day c) (ck_ns c) s, true)
    | CThisWeek => (range_ts (beginning_of_week c) (ck_ns c) s, true)
    | CThisMonth => (range_ts (beginning_of_month c) (ck_ns c) s, true)
    | CThisYear => (range_ts (beginning_of_year c) (ck_ns c) s, true)
    | CAgo d => match parse_duration d with Some ns => (range_ts (ck_ns c + neg64 ns) (ck_ns c) s, true) | None => (s, false) end
    end.
  (** internal/js/scan.go:21-28, Create, then the calls of the script (a failing call may be caught by the script,
      so the rest is run in any case). *)
  Definition run (s : scan) (l : list (clock * call)) : scan := fold_left (fun s cx => fst (exec s (fst cx) (snd cx))) l s.
  (** internal/js/scan.go:21-28, Create. *)
  Definition create (resource : string) : scan :=
    match resource_scope resource with Some z => set_scope z empty_scan | None => empty_scan end.
  (** internal/js/scan.go:21-28, Create, then the calls of the script (packages/rq/src/core.ts:124-126 and before). *)
  Definition build_scan (resource : string) (l : list (clock * call)) : scan := run (create resource) l.
End Builder.
