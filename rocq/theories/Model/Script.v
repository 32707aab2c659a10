(** The classes a query script is written with (packages/rq/src/core.ts, core_metrics.ts, core_trace.ts, core_logs.ts).
    A script modelled here constructs one object, calls methods on it in a chain and ends with query(); it catches no
    exception.  Simplifications: esbuild's bundle of the TypeScript source does what the source says, and goja runs it as
    JavaScript; arguments have the types the TypeScript signatures give them; numbers reach Go as int64. *)
From Verif.Model Require Import Base Otlp Store View Visit ScanBuilder Duration Query.
From Verif.Spec Require Import Translator.
Open Scope Z_scope.

(** packages/rq/src/core_metrics.ts:4-10, packages/rq/src/core_trace.ts:4-7, packages/rq/src/core_logs.ts:4-7:
    the constructors; the name is optional. *)
Inductive class := Metrics (name : option string) | Trace | Logs.
(** packages/rq/src/core.ts:33-157, the methods of Config that return the object itself. *)
Inductive method :=
| Limit (num_samples : Z) | Offset (duration : string) | Now (ms : Z) | Reverse
| ResourceSchema (schema : string) | ScopeSchema (schema : string) | ScopeName (name : string) | ScopeVersion (version : string)
| Name (value : string) | TraceId (value : string) | SpanId (value : string) | ParentSpanId (value : string) | LogLevel (value : string)
| ResourceAttr (key value : string) | ScopeAttr (key value : string) | Attribute (key value : string)
| Latest | Today | ThisWeek | ThisMonth | ThisYear | Ago (duration : string).

(** packages/rq/src/core.ts:9-13, enum RESOURCE, as the constructors pass it on. *)
Definition resource_name (k : class) : string := match k with Metrics _ => "metrics" | Trace => "traces" | Logs => "logs" end.
(** packages/rq/src/core.ts:33-157: the call of the Go builder each method makes. *)
Definition call_of (m : method) : call :=
  match m with
  | Limit n => CLimit n | Offset d => COffset d | Now ms => CNow ms | Reverse => CReverse
  | ResourceSchema v => CResourceSchema v | ScopeSchema v => CScopeSchema v | ScopeName v => CScopeName v | ScopeVersion v => CScopeVersion v
  | Name v => CName v | TraceId v => CTraceID v | SpanId v => CSpanID v | ParentSpanId v => CParentSpanID v | LogLevel v => CLogLevel v
  | ResourceAttr k v => CResourceAttr k v | ScopeAttr k v => CScopeAttr k v | Attribute k v => CAttr k v
  | Latest => CAgo "15m" | Today => CToday | ThisWeek => CThisWeek | ThisMonth => CThisMonth | ThisYear => CThisYear | Ago d => CAgo d
  end.
(** packages/rq/src/core.ts:15-20 and packages/rq/src/core_metrics.ts:5-10, packages/rq/src/core_trace.ts:5-7,
    packages/rq/src/core_logs.ts:5-7: the constructors.  [if (name)] is false of a missing and of an empty name. *)
Definition construct (k : class) : scan :=
  let s := create (resource_name k) in
  match k with
  | Metrics (Some name) => if String.eqb name "" then s else fst (exec parse_duration s (Clock 0 0) (CName name))
  | _ => s
  end.
(** packages/rq/src/core.ts:33-157: a chain of method calls; an error of the Go method is an exception, which ends the
    script (None). *)
Fixpoint chain (s : scan) (l : list (clock * method)) : option scan :=
  match l with
  | [] => Some s
  | (c, m) :: t => let '(s', ok) := exec parse_duration s c (call_of m) in if ok then chain s' t else None
  end.

(** packages/rq/src/core_metrics.ts:12-14, packages/rq/src/core_trace.ts:9-11, packages/rq/src/core_logs.ts:9-11: what a script
    gets of query(): an exception, the end of the process, or a payload (null if there is none of its signal). *)
Inductive outcome := Threw | Crashed | Got (d : option data).
(** gen/go/rq/v1/scan.pb.go:360-379 GetMetrics, GetLogs, GetTraces: nil if the answer holds something else. *)
Definition getter (k : class) (d : data) : option data :=
  match k, d with
  | Metrics _, DMetrics _ => Some d
  | Logs, DLogs _ => Some d
  | Trace, DTraces _ => Some d
  | _, _ => None
  end.
Section Run.
Context (I : tr_impl) (h h0 : string -> N) (kvb : key_value -> string).
(** packages/rq/src/core.ts:21-24 scan(), packages/rq/src/core_metrics.ts:12-14, packages/rq/src/core_trace.ts:9-11 and
    packages/rq/src/core_logs.ts:9-11 query(): the whole script.  [client] is the client's clock when query() runs. *)
Definition run_script (st : store I) (e : env) (client : Z) (order : nset -> list (N * list N)) (k : class) (l : list (clock * method)) : outcome :=
  match chain (construct k) l with
  | None => Threw
  | Some sc => match query I h h0 kvb st e client sc order with
               | AError => Threw
               | ACrash => Crashed
               | AData d => Got (getter k d)
               end
  end.
End Run.
