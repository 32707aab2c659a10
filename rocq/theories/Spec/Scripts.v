(** What the calls of a query script ask for, read off the documentation of the JavaScript API
    (packages/rq/src/core.ts): conditions, settings and windows.  Times are nanoseconds since 1970. *)
From Verif.Model Require Import Base Labels ScanBuilder.
Open Scope Z_scope.

(** The condition a call adds: (prefix of the label, key, value). *)
Definition condition (x : call) : list (Z * string * string) :=
  match x with
  | CResourceSchema v => [(PREFIX_RESOURCE_SCHEMA, v, ""%string)]
  | CScopeSchema v => [(PREFIX_SCOPE_SCHEMA, v, ""%string)]
  | CScopeName v => [(PREFIX_SCOPE_NAME, v, ""%string)]
  | CScopeVersion v => [(PREFIX_SCOPE_VERSION, v, ""%string)]
  | CName v => [(PREFIX_NAME, v, ""%string)]
  | CTraceID v => [(PREFIX_TRACE_ID, v, ""%string)]
  | CSpanID v => [(PREFIX_SPAN_ID, v, ""%string)]
  | CParentSpanID v => [(PREFIX_PARENT_SPAN_ID, v, ""%string)]
  | CLogLevel v => [(PREFIX_LOGS_LEVEL, v, ""%string)]
  | CResourceAttr k v => [(PREFIX_RESOURCE_ATTRIBUTES, k, v)]
  | CScopeAttr k v => [(PREFIX_SCOPE_ATTRIBUTES, k, v)]
  | CAttr k v => [(PREFIX_ATTRIBUTES, k, v)]
  | _ => []
  end.
(** The value of the last call that makes a setting, if any. *)
Definition last_setting {A B} (f : A -> list B) (l : list A) : option B := last (map Some (flat_map f l)) None.

Definition asked_resource (x : call) : list Z :=
  match x with
  | CResource name => if String.eqb name "metrics" then [RESOURCE_METRICS]
                      else if String.eqb name "traces" then [RESOURCE_TRACES]
                      else if String.eqb name "logs" then [RESOURCE_LOGS] else []
  | _ => []
  end.
Definition asked_limit (x : call) : list Z := match x with CLimit n => [n] | _ => [] end.
Definition asked_now (x : call) : list Z := match x with CNow ms => [ms * 1000000] | _ => [] end.
Definition is_reverse (x : call) : Prop := x = CReverse.

Section Durations.
  Variable parse_duration : string -> option Z.
  Definition duration (s : string) : list Z := match parse_duration s with Some d => [d] | None => [] end.
  Definition asked_offset (x : call) : list Z := match x with COffset d => duration d | _ => [] end.
End Durations.

(** Local dates: the calendar [f] applied to the number of whole local days since 1 January 1970. *)
Definition local_date (f : Z -> Z * Z * Z) (zone t : Z) : Z * Z * Z := f ((t + zone) / 86400000000000).
(** Weeks start on Sunday; 4 January 1970 (day 3) was a Sunday. *)
Definition local_week (zone t : Z) : Z := ((t + zone) / 86400000000000 - 3) / 7.
Definition year (d : Z * Z * Z) : Z := fst (fst d).
Definition month (d : Z * Z * Z) : Z := snd (fst d).

Section Windows.
  Variable parse_duration : string -> option Z.
  Variable f : Z -> Z * Z * Z.
  (** [asks_window c x t]: call [x], made when the clock reads [c], asks for a window, and instant [t] is in it. *)
  Definition asks_window (c : clock) (x : call) (t : Z) : Prop :=
    match x with
    | CTimeRange from to_ => from * 1000000 <= t <= to_ * 1000000
    | CToday => t <= ck_ns c /\ local_date f (ck_zone c) t = local_date f (ck_zone c) (ck_ns c)
    | CThisWeek => t <= ck_ns c /\ local_week (ck_zone c) t = local_week (ck_zone c) (ck_ns c)
    | CThisMonth => t <= ck_ns c /\ year (local_date f (ck_zone c) t) = year (local_date f (ck_zone c) (ck_ns c))
                    /\ month (local_date f (ck_zone c) t) = month (local_date f (ck_zone c) (ck_ns c))
    | CThisYear => t <= ck_ns c /\ year (local_date f (ck_zone c) t) = year (local_date f (ck_zone c) (ck_ns c))
    | CAgo d => exists ns, parse_duration d = Some ns /\ ck_ns c - ns <= t <= ck_ns c
    | _ => False
    end.
  (** Calls that set a window; [ago] does only when its duration can be read. *)
  Definition sets_window (x : call) : Prop :=
    match x with
    | CTimeRange _ _ | CToday | CThisWeek | CThisMonth | CThisYear => True
    | CAgo d => parse_duration d <> None
    | _ => False
    end.
End Windows.

(** Well formed protobuf times and durations (google/protobuf/timestamp.proto, duration.proto): a timestamp's nanoseconds
    count forward and are less than a second; a duration's have the sign of its seconds. *)
Definition timestamp_ok (t : Z * Z) : Prop := 0 <= snd t < 1000000000.
Definition duration_ok (d : Z * Z) : Prop :=
  Z.abs (snd d) < 1000000000 /\ (0 < fst d -> 0 <= snd d) /\ (fst d < 0 -> snd d <= 0).
