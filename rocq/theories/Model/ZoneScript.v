(** A query script whose process is in a zone with daylight saving: as Model/Script.v, with the calendar windows of Model/Zone.v. *)
From Verif.Model Require Import Base Otlp Store View Visit ScanBuilder Duration Query Script Zone.
From Verif.Spec Require Import Translator.
Open Scope Z_scope.

(** packages/rq/src/core.ts:33-157, internal/js/scan.go:30-153: a chain of method calls, each with the instant it is made at; an
    error of the Go method is an exception, which ends the script (None). *)
Fixpoint chain_in (z : zone) (s : scan) (l : list (Z * method)) : option scan :=
  match l with
  | [] => Some s
  | (u, m) :: t => if snd (exec parse_duration s (Clock u 0) (call_of m)) then chain_in z (exec_in parse_duration z s u (call_of m)) t else None
  end.
(** packages/rq/src/core.ts:21-24 scan(), packages/rq/src/core_metrics.ts:12-14, packages/rq/src/core_trace.ts:9-11 and
    packages/rq/src/core_logs.ts:9-11 query(): the whole script.  [client] is the client's clock when query() runs. *)
Definition run_script_in (I : tr_impl) (h h0 : string -> N) (kvb : key_value -> string) (z : zone) (st : store I) (e : env) (client : Z)
    (order : nset -> list (N * list N)) (k : class) (l : list (Z * method)) : outcome :=
  match chain_in z (construct k) l with
  | None => Threw
  | Some sc => match query I h h0 kvb st e client sc order with
               | AError => Threw
               | ACrash => Crashed
               | AData d => Got (getter k d)
               end
  end.
