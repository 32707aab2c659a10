(** cmd/rq/main.go: the order in which the server opens its parts, what happens when one of them cannot be opened, and the order in
    which they are closed; the flush loop that runs beside.  Go runs the deferred calls of a function, the last one first, when the
    function returns, and not at all on os.Exit (internal/logger/fail.go:8-11).
    Simplification: closing a part does not fail (main.go ignores the results of the deferred calls). *)
From Verif.Model Require Import Base KV Sequence.

(** cmd/rq/main.go:84-138: the variables of run whose closing is deferred. *)
Inductive part := Database | Translator | Index | SampleSequence | Api | Listener | RpcServer | Telemetry.
(** cmd/rq/main.go:85-87, 120-122: what run does with the error of a part: return it, or end the process; some have no error. *)
Inductive on_error := ReturnIt | EndProcess | NoError.
(** cmd/rq/main.go:84-138: the parts in the order they are opened, each with its deferred closing behind it. *)
Definition run_parts : list (part * on_error) :=
  [(Database, ReturnIt); (Translator, ReturnIt); (Index, NoError); (SampleSequence, ReturnIt); (Api, ReturnIt); (Listener, EndProcess);
   (RpcServer, NoError); (Telemetry, ReturnIt)].

(** cmd/rq/main.go:71-153: what can be seen of a run. Serving: the goroutines are started (141-150). *)
Inductive event := Opened (p : part) | NotOpened (p : part) | Serving | Closed (p : part) | Exits (code : N).

(** cmd/rq/main.go:71-153, run, then 65-68, main: an error that run returns ends the process with code 1. [works] says which parts can be
    opened, [stack] are the parts whose closing is deferred.  Once serving, run waits for the signal (151) and returns no error. *)
Fixpoint run_from (parts : list (part * on_error)) (works : part -> bool) (stack : list part) : list event :=
  match parts with
  | [] => Serving :: map Closed stack ++ [Exits 0]
  | (p, e) :: t =>
      match e with
      | NoError => Opened p :: run_from t works (p :: stack)
      | ReturnIt => if works p then Opened p :: run_from t works (p :: stack) else NotOpened p :: map Closed stack ++ [Exits 1]
      | EndProcess => if works p then Opened p :: run_from t works (p :: stack) else [NotOpened p; Exits 1]
      end
  end.
(** cmd/rq/main.go:36-153: one life of the process, undisturbed. *)
Definition server_run (works : part -> bool) : list event := run_from run_parts works [].

(** internal/seq/seq.go:15-29 as called from cmd/rq/main.go:102-106: what a life means for the sequence of sample numbers. *)
Definition seq_ops_of (e : event) : list seq_op :=
  match e with Opened SampleSequence => [SOpen false] | Closed SampleSequence => [SRelease false] | Exits _ => [SCrash] | _ => [] end.
(** cmd/rq/main.go:36-153: lives one after the other on the same database, without any sample. *)
Definition sequence_after (d : kv) (lives : list (list event)) : kv :=
  ss_db (fst (seq_run (SeqState d None) (flat_map (flat_map seq_ops_of) lives))).

(** The flush loop beside run (internal/service/service.go:82-101): waiting, in the middle of a save with these parts still to be used, or returned. *)
Inductive flush_loop := Waiting | Saving (left : list part) | Returned.
(** cmd/rq/main.go:141-153: the server from Serving on.  [sv_stack] are the parts still open, the next to be closed first. *)
Record serving := Srv { sv_stopping : bool; sv_stack : list part; sv_flush : flush_loop; sv_ended : option N }.
(** What goes on: the signal (cmd/rq/main.go:72), run closing its next part or returning (151-153), the tick of the flush loop
    (internal/service/service.go:89-93), the next step of its save, and its noticing the signal (87-88). *)
Inductive serving_move := Signal | CloseNext | Tick (translations shards : nat) | SaveStep | Notice.
(** cmd/rq/main.go:141-153: what a move does that can be seen: a part is closed, or used while open or closed. *)
Inductive serving_event := EClosed (p : part) | EUsed (p : part) (open : bool) | EEnds (code : N).
(** cmd/rq/main.go:84-138: what is still open. *)
Definition part_eqb (p q : part) : bool :=
  match p, q with
  | Database, Database | Translator, Translator | Index, Index | SampleSequence, SampleSequence | Api, Api | Listener, Listener
  | RpcServer, RpcServer | Telemetry, Telemetry => true
  | _, _ => false
  end.
(** cmd/rq/main.go:84-138: the parts whose deferred call has not run yet. *)
Definition still_open (p : part) (s : serving) : bool := existsb (part_eqb p) (sv_stack s).
(** internal/store/store.go:78-103, SaveSamples: translations of labels (58-69), the append to the data frame, one update per shard. *)
Definition save_uses (translations shards : nat) : list part := repeat Translator translations ++ [Database] ++ repeat Index shards.
(** cmd/rq/main.go:141-153, internal/service/service.go:82-101: one move. A select with both the signal and a tick ready takes either.
    A label that cannot be translated because the database is closed ends the process (internal/store/store.go:64-66); an append to the
    closed database or an update of a closed shard fails, and with it the save (83-86, 97-100). None: not possible now. *)
Definition serving_step (s : serving) (m : serving_move) : option (serving * list serving_event) :=
  match sv_ended s with
  | Some _ => None
  | None =>
      match m, sv_flush s with
      | Signal, _ => Some (Srv true (sv_stack s) (sv_flush s) None, [])
      | CloseNext, f => if sv_stopping s then
            match sv_stack s with
            | [] => Some (Srv true [] f (Some 0), [EEnds 0])
            | p :: t => Some (Srv true t f None, [EClosed p])
            end
          else None
      | Tick n k, Waiting => Some (Srv (sv_stopping s) (sv_stack s) (Saving (save_uses n k)) None, [])
      | SaveStep, Saving [] => Some (Srv (sv_stopping s) (sv_stack s) Waiting None, [])
      | SaveStep, Saving (p :: l) =>
          let ok := still_open p s in
          if part_eqb p Translator && negb (still_open Database s) then
            Some (Srv (sv_stopping s) (sv_stack s) (Saving l) (Some 1), [EUsed p ok; EEnds 1])
          else Some (Srv (sv_stopping s) (sv_stack s) (Saving (if ok || part_eqb p Translator then l else [])) None, [EUsed p ok])
      | Notice, Waiting => if sv_stopping s then Some (Srv true (sv_stack s) Returned None, []) else None
      | _, _ => None
      end
  end.
(** cmd/rq/main.go:141-153: moves one after the other, with all that is seen. *)
Fixpoint serving_run (s : serving) (ms : list serving_move) : option (serving * list serving_event) :=
  match ms with
  | [] => Some (s, [])
  | m :: t =>
      match serving_step s m with
      | None => None
      | Some (s1, es) => match serving_run s1 t with None => None | Some (s2, es') => Some (s2, es ++ es') end
      end
  end.
(** cmd/rq/main.go:141: all parts are open, nothing goes on. *)
Definition serving_start : serving := Srv false (rev (map fst run_parts)) Waiting None.

(** A request at the gRPC server: data to keep (internal/service/service.go:103-111, Save) or a query (internal/service/api.go:12-14,
    ScanSamples) with so many labels to find, so many bitmaps to look up and so many records to read (internal/store/scan.go:20-75). *)
Inductive request := ExportRequest | ScanRequest (labels bitmaps records : nat).
(** internal/service/service.go:103-111, internal/store/scan.go:20-75: the parts a request uses, in order. *)
Definition request_uses (r : request) : list part :=
  match r with
  | ExportRequest => [SampleSequence]
  | ScanRequest n k m => repeat Translator n ++ repeat Index k ++ repeat Database m
  end.
(** cmd/rq/main.go:71-153: the server with the requests that are being handled, and what each has still to use. grpc.Server.Stop (126, as
    google.golang.org/grpc v1.63.2 does it without WaitForHandlers) does not wait for them. *)
Record busy := Busy { by_serving : serving; by_requests : list (list part) }.
(** cmd/rq/main.go:128-150: what goes on: a move of run or of the flush loop, a request that comes in, the next step of a request. *)
Inductive busy_move := Beside (m : serving_move) | Arrives (r : request) | Works (i : nat).
(** The list without its element number i; used by cmd/rq/main.go:128-150, a request that is finished. *)
Definition drop_nth {A} (i : nat) (l : list A) : list A := firstn i l ++ skipn (S i) l.
(** The list with x in place i; used by cmd/rq/main.go:128-150, a request that goes on. *)
Definition put_nth {A} (i : nat) (x : A) (l : list A) : list A := firstn i l ++ x :: skipn (S i) l.
(** cmd/rq/main.go:125-150: one move. Requests come in as long as the gRPC server is open; a released sample sequence takes a new lease from
    the database, and ends the process if that is closed (internal/seq/seq.go:31-37); labels are found in the database
    (internal/translate/translate.go:122-134); whatever else is closed is an error, which ends the request (internal/store/scan.go:35-38, 43-46, 60-72). *)
Definition busy_step (b : busy) (m : busy_move) : option (busy * list serving_event) :=
  let s := by_serving b in
  match m with
  | Beside m => match serving_step s m with None => None | Some (s', es) => Some (Busy s' (by_requests b), es) end
  | Arrives r => match sv_ended s with
      | Some _ => None
      | None => if still_open RpcServer s then Some (Busy s (by_requests b ++ [request_uses r]), []) else None
      end
  | Works i => match sv_ended s, nth_error (by_requests b) i with
      | None, Some [] => Some (Busy s (drop_nth i (by_requests b)), [])
      | None, Some (p :: l) =>
          let ok := still_open p s in
          let usable := match p with SampleSequence | Translator => still_open Database s | _ => ok end in
          if usable then Some (Busy s (put_nth i l (by_requests b)), [EUsed p ok])
          else if part_eqb p SampleSequence then
            Some (Busy (Srv (sv_stopping s) (sv_stack s) (sv_flush s) (Some 1)) (by_requests b), [EUsed p ok; EEnds 1])
          else Some (Busy s (drop_nth i (by_requests b)), [EUsed p ok])
      | _, _ => None
      end
  end.
(** cmd/rq/main.go:141-153: moves one after the other, with all that is seen. *)
Fixpoint busy_run (b : busy) (ms : list busy_move) : option (busy * list serving_event) :=
  match ms with
  | [] => Some (b, [])
  | m :: t =>
      match busy_step b m with
      | None => None
      | Some (b1, es) => match busy_run b1 t with None => None | Some (b2, es') => Some (b2, es ++ es') end
      end
  end.
(** cmd/rq/main.go:141: all parts are open, nothing goes on. *)
Definition busy_start : busy := Busy serving_start [].
(** internal/seq/seq.go:15-37 as called from cmd/rq/main.go:102-106 and internal/service/service.go:107: what a run means for the sequence of
    sample numbers. A closed database is not written to any more. *)
Definition seq_ops_beside (e : serving_event) : list seq_op :=
  match e with
  | EUsed SampleSequence _ => [SNext false]
  | EClosed SampleSequence => [SRelease false]
  | EClosed Database => [SCrash]
  | _ => []
  end.
