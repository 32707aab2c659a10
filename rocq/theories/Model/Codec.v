(** internal/compress: zstd encoders and decoders kept in a sync.Pool and shared by all goroutines.  A codec
    is modelled by what it was last Reset to and the calls made on it since; whatever a call on it does or
    returns is a function of these (contract of klauspost/compress/zstd: Reset forgets everything else).
    Every function is the list of its steps on pool, codec and the field of the stream object; the steps of
    different goroutines interleave freely.  Simplification: encoders and decoders are modelled by the same
    machine (the two pools are separate in the code, the functions have the same shape). *)
From Verif.Model Require Import Base.
Section Codec.
Context (target call : Type).

(** The steps of internal/compress/grpc.go:22-66 and internal/compress/zstd.go:12-76 on pool, codec and stream object. *)
Inductive instr :=
| IGet                       (* c := pool.Get() *)
| IReset (t : option target) (* c.Reset(t), None for nil *)
| ICall (c : call)           (* c.Write, c.Close, c.Read, c.WriteTo *)
| IPut                       (* pool.Put(c) *)
| IForget.                   (* the field of the stream := nil *)

(** internal/compress/zstd.go:52-54 getEncoder, 69-71 getDecoder. *)
Definition get_codec : list instr := [IGet].
(** internal/compress/zstd.go:56-59 putEncoder, 73-76 putDecoder. *)
Definition put_codec : list instr := [IReset None; IPut].
(** internal/compress/grpc.go:22-26 Compress, 28-32 Decompress: the stream object. *)
Definition open_stream (t : target) : list instr := get_codec ++ [IReset (Some t)].
(** internal/compress/grpc.go:34-36: Write of the embedded encoder. *)
Definition stream_write (c : call) : list instr := [ICall c].
(** internal/compress/grpc.go:38-44, Close. *)
Definition stream_close (c : call) : list instr := [ICall c; IReset None] ++ put_codec ++ [IForget].
(** internal/compress/grpc.go:50-58, Read; [failed]: an error, or the end, was returned. *)
Definition stream_read (c : call) (failed : bool) : list instr :=
  ICall c :: if failed then [IReset None] ++ put_codec ++ [IForget] else [].
(** internal/compress/grpc.go:60-66, WriteTo. *)
Definition stream_write_to (c : call) : list instr := [ICall c; IReset None] ++ put_codec ++ [IForget].
(** internal/compress/zstd.go:12-26 Compress and 28-37 To: Write, and Close when that succeeded; putEncoder is deferred. *)
Definition compress_fn (t : target) (write close : call) (failed : bool) : list instr :=
  get_codec ++ [IReset (Some t); ICall write] ++ (if failed then [] else [ICall close]) ++ put_codec.
(** internal/compress/zstd.go:39-50 Decompress. *)
Definition decompress_fn (t : target) (write_to : call) : list instr :=
  get_codec ++ [IReset (Some t); ICall write_to] ++ put_codec.

(** External, a zstd.Encoder or zstd.Decoder (internal/compress/zstd.go:61-67, 78-84): what it was last Reset to and the calls made since. *)
Definition codec := (option target * list call)%type.
(** internal/compress/zstd.go:61-67, 78-84 and internal/compress/grpc.go:34-36, 46-48.  A stream (or a running call of one of the functions) is a number; [m_field] is the embedded codec, [m_todo] what is left of its steps; [m_log] records, for every call on a codec, which stream made it and what the codec's state was (newest last); [m_crashed] are streams that met a nil codec. *)
Record machine := Machine {
  m_heap : list codec;                   (* codec number -> state *)
  m_pool : list nat;
  m_field : nat -> option nat;
  m_todo : nat -> list instr;
  m_log : list (nat * (codec * call));
  m_crashed : nat -> bool }.
(** Assignment to the field of one stream, as at internal/compress/grpc.go:42, 55, 64. *)
Definition upd {A} (f : nat -> A) (i : nat) (a : A) : nat -> A := fun j => if Nat.eqb j i then a else f j.
(** The state of one codec after a call on it (internal/compress/zstd.go:16-21). *)
Fixpoint lset {A} (l : list A) (n : nat) (a : A) : list A :=
  match l, n with [], _ => [] | _ :: t, 0%nat => a :: t | x :: t, S m => x :: lset t m a end.
(** The state of a codec (internal/compress/zstd.go:52-54, 69-71). *)
Definition state_of (m : machine) (e : nat) : codec := nth e (m_heap m) (None, []).
(** One step of internal/compress/grpc.go:22-66 or internal/compress/zstd.go:12-76 is done. *)
Definition advance (m : machine) (i : nat) : machine := Machine (m_heap m) (m_pool m) (m_field m) (upd (m_todo m) i (tl (m_todo m i))) (m_log m) (m_crashed m).
(** A method called on the nil codec that internal/compress/grpc.go:42, 55, 64 left behind. *)
Definition crash (m : machine) (i : nat) : machine := Machine (m_heap m) (m_pool m) (m_field m) (upd (m_todo m) i []) (m_log m) (upd (m_crashed m) i true).
(** A step that changes only a codec (Reset, internal/compress/zstd.go:57, 74). *)
Definition with_heap (m : machine) (h : list codec) : machine := Machine h (m_pool m) (m_field m) (m_todo m) (m_log m) (m_crashed m).
(** One step of one goroutine in internal/compress/grpc.go:22-66 or internal/compress/zstd.go:12-76.  sync.Pool (external): Get returns any pooled codec, or a new one, at its pleasure; the pool may forget codecs. *)
Inductive step : machine -> machine -> Prop :=
| step_drop m a e b : m_pool m = a ++ e :: b ->
    step m (Machine (m_heap m) (a ++ b) (m_field m) (m_todo m) (m_log m) (m_crashed m))
| step_get m i rest a e b : m_todo m i = IGet :: rest -> m_pool m = a ++ e :: b ->
    step m (advance (Machine (m_heap m) (a ++ b) (upd (m_field m) i (Some e)) (m_todo m) (m_log m) (m_crashed m)) i)
| step_new m i rest : m_todo m i = IGet :: rest ->
    step m (advance (Machine (m_heap m ++ [(None, [])]) (m_pool m) (upd (m_field m) i (Some (List.length (m_heap m)))) (m_todo m) (m_log m) (m_crashed m)) i)
| step_reset m i rest t e : m_todo m i = IReset t :: rest -> m_field m i = Some e ->
    step m (advance (with_heap m (lset (m_heap m) e (t, []))) i)
| step_call m i rest c e : m_todo m i = ICall c :: rest -> m_field m i = Some e ->
    step m (advance (Machine (lset (m_heap m) e (fst (state_of m e), snd (state_of m e) ++ [c])) (m_pool m) (m_field m) (m_todo m) (m_log m ++ [(i, (state_of m e, c))]) (m_crashed m)) i)
| step_put m i rest e : m_todo m i = IPut :: rest -> m_field m i = Some e ->
    step m (advance (Machine (m_heap m) (e :: m_pool m) (m_field m) (m_todo m) (m_log m) (m_crashed m)) i)
| step_forget m i rest : m_todo m i = IForget :: rest ->
    step m (advance (Machine (m_heap m) (m_pool m) (upd (m_field m) i None) (m_todo m) (m_log m) (m_crashed m)) i)
| step_nil m i x rest : m_todo m i = x :: rest -> x <> IGet -> x <> IForget -> m_field m i = None ->
    step m (crash m i).
(** Any interleaving of the steps of internal/compress/grpc.go:22-66 and internal/compress/zstd.go:12-76. *)
Inductive steps : machine -> machine -> Prop :=
| steps_none m : steps m m
| steps_more m m' m'' : steps m m' -> step m' m'' -> steps m m''.
(** internal/compress/zstd.go:61-67, 78-84: the pools at process start, before any use. *)
Definition boot (programs : nat -> list instr) : machine := Machine [] [] (fun _ => None) programs [] (fun _ => false).
End Codec.
Arguments IGet {target call}. Arguments IReset {target call}. Arguments ICall {target call}. Arguments IPut {target call}. Arguments IForget {target call}.
