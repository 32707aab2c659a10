(** internal/arena/arena.go: byte buffers from a pool.  Slices of bytes share backing arrays, so there is a
    heap of arrays; any number of arenas is in use at the same time (by different goroutines), and their
    calls come in any order.
    Simplification: one call is one step.  That is right for calls on different arenas, whose arrays are
    disjoint (the invariant in Proofs/ArenaFacts.v), and one arena is used by one goroutine
    (internal/dataframe/dataframe.go:165). *)
From Verif.Model Require Import Base.

(** A []byte value (type of internal/arena/arena.go:12, the field data). *)
Definition bytes := list N.
(** The backing arrays of all byte slices; internal/arena/arena.go:12. *)
Definition heap := list bytes.
(** internal/arena/arena.go:11-14; the slice [data] starts at offset 0 of its array, capacity 0 is nil. *)
Record arena := Arena { a_arr : nat; a_len : nat; a_cap : nat; a_off : nat }.
(** A slice handed out by Bytes (internal/arena/arena.go:21-23): [v_len] bytes of an array from [v_off]. *)
Record view := View { v_owner : nat; v_arr : nat; v_off : nat; v_len : nat }.
(** The backing array with a number (internal/arena/arena.go:12). *)
Definition array (h : heap) (i : nat) : bytes := nth i h [].
(** The slice expression l[off:off+n] (internal/arena/arena.go:22). *)
Definition sub (off n : nat) (l : bytes) : bytes := firstn n (skipn off l).
(** What a holder of the slice reads (the caller of internal/arena/arena.go:21-23). *)
Definition read (h : heap) (v : view) : bytes := sub (v_off v) (v_len v) (array h (v_arr v)).
(** The builtin copy into an array at an offset (under append, internal/arena/arena.go:26, 45; clear, 55). *)
Definition overwrite (l : bytes) (off : nat) (bs : bytes) : bytes := firstn off l ++ bs ++ skipn (off + List.length bs) l.
(** Assignment to an element of a Go slice; used for the heap of internal/arena/arena.go:12. *)
Fixpoint update_nth {A} (n : nat) (x : A) (l : list A) : list A :=
  match l, n with [], _ => [] | _ :: t, O => x :: t | y :: t, S n => y :: update_nth n x t end.

(** The builtin append(a.data, bs...) (internal/arena/arena.go:26 and proto.MarshalAppend, 45): in place when the capacity suffices, otherwise a fresh array, with room for [extra] more bytes, as the runtime chooses. *)
Definition append_bytes (h : heap) (a : arena) (bs : bytes) (extra : nat) : heap * arena :=
  let n := (a_len a + List.length bs)%nat in
  if Nat.leb n (a_cap a) then (update_nth (a_arr a) (overwrite (array h (a_arr a)) (a_len a) bs) h, Arena (a_arr a) n (a_cap a) (a_off a))
  else (h ++ [firstn (a_len a) (array h (a_arr a)) ++ bs ++ repeat 0 extra], Arena (List.length h) n (n + extra) (a_off a)).
(** internal/arena/arena.go:17 and 44: a.offset = len(a.data). *)
Definition mark (a : arena) : arena := Arena (a_arr a) (a_len a) (a_cap a) (a_len a).
(** internal/arena/arena.go:36 and 47: a.data = a.data[:a.offset] on an error. *)
Definition truncate (a : arena) : arena := Arena (a_arr a) (a_off a) (a_cap a) (a_off a).
(** internal/arena/arena.go:21-23, a.data[a.offset:]. *)
Definition bytes_view (i : nat) (a : arena) : view := View i (a_arr a) (a_off a) (a_len a - a_off a).
(** internal/arena/arena.go:30-41, Compress: the writes compress.To makes to the arena (25-28). *)
Fixpoint append_chunks (h : heap) (a : arena) (l : list (bytes * nat)) : heap * arena :=
  match l with [] => (h, a) | (bs, extra) :: t => let '(h', a') := append_bytes h a bs extra in append_chunks h' a' t end.

(** internal/arena/arena.go:54-65: the arenas made so far, and whether each is in use (otherwise it is in arenaPool). *)
Record world := World { w_heap : heap; w_arenas : list (arena * bool) }.
(** internal/arena/arena.go:65: the empty pool at process start. *)
Definition world_new : world := World [] [].
(** Calls of internal/arena/arena.go:16-63.  A marshalled message is given by its encoding and whether proto.MarshalAppend succeeded (when it
    fails, what it had written so far was appended); compress.To by the chunks it writes and whether it succeeded. *)
Inductive op :=
| ONew (reuse : option nat)                       (** internal/arena/arena.go:61-65: from the pool, or a new one *)
| ONewWriter (i : nat)                            (** 16-19 *)
| OWrite (i : nat) (bs : bytes) (extra : nat)     (** 25-28 *)
| OBytes (i : nat)                                (** 21-23 *)
| OMarshal (i : nat) (enc : bytes) (extra : nat) (ok : bool)  (** 43-52 *)
| OCompress (i : nat) (enc : bytes) (extra : nat) (ok : bool) (chunks : list (bytes * nat)) (zok : bool)  (** 30-41 *)
| ORelease (i : nat).                             (** 54-59 *)
(** The receiver of a call (internal/arena/arena.go:16, 21, 25, 30, 43, 54). *)
Definition subject (o : op) : option nat :=
  match o with ONew _ => None | ONewWriter i | OWrite i _ _ | OBytes i | OMarshal i _ _ _ | OCompress i _ _ _ _ _ | ORelease i => Some i end.
(** The state after a method has assigned to its receiver (internal/arena/arena.go:16-59). *)
Definition with_arena (w : world) (h : heap) (i : nat) (a : arena) (live : bool) : world := World h (update_nth i (a, live) (w_arenas w)).

(** internal/arena/arena.go:16-63, the methods and New, statement by statement.  None: the arena is not in use (a caller's mistake).  The second component is the slice returned. *)
Definition step (w : world) (o : op) : option (world * option view) :=
  match o with
  | ONew None => Some (World (w_heap w) (w_arenas w ++ [(Arena 0 0 0 0, true)]), None)
  | ONew (Some i) => match nth_error (w_arenas w) i with
                     | Some (a, false) => Some (with_arena w (w_heap w) i a true, None)
                     | _ => None
                     end
  | ONewWriter i => match nth_error (w_arenas w) i with Some (a, true) => Some (with_arena w (w_heap w) i (mark a) true, None) | _ => None end
  | OWrite i bs extra =>
      match nth_error (w_arenas w) i with
      | Some (a, true) => let '(h, a') := append_bytes (w_heap w) a bs extra in Some (with_arena w h i a' true, None)
      | _ => None
      end
  | OBytes i => match nth_error (w_arenas w) i with Some (a, true) => Some (w, Some (bytes_view i a)) | _ => None end
  | OMarshal i enc extra ok =>
      match nth_error (w_arenas w) i with
      | Some (a, true) =>
          let '(h, a') := append_bytes (w_heap w) (mark a) enc extra in
          if ok then Some (with_arena w h i a' true, Some (bytes_view i a')) else Some (with_arena w h i (truncate a') true, None)
      | _ => None
      end
  | OCompress i enc extra ok chunks zok =>
      match nth_error (w_arenas w) i with
      | Some (a, true) =>
          let '(h, a') := append_bytes (w_heap w) (mark a) enc extra in
          if ok then
            let '(h, a'') := append_chunks h (mark a') chunks in
            if zok then Some (with_arena w h i a'' true, Some (bytes_view i a'')) else Some (with_arena w h i (truncate a'') true, None)
          else Some (with_arena w h i (truncate a') true, None)
      | _ => None
      end
  | ORelease i =>
      match nth_error (w_arenas w) i with
      | Some (a, true) =>
          Some (with_arena w (update_nth (a_arr a) (overwrite (array (w_heap w) (a_arr a)) 0 (repeat 0 (a_len a))) (w_heap w)) i (Arena (a_arr a) 0 (a_cap a) 0) false, None)
      | _ => None
      end
  end.
(** A history of calls of internal/arena/arena.go:16-63. *)
Fixpoint run (w : world) (l : list op) : option world :=
  match l with [] => Some w | o :: t => match step w o with Some (w', _) => run w' t | None => None end end.
