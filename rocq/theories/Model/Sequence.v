(** badger v4 Sequence (db.go: GetSequence, Sequence.Next, Sequence.Release, Sequence.updateLease),
    the external component that internal/seq and internal/translate build on; and
    internal/seq/seq.go on top of it.
    Simplification: the mutex inside Sequence makes the operations atomic; a failing store
    transaction is represented by the [fail] flag of each operation (error before commit). *)
From Verif.Model Require Import Base KV.

(** External, badger v4 db.go Sequence (internal/seq/seq.go:11-13 and internal/translate/translate.go:12-17 hold one): its in-memory part; the key is supplied by the owner at each call because the translator's key slice can change under it. *)
Record sequence := Seq { q_next : N; q_leased : N }.

(** External, badger v4 db.go Sequence.updateLease: read the stored counter (0 if absent), store counter+bandwidth, commit. [q_next] is assigned before the commit can fail, [q_leased] after. *)
Definition update_lease (fail : bool) (key : string) (bw : N) (d : kv) (q : sequence)
  : kv * sequence * bool :=
  let next := match kvget key d with None => 0 | Some v => be_val v end in
  let lease := (next + bw) mod two64 in
  if fail then (d, Seq next (q_leased q), false)
  else (kvset key (u64be lease) d, Seq next lease, true).

(** External, badger v4 db.go GetSequence (called at internal/seq/seq.go:20): allocate the struct and take the first lease. *)
Definition get_sequence (fail : bool) (key : string) (bw : N) (d : kv) : kv * option sequence :=
  match update_lease fail key bw d (Seq 0 0) with
  | (d', q, true) => (d', Some q)
  | (d', _, false) => (d', None)
  end.

(** External, badger v4 db.go Sequence.Next (called at internal/seq/seq.go:32). *)
Definition seq_next (fail : bool) (key : string) (bw : N) (d : kv) (q : sequence)
  : kv * sequence * option N :=
  if q_leased q <=? q_next q then
    match update_lease fail key bw d q with
    | (d', q', true) => (d', Seq ((q_next q' + 1) mod two64) (q_leased q'), Some (q_next q'))
    | (d', q', false) => (d', q', None)
    end
  else (d, Seq ((q_next q + 1) mod two64) (q_leased q), Some (q_next q)).

(** External, badger v4 db.go Sequence.Release (called at internal/seq/seq.go:27-29): give the unused part of the lease back; an absent key is an error. *)
Definition seq_release (fail : bool) (key : string) (d : kv) (q : sequence)
  : kv * sequence * bool :=
  match kvget key d with
  | None => (d, q, false)
  | Some v =>
      if fail then (d, q, false)
      else
        ((if be_val v =? q_leased q then kvset key (u64be (q_next q)) d else d),
         Seq (q_next q) (q_next q), true)
  end.

(* ------------------------------------------------------------------ internal/seq/seq.go *)

(** internal/seq/seq.go:16-18: eight zero bytes followed by the little endian uint32 RESOURCE_SAMPLE_ID = 4. *)
Definition sample_seq_key : string :=
  String zero (String zero (String zero (String zero
  (String zero (String zero (String zero (String zero
  (String "004" (String zero (String zero (String zero EmptyString))))))))))).

(** internal/seq/seq.go:20: bandwidth 1<<20. *)
Definition sample_bandwidth : N := 2 ^ 20.

(** Histories of the sample sequence: process start (internal/seq/seq.go:15-25 New), allocation
    (internal/seq/seq.go:31-37 SampleID), clean release (internal/seq/seq.go:27-29), crash or exit at any point, and
    transactions of other parts of the server on the same store. *)
Inductive seq_op :=
| SOpen (fail : bool)
| SNext (fail : bool)
| SRelease (fail : bool)
| SCrash
| SOther (k v : string).

(** internal/seq/seq.go:11-13: the database and the process that uses it, if one runs. *)
Record seq_state := SeqState { ss_db : kv; ss_proc : option sequence }.

(** internal/seq/seq.go:15-37: one step; the output is the id handed out, if any. *)
Definition seq_step (s : seq_state) (o : seq_op) : seq_state * option N :=
  match o, ss_proc s with
  | SOpen f, None =>
      let '(d, q) := get_sequence f sample_seq_key sample_bandwidth (ss_db s) in
      (SeqState d q, None)
  | SNext f, Some q =>
      let '(d, q', r) := seq_next f sample_seq_key sample_bandwidth (ss_db s) q in
      (SeqState d (Some q'), r)
  | SRelease f, Some q =>
      let '(d, q', _) := seq_release f sample_seq_key (ss_db s) q in
      (SeqState d (Some q'), None)
  | SCrash, _ => (SeqState (ss_db s) None, None)
  | SOther k v, _ =>
      (SeqState (if String.eqb k sample_seq_key then ss_db s else kvset k v (ss_db s)) (ss_proc s), None)
  | _, _ => (s, None)
  end.

(** internal/seq/seq.go:15-37: the ids handed out by a history, oldest first. *)
Fixpoint seq_run (s : seq_state) (ops : list seq_op) : seq_state * list N :=
  match ops with
  | [] => (s, [])
  | o :: t =>
      let '(s1, r) := seq_step s o in
      let '(s2, l) := seq_run s1 t in
      (s2, match r with Some n => n :: l | None => l end)
  end.
