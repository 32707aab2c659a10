(** internal/translate/translate.go: label <-> column id, on top of the shared key-value store. *)
From Verif.Model Require Import Base KV Slice Sequence.

(** internal/translate/translate.go:21: bandwidth 4<<10. *)
Definition translate_bandwidth : N := 4 * 2 ^ 10.

(** internal/translate/translate.go:12-17, type Translate.  [t_seqkey] is the key slice the badger Sequence keeps a
    reference to; [t_heap] holds the backing arrays of the three slices. *)
Record translator := Tr {
  t_heap : heap; t_keys : slice; t_ids : slice; t_seqkey : slice; t_seq : sequence }.

(** internal/translate/translate.go:19-29, New.  [p] is the caller's prefix slice in heap [h].  The order of the three
    appends is the order of evaluation in the source; the first lease is taken before the second. *)
Definition tr_new (grow : nat -> nat) (fail : bool) (h : heap) (p : slice) (d : kv)
  : kv * option translator :=
  let '(h1, sk) := sappend grow h p "seq" in
  match get_sequence fail (sread h1 sk) translate_bandwidth d with
  | (d', None) => (d', None)
  | (d', Some q) =>
      let '(h2, ks) := sappend grow h1 p "keys" in
      let '(h3, is) := sappend grow h2 p "ids" in
      (d', Some (Tr h3 ks is sk q))
  end.

(** internal/translate/translate.go:12-17: the bytes of b.keys. *)
Definition keys_prefix (t : translator) : string := sread (t_heap t) (t_keys t).
(** internal/translate/translate.go:12-17: the bytes of b.ids. *)
Definition ids_prefix (t : translator) : string := sread (t_heap t) (t_ids t).
(** internal/translate/translate.go:21: the bytes of the key of the sequence. *)
Definition seq_key (t : translator) : string := sread (t_heap t) (t_seqkey t).

(** internal/translate/translate.go:76-108: what can go wrong inside one TranslateKey call: nothing; the lease transaction fails; the outer commit fails (including a badger conflict); the process dies after the commit, before the caller sees the answer. *)
Inductive fault := FNone | FSeq | FCommit | FLost.

(** internal/translate/translate.go:76-108, TranslateKey: returns the new store, the translator and the id. *)
Definition translate_key (f : fault) (t : translator) (d : kv) (key : string)
  : kv * translator * option N :=
  let k := append (keys_prefix t) key in
  match kvget k d with
  | Some v => (d, t, Some (be_val v))
  | None =>
      let fs := match f with FSeq => true | _ => false end in
      match seq_next fs (seq_key t) translate_bandwidth d (t_seq t) with
      | (d1, q, None) => (d1, Tr (t_heap t) (t_keys t) (t_ids t) (t_seqkey t) q, None)
      | (d1, q, Some n) =>
          let t' := Tr (t_heap t) (t_keys t) (t_ids t) (t_seqkey t) q in
          match f with
          | FCommit => (d1, t', None)
          | _ => (kvset (append (ids_prefix t) (u64be n)) key (kvset k (u64be n) d1), t', Some n)
          end
      end
  end.

(** internal/translate/translate.go:122-135, Find; [append(b.keys, key...)] may write into spare capacity.
    An absent key is reported as an error (None), although the doc comment says 0. *)
Definition tr_find (grow : nat -> nat) (t : translator) (d : kv) (key : string)
  : translator * option N :=
  let '(h', s) := sappend grow (t_heap t) (t_keys t) key in
  (Tr h' (t_keys t) (t_ids t) (t_seqkey t) (t_seq t),
   match kvget (sread h' s) d with Some v => Some (be_val v) | None => None end).

(** internal/translate/translate.go:34-50, TranslateID. *)
Definition translate_id (t : translator) (d : kv) (id : N) : option string :=
  kvget (append (ids_prefix t) (u64be id)) d.

(** internal/translate/translate.go:52-74, TranslateBulkID: the labels in order, or an error at the first unknown id
    (the callback has then been called for the ids before it). *)
Fixpoint translate_bulk (t : translator) (d : kv) (ids : list N) : list string * bool :=
  match ids with
  | [] => ([], true)
  | id :: rest =>
      match translate_id t d id with
      | None => ([], false)
      | Some k => let '(l, ok) := translate_bulk t d rest in (k :: l, ok)
      end
  end.

(* ------------------------------------------------------------------ histories *)

(** cmd/rq/main.go:89: how a process builds the prefix slice, its bytes and the capacity of its array. *)
Record tr_config := TrConfig { c_grow : nat -> nat; c_prefix : string; c_cap : nat }.
(** cmd/rq/main.go:89: the array of the prefix slice. *)
Definition prefix_heap (c : tr_config) : heap :=
  [append (c_prefix c) (zeros (c_cap c - String.length (c_prefix c)))].
(** cmd/rq/main.go:89: the prefix slice. *)
Definition prefix_slice (c : tr_config) : slice :=
  Slice 0 (String.length (c_prefix c)) (c_cap c).

(** cmd/rq/main.go:89: []byte(strconv.FormatUint(5, 10)).  The Go runtime rounds the one byte array up
    to the smallest size class, 8 bytes (runtime.rawbyteslice), so the slice has 7 spare bytes. *)
Definition production_config (grow : nat -> nat) : tr_config := TrConfig grow "5" 8.

(** internal/translate/translate.go:19-135: what a process does with the translator; and crashes, and transactions of other parts of the server. *)
Inductive tr_op :=
| TOpen (fail : bool)
| TKey (k : string) (f : fault)
| TFind (k : string)
| TId (n : N)
| TClose (fail : bool)      (* internal/translate/translate.go:31-33 *)
| TCrash
| TOther (k v : string).    (* a transaction of another part of the server *)

(** internal/translate/translate.go:19-135: what the calls return. *)
Inductive tr_out :=
| OKey (k : string) (n : N)
| OFind (k : string) (r : option N)
| OBack (n : N) (r : option string)
| OErr
| ONone.

(** internal/translate/translate.go:12-17: the database and the process that uses it, if one runs. *)
Record tr_state := TrState { ts_db : kv; ts_proc : option translator }.

(** internal/translate/translate.go:19-135: one step. *)
Definition tr_step (c : tr_config) (s : tr_state) (o : tr_op) : tr_state * tr_out :=
  match o, ts_proc s with
  | TOpen f, None =>
      let '(d, t) := tr_new (c_grow c) f (prefix_heap c) (prefix_slice c) (ts_db s) in
      (TrState d t, ONone)
  | TKey k f, Some t =>
      match translate_key f t (ts_db s) k with
      | (d, t', Some n) =>
          match f with
          | FLost => (TrState d None, OErr)
          | _ => (TrState d (Some t'), OKey k n)
          end
      | (d, t', None) => (TrState d (Some t'), OErr)
      end
  | TFind k, Some t =>
      let '(t', r) := tr_find (c_grow c) t (ts_db s) k in
      (TrState (ts_db s) (Some t'), OFind k r)
  | TId n, Some t => (s, OBack n (translate_id t (ts_db s) n))
  | TClose f, Some t =>
      let '(d, q, _) := seq_release f (seq_key t) (ts_db s) (t_seq t) in
      (TrState d (Some (Tr (t_heap t) (t_keys t) (t_ids t) (t_seqkey t) q)), ONone)
  | TCrash, _ => (TrState (ts_db s) None, ONone)
  | TOther k v, _ =>
      (TrState (if String.prefix (c_prefix c) k then ts_db s else kvset k v (ts_db s)) (ts_proc s), ONone)
  | _, _ => (s, OErr)
  end.

(** internal/translate/translate.go:19-135: a history, one output per operation, in order. *)
Fixpoint tr_run (c : tr_config) (s : tr_state) (ops : list tr_op) : tr_state * list tr_out :=
  match ops with
  | [] => (s, [])
  | o :: t =>
      let '(s1, r) := tr_step c s o in
      let '(s2, l) := tr_run c s1 t in
      (s2, r :: l)
  end.
