(** internal/store/store.go:58-69, Storage.Translate: the in-memory cache in front of the translator.
    The cache (ristretto) is keyed by xxhash.Sum64 of the label only; it may drop an insertion and
    evict any entry at any time.  The hash is a parameter. *)
From Verif.Model Require Import Base KV Slice Sequence Translate.

(** External, ristretto.Cache (internal/store/store.go:20-29, columnsCache): hash of a label to column. *)
Definition cache := amap N N.

(** Calls of internal/store/store.go:58-69, evictions by the cache at any time, and everything else done with the translator. *)
Inductive c_op :=
| CTranslate (k : string) (f : fault) (keep : bool)   (* [keep]: the cache admits the insertion *)
| CEvict (keep : N -> bool)                           (* any subset of the entries goes *)
| COther (o : tr_op).                                 (* anything else, through the translator *)

(** internal/store/store.go:20-29: the translator and the cache in front of it. *)
Record c_state := CState { cs_tr : tr_state; cs_cache : cache }.

(** internal/store/store.go:35-56, NewStore: a new process starts with an empty cache. *)
Definition cache_after (o : tr_op) (s' : tr_state) (c : cache) : cache :=
  match ts_proc s' with None => [] | Some _ => c end.

(** internal/store/store.go:58-69. *)
Definition c_step (hash : string -> N) (cfg : tr_config) (s : c_state) (o : c_op) : c_state * option tr_out :=
  match o with
  | CTranslate k f keep =>
      match ts_proc (cs_tr s), aget N.eqb (hash k) (cs_cache s) with
      | Some _, Some v =>
          match f with
          | FLost => (CState (TrState (ts_db (cs_tr s)) None) [], Some OErr)
          | _ => (s, Some (OKey k v))
          end
      | _, _ =>
          let '(s', r) := tr_step cfg (cs_tr s) (TKey k f) in
          let c' := match r with
                    | OKey _ n => if keep then aset N.eqb (hash k) n (cs_cache s) else cs_cache s
                    | _ => cs_cache s
                    end in
          (CState s' (cache_after (TKey k f) s' c'), Some r)
      end
  | CEvict keep => (CState (cs_tr s) (filter (fun e => keep (fst e)) (cs_cache s)), None)
  | COther o =>
      let '(s', r) := tr_step cfg (cs_tr s) o in
      (CState s' (cache_after o s' (cs_cache s)), Some r)
  end.

(** A history of calls of internal/store/store.go:58-69. *)
Fixpoint c_run (hash : string -> N) (cfg : tr_config) (s : c_state) (ops : list c_op)
  : c_state * list tr_out :=
  match ops with
  | [] => (s, [])
  | o :: t =>
      let '(s1, r) := c_step hash cfg s o in
      let '(s2, l) := c_run hash cfg s1 t in
      (s2, match r with Some x => x :: l | None => l end)
  end.

(** The same history without the cache of internal/store/store.go:60-62, 67. *)
Fixpoint uncached (ops : list c_op) : list tr_op :=
  match ops with
  | [] => []
  | CTranslate k f _ :: t => TKey k f :: uncached t
  | CEvict _ :: t => uncached t
  | COther o :: t => o :: uncached t
  end.
