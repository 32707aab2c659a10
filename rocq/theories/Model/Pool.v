(** Objects kept in a sync.Pool and used by many requests: visitors (internal/visit), labels (internal/labels), sample
    keys (internal/keys), bitmaps (internal/bitmaps), quantized times (internal/batch), sorters (internal/data), byte
    buffers (internal/render, internal/translate) and script engines (internal/js).
    A request gets an object, uses it and releases it; the steps of different requests interleave freely.  An object is
    modelled by what can be observed through its methods: memory behind the length of a slice is not. *)
From Verif.Model Require Import Base Labels View Otlp Transform Store Visit Collapse.

Section Pool.
  (** The object, its methods with what they return, a new object (sync.Pool.New) and what Release does to an object
      before it puts it back. *)
  Context {T op R : Type} (fresh : T) (act : op -> T -> T * list R) (clean : T -> T).
  (** External, sync.Pool: what requests do with pooled objects (for example internal/visit/visit.go:81-83 and 148-151). A request is a number. *)
  Inductive event :=
  | ENew (h : nat) (pick : option nat)  (* pool.Get(): any of the pooled objects, or a new one *)
  | EUse (h : nat) (o : op)
  | ERelease (h : nat)                  (* Reset and pool.Put *)
  | EForget (n : nat).                  (* the garbage collector empties pools as it likes *)
  (** External, sync.Pool: the pool, the objects in use, and what the methods returned (newest last). *)
  Record world := World { w_pool : list T; w_held : nat -> option T; w_log : list (nat * R) }.
  (** External, sync.Pool: empty when the process starts (for example internal/visit/visit.go:85). *)
  Definition start : world := World [] (fun _ => None) [].
  (** External to the code: a table of requests with one entry replaced. *)
  Definition put {A} (f : nat -> A) (h : nat) (a : A) : nat -> A := fun i => if Nat.eqb i h then a else f i.
  (** External to the code: a list without its n-th member (sync.Pool.Get takes it out). *)
  Definition without {A} (n : nat) (l : list A) : list A := firstn n l ++ skipn (S n) l.
  (** None: a request gets a second object before it released the first, or uses or releases an object it does not
      hold.  The code does not: each request calls New once and defers Release, except where an error path forgets to
      release (internal/shards/shards.go:143-146, 157; internal/batch/batch.go:37-47), and then it never uses the object again. *)
  Definition step (w : world) (e : event) : option world :=
    match e with
    | ENew h pick =>
        match w_held w h with
        | Some _ => None
        | None =>
            match pick with
            | Some n => match nth_error (w_pool w) n with
                        | Some t => Some (World (without n (w_pool w)) (put (w_held w) h (Some t)) (w_log w))
                        | None => Some (World (w_pool w) (put (w_held w) h (Some fresh)) (w_log w))
                        end
            | None => Some (World (w_pool w) (put (w_held w) h (Some fresh)) (w_log w))
            end
        end
    | EUse h o =>
        match w_held w h with
        | Some t => let '(t', r) := act o t in Some (World (w_pool w) (put (w_held w) h (Some t')) (w_log w ++ map (pair h) r))
        | None => None
        end
    | ERelease h =>
        match w_held w h with
        | Some t => Some (World (clean t :: w_pool w) (put (w_held w) h None) (w_log w))
        | None => None
        end
    | EForget n => Some (World (without n (w_pool w)) (w_held w) (w_log w))
    end.
  (** External, sync.Pool: a whole history of requests. *)
  Fixpoint run (w : world) (l : list event) : option world :=
    match l with [] => Some w | e :: t => match step w e with Some w' => run w' t | None => None end end.
End Pool.
Arguments event : clear implicits.
Arguments world : clear implicits.

(** internal/visit/visit.go:124-146, Reset: each of the sets, and the window. *)
Definition visitor_reset (v : visitor) : visitor :=
  let '(Visitor rs ra ss sn sv sa a n t sp p l st en) := v in
  let clear (s : nset) : nset := [] in
  Visitor (clear rs) (clear ra) (clear ss) (clear sn) (clear sv) (clear sa) (clear a) (clear n) (clear t) (clear sp) (clear p) (clear l) 0 0.
(** internal/visit/visit.go:43-62, 87-122 and 225-227: the methods internal/js/rq.go:78-99 calls. *)
Inductive visitor_op := VTimeRange (st en : N) | VCompile (fs : list scan_filter) | VVisit (d : data).
(** internal/visit/visit.go:43-62 Visit, 87-122 Compile, 225-227 SetTimeRange. *)
Definition visitor_act (h h0 : string -> N) (o : visitor_op) (v : visitor) : visitor * list (option data) :=
  match o with
  | VTimeRange st en => (set_time_range st en v, [])
  | VCompile fs => (compile_all h h0 fs v, [])
  | VVisit d => (v, [visit h v d])
  end.

(** internal/labels/labels.go:18-67. *)
Inductive label_op := LResource (r : Z) | LPrefix (p : Z) | LKey (k : string) | LValue (v : string) | LReset | LEncode.
(** internal/labels/labels.go:54-61, Reset. *)
Definition label_clear (l : label) : label := let '(Label r p k v) := l in Label 0 0 "" "".
(** internal/labels/labels.go:22-61, the methods. *)
Definition label_act (o : label_op) (l : label) : label * list string :=
  let '(Label r p k v) := l in
  match o with
  | LResource x => (Label x p k v, [])
  | LPrefix x => (Label r x k v, [])
  | LKey x => (Label r p x v, [])
  | LValue x => (Label r p k x, [])
  | LReset => (label_clear l, [])
  | LEncode => (l, [encode l])
  end.

(** internal/keys/keys.go:10-59: resource and id. *)
Inductive skey_op := KResource (r : Z) | KId (id : N) | KReset | KEncode | KPrefix.
(** internal/keys/keys.go:30-35, Reset. *)
Definition skey_clear (s : Z * N) : Z * N := (0%Z, 0).
(** internal/keys/keys.go:25-59, the methods. *)
Definition skey_act (o : skey_op) (s : Z * N) : (Z * N) * list string :=
  match o with
  | KResource r => ((r, snd s), [])
  | KId id => ((fst s, id), [])
  | KReset => (skey_clear s, [])
  | KEncode => (s, [sample_key (fst s) (snd s)])
  | KPrefix => (s, [sample_prefix (fst s)])
  end.

(** internal/bitmaps/bitmaps.go:10-40: a key and a roaring64 bitmap.  WithKey appends.  BLoad is UnmarshalBinary; BRead stands for every
    method that only looks. *)
Record bitmap := Bitmap { bm_key : string; bm_set : nset }.
(** internal/bitmaps/bitmaps.go:10-40: the methods. WithKey appends. BLoad is UnmarshalBinary; BRead stands for every method that only looks. *)
Inductive bitmap_op := BWithKey (k : string) | BAdd (n : N) | BOr (s : nset) | BAnd (s : nset) | BClear | BLoad (s : nset) | BRead.
(** internal/bitmaps/bitmaps.go:10-40, Reset. *)
Definition bitmap_clear (b : bitmap) : bitmap := Bitmap "" [].
(** internal/bitmaps/bitmaps.go:10-40: the methods. *)
Definition bitmap_act (o : bitmap_op) (b : bitmap) : bitmap * list bitmap :=
  match o with
  | BWithKey k => (Bitmap (append (bm_key b) k) (bm_set b), [])
  | BAdd n => (Bitmap (bm_key b) (sadd n (bm_set b)), [])
  | BOr s => (Bitmap (bm_key b) (sunion (bm_set b) s), [])
  | BAnd s => (Bitmap (bm_key b) (sinter (bm_set b) s), [])
  | BClear => (Bitmap (bm_key b) [], [])
  | BLoad s => (Bitmap (bm_key b) s, [])
  | BRead => (b, [b])
  end.

(** internal/batch/time.go:24-81.  The Set functions of the parts copy into a part of the ten bytes. *)
Definition copy_part (a b : nat) (qt : quantized_time) (s : string) : quantized_time :=
  append (substring 0 a qt) (append (copy_into (substring a (b - a) qt) s) (substring b (String.length qt - b) qt)).
(** internal/batch/time.go:24-26, Reset: clear of the ten bytes. *)
Fixpoint zero_bytes (s : string) : string := match s with EmptyString => EmptyString | String _ t => String zero (zero_bytes t) end.
(** internal/batch/time.go:43-82: the methods. *)
Inductive qt_op := QSet (t : Z) | QYear (s : string) | QMonth (s : string) | QDay (s : string) | QHour (s : string) | QViews (q : string).
(** internal/batch/time.go:43-82: the methods. *)
Definition qt_act (o : qt_op) (qt : quantized_time) : quantized_time * list (option (list string)) :=
  match o with
  | QSet t => (qt_set qt t, [])
  | QYear s => (copy_part 0 4 qt s, [])
  | QMonth s => (copy_part 4 6 qt s, [])
  | QDay s => (copy_part 6 8 qt s, [])
  | QHour s => (copy_part 8 10 qt s, [])
  | QViews q => (qt, [views_buf q qt])
  end.

(** internal/data/sort.go:14-33, Sorter and its Reset; internal/data/metrics.go:9-76, internal/data/logs.go:9-44, internal/data/trace.go:9-44: the whole merge is the one
    method.  [order] is the order in which the map is iterated, [sorted] what sort.Sort makes of the indices. *)
Section Sorters.
  Context (h : string -> N) (kvb : key_value -> string) {A : Type} (ikey : A -> option string) (imerge : A -> A -> option A).
  (** internal/data/sort.go:14-33, Sorter. *)
  Record sorter := Sorter { so_maps : csort (A := A); so_rs : list N; so_id : list nat }.
  (** internal/data/metrics.go:9-76, internal/data/logs.go:9-44, internal/data/trace.go:9-44: what a merge is called with and meets; [mo_order] is the order in which the map is iterated, [mo_sorted] what sort.Sort makes of the indices. *)
  Record merge_op := Merge { mo_groups : list (resource_group A); mo_order : list N -> list N; mo_sorted : list N -> list nat -> list nat }.
  (** internal/data/sort.go:14-33, a new Sorter. *)
  Definition sorter_new : sorter := Sorter (CSort [] [] [] [] []) [] [].
  (** internal/data/sort.go:14-33, Reset. *)
  Definition sorter_reset (s : sorter) : sorter :=
    let '(Sorter (CSort out res ord scope item) rs id) := s in
    let clear {K V} (m : amap K V) : amap K V := [] in
    Sorter (CSort [] (clear res) (clear ord) (clear scope) (clear item)) (firstn 0 rs) (firstn 0 id).
  (** internal/data/metrics.go:9-76, internal/data/logs.go:9-44, internal/data/trace.go:9-44. The result is None when the merge panics. *)
  Definition sorter_act (o : merge_op) (s : sorter) : sorter * list (option (list (option (resource_group A)))) :=
    match add_resources h kvb ikey imerge (mo_groups o) (so_maps s) with
    | None => (s, [None])
    | Some c =>
        let rs := so_rs s ++ mo_order o (map fst (c_ord c)) in
        let id := mo_sorted o rs (so_id s ++ seq 0 (List.length (c_ord c))) in
        (Sorter c rs id, [Some (sort_result c rs id)])
    end.
End Sorters.

(** internal/dataframe/dataframe.go:276-290, the pool of column schemas: put does not clean.  What can be observed are the rows appended
    since the last record.  SBuild is what appendView does with its schema (internal/dataframe/dataframe.go:231-247): append samples (and
    empty rows) and make the record; both branches make it, whether writing then succeeds or not (internal/arrow3/parquet.go:48-52).
    SRead and SProto only read.  SAbort: a panic after some rows were appended (NewRecord panics, C61). *)
Inductive schema_op (A : Type) := SBuild (rows : list A) | SRead | SAbort (rows : list A).
Arguments SBuild {A}. Arguments SRead {A}. Arguments SAbort {A}.
(** internal/dataframe/dataframe.go:231-247 and 56-79: the uses of a pooled schema. *)
Definition schema_act {A} (o : schema_op A) (pending : list A) : list A * list (list A) :=
  match o with SBuild rows => ([], [pending ++ rows]) | SRead => (pending, []) | SAbort rows => (pending ++ rows, []) end.
(** internal/dataframe/dataframe.go:280-282, put: no cleaning. *)
Definition schema_put {A} (pending : list A) : list A := pending.

(** bytes.Buffer: internal/render/pool.go:8-17, internal/translate/translate.go:110-119. *)
Inductive buffer_op := WWrite (s : string) | WReset | WString.
(** External, bytes.Buffer, as internal/render/metrics.go:23-33 uses it. *)
Definition buffer_act (o : buffer_op) (b : string) : string * list string :=
  match o with WWrite s => (append b s, []) | WReset => (EmptyString, []) | WString => (b, [b]) end.
(** internal/render/pool.go:12-15 and internal/translate/translate.go:114-117, put. *)
Definition buffer_clear (b : string) : string := EmptyString.

(** internal/js/rq.go:23-76: the engine.  Functions are numbers; the state of the goja runtime is its global variables, which
    scripts set and read.  The globals SCAN and RQ that newJS sets are not listed. *)
Record engine := Engine { en_now : option nat; en_output : nat; en_scan : option nat; en_request : option nat; en_globals : amap string string }.
(** internal/js/rq.go:59-76, newJS; io.Discard is 0. *)
Definition engine_new : engine := Engine None 0 None None [].
(** internal/js/rq.go:35-38 and 106-120: what a caller and a script do with the engine. *)
Inductive engine_op := JNow (f : nat) | JOutput (w : nat) | JScan (f : nat) | JRequest (s : nat) | JSetGlobal (k v : string) | JGetGlobal (k : string) | JFields.
(** internal/js/rq.go:23-29: what can be seen of the engine. *)
Inductive engine_result := RGlobal (v : option string) | RFields (now : option nat) (output : nat) (scan request : option nat).
(** internal/js/rq.go:35-38 and 106-120. *)
Definition engine_act (o : engine_op) (e : engine) : engine * list engine_result :=
  let '(Engine n w s r g) := e in
  match o with
  | JNow f => (Engine (Some f) w s r g, [])
  | JOutput w' => (Engine n w' s r g, [])
  | JScan f => (Engine n w (Some f) r g, [])
  | JRequest r' => (Engine n w s (Some r') g, [])
  | JSetGlobal k v => (Engine n w s r (aset String.eqb k v g), [])
  | JGetGlobal k => (e, [RGlobal (aget String.eqb k g)])
  | JFields => (e, [RFields n w s r])
  end.
(** internal/js/rq.go:40-45: the runtime is not reset. *)
Definition engine_reset (e : engine) : engine := Engine None 0 None None (en_globals e).
