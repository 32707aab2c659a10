(** internal/batch/batch.go: collecting samples and building the index bitmaps of a flush. *)
From Verif.Model Require Import Base View.

(** internal/batch/batch.go:103, type Fragments: shard -> view -> bitmap (nested Go maps). *)
Definition fragments := amap N (amap string nset).

(** What f[shard][view] holds (internal/batch/batch.go:103, read at internal/store/store.go:88-99); a missing entry is an empty bitmap. *)
Definition frag_get (f : fragments) (shard : N) (view : string) : nset :=
  match aget N.eqb shard f with
  | Some m => match aget String.eqb view m with Some b => b | None => [] end
  | None => []
  end.

(** internal/batch/batch.go:129-142 GetOrCreate followed by DirectAdd(p). *)
Definition frag_add (f : fragments) (shard : N) (view : string) (p : N) : fragments :=
  let vm := match aget N.eqb shard f with Some m => m | None => [] end in
  let bm := match aget String.eqb view vm with Some b => b | None => [] end in
  aset N.eqb shard (aset String.eqb view (sadd p bm) vm) f.

(** internal/batch/batch.go:21-26, type Batch; a nil label bitmap is None. *)
Record batch := Batch { b_ids : list N; b_labels : list (option nset); b_frags : fragments; b_times : list quantized_time }.

(** internal/batch/batch.go:28-32. *)
Definition batch_new : batch := Batch [] [] [] [].
(** internal/batch/batch.go:34-49, Reset.  The label bitmaps are dropped without being returned to their pool (the slice
    is truncated before the releasing loop), which is not observable. *)
Definition batch_reset (b : batch) : batch := Batch [] [] [] [].

(** internal/batch/batch.go:51-62, addTs and Add; [pooled] is what the recycled QuantizedTime contains. *)
Definition batch_add (pooled : quantized_time) (b : batch) (id : N) (ts : Z) (labels : option nset) : batch :=
  Batch (b_ids b ++ [id]) (b_labels b ++ [labels]) (b_frags b) (b_times b ++ [qt_set pooled ts]).

(** internal/batch/batch.go:83-95, the loop over the columns of one sample, with the [shard] variable. *)
Definition add_cols (id : N) (views : list string) (cols : nset) (f : fragments) : fragments :=
  snd (fold_left (fun '(shard, f) col =>
    let shard := if negb (col / shard_width =? shard) then col / shard_width else shard in
    (shard, fold_left (fun f v => frag_add f shard v (pos id col)) views f)) cols (two64 - 1, f)).

(** internal/batch/batch.go:73-97, makeFragments.  The three slices have equal length (Add appends to all). The second
    component is false when computing the views failed. *)
Fixpoint make_fragments (ids : list N) (labels : list (option nset)) (times : list quantized_time) (f : fragments)
  : fragments * bool :=
  match ids, labels, times with
  | id :: ids', l :: labels', t :: times' =>
      match l with
      | None => make_fragments ids' labels' times' f
      | Some cols => match views_buf batch_quantum t with
                     | None => (f, false)
                     | Some views => make_fragments ids' labels' times' (add_cols id views cols f)
                     end
      end
  | _, _, _ => (f, true)
  end.

(** internal/batch/batch.go:64-71, Build. *)
Definition batch_build (b : batch) : batch * option fragments :=
  match make_fragments (b_ids b) (b_labels b) (b_times b) (b_frags b) with
  | (f, true) => (batch_reset b, Some f)
  | (f, false) => (Batch (b_ids b) (b_labels b) f (b_times b), None)
  end.
