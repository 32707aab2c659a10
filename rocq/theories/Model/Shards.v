(** internal/shards/shards.go: one rbf database per shard of columns, each holding one bitmap of
    positions per view.  Trusted semantics of the external rbf package: a write transaction is applied
    atomically by Commit or not at all; AddRoaring unions into the named bitmap, creating it;
    ApplyFilter and OffsetRange on a view that does not exist find nothing. *)
From Verif.Model Require Import Base View Batch Rows.

(** External, rbf.Tx (internal/shards/shards.go:56-72): the contents of one database as seen by a transaction. *)
Definition tx := amap string nset.
(** External, rbf.Tx (internal/shards/shards.go:184-199): the bitmap of a view; a view that does not exist is empty. *)
Definition tx_view (t : tx) (view : string) : nset := match aget String.eqb view t with Some b => b | None => [] end.
(** External, rbf.Tx AddRoaring (called at internal/store/store.go:88-94). *)
Definition tx_add_roaring (view : string) (bm : nset) (t : tx) : tx := aset String.eqb view (sunion (tx_view t view) bm) t.

(** internal/shards/shards.go:25-30, type Shards: what is on disk, and the shards whose database is open in this process
    (the map [db]; its iteration order is unspecified). *)
Record shards := Shards { sh_disk : fragments; sh_open : list N }.
(** internal/shards/shards.go:43-54: what a transaction on a shard sees. *)
Definition sh_tx (s : shards) (shard : N) : tx := match aget N.eqb shard (sh_disk s) with Some t => t | None => [] end.
(** internal/shards/shards.go:201-207: the lookup in the map of open databases. *)
Definition is_open (s : shards) (shard : N) : bool := existsb (N.eqb shard) (sh_open s).

(** internal/shards/shards.go:32-41 New, on an existing directory: a process start. *)
Definition sh_new (disk : fragments) : shards := Shards disk [].

(** internal/shards/shards.go:201-223, get, when opening succeeds. *)
Definition sh_get (s : shards) (shard : N) : shards :=
  if is_open s shard then s else Shards (sh_disk s) (shard :: sh_open s).

(** internal/shards/shards.go:56-72, Update.  The callback sees and edits the transaction and may fail (second component
    false); the commit may fail.  Opening the database is assumed to succeed. *)
Definition sh_update (commit_ok : bool) (s : shards) (shard : N) (f : tx -> tx * bool) : shards * bool :=
  let s := sh_get s shard in
  let '(t, ok) := f (sh_tx s shard) in
  if ok && commit_ok then (Shards (aset N.eqb shard t (sh_disk s)) (sh_open s), true) else (s, false).

(** internal/shards/shards.go:43-54 View: opens the shard and reads. *)
Definition sh_view (s : shards) (shard : N) : shards := sh_get s shard.

(** External, rbf.Tx ApplyFilter(view, 0, NewBitmapRowFilter(add, column filters)) (called at internal/shards/shards.go:113-166): the rows of a bitmap of positions that contain every column of the list (columns are taken modulo the shard width). *)
Definition rows_with (bm : nset) (cols : list N) : nset :=
  filter (fun r => forallb (fun c => smem (r * shard_width + c mod shard_width) bm) cols)
    (sof_list (map (fun p => p / shard_width) bm)).

(** internal/shards/shards.go:99-106: columns grouped by shard (a Go map: the order of the groups is unspecified). *)
Definition group_add (m : amap N (list N)) (col : N) : amap N (list N) :=
  aset N.eqb (col / shard_width)
    (match aget N.eqb (col / shard_width) m with Some l => l | None => [] end ++ [col]) m.
(** internal/shards/shards.go:99-106: columns grouped by shard (a Go map: the order of the groups is unspecified). *)
Definition group_columns (cols : nset) : amap N (list N) := fold_left group_add cols [].

(** internal/shards/shards.go:113-166, rows, for the groups in the order the map iteration yields them; [acc] is the
    named result [r], None before the first non-empty match. *)
Definition shard_match (s : shards) (views : list string) (shard : N) (cols : list N) : nset :=
  fold_left (fun b v => sunion b (rows_with (tx_view (sh_tx s shard) v) cols)) views [].
(** internal/shards/shards.go:113-166, rows, for the groups in the order the map iteration yields them; [acc] is the named result [r], None before the first non-empty match. *)
Fixpoint rows_loop (s : shards) (views : list string) (groups : list (N * list N)) (acc : option nset) : option nset :=
  match groups with
  | [] => acc
  | (k, cols) :: rest =>
      if is_open s k then
        let b := shard_match s views k cols in
        if sempty b then rows_loop s views rest acc
        else match acc with
             | None => rows_loop s views rest (Some b)
             | Some r => let r' := sinter r b in
                         if sempty r' && negb (sempty r) then Some r' else rows_loop s views rest (Some r')
             end
      else match acc with Some _ => Some [] | None => None end
  end.

(** internal/shards/shards.go:98-111, Rows, for one order of the groups. *)
Definition is_order {A} (l l' : list A) : Prop := Permutation l l'.
(** internal/shards/shards.go:98-111, Rows, for one order of the groups. *)
Definition rows_result (s : shards) (views : list string) (order : list (N * list N)) : option nset := rows_loop s views order None.

(** External, rbf.Tx OffsetRange(view, offset, start, end) (called at internal/shards/shards.go:184-199): members in [start, end) moved by offset - start. *)
Definition tx_offset_range (bm : nset) (offset start end_ : N) : nset :=
  map (fun p => offset + (p - start)) (offset_range start end_ bm).
(** internal/shards/shards.go:184-199, row.  Products are uint64. *)
Definition shard_row (s : shards) (view : string) (shard row_id : N) : row :=
  [seg_invalidate (Seg shard (tx_offset_range (tx_view (sh_tx s shard) view) (shard * shard_width)
     ((row_id * shard_width) mod two64) (((row_id + 1) * shard_width) mod two64)) 0)].
(** internal/shards/shards.go:168-181, Row, for one order of the open shards (77-96 AllShards). *)
Definition sh_row (s : shards) (view : string) (row_id : N) (order : list N) : row :=
  fold_left (fun r shard => row_merge r (shard_row s view shard row_id)) order (new_row []).
