(** internal/rows/row.go again, with the storage it shares: a segment holds a pointer to its bitmap
    (internal/rows/row.go:610-622), and several segments, of several rows, may hold the same pointer.
    Bitmaps themselves are the external roaring package: a bitmap is the set of its members, Freeze and Clone give a
    bitmap of the same members that later changes do not touch (copy on write). *)
From Verif.Model Require Import Base View Rows.
From Verif.Spec Require Import RowPrograms.
Open Scope N_scope.

(** internal/rows/row.go:610-622, RowSegment: shard, data (a pointer), writable, n. *)
Record hseg := HSeg { h_shard : N; h_ptr : nat; h_writable : bool; h_n : N }.
(** internal/rows/row.go:115-138, Row: the segments in the order of their shards. *)
Definition hrow := list hseg.
(** The bitmaps that data pointers (internal/rows/row.go:617) point to. *)
Definition memory := list nset.
(** internal/rows/row.go:617, what a data pointer points to. *)
Definition deref (m : memory) (p : nat) : nset := nth p m [].
(** A new bitmap: roaring.NewSliceBitmap at internal/rows/row.go:529, or the result of a bitmap operation at
    internal/rows/row.go:669-712. *)
Definition alloc (b : nset) (m : memory) : memory * nat := (m ++ [b], List.length m).
(** roaring's Add, a change of the bitmap itself (called at internal/rows/row.go:738). *)
Definition update (p : nat) (b : nset) (m : memory) : memory := put p b m.

(** internal/rows/row.go:785-797, ensureWritable. *)
Definition ensure_writable (m : memory) (s : hseg) : memory * hseg :=
  if h_writable s then (m, s)
  else let '(m', p) := alloc (deref m (h_ptr s)) m in (m', HSeg (h_shard s) p true (h_n s)).

(** internal/rows/row.go:736-743, RowSegment.SetBit. *)
Definition hseg_set (ms : memory * hseg) (i : N) : memory * hseg :=
  let '(m, s) := ensure_writable (fst ms) (snd ms) in
  let b := deref m (h_ptr s) in
  if smem i b then (m, s)
  else (update (h_ptr s) (sadd i b) m, HSeg (h_shard s) (h_ptr s) (h_writable s) (h_n s + 1)).

(** internal/rows/row.go:513-535, the segment createSegmentIfNotExists makes (the bitmap it appends first and
    overwrites is not represented). *)
Definition fresh_seg (m : memory) (shard : N) : memory * hseg :=
  let '(m', p) := alloc [] m in (m', HSeg shard p true 0).
(** internal/rows/row.go:498-501 and 513-535, Row.SetBit. *)
Fixpoint hrow_set_in (m : memory) (shard i : N) (r : hrow) : memory * hrow :=
  match r with
  | [] => let '(m', s) := hseg_set (fresh_seg m shard) i in (m', [s])
  | s :: t =>
      if shard <=? h_shard s
      then if h_shard s =? shard then let '(m', s') := hseg_set (m, s) i in (m', s' :: t)
           else let '(m', s') := hseg_set (fresh_seg m shard) i in (m', s' :: s :: t)
      else let '(m', t') := hrow_set_in m shard i t in (m', s :: t')
  end.
(** internal/rows/row.go:498-501, Row.SetBit. *)
Definition hrow_set (m : memory) (i : N) (r : hrow) : memory * hrow := hrow_set_in m (i / shard_width) i r.
(** internal/rows/row.go:141-147, NewRow. *)
Definition hrow_new (m : memory) (cols : list N) : memory * hrow :=
  fold_left (fun mr i => hrow_set (fst mr) i (snd mr)) cols (m, []).

(** internal/rows/row.go:800-842, mergeSegmentIterator: the pairs next() returns. *)
Fixpoint hmerge_iter (a0 : hrow) : hrow -> list (option hseg * option hseg) :=
  fix inner (a1 : hrow) : list (option hseg * option hseg) :=
    match a0, a1 with
    | [], [] => []
    | [], s1 :: t1 => (None, Some s1) :: inner t1
    | s0 :: t0, [] => (Some s0, None) :: hmerge_iter t0 []
    | s0 :: t0, s1 :: t1 =>
        if h_shard s0 <? h_shard s1 then (Some s0, None) :: hmerge_iter t0 a1
        else if h_shard s1 <? h_shard s0 then (Some s1, None) :: inner t1
        else (Some s0, Some s1) :: hmerge_iter t0 t1
    end.

(** internal/rows/row.go:653-660, RowSegment.Merge: the other bitmap is read while the own one is changed; when both
    are the same bitmap nothing changes. *)
Definition hseg_merge (m : memory) (s o : hseg) : memory * hseg :=
  let ms := ensure_writable m s in fold_left hseg_set (deref (fst ms) (h_ptr o)) ms.
(** internal/rows/row.go:301-322, the loop of Row.Merge. *)
Fixpoint hmerge_loop (m : memory) (ps : list (option hseg * option hseg)) : memory * hrow :=
  match ps with
  | [] => (m, [])
  | (Some a, Some b) :: t =>
      let '(m1, s) := hseg_merge m a b in let '(m2, out) := hmerge_loop m1 t in (m2, s :: out)
  | (Some a, None) :: t => let '(m2, out) := hmerge_loop m t in (m2, a :: out)
  | (None, Some b) :: t => let '(m2, out) := hmerge_loop m t in (m2, b :: out)
  | (None, None) :: t => hmerge_loop m t
  end.
(** internal/rows/row.go:757-759, RowSegment.InvalidateCount. *)
Definition hseg_invalidate (m : memory) (s : hseg) : hseg :=
  HSeg (h_shard s) (h_ptr s) (h_writable s) (scard (deref m (h_ptr s))).
(** internal/rows/row.go:301-322 and 538-542, Row.Merge. *)
Definition hrow_merge (m : memory) (r o : hrow) : memory * hrow :=
  let '(m', out) := hmerge_loop m (hmerge_iter r o) in (m', map (hseg_invalidate m') out).

(** The segments of a result row: one of an operand, copied with its pointer ([append(segments, *s0)],
    internal/rows/row.go:374-378, 424, 450), or a new one with its own bitmap. *)
Inductive piece := Shared (s : hseg) | Fresh (shard : N) (data : nset) (writable : bool) (n : N).
(** A segment made by the segment operations at internal/rows/row.go:668-717: not writable, with its count. *)
Definition made (shard : N) (data : nset) : piece := Fresh shard data false (scard data).
(** The pieces in memory, in order, as internal/rows/row.go:341-461 append them to a new row. *)
Fixpoint emit (m : memory) (ps : list piece) : memory * hrow :=
  match ps with
  | [] => (m, [])
  | Shared s :: t => let '(m', r) := emit m t in (m', s :: r)
  | Fresh k d w n :: t =>
      let '(m1, p) := alloc d m in let '(m', r) := emit m1 t in (m', HSeg k p w n :: r)
  end.

(** internal/rows/row.go:341-354 and 668-676, Intersect. *)
Definition intersect_pieces (m : memory) (r o : hrow) : list piece :=
  flat_map (fun p => match p with
    | (Some a, Some b) => [made (h_shard a) (sinter (deref m (h_ptr a)) (deref m (h_ptr b)))]
    | _ => []
    end) (hmerge_iter r o).
(** internal/rows/row.go:367-384 and 709-717, Xor. *)
Definition xor_pieces (m : memory) (r o : hrow) : list piece :=
  flat_map (fun p => match p with
    | (Some a, None) => [Shared a]
    | (None, Some b) => [Shared b]
    | (Some a, Some b) => [made (h_shard a) (sxor (deref m (h_ptr a)) (deref m (h_ptr b)))]
    | (None, None) => []
    end) (hmerge_iter r o).
(** internal/rows/row.go:387-429, Union: the lowest shard among the heads. *)
Definition hheads_min (lists : list hrow) (d : N) : N :=
  fold_left (fun m l => match l with s :: _ => if h_shard s <? m then h_shard s else m | [] => m end) lists d.
(** internal/rows/row.go:387-429, Union: the heads with that shard. *)
Definition hto_process (shard : N) (lists : list hrow) : list hseg :=
  flat_map (fun l => match l with s :: _ => if h_shard s =? shard then [s] else [] | [] => [] end) lists.
(** internal/rows/row.go:387-429, Union: what is left for the next round. *)
Definition hnext_segs (shard : N) (lists : list hrow) : list hrow :=
  flat_map (fun l => match l with
    | s :: t => let l' := if h_shard s =? shard then t else l in match l' with [] => [] | _ => [l'] end
    | [] => [] end) lists.
(** internal/rows/row.go:387-429 and 679-691, Union: the rounds ([fuel] bounds their number). *)
Fixpoint union_pieces_loop (m : memory) (fuel : nat) (lists : list hrow) : option (list piece) :=
  match lists with
  | [] => Some []
  | l0 :: _ =>
      let first := match l0 with s :: _ => h_shard s | [] => 0 end in
      let shard := hheads_min lists first in
      match fuel with
      | O => None
      | S f =>
          let out := match hto_process shard lists with
                     | [] => []
                     | [s] => [Shared s]
                     | s :: t => [made (h_shard s) (fold_left (fun d o => sunion d (deref m (h_ptr o))) t (deref m (h_ptr s)))]
                     end in
          match union_pieces_loop m f (hnext_segs shard lists) with
          | None => None
          | Some r => Some (out ++ r)
          end
      end
  end.
(** internal/rows/row.go:387-429, Union. *)
Definition union_pieces (m : memory) (r : hrow) (others : list hrow) : option (list piece) :=
  let lists := flat_map (fun l => match l with [] => [] | _ => [l] end) (r :: others) in
  union_pieces_loop m (list_sum (map (@List.length hseg) lists)) lists.
(** internal/rows/row.go:432-461, Difference: the other rows' segments by shard. *)
Definition hdiff_map (others : list hrow) : amap N (list hseg) :=
  fold_left (fun m s => aset N.eqb (h_shard s)
     (match aget N.eqb (h_shard s) m with Some l => l | None => [] end ++ [s]) m) (List.concat others) [].
(** internal/rows/row.go:432-461 and 694-706, Difference. *)
Definition difference_pieces (m : memory) (r : hrow) (others : list hrow) : list piece :=
  let o := hdiff_map others in
  map (fun s => match aget N.eqb (h_shard s) o with
    | Some dest => made (h_shard s) (fold_left (fun d x => sdiff d (deref m (h_ptr x))) dest (deref m (h_ptr s)))
    | None => Shared s end) r.
(** internal/rows/row.go:192-223, Clone: every bitmap is cloned, the count is kept. *)
Definition clone_pieces (m : memory) (r : hrow) : list piece :=
  map (fun s => Fresh (h_shard s) (deref m (h_ptr s)) true (h_n s)) r.
(** internal/rows/row.go:226-244, NewRowFromBitmap. *)
Definition bitmap_pieces (r : row) : list piece := map (fun s => Fresh (g_shard s) (g_data s) true (g_n s)) r.

(** The rows of a program, numbered in the order they are made, and the bitmaps they point to
    (internal/rows/row.go:115-138). *)
Record world := World { w_mem : memory; w_rows : list (option hrow) }.
(** A row in use (a *Row of internal/rows/row.go:115-138). *)
Definition row_at (x : nat) (w : world) : option hrow :=
  match nth_error (w_rows w) x with Some o => o | None => None end.
(** The others... of internal/rows/row.go:387 and 432. *)
Fixpoint rows_at (xs : list nat) (w : world) : option (list hrow) :=
  match xs with
  | [] => Some []
  | x :: t => match row_at x w, rows_at t w with Some r, Some rs => Some (r :: rs) | _, _ => None end
  end.
(** A new *Row returned to the caller (internal/rows/row.go:353, 383, 428, 460). *)
Definition returned (w : world) (mr : memory * hrow) : world := World (fst mr) (w_rows w ++ [Some (snd mr)]).
(** A *Row changed in place (internal/rows/row.go:301-322, 498-501). *)
Definition changed (w : world) (x : nat) (mr : memory * hrow) : world := World (fst mr) (put x (Some (snd mr)) (w_rows w)).

(** One call: internal/rows/row.go:141-147 (NewRow), 226-244 (NewRowFromBitmap), internal/shards/shards.go:193-197
    (one segment), internal/rows/row.go:498-501 (SetBit), 301-322 (Merge), 341-354 (Intersect), 387-429 (Union),
    432-461 (Difference), 367-384 (Xor), 192-223 (Clone), 294-298 (Freeze: [range] copies the segments, so the frozen
    copies are forgotten).  None: a row that does not exist, or a bitmap NewRowFromBitmap never ends on. *)
Definition perform (c : call) (w : world) : option world :=
  let m := w_mem w in
  match c with
  | CNew cols => Some (returned w (hrow_new m cols))
  | CBitmap cols =>
      match new_row_from_bitmap cols with Some r => Some (returned w (emit m (bitmap_pieces r))) | None => None end
  | CSegment k cols => Some (returned w (emit m [Fresh k cols true (scard cols)]))
  | CSet x i => match row_at x w with Some r => Some (changed w x (hrow_set m i r)) | None => None end
  | CMerge x y => match row_at x w, row_at y w with Some r, Some o => Some (changed w x (hrow_merge m r o)) | _, _ => None end
  | CIntersect x y => match row_at x w, row_at y w with
      | Some r, Some o => Some (returned w (emit m (intersect_pieces m r o))) | _, _ => None end
  | CUnion x ys => match row_at x w, rows_at ys w with
      | Some r, Some os => match union_pieces m r os with Some ps => Some (returned w (emit m ps)) | None => None end
      | _, _ => None end
  | CDifference x ys => match row_at x w, rows_at ys w with
      | Some r, Some os => Some (returned w (emit m (difference_pieces m r os))) | _, _ => None end
  | CXor x y => match row_at x w, row_at y w with
      | Some r, Some o => Some (returned w (emit m (xor_pieces m r o))) | _, _ => None end
  | CClone x => match row_at x w with Some r => Some (returned w (emit m (clone_pieces m r))) | None => None end
  | CFreeze x => match row_at x w with Some _ => Some w | None => None end
  | CDrop x => match row_at x w with Some _ => Some (World m (put x None (w_rows w))) | None => None end
  end.
(** A sequence of calls on internal/rows/row.go:141-461. *)
Fixpoint performs (cs : list call) (w : world) : option world :=
  match cs with
  | [] => Some w
  | c :: t => match perform c w with Some w' => performs t w' | None => None end
  end.

(** What a caller reads from a row: internal/rows/row.go:570-581 Columns, 545-555 Count, 597-605 Includes. *)
Definition load (m : memory) (s : hseg) : segment := Seg (h_shard s) (deref m (h_ptr s)) (h_n s).
(** internal/rows/row.go:570-581, Columns of row x. *)
Definition columns_of (x : nat) (w : world) : option (list N) :=
  option_map (fun r => row_columns (map (load (w_mem w)) r)) (row_at x w).
(** internal/rows/row.go:545-555, Count of row x. *)
Definition count_of (x : nat) (w : world) : option N :=
  option_map (fun r => row_count (map (load (w_mem w)) r)) (row_at x w).
(** internal/rows/row.go:597-605, Includes of row x. *)
Definition includes_of (x : nat) (col : N) (w : world) : option bool :=
  option_map (fun r => row_includes col (map (load (w_mem w)) r)) (row_at x w).
