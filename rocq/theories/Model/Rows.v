(** internal/rows/row.go: rows of columns split into per-shard segments.
    Bitmaps are values ([nset]) here: operations that only read their operands are modelled as pure
    functions, so sharing of bitmap storage between rows is not represented. *)
From Verif.Model Require Import Base View.

(** internal/rows/row.go:610-622, RowSegment ([data] holds absolute columns, [n] the cached count). *)
Record segment := Seg { g_shard : N; g_data : nset; g_n : N }.
(** internal/rows/row.go:115-138, Row: its segments in the order of their shards. *)
Definition row := list segment.

(** internal/rows/row.go:610-622, a RowSegment made of a bitmap, with its count. *)
Definition seg_of (shard : N) (data : nset) : segment := Seg shard data (scard data).

(** internal/rows/row.go:736-743 RowSegment.SetBit. *)
Definition seg_set (s : segment) (i : N) : segment :=
  if smem i (g_data s) then s else Seg (g_shard s) (sadd i (g_data s)) (g_n s + 1).
(** internal/rows/row.go:746-754 ClearBit; the count is a uint64. *)
Definition seg_clear (s : segment) (i : N) : segment :=
  if smem i (g_data s) then Seg (g_shard s) (sdiff (g_data s) [i]) (g_n s - 1) else s.

(** internal/rows/row.go:513-535 createSegmentIfNotExists and 498-501 SetBit: [sort.Search] finds the first segment with
    shard >= the wanted one; the new segment is inserted there. *)
Fixpoint row_set_in (shard i : N) (r : row) : row :=
  match r with
  | [] => [seg_set (Seg shard [] 0) i]
  | s :: t => if shard <=? g_shard s
              then if g_shard s =? shard then seg_set s i :: t else seg_set (Seg shard [] 0) i :: s :: t
              else s :: row_set_in shard i t
  end.
(** internal/rows/row.go:498-501, SetBit. *)
Definition row_set (i : N) (r : row) : row := row_set_in (i / shard_width) i r.

(** internal/rows/row.go:141-147 NewRow. *)
Definition new_row (cols : list N) : row := fold_left (fun r i => row_set i r) cols [].

(** internal/rows/row.go:800-842 mergeSegmentIterator: the sequence of pairs next() returns.  When the right operand's
    shard comes first it is returned in the left position (internal/rows/row.go:834-836), as in the source. *)
Fixpoint merge_iter (a0 : row) : row -> list (option segment * option segment) :=
  fix inner (a1 : row) : list (option segment * option segment) :=
    match a0, a1 with
    | [], [] => []
    | [], s1 :: t1 => (None, Some s1) :: inner t1
    | s0 :: t0, [] => (Some s0, None) :: merge_iter t0 []
    | s0 :: t0, s1 :: t1 =>
        if g_shard s0 <? g_shard s1 then (Some s0, None) :: merge_iter t0 a1
        else if g_shard s1 <? g_shard s0 then (Some s1, None) :: inner t1
        else (Some s0, Some s1) :: merge_iter t0 t1
    end.

(** internal/rows/row.go:653-660 RowSegment.Merge. *)
Definition seg_merge (s o : segment) : segment := fold_left seg_set (g_data o) s.
(** internal/rows/row.go:757-759, 538-542 InvalidateCount. *)
Definition seg_invalidate (s : segment) : segment := Seg (g_shard s) (g_data s) (scard (g_data s)).
(** internal/rows/row.go:301-322 Row.Merge. *)
Definition row_merge (r o : row) : row :=
  map seg_invalidate (flat_map (fun p => match p with
    | (Some a, Some b) => [seg_merge a b]
    | (Some a, None) => [a]
    | (None, Some b) => [b]
    | (None, None) => []
    end) (merge_iter r o)).

(** internal/rows/row.go:325-338, 663-665 intersectionCount. *)
Definition row_intersection_count (r o : row) : N :=
  fold_left (fun n p => match p with
    | (Some a, Some b) => n + scard (sinter (g_data a) (g_data b))
    | _ => n end) (merge_iter r o) 0.

(** internal/rows/row.go:341-354, 668-676 Intersect. *)
Definition row_intersect (r o : row) : row :=
  flat_map (fun p => match p with
    | (Some a, Some b) => [seg_of (g_shard a) (sinter (g_data a) (g_data b))]
    | _ => []
    end) (merge_iter r o).

(** internal/rows/row.go:367-384, 709-717 Xor. *)
Definition row_xor (r o : row) : row :=
  flat_map (fun p => match p with
    | (Some a, None) => [a]
    | (None, Some b) => [b]
    | (Some a, Some b) => [seg_of (g_shard a) (sxor (g_data a) (g_data b))]
    | (None, None) => []
    end) (merge_iter r o).

(** internal/rows/row.go:357-364 Any, 282-291 IsEmpty. *)
Definition row_any (r : row) : bool := existsb (fun s => negb (sempty (g_data s))) r.
(** internal/rows/row.go:282-291, IsEmpty. *)
Definition row_is_empty (r : row) : bool := forallb (fun s => g_n s =? 0) r.

(** internal/rows/row.go:387-429, 679-691 Union: [lists] are the remaining non-empty segment lists; one round takes the heads with
    the lowest shard. *)
Definition heads_min (lists : list row) (d : N) : N :=
  fold_left (fun m l => match l with s :: _ => if g_shard s <? m then g_shard s else m | [] => m end) lists d.
(** internal/rows/row.go:387-429, Union: the heads with the lowest shard. *)
Definition to_process (shard : N) (lists : list row) : list segment :=
  flat_map (fun l => match l with s :: _ => if g_shard s =? shard then [s] else [] | [] => [] end) lists.
(** internal/rows/row.go:387-429, Union: what is left for the next round. *)
Definition next_segs (shard : N) (lists : list row) : list row :=
  flat_map (fun l => match l with
    | s :: t => let l' := if g_shard s =? shard then t else l in match l' with [] => [] | _ => [l'] end
    | [] => [] end) lists.
(** internal/rows/row.go:387-429, Union: the rounds; [fuel] bounds their number (None is never reached, see the proofs). *)
Fixpoint union_loop (fuel : nat) (lists : list row) : option row :=
  match lists with
  | [] => Some []
  | l0 :: _ =>
      let first := match l0 with s :: _ => g_shard s | [] => 0 end in
      let shard := heads_min lists first in
      match fuel with
      | O => None
      | S f =>
          let out := match to_process shard lists with
                     | [] => []       (* cannot happen: the minimum is attained *)
                     | [s] => [s]
                     | s :: t => [seg_of (g_shard s) (fold_left (fun d o => sunion d (g_data o)) t (g_data s))]
                     end in
          match union_loop f (next_segs shard lists) with
          | None => None
          | Some r => Some (out ++ r)
          end
      end
  end.
(** internal/rows/row.go:387-429, Union. *)
Definition row_union (r : row) (others : list row) : option row :=
  let lists := flat_map (fun l => match l with [] => [] | _ => [l] end) (r :: others) in
  union_loop (list_sum (map (@List.length segment) lists)) lists.

(** internal/rows/row.go:432-470, 694-706 Difference: the other rows' segments are collected by shard in a map. *)
Definition diff_map (others : list row) : amap N (list segment) :=
  fold_left (fun m s => aset N.eqb (g_shard s)
     (match aget N.eqb (g_shard s) m with Some l => l | None => [] end ++ [s]) m) (List.concat others) [].
(** internal/rows/row.go:432-470 and 694-706, Difference. *)
Definition row_difference (r : row) (others : list row) : row :=
  let m := diff_map others in
  map (fun s => match aget N.eqb (g_shard s) m with
    | Some dest => seg_of (g_shard s) (fold_left (fun d o => sdiff d (g_data o)) dest (g_data s))
    | None => s end) r.

(** internal/rows/row.go:545-555 Count, 570-581 and 762-769 Columns, 583-594 and 772-780 ShardColumns. *)
Definition row_count (r : row) : N := fold_left (fun n s => n + g_n s) r 0.
(** internal/rows/row.go:570-581 and 762-769, Columns. *)
Definition row_columns (r : row) : list N := flat_map g_data r.
(** internal/rows/row.go:583-594 and 772-780, ShardColumns. *)
Definition row_shard_columns (r : row) : list N := flat_map (fun s => map (fun v => N.land (shard_width - 1) v) (g_data s)) r.

(** internal/rows/row.go:597-605 Includes. *)
Fixpoint row_includes (col : N) (r : row) : bool :=
  match r with
  | [] => false
  | s :: t => if g_shard s =? col / shard_width then smem col (g_data s) else row_includes col t
  end.

(** internal/rows/row.go:504-511 segment. *)
Fixpoint row_segment (shard : N) (r : row) : option segment :=
  match r with
  | [] => None
  | s :: t => if shard <=? g_shard s then (if g_shard s =? shard then Some s else None) else row_segment shard t
  end.

(** internal/rows/row.go:226-244 NewRowFromBitmap; MinAt(x) is the least member >= x; products are uint64. *)
(** External, roaring MinAt (called at internal/rows/row.go:226-244): the least member >= x. *)
Definition min_at (x : N) (b : nset) : option N := List.find (fun v => x <=? v) b.
(** External, roaring OffsetRange with offset = start (called at internal/rows/row.go:226-244): the members in the interval. *)
Definition offset_range (start end_ : N) (b : nset) : nset := filter (fun v => (start <=? v) && (v <? end_)) b.
(** internal/rows/row.go:226-244, the loop of NewRowFromBitmap; [fuel] bounds the rounds. *)
Fixpoint from_bitmap (fuel : nat) (b : nset) (row_num : N) : option row :=
  match min_at ((row_num * shard_width) mod two64) b with
  | None => Some []
  | Some col =>
      match fuel with
      | O => None
      | S f =>
          let k := col / shard_width in
          match from_bitmap f b (k + 1) with
          | None => None
          | Some r => Some (seg_of k (offset_range (k * shard_width) (((k + 1) * shard_width) mod two64) b) :: r)
          end
      end
  end.
(** internal/rows/row.go:226-244, NewRowFromBitmap. *)
Definition new_row_from_bitmap (b : nset) : option row := from_bitmap (List.length b) b 0.
