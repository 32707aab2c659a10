(** internal/rows/bsi.go: bit-sliced integers over rows, their enumeration in descending order, their sum,
    and the builders that make rows and bit-sliced integers from sequential input.
    Sets of columns are values, as in Model/Rows.v. *)
From Verif.Model Require Import Base View Rows.

(** internal/rows/bsi.go:12 BSIData: row [i] holds the columns whose value has bit [i]. *)
Definition bsi := list row.

(** internal/rows/bsi.go:18-62 PivotDescending: the calls of [fn] in order, and the final *limit and *offset.
    [bits] is the slice from its last element to its first ([bsi[len(bsi)-1]] is the head, [bsi[:len-1]] the
    tail); shifts are on uint64. *)
Definition pivot_result := (list (N * list N) * option N * option N)%type.
(** internal/rows/bsi.go:27-61, the switch of PivotDescending. *)
Fixpoint pivot (bits : list row) (flt : row) (branch : N) (limit offset : option N) : pivot_result :=
  if negb (row_any flt) then ([], limit, offset)
  else if match offset with Some o => row_count flt <=? o | None => false end
  then ([], limit, match offset with Some o => Some (o - row_count flt) | None => None end)
  else if match limit with Some l => l =? 0 | None => false end then ([], limit, offset)
  else match bits with
  | [] =>
      let cols := match offset with Some o => skipn (N.to_nat o) (row_columns flt) | None => row_columns flt end in
      let offset' := match offset with Some _ => Some 0 | None => None end in
      let cols' := match limit with Some l => if l <? scard cols then firstn (N.to_nat l) cols else cols | None => cols end in
      let limit' := match limit with Some l => Some (l - scard cols') | None => None end in
      ([(branch, cols')], limit', offset')
  | split_bit :: lower_bits =>
      let upper := N.lor branch (2 ^ N.of_nat (List.length lower_bits) mod two64) in
      match pivot lower_bits (row_intersect flt split_bit) upper limit offset with
      | (calls1, limit1, offset1) =>
          match pivot lower_bits (row_difference flt [split_bit]) branch limit1 offset1 with
          | (calls2, limit2, offset2) => (calls1 ++ calls2, limit2, offset2)
          end
      end
  end.
(** internal/rows/bsi.go:18-62, PivotDescending on the whole slice. *)
Definition pivot_descending (b : bsi) (flt : row) (branch : N) (limit offset : option N) : pivot_result :=
  pivot (rev b) flt branch limit offset.

(** roaring.Add (external), by its contract: the sum of two bit-sliced integers without sign or overflow,
    here as ripple-carry addition of the bit planes. *)
(** External, roaring.Add (called at internal/rows/bsi.go:154), by its contract: the sum of two bit-sliced integers without sign or overflow, here as ripple-carry addition of the bit planes; this is the carry. *)
Definition maj (a b c : nset) : nset := sunion (sinter a b) (sinter c (sunion a b)).
(** External, roaring.Add (internal/rows/bsi.go:154): the planes above the shorter operand. *)
Fixpoint add_carry (c : nset) (x : list nset) : list nset :=
  match x with
  | [] => [c]
  | a :: x' => sxor a c :: add_carry (sinter a c) x'
  end.
(** External, roaring.Add (internal/rows/bsi.go:154): plane by plane with a carry. *)
Fixpoint roaring_add_carry (c : nset) (x y : list nset) : list nset :=
  match x, y with
  | [], _ => add_carry c y
  | _, [] => add_carry c x
  | a :: x', b :: y' => sxor (sxor a b) c :: roaring_add_carry (maj a b c) x' y'
  end.
(** External, roaring.Add (internal/rows/bsi.go:154). *)
Definition roaring_add (x y : list nset) : list nset := roaring_add_carry [] x y.

(** internal/rows/bsi.go:98, 108-111: the least shard of the remaining segments; none left when it stays at the maximum. *)
Definition max_u64 : N := two64 - 1.
(** internal/rows/bsi.go:97-107: the least shard of the remaining segments. *)
Definition next_shard (segments : list row) : N :=
  fold_left (fun next s => match s with [] => next | g :: _ => if g_shard g <? next then g_shard g else next end) segments max_u64.
(** internal/rows/bsi.go:113-142: the bitmaps of shard [next], bit by bit, with place holders for bits that have none;
    [i] is the number of the first bit of [segs]. *)
Fixpoint take_shard (next : N) (i : nat) (segs : list row) (bitmaps : list nset) : list nset * list row :=
  match segs with
  | [] => (bitmaps, [])
  | s :: rest =>
      let '(bitmaps', s') :=
        match s with
        | [] => (bitmaps, s)
        | g :: t =>
            if negb (g_shard g =? next) then (bitmaps, s)
            else if sempty (g_data g) then (bitmaps, t)
            else (bitmaps ++ repeat [] (i - List.length bitmaps) ++ [g_data g], t)
        end in
      let '(bitmaps'', rest') := take_shard next (S i) rest bitmaps' in (bitmaps'', s' :: rest')
  end.
(** internal/rows/bsi.go:161-170: the non-empty bitmaps of the sum become segments of the result's rows; [i] is the bit of the
    first of [out]. *)
Fixpoint append_at (i : nat) (g : segment) (dst : list row) : list row :=
  match i, dst with
  | O, [] => [[g]]
  | O, r :: t => (r ++ [g]) :: t
  | S j, [] => [] :: append_at j g []
  | S j, r :: t => r :: append_at j g t
  end.
(** internal/rows/bsi.go:157-171: the non-empty bitmaps of the sum become segments of the result's rows. *)
Fixpoint store_shard (next : N) (i : nat) (out : list nset) (dst : list row) : list row :=
  match out with
  | [] => dst
  | b :: rest => store_shard next (S i) rest (if sempty b then dst else append_at i (seg_of next b) dst)
  end.
(** internal/rows/bsi.go:83-175 AddBSI; None: the fuel (number of segments) was not enough. *)
Fixpoint add_bsi_loop (fuel : nat) (xsegs ysegs : list row) (dst : list row) : option (list row) :=
  let next := next_shard (xsegs ++ ysegs) in
  if next =? max_u64 then Some dst
  else match fuel with
  | O => None
  | S f =>
      let '(xb, xsegs') := take_shard next 0 xsegs [] in
      let '(yb, ysegs') := take_shard next 0 ysegs [] in
      let out := match xb, yb with [], _ => yb | _, [] => xb | _, _ => roaring_add xb yb end in
      add_bsi_loop f xsegs' ysegs' (store_shard next 0 out dst)
  end.
(** The number of segments (internal/rows/bsi.go:85-92), an upper bound for the rounds of the loop at 96. *)
Definition segments_of (b : list row) : nat := List.length (List.concat b).
(** internal/rows/bsi.go:83-175, AddBSI. *)
Definition add_bsi (x y : bsi) : option bsi := add_bsi_loop (segments_of x + segments_of y) x y [].

(** External, a roaring container (made at internal/rows/bsi.go:192, 195): the stored low 16 bits in stored order and the cached count. *)
Record container := Container { c_vals : list N; c_n : N }.
(** internal/rows/bsi.go:181, *[1024]uint64; a missing entry is 0. *)
Definition mask := amap N N.
(** internal/rows/bsi.go:223, b.mask[i]. *)
Definition mask_word (m : mask) (i : N) : N := match aget N.eqb i m with Some w => w | None => 0 end.
(** The values of a uint16 (Go specification, external), for internal/rows/bsi.go:192. *)
Definition all_u16 : list N := map N.of_nat (seq 0 (N.to_nat 65536)).
(** The values whose bit is set in the mask handed over at internal/rows/bsi.go:192. *)
Definition mask_vals (m : mask) : list N := filter (fun v => N.testbit (mask_word m (v / 64)) (v mod 64)) all_u16.
(** External, roaring.NewContainerArrayCopy (internal/rows/bsi.go:195): keeps the array as given and counts its elements. *)
Definition container_array (a : list N) : container := Container a (scard a).
(** External, roaring.NewContainerBitmapN (internal/rows/bsi.go:192): the bits of the mask and the given count. *)
Definition container_bitmap (m : mask) (n : N) : container := Container (mask_vals m) n.
(** roaring.Union of containers (external; for arrays in order). *)
(** External, roaring.Union of containers (internal/rows/bsi.go:205; for arrays in order). *)
Definition container_union (c old : container) : container :=
  let u := sunion (c_vals old) (c_vals c) in Container u (scard u).
(** External, roaring.Bitmap (internal/rows/bsi.go:180) by its containers in key order. *)
Definition bitmap := list (N * container).
(** External, Containers.Get (internal/rows/bsi.go:204). *)
Fixpoint bm_get (k : N) (b : bitmap) : option container :=
  match b with [] => None | (k', c) :: t => if k' =? k then Some c else bm_get k t end.
(** External, Containers.Put (internal/rows/bsi.go:207). *)
Fixpoint bm_put (k : N) (c : container) (b : bitmap) : bitmap :=
  match b with
  | [] => [(k, c)]
  | (k', c') :: t => if k <? k' then (k, c) :: b else if k =? k' then (k, c) :: t else (k', c') :: bm_put k c t
  end.
(** The members of the bitmap handed to NewRowFromBitmap (internal/rows/bsi.go:254). *)
Definition bm_columns (b : bitmap) : list N := flat_map (fun kc => map (fun lo => fst kc * 65536 + lo) (c_vals (snd kc))) b.

(** External, roaring.ArrayMaxSize (internal/rows/bsi.go:230). *)
Definition array_max_size : N := 4096.
(** internal/rows/bsi.go:179-185 RowBuilder. *)
Record row_builder := RB { rb_bm : option bitmap; rb_mask : option mask; rb_array : list N; rb_key : N; rb_n : N }.
(** internal/rows/bsi.go:268, RowBuilder{}. *)
Definition rb_empty : row_builder := RB None None [] 0 0.
(** internal/rows/bsi.go:201-207, the end of flushKey. *)
Definition rb_put (b : row_builder) (c : container) : option bitmap :=
  let bm := match rb_bm b with Some m => m | None => [] end in
  Some (bm_put (rb_key b) (match bm_get (rb_key b) bm with Some old => container_union c old | None => c end) bm).
(** internal/rows/bsi.go:188-208, flushKey. *)
Definition flush_key (b : row_builder) : row_builder :=
  match rb_mask b with
  | Some m => RB (rb_put b (container_bitmap m (rb_n b))) None (rb_array b) (rb_key b) (rb_n b)
  | None => match rb_array b with
            | [] => b
            | _ => RB (rb_put b (container_array (rb_array b))) None [] (rb_key b) (rb_n b)
            end
  end.
(** internal/rows/bsi.go:224 and 235: m[v/64] |= 1 << (v % 64), for 16 bit [v]. *)
Definition mask_set (m : mask) (v : N) : mask := aset N.eqb (v / 64) (N.lor (mask_word m (v / 64)) (2 ^ (v mod 64))) m.
(** internal/rows/bsi.go:212-240 Add. *)
Definition rb_add (b0 : row_builder) (v : N) : row_builder :=
  let vkey := v / 65536 in
  let b := if rb_key b0 =? vkey then b0
           else let f := flush_key b0 in RB (rb_bm f) (rb_mask f) (rb_array f) vkey (rb_n f) in
  let lo := v mod 65536 in
  match rb_mask b with
  | Some m => RB (rb_bm b) (Some (mask_set m lo)) (rb_array b) (rb_key b)
                 (rb_n b + N.ldiff 1 (N.shiftr (mask_word m (lo / 64)) (v mod 64)))
  | None =>
      let a := rb_array b ++ [lo] in
      if array_max_size <=? scard a
      then RB (rb_bm b) (Some (fold_left mask_set a [])) [] (rb_key b) (scard a)
      else RB (rb_bm b) None a (rb_key b) (rb_n b)
  end.
(** internal/rows/row.go:226-244 with the counts the bitmap reports: a segment's count is the sum of the counts of the
    containers in its shard (16 containers of 2^16 columns make a shard). *)
Definition shard_count (m : bitmap) (k : N) : N := fold_right (fun kc n => if fst kc / 16 =? k then c_n (snd kc) + n else n) 0 m.
(** internal/rows/row.go:226-244: the counts of the segments of the new row. *)
Definition recount (m : bitmap) (r : row) : row := map (fun g => Seg (g_shard g) (g_data g) (shard_count m (g_shard g))) r.
(** internal/rows/bsi.go:244-255 Build: the row and the builder afterwards; None: NewRowFromBitmap does not end. *)
Definition rb_build (b : row_builder) : option row * row_builder :=
  let f := flush_key b in
  (match rb_bm f with None => Some [] | Some m => option_map (recount m) (new_row_from_bitmap (bm_columns m)) end,
   RB None (rb_mask f) (rb_array f) (rb_key f) (rb_n f)).

(** internal/rows/bsi.go:259 BsiBuilder. *)
Definition bsi_builder := list row_builder.
(** External, bits.TrailingZeros64 of a positive number (internal/rows/bsi.go:265). *)
Fixpoint pos_ctz (p : positive) : N := match p with xO q => 1 + pos_ctz q | _ => 0 end.
(** External, bits.TrailingZeros64 (internal/rows/bsi.go:265). *)
Definition ctz (v : N) : N := match v with 0 => 64 | Npos p => pos_ctz p end.
(** internal/rows/bsi.go:267-270: the builder is extended to bit [i] and the column added there. *)
Fixpoint add_bit (i : nat) (col : N) (b : bsi_builder) : bsi_builder :=
  match i, b with
  | O, [] => [rb_add rb_empty col]
  | O, r :: t => rb_add r col :: t
  | S j, [] => rb_empty :: add_bit j col []
  | S j, r :: t => r :: add_bit j col t
  end.
(** internal/rows/bsi.go:263-272 Insert: at most 64 rounds. *)
Fixpoint insert_loop (fuel : nat) (col val : N) (b : bsi_builder) : bsi_builder :=
  if val =? 0 then b
  else match fuel with
  | O => b
  | S f => let i := ctz val in insert_loop f col (N.ldiff val (2 ^ i)) (add_bit (N.to_nat i) col b)
  end.
(** internal/rows/bsi.go:263-272, Insert. *)
Definition bsi_insert (b : bsi_builder) (cv : N * N) : bsi_builder := insert_loop 64 (fst cv) (snd cv) b.
(** internal/rows/bsi.go:276-284 Build. *)
(** internal/rows/bsi.go:280-282: the rows one after the other; one that does not end spoils the rest. *)
Fixpoint all_some {A} (l : list (option A)) : option (list A) :=
  match l with
  | [] => Some []
  | Some a :: t => option_map (cons a) (all_some t)
  | None :: _ => None
  end.
(** internal/rows/bsi.go:276-284, Build; the builder is empty afterwards. *)
Definition bsi_build (b : bsi_builder) : option bsi := all_some (map (fun r => fst (rb_build r)) b).
