(** Common vocabulary of the model: decimal printing, big endian integers, finite sets of
    64 bit numbers (roaring bitmaps), association maps (Go maps).
    Nothing here models a function of /repo by itself; the definitions stand for the parts of the
    Go standard library and of the bitmap library that the modelled functions call. *)
From Coq Require Export List String Ascii NArith ZArith Bool Lia Sorted Permutation.
From Coq Require Import Decimal DecimalString.
Export ListNotations.

Open Scope string_scope.
Open Scope N_scope.
Open Scope list_scope.
Open Scope bool_scope.

(** External, fmt "%d" of a signed integer; called at internal/labels/labels.go:44 and internal/keys/keys.go:48. *)
Definition show_Z (z : Z) : string := NilEmpty.string_of_int (Z.to_int z).
(** External, fmt "%d" or strconv.FormatUint of an unsigned integer; called at internal/shards/shards.go:209. *)
Definition show_N (n : N) : string := show_Z (Z.of_N n).

(** External, encoding/binary.BigEndian.PutUint64: k bytes of n, most significant first; called at internal/translate/translate.go:138-142. *)
Fixpoint be_bytes (k : nat) (n : N) : string :=
  match k with
  | O => EmptyString
  | S k' => append (be_bytes k' (n / 256)) (String (ascii_of_N (n mod 256)) EmptyString)
  end.
(** internal/translate/translate.go:138-142, u64tob. *)
Definition u64be (n : N) : string := be_bytes 8 n.

(** External, encoding/binary.BigEndian.Uint64, the loop over the bytes; called at internal/translate/translate.go:145. *)
Fixpoint be_val_acc (acc : N) (s : string) : N :=
  match s with
  | EmptyString => acc
  | String c s' => be_val_acc (acc * 256 + N_of_ascii c) s'
  end.
(** internal/translate/translate.go:145, btou64: value of a big endian byte string. *)
Definition be_val (s : string) : N := be_val_acc 0 s.

(** The number of uint64 values (Go specification, external), for the wrapping arithmetic of e.g. internal/view/view.go:56-58. *)
Definition two64 : N := 2 ^ 64.
(** The first uint64 that int64() makes negative (Go specification, external). *)
Definition two63 : N := 2 ^ 63.

(** External, Go conversion int64(x) of a uint64, as in internal/transform/transform.go:53-58. *)
Definition int64_of_u64 (n : N) : Z :=
  if n <? two63 then Z.of_N n else (Z.of_N n - Z.of_N two64)%Z.

(** External, Go comparison s != "", as in internal/labels/labels.go:45. *)
Definition nonempty (s : string) : bool := negb (String.eqb s "").

(** External, roaring64.Bitmap and roaring.Bitmap (internal/bitmaps/bitmaps.go:10-13, internal/batch/batch.go:103): finite sets of uint64, kept strictly increasing. *)
Definition nset := list N.
(** External, Bitmap.Add and DirectAdd; called at internal/transform/transform.go:151-158 and internal/batch/batch.go:91. *)
Fixpoint sadd (x : N) (s : nset) : nset :=
  match s with
  | [] => [x]
  | y :: t => if x <? y then x :: s else if x =? y then s else y :: sadd x t
  end.
(** External, Bitmap.Contains; called at internal/visit/visit.go:229-234. *)
Definition smem (x : N) (s : nset) : bool := existsb (N.eqb x) s.
(** External, Bitmap.Or and Union; called at internal/shards/shards.go:113-166 and internal/rows/row.go:387-429. *)
Definition sunion (a b : nset) : nset := fold_right sadd a b.
(** External, Bitmap.And and Intersect; called at internal/shards/shards.go:113-166 and internal/rows/row.go:341-354. *)
Definition sinter (a b : nset) : nset := filter (fun x => smem x b) a.
(** External, Bitmap.AndNot and Difference; called at internal/rows/row.go:432-452. *)
Definition sdiff (a b : nset) : nset := filter (fun x => negb (smem x b)) a.
(** External, Bitmap.Xor; called at internal/rows/row.go:367-384. *)
Definition sxor (a b : nset) : nset := sunion (sdiff a b) (sdiff b a).
(** External, Bitmap.IsEmpty and Any; called at internal/store/scan.go:20-70 and internal/rows/bsi.go:124. *)
Definition sempty (s : nset) : bool := match s with [] => true | _ => false end.
(** External, Bitmap.GetCardinality and Count; called at internal/rows/row.go:545-555. *)
Definition scard (s : nset) : N := N.of_nat (List.length s).
(** External, roaring NewBitmap(values...) and AddMany; called at internal/rows/row.go:141-147. *)
Definition sof_list (l : list N) : nset := fold_right sadd [] l.
(** External, ReverseIterator().Next() of a non-empty bitmap; called at internal/store/scan.go:20-70. *)
Fixpoint smax (s : nset) : option N :=
  match s with
  | [] => None
  | [x] => Some x
  | _ :: t => smax t
  end.

(** Go maps. *)
Section AMap.
  Context {K V : Type} (eqb : K -> K -> bool).
  (** External, a Go map (e.g. internal/batch/batch.go:103), as an association list without order of its own. *)
  Definition amap := list (K * V).
  (** External, reading a Go map, as in internal/batch/batch.go:129-142. *)
  Fixpoint aget (k : K) (m : amap) : option V :=
    match m with
    | [] => None
    | (k', v) :: t => if eqb k k' then Some v else aget k t
    end.
  (** External, assignment to a Go map, as in internal/batch/batch.go:129-142. *)
  Fixpoint aset (k : K) (v : V) (m : amap) : amap :=
    match m with
    | [] => [(k, v)]
    | (k', v') :: t => if eqb k k' then (k, v) :: t else (k', v') :: aset k v t
    end.
End AMap.
Arguments amap : clear implicits.
