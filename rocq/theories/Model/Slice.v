(** Go byte slices with sharing, as far as the translator's key prefixes need them.
    A heap is a list of backing arrays, a slice starts at offset 0 of one of them (every slice the
    translator handles does). *)
From Verif.Model Require Import Base.

(** External, Go byte slices (internal/translate/translate.go:19-29 and 122-135): the backing arrays. *)
Definition heap := list string.
(** External, Go byte slices (internal/translate/translate.go:19-29 and 122-135): a slice, which starts at offset 0 of an array. *)
Record slice := Slice { s_arr : nat; s_len : nat; s_cap : nat }.

(** External, Go byte slices (internal/translate/translate.go:19-29 and 122-135): the bytes a slice denotes. *)
Definition sread (h : heap) (s : slice) : string :=
  substring 0 (s_len s) (nth (s_arr s) h "").

(** External, Go byte slices (internal/translate/translate.go:19-29 and 122-135): a heap with one array replaced. *)
Fixpoint set_nth {A} (n : nat) (x : A) (l : list A) : list A :=
  match l, n with
  | [], _ => []
  | _ :: t, O => x :: t
  | y :: t, S n' => y :: set_nth n' x t
  end.

(** External, Go byte slices (internal/translate/translate.go:19-29 and 122-135): [bytes] written over an array starting at [off]. *)
Definition overwrite (arr : string) (off : nat) (bytes : string) : string :=
  append (substring 0 off arr)
    (append bytes (substring (off + String.length bytes) (String.length arr) arr)).

(** External, Go byte slices (internal/translate/translate.go:19-29 and 122-135): fresh memory. *)
Fixpoint zeros (n : nat) : string :=
  match n with O => "" | S n' => String zero (zeros n') end.

(** External, Go byte slices (internal/translate/translate.go:19-29 and 122-135): the builtin [append(s, bytes...)], in place when the capacity suffices, else a fresh array whose capacity is chosen by the runtime ([grow needed]). *)
Definition sappend (grow : nat -> nat) (h : heap) (s : slice) (bytes : string) : heap * slice :=
  let n := (s_len s + String.length bytes)%nat in
  if Nat.leb n (s_cap s) then
    (set_nth (s_arr s) (overwrite (nth (s_arr s) h "") (s_len s) bytes) h,
     Slice (s_arr s) n (s_cap s))
  else
    (h ++ [append (sread h s) (append bytes (zeros (grow n - n)))],
     Slice (List.length h) n (grow n)).
