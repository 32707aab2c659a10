(** Bit-sliced integers as a reader expects them. *)
From Coq Require Import NArith List Sorted.
Import ListNotations.
Open Scope N_scope.

(** The integer of column [c]: bit [i] is set when the i-th list has [c]. *)
Fixpoint value_at (planes : list (list N)) (c : N) : N :=
  match planes with
  | [] => 0
  | p :: higher => (if existsb (N.eqb c) p then 1 else 0) + 2 * value_at higher c
  end.

(** Rank of (value, column) pairs: greater values first, columns of the same value in increasing order. *)
Definition before (a b : N * N) : Prop := snd b < snd a \/ (snd a = snd b /\ fst a < fst b).
(** [l] lists every (column, value) pair of the columns in [cols] exactly once, in rank order. *)
Definition ranking (l : list (N * N)) (cols : list N) (value : N -> N) : Prop :=
  StronglySorted before l /\ forall c v, In (c, v) l <-> In c cols /\ v = value c.
(** Skip [offset], then keep at most [limit] (none: everything). *)
Definition window {A} (limit offset : option N) (l : list A) : list A :=
  let l' := match offset with Some o => skipn (N.to_nat o) l | None => l end in
  match limit with Some n => firstn (N.to_nat n) l' | None => l' end.

(** Sequential input as the row builder documents it, in a weak form: neighbours in the same block of 2^16
    columns are in increasing order. *)
Fixpoint runs_ascending (l : list N) : Prop :=
  match l with
  | a :: ((b :: _) as t) => (a / 2 ^ 16 = b / 2 ^ 16 -> a < b) /\ runs_ascending t
  | _ => True
  end.
