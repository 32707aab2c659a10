(** What trying again means to the caller of an operation. *)
From Verif.Model Require Import Base Retry.
Open Scope Z_scope.
(** Time passes, and draws are those of a random number below one. *)
Definition ordinary (w : nat -> attempt) : Prop := forall i, 0 <= at_takes (w i) /\ 0 <= at_late (w i) /\ 0 <= at_draw (w i) < 2 ^ 53.
Definition seconds (n : Z) : Z := n * 1000000000.
(** The error an attempt gives its caller, if any. *)
Definition error_of (a : attempt) : option string := match at_result a with Success => None | Failed e | Permanent e => Some e end.
(** When attempt [i] begins, the waits between attempts being [d 0], [d 1], ... *)
Fixpoint begins_at (w : nat -> attempt) (d : nat -> Z) (now : Z) (i : nat) : Z :=
  match i with O => now | S i' => begins_at w d now i' + at_takes (w i') + d i' + at_late (w i') end.
