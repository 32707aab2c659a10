(** Finite sets of numbers, as a reader expects them: predicates. *)
From Coq Require Import NArith List Sorted.
Import ListNotations.
Open Scope N_scope.

(** [l] lists exactly the members of [P], each once, in increasing order. *)
Definition lists_exactly (l : list N) (P : N -> Prop) : Prop :=
  StronglySorted N.lt l /\ forall x, In x l <-> P x.
Definition cols_of (l : list N) : N -> Prop := fun x => In x l.
