(** What a table of messages is: rows in order; and a message reduced to some of its fields. *)
From Verif.Model Require Import Base Arrow.
Section Tables.
  Context {any : Type}.
  (** The field [f] of a message without a value. *)
  Definition nothing (f : field) : fval any := match f with Field true _ _ => FList [] | Field false _ _ => FSingle None end.
  (** Of a message the fields [wanted] says, by number; the others unset. *)
  Fixpoint only_from (n : nat) (wanted : nat -> bool) (fs : list field) (m : list (fval any)) : list (fval any) :=
    match fs, m with
    | f :: fs, v :: m => (if wanted n then v else nothing f) :: only_from (S n) wanted fs m
    | _, _ => []
    end.
  Definition only (wanted : nat -> bool) (fs : list field) (m : list (fval any)) : list (fval any) := only_from 0 wanted fs m.
End Tables.
