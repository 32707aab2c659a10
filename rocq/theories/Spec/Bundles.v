(** What a query command does with a script when it has the machine to itself. *)
From Verif.Model Require Import Base ProgramCache Compile.

Section Bundles.
  Context {program : Type} (load : string -> option program) (esbuild : files -> files -> string + string) (lib : string).
  (** The bundler sees two files, the library and the script, and finds the one by its name. *)
  Definition bundled (src : string) : string + string :=
    esbuild [("rq.js"%string, lib); ("index.ts"%string, src)] [("@requiemdb/rq"%string, "./rq.js"%string)].
  Definition alone (src : string) : ended program :=
    match bundled src with
    | inl _ => Failed _
    | inr out => match load out with Some p => Ran _ p | None => Failed _ end
    end.
End Bundles.
(** Something went wrong in a step of command [i]. *)
Definition unlucky (i : nat) (sched : list (nat * chance)) : Prop := exists c, In (i, c) sched /\ forall name, c <> Works name.
(** All steps work. *)
Definition calm_schedule (sched : list (nat * chance)) : Prop := forall i c, In (i, c) sched -> exists name, c = Works name.
