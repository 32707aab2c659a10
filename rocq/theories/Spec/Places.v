(** Which directory a path names: walking along its parts.  A place is the list of names from the root. *)
From Verif.Model Require Import Base Home.

Definition walk (dir : list string) (part : string) : list string :=
  if String.eqb part "" || String.eqb part "." then dir else if String.eqb part ".." then removelast dir else dir ++ [part].
(** From the working directory [cwd], or from the root if the path begins with a slash. *)
Definition place (cwd : list string) (p : string) : list string := fold_left walk (parts p) (if rooted p then [] else cwd).
(** Neither is the other or lies inside it. *)
Definition apart (a b : list string) : Prop := (forall c, b <> a ++ c) /\ (forall c, a <> b ++ c).
(** The home of the server: the directory given on the command line, or [.rq] in the user's. *)
Definition server_home (cwd : list string) (home base : string) : list string :=
  if String.eqb base "" then place cwd home ++ [".rq"] else place cwd base.
