(** The home directory on Windows (internal/home/homedir.go:33-89). *)
From Verif.Model Require Import Base.
Local Infix "^^" := append (right associativity, at level 60).

(** What os.Getenv and os.Stat tell (internal/home/homedir.go:35-71): the four variables ("" if not set), which paths have a .kube\config in
    them, which can be stat'ed, and which of these are directories whose owner may write.  Simplification: they do not change meanwhile. *)
Record machine := Machine {
  m_home : string; m_drive : string; m_path : string; m_profile : string;
  m_config : string -> bool; m_exists : string -> bool; m_writeable : string -> bool }.
(** internal/home/homedir.go:36-39. *)
Definition drive_path (m : machine) : string := if negb (String.eqb (m_drive m) "") && negb (String.eqb (m_path m) "") then m_drive m ^^ m_path m else "".
(** internal/home/homedir.go:44-52, the first loop. *)
Fixpoint with_config (m : machine) (l : list string) : option string :=
  match l with
  | [] => None
  | p :: t => if String.eqb p "" then with_config m t else if negb (m_config m p) then with_config m t else Some p
  end.
(** internal/home/homedir.go:58-88, the second loop and what follows it. *)
Fixpoint second_loop (m : machine) (l : list string) (first_set first_existing : string) : string :=
  match l with
  | [] => if negb (String.eqb first_existing "") then first_existing else if negb (String.eqb first_set "") then first_set else ""
  | p :: t =>
      if String.eqb p "" then second_loop m t first_set first_existing
      else
        let first_set := if String.eqb first_set "" then p else first_set in
        if negb (m_exists m p) then second_loop m t first_set first_existing
        else
          let first_existing := if String.eqb first_existing "" then p else first_existing in
          if m_writeable m p then p else second_loop m t first_set first_existing
  end.
(** internal/home/homedir.go:33-89, Dir on Windows. *)
Definition windows_dir (m : machine) : string :=
  match with_config m [m_home m; drive_path m; m_profile m] with
  | Some p => p
  | None => second_loop m [m_home m; m_profile m; drive_path m] "" ""
  end.
