(** The home directory on Windows as the comment of home.Dir documents it. *)
From Verif.Model Require Import Base HomeWindows.

(** [p] is the first of [l] with the property. *)
Definition first_of (l : list string) (P : string -> Prop) (p : string) : Prop := exists l1 l2, l = l1 ++ p :: l2 /\ P p /\ forall q, In q l1 -> ~ P q.
Definition none_of (l : list string) (P : string -> Prop) : Prop := forall q, In q l -> ~ P q.
Definition is_set (p : string) : Prop := p <> ""%string.
(** %HOMEDRIVE%%HOMEPATH%, if both are set. *)
Inductive home_drive_path (m : machine) : string -> Prop :=
| both_set : is_set (m_drive m) -> is_set (m_path m) -> home_drive_path m (m_drive m ++ m_path m)%string
| one_unset : ~ (is_set (m_drive m) /\ is_set (m_path m)) -> home_drive_path m ""%string.
(** The four rules, in their order; "" if nothing is set. *)
Definition documented (m : machine) (r : string) : Prop :=
  exists hp, home_drive_path m hp /\
  let for_config := [m_home m; hp; m_profile m] in let others := [m_home m; m_profile m; hp] in
  let config p := is_set p /\ m_config m p = true in
  let there p := is_set p /\ m_exists m p = true in
  let writeable p := there p /\ m_writeable m p = true in
  first_of for_config config r \/
  (none_of for_config config /\
   (first_of others writeable r \/
    (none_of others writeable /\
     (first_of others there r \/
      (none_of others there /\
       (first_of others is_set r \/ (none_of others is_set /\ r = ""%string))))))).
