(** Where the server and the client keep their files (internal/commands/home.go, internal/home/homedir.go,
    internal/shards/shards.go:209, internal/commands/query/query.go:80, cmd/rq/main.go:75-95).
    Simplifications: only the branch of home.Dir for systems other than Windows; os.MkdirAll is left out (its error
    is ignored by the code); no symbolic links. *)
From Verif.Model Require Import Base.
Local Infix "^^" := append (right associativity, at level 60).

(** External, os.PathSeparator on systems other than Windows. *)
Definition slash : ascii := "/".
(** External, path/filepath.Clean (Unix): the parts between the slashes of a path. *)
Fixpoint parts (p : string) : list string :=
  match p with
  | EmptyString => [""]
  | String c t => if Ascii.eqb c slash then "" :: parts t
                  else match parts t with x :: l => String c x :: l | [] => [String c ""] end
  end.
(** External, path/filepath.Clean (Unix): rooted. *)
Definition rooted (p : string) : bool := match p with String c _ => Ascii.eqb c slash | EmptyString => false end.
(** External, path/filepath.Clean (Unix): the loop over the elements of the path, [out] being the elements written so far, last one first. *)
Definition clean_step (root : bool) (out : list string) (c : string) : list string :=
  if String.eqb c "" || String.eqb c "." then out
  else if String.eqb c ".." then
    match out with
    | x :: t => if negb root && String.eqb x ".." then ".." :: out else t
    | [] => if root then [] else [".."]
    end
  else c :: out.
(** External, path/filepath.Clean (Unix), called by filepath.Join at internal/commands/home.go:16-45. *)
Definition clean (p : string) : string :=
  let out := fold_left (clean_step (rooted p)) (parts p) [] in
  if rooted p then "/" ^^ String.concat "/" (rev out)
  else match out with [] => "." | _ => String.concat "/" (rev out) end.
(** External, filepath.Join (internal/commands/home.go:16-45): leading empty elements are skipped; nothing but empty elements gives the empty path. *)
Fixpoint join (l : list string) : string :=
  match l with
  | [] => ""
  | e :: t => if String.eqb e "" then join t else clean (String.concat "/" l)
  end.

(** internal/commands/home.go:14-21, Home; [home] is the value of the environment variable HOME (internal/home/homedir.go:91). *)
Definition home_dir (home : string) (base : list string) : string :=
  match base with
  | [] => join [home; ".rq"]
  | [b] => if String.eqb b "" then join [home; ".rq"] else join [b]
  | _ => join base
  end.
(** internal/commands/home.go:23-27, Cache. *)
Definition cache_dir (home : string) (base : list string) : string := join [home_dir home base; "cache"].
(** internal/commands/home.go:29-33, Data. *)
Definition data_dir (home : string) (base : list string) : string := join [home_dir home base; "data"].
(** internal/commands/home.go:35-39, DB. *)
Definition db_dir (home : string) (base : list string) : string := join [data_dir home base; "db"].
(** internal/commands/home.go:41-45, Index. *)
Definition index_dir (home : string) (base : list string) : string := join [data_dir home base; "index"].
(** internal/shards/shards.go:209; internal/commands/query/query.go:80. *)
Definition shard_path (home : string) (base : list string) (shard : N) : string := join [index_dir home base; show_N shard].
(** internal/commands/query/query.go:79-81, the file of a compiled program. *)
Definition program_path (home : string) (hash : N) : string := join [cache_dir home []; show_N hash].
