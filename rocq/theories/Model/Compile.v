(** Any number of rq query commands at the same time: each looks up its script in the cache directory, or compiles it in a temporary
    directory of its own (internal/compile/compile.go) and caches the bundle (internal/commands/query/query.go:78-100).
    One step is one system call, or the call of the bundler; the order of the steps of different commands is arbitrary.
    Simplifications: the temporary directory is a map from names to directories, a directory a map from file names to contents; the
    bundler reads its working directory only; os.WriteFile truncates in one step and writes all in another; the key is that of
    Model/ProgramCache.v.  Connecting to the server and running the program are not modelled here (see Model/Script.v). *)
From Verif.Model Require Import Base XxHash ProgramCache.

(** External, removing an entry of a directory (called at internal/compile/compile.go:22). *)
Definition adel {V} (k : string) (m : amap string V) : amap string V := filter (fun e => negb (String.eqb k (fst e))) m.
(** External, files by name (internal/compile/compile.go:54-66). *)
Notation files := (amap string string).

Section Compile.
  Variable program : Type.
  (** External, goja.Compile (internal/commands/query/query.go:99). *)
  Variable load : string -> option program.
  (** External, esbuild (internal/compile/compile.go:24-31): the working directory and the aliases give the text of the first error or the output. *)
  Variable esbuild : files -> files -> string + string.
  (** internal/js/bundle/bundle.go:7-14: the text of the one package that comes with the command. *)
  Variable lib : string.

  (** internal/js/bundle/bundle.go:12-14 PKG. *)
  Definition packages : list (string * string) := [("@requiemdb/rq"%string, lib)].
  (** External, filepath.Base (called at internal/compile/compile.go:57), of the package names. *)
  Definition base (name : string) : string := if String.eqb name "@requiemdb/rq" then "rq" else name.
  (** internal/compile/compile.go:57. *)
  Definition package_file (name : string) : string := append (base name) ".js".

  (** How a command ended: with a program to run, with an error, or killed (internal/commands/query/query.go:78-100). *)
  Inductive ended := Ran (p : program) | Failed | Killed.
  (** internal/commands/query/query.go:78-100 and internal/compile/compile.go:17-66: what a command does next. *)
  Inductive phase :=
  | Reading
  | Making
  | Setting (dir : string) (todo : list (string * string)) (alias : files)
  | Scripting (dir : string) (alias : files)
  | Bundling (dir : string) (alias : files)
  | Removing (dir : string) (r : string + string)
  | Truncating (out : string)
  | Storing (out : string)
  | Loading (text : string)
  | Ended (e : ended).
  (** What a step meets: the call works (a name for a new directory), fails after [k] bytes or files, or the command is killed
      before it (internal/commands/query/query.go:78-100). *)
  Inductive chance := Works (name : string) | Fails (k : nat) | Kill.
  (** The cache directory (internal/commands/query/query.go:80) and the temporary directory (internal/compile/compile.go:39). *)
  Record world := World { w_cache : files; w_temp : amap string files }.

  (** External, os.WriteFile of one file of a directory (internal/compile/compile.go:47, 58). *)
  Definition put_file (w : world) (dir name text : string) : world :=
    match aget String.eqb dir (w_temp w) with
    | Some fs => World (w_cache w) (aset String.eqb dir (aset String.eqb name text fs) (w_temp w))
    | None => w
    end.
  (** internal/commands/query/query.go:78-100 and internal/compile/compile.go:17-66: one step of one command. *)
  Definition advance (src : string) (w : world) (ph : phase) (c : chance) : world * phase :=
    match ph, c with
    | Ended e, _ => (w, Ended e)
    | _, Kill => (w, Ended Killed)
    (* os.ReadFile(key) *)
    | Reading, Works _ => match aget String.eqb (file_name src) (w_cache w) with Some text => (w, Loading text) | None => (w, Making) end
    | Reading, Fails _ => (w, Ended Failed)
    (* os.MkdirTemp tries names until one is new *)
    | Making, Works name => match aget String.eqb name (w_temp w) with
                            | Some _ => (w, Making)
                            | None => (World (w_cache w) (aset String.eqb name [] (w_temp w)), Setting name packages [])
                            end
    | Making, Fails _ => (w, Ended Failed)
    (* setup *)
    | Setting dir [] alias, _ => (w, Scripting dir alias)
    | Setting dir ((name, text) :: todo) alias, Works _ =>
        (put_file w dir (package_file name) text, Setting dir todo (aset String.eqb name (append "./" (package_file name)) alias))
    | Setting dir ((name, text) :: todo) alias, Fails k => (put_file w dir (package_file name) (substring 0 k text), Ended Failed)
    (* index.ts *)
    | Scripting dir alias, Works _ => (put_file w dir "index.ts" src, Bundling dir alias)
    | Scripting dir alias, Fails k => (put_file w dir "index.ts" (substring 0 k src), Ended Failed)
    (* api.Build *)
    | Bundling dir alias, _ => (w, Removing dir match aget String.eqb dir (w_temp w) with Some fs => esbuild fs alias | None => inl ""%string end)
    (* os.RemoveAll, whose error nobody looks at *)
    | Removing dir r, _ =>
        (World (w_cache w) match c with
                           | Fails k => match aget String.eqb dir (w_temp w) with Some fs => aset String.eqb dir (firstn k fs) (w_temp w) | None => w_temp w end
                           | _ => adel dir (w_temp w)
                           end,
         match r with inl _ => Ended Failed | inr out => Truncating out end)
    (* os.WriteFile(key) *)
    | Truncating out, Works _ => (World (aset String.eqb (file_name src) ""%string (w_cache w)) (w_temp w), Storing out)
    | Truncating out, Fails _ => (w, Ended Failed)
    | Storing out, Works _ => (World (aset String.eqb (file_name src) out (w_cache w)) (w_temp w), Loading out)
    | Storing out, Fails k => (World (aset String.eqb (file_name src) (substring 0 k out) (w_cache w)) (w_temp w), Ended Failed)
    (* goja.Compile *)
    | Loading text, _ => (w, Ended match load text with Some p => Ran p | None => Failed end)
    end.

  (** All commands: script and phase of each (internal/commands/query/query.go:78-100). *)
  Record machine := Machine { m_world : world; m_procs : list (string * phase) }.
  (** Replace one element (no Go counterpart: the processes of a machine, internal/commands/query/query.go:78-100). *)
  Fixpoint put {A} (i : nat) (x : A) (l : list A) : list A :=
    match l, i with [], _ => [] | _ :: t, O => x :: t | y :: t, S j => y :: put j x t end.
  (** One step of command [i] (internal/commands/query/query.go:78-100). *)
  Definition tick (m : machine) (ic : nat * chance) : machine :=
    match nth_error (m_procs m) (fst ic) with
    | None => m
    | Some (src, ph) => let '(w, ph') := advance src (m_world m) ph (snd ic) in Machine w (put (fst ic) (src, ph') (m_procs m))
    end.
  (** Commands started on [scripts], run by a schedule (internal/commands/query/query.go:78-100). *)
  Definition running (w : world) (scripts : list string) (sched : list (nat * chance)) : machine :=
    fold_left tick sched (Machine w (map (fun src => (src, Reading)) scripts)).
End Compile.
