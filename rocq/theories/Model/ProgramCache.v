(** The two program caches: compiled programs in memory (internal/snippets/snippets.go) and bundled sources
    on disk (internal/commands/query/query.go).  Both are keyed by the XXH64 of the source alone. *)
From Verif.Model Require Import Base XxHash.

Section Caches.
  (** A program of the JavaScript engine, and goja.Compile (external): a program or an error. *)
  Variable program : Type.
  Variable load : string -> option program.
  (** compile.Compile (internal/compile/compile.go:17-36; esbuild, external) of a source by one version of the command
      line: the bundle includes the packages shipped with that version (internal/compile/compile.go:54-66). *)
  Variable bundle : N -> string -> option string.

  (** internal/snippets/snippets.go:13-27: the cache of compiled programs. *)
  Definition mem := amap N program.
  (** External, ristretto (internal/snippets/snippets.go:13-27) may drop any entries at any time: keep those the predicate [keep] accepts. *)
  Definition evict (keep : N -> bool) (m : mem) : mem := filter (fun e => keep (fst e)) m.
  (** internal/snippets/snippets.go:29-41, GetProgramData; [stored] tells whether ristretto accepted the entry. *)
  Definition get_program (stored : bool) (m : mem) (src : string) : mem * option program :=
    match aget N.eqb (xxh64 src) m with
    | Some p => (m, Some p)
    | None => match load src with
              | None => (m, None)
              | Some p => (if stored then aset N.eqb (xxh64 src) p m else m, Some p)
              end
    end.
  (** internal/snippets/snippets.go:29-41: a history of the cache. *)
  Inductive mem_event := MGet (stored : bool) (src : string) | MEvict (keep : N -> bool).
  (** internal/snippets/snippets.go:29-41: one event. *)
  Definition mem_step (m : mem) (e : mem_event) : mem :=
    match e with MGet st src => fst (get_program st m src) | MEvict keep => evict keep m end.

  (* ------------------------------------------------ on disk *)
  (** internal/commands/query/query.go:78-100: the cache directory, contents by file name, and the version of the command line in use. *)
  Record disk := Disk { dk_files : amap string string; dk_version : N }.
  (** internal/commands/query/query.go:80: filepath.Join(Cache(), fmt.Sprint(hash)). *)
  Definition file_name (src : string) : string := show_N (xxh64 src).
  (** External, os.WriteFile (called at internal/commands/query/query.go:89): how far the write of a bundle gets. It truncates the file and writes; it may fail, the process may die, or another process may look before it is done. *)
  Inductive write := Whole | Cut (k : nat).
  (** internal/commands/query/query.go:78-100, build.  Simplification: a read error other than "does not exist" is not modelled. *)
  Definition build (w : write) (d : disk) (src : string) : disk * option program :=
    match aget String.eqb (file_name src) (dk_files d) with
    | Some cached => (d, load cached)
    | None => match bundle (dk_version d) src with
              | None => (d, None)
              | Some out =>
                  match w with
                  | Whole => (Disk (aset String.eqb (file_name src) out (dk_files d)) (dk_version d), load out)
                  | Cut k => (Disk (aset String.eqb (file_name src) (substring 0 k out) (dk_files d)) (dk_version d), None)
                  end
              end
    end.
  (** internal/commands/query/query.go:78-100: a history of the directory: queries (by any number of processes), and installing another version. *)
  Inductive disk_event := DQuery (w : write) (src : string) | DInstall (version : N).
  (** internal/commands/query/query.go:78-100: one event. *)
  Definition disk_step (d : disk) (e : disk_event) : disk :=
    match e with DQuery w src => fst (build w d src) | DInstall v => Disk (dk_files d) v end.
End Caches.
