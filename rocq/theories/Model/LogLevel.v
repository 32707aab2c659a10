(** Which log messages are printed (internal/logger/setup.go, cmd/rq/main.go:155-187, internal/commands/query/query.go:48).
    log/slog of Go 1.22 and badger v4 are recalled, not in /repo. *)
From Verif.Model Require Import Base.
Open Scope Z_scope.

(** External, strings.ToUpper as called by slog.Level.parse (from internal/logger/setup.go:10).  Simplification: letters outside ASCII
    are left as they are, but for the two that become ASCII letters: dotless i (U+0131) and long s (U+017F). *)
Fixpoint upper (s : string) : string :=
  match s with
  | EmptyString => EmptyString
  | String c t =>
      match t with
      | String d u =>
          if Ascii.eqb c "196" && Ascii.eqb d "177" then String "I" (upper u)
          else if Ascii.eqb c "197" && Ascii.eqb d "191" then String "S" (upper u)
          else String (if (97 <=? N_of_ascii c)%N && (N_of_ascii c <=? 122)%N then ascii_of_N (N_of_ascii c - 32) else c) (upper t)
      | EmptyString => String (if (97 <=? N_of_ascii c)%N && (N_of_ascii c <=? 122)%N then ascii_of_N (N_of_ascii c - 32) else c) (upper t)
      end
  end.
(** External, strings.IndexAny(s, "+-") and the two slices at it, in slog.Level.parse (from internal/logger/setup.go:10): what comes
    before the first sign, and the rest from the sign on, if there is one. *)
Fixpoint cut_sign (s : string) : string * option string :=
  match s with
  | EmptyString => (EmptyString, None)
  | String c t => if Ascii.eqb c "+" || Ascii.eqb c "-" then (EmptyString, Some s)
                  else let (a, b) := cut_sign t in (String c a, b)
  end.
(** External, the loop of strconv.Atoi over the digits (from internal/logger/setup.go:10). *)
Fixpoint digits (s : string) (n : N) : option N :=
  match s with
  | EmptyString => Some n
  | String c t => if (48 <=? N_of_ascii c)%N && (N_of_ascii c <=? 57)%N then digits t (10 * n + (N_of_ascii c - 48))%N else None
  end.
(** External, strconv.Atoi of a text that begins with a sign; None is an error (from internal/logger/setup.go:10). *)
Definition atoi (s : string) : option Z :=
  match s with
  | EmptyString => None
  | String c t =>
      match t with
      | EmptyString => None
      | _ => match digits t 0 with
             | None => None
             | Some n => let z := if Ascii.eqb c "-" then - Z.of_N n else Z.of_N n in
                         if (- 2 ^ 63 <=? z) && (z <? 2 ^ 63) then Some z else None
             end
      end
  end.
(** Go addition of two ints (from internal/logger/setup.go:10). *)
Definition add64 (a b : Z) : Z := (a + b + 2 ^ 63) mod 2 ^ 64 - 2 ^ 63.
(** External, slog.Level.parse (from internal/logger/setup.go:10): None is an error, which leaves the level as it was. *)
Definition parse_level (s : string) : option Z :=
  let (name, rest) := cut_sign s in
  match (match rest with None => Some 0 | Some r => atoi r end) with
  | None => None
  | Some offset =>
      let u := upper name in
      if String.eqb u "DEBUG" then Some (add64 (-4) offset)
      else if String.eqb u "INFO" then Some (add64 0 offset)
      else if String.eqb u "WARN" then Some (add64 4 offset)
      else if String.eqb u "ERROR" then Some (add64 8 offset)
      else None
  end.
(** internal/logger/setup.go:8-22, Setup: the error is ignored; the level it returns is also that of the handler. *)
Definition setup (flag : string) : Z := match parse_level flag with Some l => l | None => 0 end.
(** External, slog.JSONHandler.Enabled, for the handler made at internal/logger/setup.go:12-20. *)
Definition enabled (level severity : Z) : bool := level <=? severity.

(** The loggers of the database, badger.Options.Logger: the server's own (cmd/rq/main.go:171-187), or badger's
    with the least severity it prints (0 debug, 1 info, 2 warning, 3 error). *)
Inductive db_logger := Own | Badger (least : Z).
(** cmd/rq/main.go:155-169, setupLogging, on options whose logger is [Own] (cmd/rq/main.go:77-78). *)
Definition setup_logging (flag : string) : db_logger :=
  let level := setup flag in
  if level =? 0 then Badger 1 else if level =? -4 then Badger 0 else if level =? 4 then Badger 2 else if level =? 8 then Badger 3 else Own.
(** The four methods of badger.Logger (cmd/rq/main.go:175-187; badger's defaultLog is external), by their place in the order debug, info,
    warning, error: is the message printed? *)
Definition db_prints (flag : string) (k : Z) : bool :=
  match setup_logging flag with
  | Own => enabled (setup flag) (4 * k - 4)
  | Badger least => least <=? k
  end.
