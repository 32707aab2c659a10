(** internal/retry/retry.go: an operation is tried again, at growing intervals, until it succeeds or a quarter of an hour has passed.
    The package is not imported by the rest of the repository. *)
From Verif.Model Require Import Base.
Open Scope Z_scope.

(** External, github.com/cenkalti/backoff/v4, ExponentialBackOff (internal/retry/retry.go:25-33).  Simplifications: the factor 0.5 and the
    multiplier 1.5 are fixed; the clock is the system's. *)
Record backoff := BackOff { bo_initial : Z; bo_max_interval : Z; bo_max_elapsed : Z; bo_current : Z; bo_start : Z }.
(** External, time.Millisecond (the unit of the defaults at internal/retry/retry.go:27-31). *)
Definition ms : Z := 1000000.
(** internal/retry/retry.go:24-35, reset: the defaults, and zero values for the rest. *)
Definition reset (b : backoff) : backoff := BackOff (500 * ms) (60 * 1000 * ms) (15 * 60 * 1000 * ms) 0 0.
(** External, ExponentialBackOff.Reset (called at internal/retry/retry.go:17). *)
Definition restart (b : backoff) (now : Z) : backoff := BackOff (bo_initial b) (bo_max_interval b) (bo_max_elapsed b) (bo_initial b) now.
(** External, NewExponentialBackOff (internal/retry/retry.go:38). *)
Definition new_backoff (now : Z) : backoff := restart (reset (BackOff 0 0 0 0 0)) now.
(** External, getRandomValueFromInterval (used by internal/retry/retry.go:12): from half to one and a half of the interval; [draw] in
    2^53-ths is what rand.Float64 gives.  Simplification: exact arithmetic instead of float64. *)
Definition random_value (current draw : Z) : Z := (current * 2 ^ 53 + 2 * draw * (current + 1)) / 2 ^ 54.
(** External, incrementCurrentInterval (used by internal/retry/retry.go:12). *)
Definition increment (b : backoff) : backoff :=
  let c := if 2 * bo_max_interval b <=? 3 * bo_current b then bo_max_interval b else 3 * bo_current b / 2 in
  BackOff (bo_initial b) (bo_max_interval b) (bo_max_elapsed b) c (bo_start b).
(** External, NextBackOff (used by internal/retry/retry.go:12): how long to wait, None to stop. *)
Definition next_backoff (b : backoff) (now draw : Z) : option Z * backoff :=
  let elapsed := now - bo_start b in
  let next := random_value (bo_current b) draw in
  (if negb (bo_max_elapsed b =? 0) && (bo_max_elapsed b <? elapsed + next) then None else Some next, increment b).

(** One call of the operation (internal/retry/retry.go:9): nil, an error, or an error marked permanent. *)
Inductive result := Success | Failed (e : string) | Permanent (e : string).
(** One attempt (internal/retry/retry.go:9-12): its result, how long it takes, the random number drawn after it and how much too late the timer wakes up. *)
Record attempt := Attempt { at_result : result; at_takes : Z; at_draw : Z; at_late : Z }.
(** External, backoff.Retry (called at internal/retry/retry.go:12) from attempt [i] on, begun at [now]: attempt [j] is the last, the error
    returned is [r] (None for nil) and the time then is [t]. *)
Inductive tries (w : nat -> attempt) : nat -> backoff -> Z -> nat -> option string -> Z -> Prop :=
| TOk i b now : at_result (w i) = Success -> tries w i b now i None (now + at_takes (w i))
| TPermanent i b now e : at_result (w i) = Permanent e -> tries w i b now i (Some e) (now + at_takes (w i))
| TStop i b now e : at_result (w i) = Failed e -> fst (next_backoff b (now + at_takes (w i)) (at_draw (w i))) = None ->
    tries w i b now i (Some e) (now + at_takes (w i))
| TAgain i b now e d j r t : at_result (w i) = Failed e -> fst (next_backoff b (now + at_takes (w i)) (at_draw (w i))) = Some d ->
    tries w (S i) (snd (next_backoff b (now + at_takes (w i)) (at_draw (w i)))) (now + at_takes (w i) + d + at_late (w i)) j r t -> tries w i b now j r t.
(** internal/retry/retry.go:9-13, Do, with a value [b] from the pool: get (15-19) resets it, and so does backoff.Retry. *)
Definition do_with (b : backoff) (w : nat -> attempt) (now : Z) (j : nat) (r : option string) (t : Z) : Prop :=
  tries w 0 (restart (restart b now) now) now j r t.
(** internal/retry/retry.go:15-23 and 38, the pool: what get may hand out after any number of uses: a new value, or one that was put
    back, after whatever its use left in it. *)
Inductive pooled : backoff -> Prop :=
| PNew now : pooled (new_backoff now)
| PPut b : pooled (reset b).
