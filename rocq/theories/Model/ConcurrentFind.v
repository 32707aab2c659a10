(** internal/translate/translate.go:122-135, Find, called by any number of goroutines at once (every scan
    looks its labels up in a goroutine of the gRPC server) while the flush loop stores new labels.  Each
    call first does [append(b.keys, key...)] on the shared slice, then reads the key it built inside the
    transaction; the calls interleave between these two steps. *)
From Verif.Model Require Import Base KV Slice Sequence Translate.

(** internal/translate/translate.go:122-135: [f_key i] is the key slice call [i] has built (124); [f_log] the answers: which call, the contents of the database it saw, and the answer. *)
Record finds := Finds { f_heap : heap; f_db : kv; f_key : nat -> option slice; f_log : list (nat * kv * option N) }.
Section Finds.
Context (grow : nat -> nat) (keys : slice) (asked : nat -> string).
(** internal/translate/translate.go:124, the local variable k of one call. *)
Definition set_key (f : nat -> option slice) (i : nat) (s : slice) : nat -> option slice := fun j => if Nat.eqb j i then Some s else f j.
(** internal/translate/translate.go:124 (append to the shared slice) and 125-132 (Get and decode), or another transaction commits in between. *)
Inductive find_step : finds -> finds -> Prop :=
| find_append m i h s : f_key m i = None -> sappend grow (f_heap m) keys (asked i) = (h, s) ->
    find_step m (Finds h (f_db m) (set_key (f_key m) i s) (f_log m))
| find_get m i s : f_key m i = Some s ->
    find_step m (Finds (f_heap m) (f_db m) (f_key m) (f_log m ++ [(i, f_db m, option_map be_val (kvget (sread (f_heap m) s) (f_db m)))]))
| find_other m d : find_step m (Finds (f_heap m) d (f_key m) (f_log m)). (* another transaction commits *)

(** Any interleaving of calls of internal/translate/translate.go:122-135. *)
Inductive find_steps : finds -> finds -> Prop :=
| finds_none m : find_steps m m
| finds_more m m' m'' : find_steps m m' -> find_step m' m'' -> find_steps m m''.
End Finds.
