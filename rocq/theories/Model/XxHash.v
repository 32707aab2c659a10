(** github.com/cespare/xxhash/v2 v2.2.0 (external): XXH64, from its published definition, as a function of
    the four initial accumulators.  [Sum64], [Sum64String] and a Digest that was Reset start from
    [acc_reset]; a Digest variable that was never Reset starts from [acc_zero] (internal/visit/visit.go:163-169).  A
    Digest fed in several writes hashes the concatenation. *)
From Verif.Model Require Import Base.

(** External, github.com/cespare/xxhash/v2 v2.2.0 (called at internal/visit/visit.go:163-169 and internal/commands/query/query.go:79): prime1. *)
Definition xp1 : N := 11400714785074694791.
(** External, github.com/cespare/xxhash/v2 v2.2.0 (called at internal/visit/visit.go:163-169 and internal/commands/query/query.go:79): prime2. *)
Definition xp2 : N := 14029467366897019727.
(** External, github.com/cespare/xxhash/v2 v2.2.0 (called at internal/visit/visit.go:163-169 and internal/commands/query/query.go:79): prime3. *)
Definition xp3 : N := 1609587929392839161.
(** External, github.com/cespare/xxhash/v2 v2.2.0 (called at internal/visit/visit.go:163-169 and internal/commands/query/query.go:79): prime4. *)
Definition xp4 : N := 9650029242287828579.
(** External, github.com/cespare/xxhash/v2 v2.2.0 (called at internal/visit/visit.go:163-169 and internal/commands/query/query.go:79): prime5. *)
Definition xp5 : N := 2870177450012600261.
(** External, github.com/cespare/xxhash/v2 v2.2.0 (called at internal/visit/visit.go:163-169 and internal/commands/query/query.go:79): uint64 arithmetic. *)
Definition m64 (n : N) : N := N.land n (N.ones 64).
(** External, github.com/cespare/xxhash/v2 v2.2.0 (called at internal/visit/visit.go:163-169 and internal/commands/query/query.go:79): bits.RotateLeft64 by [k]. *)
Definition rol (k n : N) : N := N.lor (m64 (N.shiftl n k)) (N.shiftr n (64 - k)).
(** External, github.com/cespare/xxhash/v2 v2.2.0 (called at internal/visit/visit.go:163-169 and internal/commands/query/query.go:79): uint64 addition. *)
Definition add64 (a b : N) : N := m64 (a + b).
(** External, github.com/cespare/xxhash/v2 v2.2.0 (called at internal/visit/visit.go:163-169 and internal/commands/query/query.go:79): uint64 multiplication. *)
Definition mul64 (a b : N) : N := m64 (a * b).
(** External, github.com/cespare/xxhash/v2 v2.2.0 (called at internal/visit/visit.go:163-169 and internal/commands/query/query.go:79): round. *)
Definition round (acc input : N) : N := mul64 (rol 31 (add64 acc (mul64 input xp2))) xp1.
(** External, github.com/cespare/xxhash/v2 v2.2.0 (called at internal/visit/visit.go:163-169 and internal/commands/query/query.go:79): mergeRound. *)
Definition merge_round (acc v : N) : N := add64 (mul64 (N.lxor acc (round 0 v)) xp1) xp4.

(** External, github.com/cespare/xxhash/v2 v2.2.0 (called at internal/visit/visit.go:163-169 and internal/commands/query/query.go:79): the four accumulators. *)
Record acc4 := Acc { a1 : N; a2 : N; a3 : N; a4 : N }.
(** External, github.com/cespare/xxhash/v2 v2.2.0 (called at internal/visit/visit.go:163-169 and internal/commands/query/query.go:79): the accumulators after Reset. *)
Definition acc_reset : acc4 := Acc (add64 xp1 xp2) xp2 0 (m64 (two64 - xp1)).
(** External, github.com/cespare/xxhash/v2 v2.2.0 (called at internal/visit/visit.go:163-169 and internal/commands/query/query.go:79): the accumulators of a Digest that was never Reset. *)
Definition acc_zero : acc4 := Acc 0 0 0 0.

(** External, github.com/cespare/xxhash/v2 v2.2.0 (called at internal/visit/visit.go:163-169 and internal/commands/query/query.go:79): little endian numbers. *)
Fixpoint le_val (l : list N) : N := match l with [] => 0 | b :: t => b + 256 * le_val t end.
(** External, github.com/cespare/xxhash/v2 v2.2.0 (called at internal/visit/visit.go:163-169 and internal/commands/query/query.go:79): the bytes of a string. *)
Fixpoint bytes_of (s : string) : list N := match s with EmptyString => [] | String c t => N_of_ascii c :: bytes_of t end.

(** External, github.com/cespare/xxhash/v2 v2.2.0 (called at internal/visit/visit.go:163-169 and internal/commands/query/query.go:79): writeBlocks, whole 32 byte stripes; [fuel] bounds their number. *)
Fixpoint stripes (fuel : nat) (a : acc4) (l : list N) : acc4 * list N :=
  match fuel with
  | O => (a, l)
  | S f => if Nat.leb 32 (List.length l) then
             stripes f (Acc (round (a1 a) (le_val (firstn 8 l))) (round (a2 a) (le_val (firstn 8 (skipn 8 l))))
                            (round (a3 a) (le_val (firstn 8 (skipn 16 l)))) (round (a4 a) (le_val (firstn 8 (skipn 24 l))))) (skipn 32 l)
           else (a, l)
  end.
(** External, github.com/cespare/xxhash/v2 v2.2.0 (called at internal/visit/visit.go:163-169 and internal/commands/query/query.go:79): the tail in steps of 8 bytes. *)
Fixpoint tail8 (fuel : nat) (h : N) (l : list N) : N * list N :=
  match fuel with
  | O => (h, l)
  | S f => if Nat.leb 8 (List.length l) then
             tail8 f (add64 (mul64 (rol 27 (N.lxor h (round 0 (le_val (firstn 8 l))))) xp1) xp4) (skipn 8 l)
           else (h, l)
  end.
(** External, github.com/cespare/xxhash/v2 v2.2.0 (called at internal/visit/visit.go:163-169 and internal/commands/query/query.go:79): the tail, 4 bytes. *)
Definition tail4 (h : N) (l : list N) : N * list N :=
  if Nat.leb 4 (List.length l) then (add64 (mul64 (rol 23 (N.lxor h (mul64 (le_val (firstn 4 l)) xp1))) xp2) xp3, skipn 4 l) else (h, l).
(** External, github.com/cespare/xxhash/v2 v2.2.0 (called at internal/visit/visit.go:163-169 and internal/commands/query/query.go:79): the tail, single bytes. *)
Definition tail1 (h : N) (l : list N) : N :=
  fold_left (fun h b => mul64 (rol 11 (N.lxor h (mul64 b xp5))) xp1) l h.
(** External, github.com/cespare/xxhash/v2 v2.2.0 (called at internal/visit/visit.go:163-169 and internal/commands/query/query.go:79): the final mix. *)
Definition avalanche (h : N) : N :=
  let h := mul64 (N.lxor h (N.shiftr h 33)) xp2 in
  let h := mul64 (N.lxor h (N.shiftr h 29)) xp3 in
  N.lxor h (N.shiftr h 32).

(** External, github.com/cespare/xxhash/v2 v2.2.0 (called at internal/visit/visit.go:163-169 and internal/commands/query/query.go:79): the hash from given accumulators. *)
Definition xxh64_from (a : acc4) (s : string) : N :=
  let l := bytes_of s in
  let n := List.length l in
  let '(h, rest) :=
    if Nat.leb 32 n then
      let '(b, rest) := stripes n a l in
      let h := m64 (rol 1 (a1 b) + rol 7 (a2 b) + rol 12 (a3 b) + rol 18 (a4 b)) in
      (merge_round (merge_round (merge_round (merge_round h (a1 b)) (a2 b)) (a3 b)) (a4 b), rest)
    else (add64 (a3 a) xp5, l) in
  let h := add64 h (N.of_nat n) in
  let '(h, rest) := tail8 n h rest in
  let '(h, rest) := tail4 h rest in
  avalanche (tail1 h rest).
(** External, github.com/cespare/xxhash/v2 v2.2.0 (called at internal/visit/visit.go:163-169 and internal/commands/query/query.go:79): Sum64 and Sum64String. *)
Definition xxh64 : string -> N := xxh64_from acc_reset.
(** External, github.com/cespare/xxhash/v2 v2.2.0 (called at internal/visit/visit.go:163-169 and internal/commands/query/query.go:79): Sum64 of a Digest that was not Reset. *)
Definition xxh64_zero : string -> N := xxh64_from acc_zero.
