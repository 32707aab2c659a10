(** Test vectors of XXH64 with seed 0, as published with the reference implementation and used by
    github.com/cespare/xxhash/v2 (xxhash_test.go); the last one is longer than a block of 32 bytes. *)
From Verif.Model Require Import Base XxHash.
Open Scope N_scope.

Theorem XXH64_published_vectors :
  xxh64 "" = 17241709254077376921 /\ xxh64 "a" = 15154266338359012955 /\ xxh64 "as" = 2031985117650215289 /\
  xxh64 "asd" = 7141644468929262483 /\ xxh64 "asdf" = 4708639809588864798 /\
  xxh64 "Call me Ishmael. Some years ago--never mind how long precisely-" = 189969583671016854.
Proof. vm_compute. repeat split. Qed.
