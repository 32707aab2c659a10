(** IEEE 754 binary64, by its 64 bits: one sign bit, eleven exponent bits, fifty-two fraction bits. *)
From Verif.Model Require Import Base.
Open Scope N_scope.

Definition exponent_field (b : N) : N := b / 2 ^ 52 mod 2 ^ 11.
Definition fraction_field (b : N) : N := b mod 2 ^ 52.
(** Neither an infinity nor not-a-number. *)
Definition finite (b : N) : Prop := b < 2 ^ 64 /\ exponent_field b < 2047.
(** 2^1074 times the absolute value (an integer: 2^-1074 is the smallest positive double), and signed. *)
Definition magnitude (b : N) : N := if exponent_field b =? 0 then fraction_field b else (2 ^ 52 + fraction_field b) * 2 ^ (exponent_field b - 1).
Definition scaled (b : N) : Z := if b <? 2 ^ 63 then Z.of_N (magnitude b) else (- Z.of_N (magnitude b))%Z.

(** [b] is the double nearest to the number [x] / 2^1074; of two equally near ones, the even one. *)
Definition nearest (b : N) (x : Z) : Prop :=
  finite b /\
  forall b', finite b' -> (Z.abs (scaled b - x) <= Z.abs (scaled b' - x))%Z /\
                          (Z.abs (scaled b - x) = Z.abs (scaled b' - x) -> scaled b' = scaled b \/ N.even b = true)%Z.
