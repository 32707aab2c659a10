(** Quoted strings: double quotes around the text, in which what could be misread is replaced by an escape.  UTF-8 and
    the escapes are written down here from their own definitions (RFC 3629; the Go language specification). *)
From Verif.Model Require Import Base.
Open Scope N_scope.
Local Infix "^^" := append (right associativity, at level 60).

Definition byte (n : N) : string := String (ascii_of_N n) "".
(** Unicode scalar values: code points that are not surrogates. *)
Definition scalar (r : N) : Prop := r < 1114112 /\ ~ (55296 <= r <= 57343).
(** The k-th group of six bits, as a continuation byte. *)
Definition six (k r : N) : string := byte (N.lor 128 (N.land (N.shiftr r (6 * k)) 63)).
Definition utf8 (r : N) : string :=
  if r <=? 127 then byte r
  else if r <=? 2047 then byte (N.lor 192 (N.shiftr r 6)) ^^ six 0 r
  else if r <=? 65535 then byte (N.lor 224 (N.shiftr r 12)) ^^ six 1 r ^^ six 0 r
  else byte (N.lor 240 (N.shiftr r 18)) ^^ six 2 r ^^ six 1 r ^^ six 0 r.

(** Hexadecimal digits, and the last [n] digits of a number. *)
Definition hexdigit (d : N) : string := String (match String.get (N.to_nat d) "0123456789abcdef" with Some c => c | None => "0"%char end) "".
Fixpoint hexdigits (n : nat) (r : N) : string :=
  match n with O => "" | S m => hexdigits m (N.shiftr r 4) ^^ hexdigit (N.land r 15) end.

Section Quoting.
(** Whether a rune from 128 up is printable. *)
Context (is_print : N -> bool).
Definition printable (r : N) : Prop := 32 <= r <= 126 \/ (128 <= r /\ is_print r = true).
Definition named : list (N * string) := [(7, "\a"); (8, "\b"); (12, "\f"); (10, "\n"); (13, "\r"); (9, "\t"); (11, "\v"); (92, "\\"); (34, "\""")].
Inductive escape (r : N) : string -> Prop :=
| EscNamed t : In (r, t) named -> escape r t
| EscSelf : printable r -> ~ In r (map fst named) -> escape r (utf8 r)
| EscX : r < 128 -> ~ printable r -> ~ In r (map fst named) -> escape r ("\x" ^^ hexdigits 2 r)
| EscLittleU : 128 <= r -> r < 65536 -> ~ printable r -> escape r ("\u" ^^ hexdigits 4 r)
| EscBigU : 65536 <= r -> ~ printable r -> escape r ("\U" ^^ hexdigits 8 r).
(** Text is read scalar by scalar; a byte with which no scalar begins stands for itself. *)
Inductive quoted : string -> string -> Prop :=
| QEnd : quoted "" ""
| QScalar r e s t : scalar r -> escape r e -> quoted s t -> quoted (utf8 r ^^ s) (e ^^ t)
| QByte c s t : (forall r s', scalar r -> String c s <> utf8 r ^^ s') -> quoted s t -> quoted (String c s) ("\x" ^^ hexdigits 2 (N_of_ascii c) ^^ t).
End Quoting.

(** The number of characters of a text: its scalars, and the bytes that belong to none. *)
Inductive characters : string -> nat -> Prop :=
| ChEnd : characters "" 0
| ChScalar r s n : scalar r -> characters s n -> characters (utf8 r ^^ s) (S n)
| ChByte c s n : (forall r s', scalar r -> String c s <> utf8 r ^^ s') -> characters s n -> characters (String c s) (S n).
