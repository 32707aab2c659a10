(** JSON texts (RFC 8259), without blanks between the tokens and with natural numbers only. *)
From Verif.Model Require Import Base.
From Verif.Spec Require Import Durations Quoting.
Open Scope N_scope.
Local Infix "^^" := append (right associativity, at level 60).

(** A hexadecimal digit in either case, and its value. *)
Definition hex_digit (t : string) (d : N) : Prop := d < 16 /\ (t = hexdigit d \/ (t = byte (55 + d) /\ 10 <= d)).
(** Escapes of one letter. *)
Definition short_escapes : list (string * N) :=
  [("""", 34); ("\", 92); ("/", 47); ("b", 8); ("f", 12); ("n", 10); ("r", 13); ("t", 9)].
(** One character: the text, and the Unicode scalar value it stands for.  (Pairs of surrogates are left out.) *)
Inductive character : string -> N -> Prop :=
| CharPlain r : scalar r -> 32 <= r -> r <> 34 -> r <> 92 -> character (utf8 r) r
| CharShort t r : In (t, r) short_escapes -> character ("\" ^^ t) r
| CharHex t1 t2 t3 t4 d1 d2 d3 d4 : hex_digit t1 d1 -> hex_digit t2 d2 -> hex_digit t3 d3 -> hex_digit t4 d4 ->
    scalar (4096 * d1 + 256 * d2 + 16 * d3 + d4) -> character ("\u" ^^ t1 ^^ t2 ^^ t3 ^^ t4) (4096 * d1 + 256 * d2 + 16 * d3 + d4).
Inductive chars : string -> list N -> Prop :=
| CharsEnd : chars "" []
| CharsOne c r t l : character c r -> chars t l -> chars (c ^^ t) (r :: l).
(** What a text says: a number, a string (as its Unicode scalar values), a list, or named parts in order. *)
Inductive json := JNumber (n : N) | JString (l : list N) | JList (l : list json) | JObject (l : list (list N * json)).
Fixpoint commas (l : list string) : string := match l with [] => "" | x :: t => match t with [] => x | _ => x ^^ "," ^^ commas t end end.
Inductive says_json : string -> json -> Prop :=
| SayNumber l : l <> [] -> Forall (fun d => d < 10) l -> (l = [0] \/ hd 0 l <> 0) -> says_json (decimal l) (JNumber (number l))
| SayString t l : chars t l -> says_json ("""" ^^ t ^^ """") (JString l)
| SayList ts vs : says_all ts vs -> says_json ("[" ^^ commas ts ^^ "]") (JList vs)
| SayObject ts vs : says_parts ts vs -> says_json ("{" ^^ commas ts ^^ "}") (JObject vs)
with says_all : list string -> list json -> Prop :=
| AllEnd : says_all [] []
| AllMore t v ts vs : says_json t v -> says_all ts vs -> says_all (t :: ts) (v :: vs)
with says_parts : list string -> list (list N * json) -> Prop :=
| PartsEnd : says_parts [] []
| PartsMore k l t v ts vs : chars k l -> says_json t v -> says_parts ts vs -> says_parts (("""" ^^ k ^^ """" ^^ ":" ^^ t) :: ts) ((l, v) :: vs).

(** The Unicode scalar values of a text; a byte with which none begins counts as U+FFFD. *)
Inductive scalars : string -> list N -> Prop :=
| ScEnd : scalars "" []
| ScOne r s l : scalar r -> scalars s l -> scalars (utf8 r ^^ s) (r :: l)
| ScStray c s l : (forall r s', scalar r -> String c s <> utf8 r ^^ s') -> scalars s l -> scalars (String c s) (65533 :: l).
(** Text that is UTF-8 throughout. *)
Definition is_utf8 (s : string) : Prop := exists l, Forall scalar l /\ s = fold_right (fun r t => utf8 r ^^ t) "" l.
(** An ASCII word as Unicode scalar values. *)
Definition word (s : string) : list N := map N_of_ascii (list_ascii_of_string s).
