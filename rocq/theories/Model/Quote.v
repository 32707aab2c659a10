(** strconv.Quote (Go standard library, go1.22 src/strconv/quote.go appendQuotedWith / appendEscapedRune), which
    fmt's "%q" applies to strings, and the UTF-8 decoding under it (src/unicode/utf8 DecodeRuneInString).
    No function of /repo: internal/render/attribute.go:24 calls it through fmt.Fprintf.
    Simplification: which runes from 128 up are printable (strconv.IsPrint, a table) is a parameter. *)
From Verif.Model Require Import Base.

(** External, called at internal/render/attribute.go:24: a byte by its number. *)
Definition chr (n : N) : ascii := ascii_of_N n.
(** External, called at internal/render/attribute.go:24: an interval of bytes. *)
Definition within (lo hi b : N) : bool := (lo <=? b) && (b <=? hi).

(** External, called at internal/render/attribute.go:24: what utf8.DecodeRuneInString takes off the front: a rune, or one byte that starts no well formed sequence. *)
Inductive piece := PRune (r : N) | PBad (b : N).

(** External, called at internal/render/attribute.go:24: utf8.DecodeRuneInString, the acceptRanges of the second byte of three. *)
Definition second3 (b c : N) : bool :=
  if b =? 224 then within 160 191 c else if b =? 237 then within 128 159 c else within 128 191 c.
(** External, called at internal/render/attribute.go:24: utf8.DecodeRuneInString, the acceptRanges of the second byte of four. *)
Definition second4 (b c : N) : bool :=
  if b =? 240 then within 144 191 c else if b =? 244 then within 128 143 c else within 128 191 c.
(** External, called at internal/render/attribute.go:24: utf8, a continuation byte. *)
Definition cont (c : N) : bool := within 128 191 c.

(** External, called at internal/render/attribute.go:24: utf8.DecodeRuneInString; [b] is the first byte and [s] what follows it. *)
Definition decode (b : N) (s : string) : piece * string :=
  if b <? 128 then (PRune b, s)
  else if within 194 223 b then
    match s with
    | String c1 t => let n1 := N_of_ascii c1 in
        if cont n1 then (PRune ((b - 192) * 64 + (n1 - 128)), t) else (PBad b, s)
    | _ => (PBad b, s)
    end
  else if within 224 239 b then
    match s with
    | String c1 (String c2 t) => let n1 := N_of_ascii c1 in let n2 := N_of_ascii c2 in
        if second3 b n1 && cont n2 then (PRune ((b - 224) * 4096 + (n1 - 128) * 64 + (n2 - 128)), t) else (PBad b, s)
    | _ => (PBad b, s)
    end
  else if within 240 244 b then
    match s with
    | String c1 (String c2 (String c3 t)) =>
        let n1 := N_of_ascii c1 in let n2 := N_of_ascii c2 in let n3 := N_of_ascii c3 in
        if second4 b n1 && cont n2 && cont n3
        then (PRune ((b - 240) * 262144 + (n1 - 128) * 4096 + (n2 - 128) * 64 + (n3 - 128)), t) else (PBad b, s)
    | _ => (PBad b, s)
    end
  else (PBad b, s).

(** External, called at internal/render/attribute.go:24: utf8.AppendRune. *)
Definition encode (r : N) : string :=
  if r <? 128 then String (chr r) ""
  else if r <? 2048 then String (chr (192 + r / 64)) (String (chr (128 + r mod 64)) "")
  else if r <? 65536 then
    String (chr (224 + r / 4096)) (String (chr (128 + r / 64 mod 64)) (String (chr (128 + r mod 64)) ""))
  else String (chr (240 + r / 262144)) (String (chr (128 + r / 4096 mod 64))
         (String (chr (128 + r / 64 mod 64)) (String (chr (128 + r mod 64)) ""))).

(** External, called at internal/render/attribute.go:24: strconv/quote.go lowerhex. *)
Definition lowerhex (d : N) : ascii := if d <? 10 then chr (48 + d) else chr (87 + d).
(** External, called at internal/render/attribute.go:24: strconv/quote.go: two hexadecimal digits. *)
Definition hex2 (b : N) : string := String (lowerhex (b / 16)) (String (lowerhex (b mod 16)) "").
(** External, called at internal/render/attribute.go:24: strconv/quote.go: four hexadecimal digits. *)
Definition hex4 (r : N) : string := append (hex2 (r / 256)) (hex2 (r mod 256)).
(** External, called at internal/render/attribute.go:24: strconv/quote.go: eight hexadecimal digits. *)
Definition hex8 (r : N) : string := append (hex4 (r / 65536)) (hex4 (r mod 65536)).

(** External, called at internal/render/attribute.go:24: the backslash. *)
Definition backslash : ascii := chr 92.
(** External, called at internal/render/attribute.go:24: the double quote. *)
Definition dquote : ascii := chr 34.

Section Quote.
(** strconv.IsPrint for runes from 128 up. *)
Context (is_print : N -> bool).

(** External, called at internal/render/attribute.go:24: strconv appendEscapedRune with the double quote, ASCIIonly and graphicOnly false. *)
Definition escaped_rune (r : N) : string :=
  if (r =? 34) || (r =? 92) then String backslash (String (chr r) "")
  else if (if r <? 128 then within 32 126 r else is_print r) then encode r
  else if r =? 7 then String backslash "a"
  else if r =? 8 then String backslash "b"
  else if r =? 12 then String backslash "f"
  else if r =? 10 then String backslash "n"
  else if r =? 13 then String backslash "r"
  else if r =? 9 then String backslash "t"
  else if r =? 11 then String backslash "v"
  else if (r <? 32) || (r =? 127) then String backslash (String "x" (hex2 r))
  else if r <? 65536 then String backslash (String "u" (hex4 r))
  else String backslash (String "U" (hex8 r)).

(** External, called at internal/render/attribute.go:24: one turn of the loop in strconv appendQuotedWith. *)
Definition quoted_piece (p : piece) : string :=
  match p with
  | PRune r => escaped_rune r
  | PBad b => String backslash (String "x" (hex2 b))
  end.

(** External, called at internal/render/attribute.go:24: the loop of strconv appendQuotedWith; every turn takes at least one byte, so the length of the string is enough fuel. *)
Fixpoint quoted_body (fuel : nat) (s : string) : string :=
  match fuel, s with
  | S f, String c t => let '(p, t') := decode (N_of_ascii c) t in append (quoted_piece p) (quoted_body f t')
  | _, _ => ""
  end.

(** External, called at internal/render/attribute.go:24: strconv.Quote. *)
Definition quote (s : string) : string :=
  String dquote (append (quoted_body (String.length s) s) (String dquote "")).
End Quote.
