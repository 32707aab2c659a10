(** Durations: the texts a query script passes to ago() and offset() (internal/js/scan.go:45-52, 145-153, which call
    time.ParseDuration) and the texts the renderer prints for metrics with a time unit (internal/render/unit.go:10-27,
    which calls time.Duration.String).
    Both are functions of the Go standard library (go 1.22, time/format.go and time/time.go); they are modelled here
    statement by statement. Doubles are the numbers of Coq.Floats.SpecFloat with 53 bit mantissas and 11 bit exponents
    (IEEE 754 binary64, round to nearest even), which is what the Go language prescribes for float64. *)
From Coq Require Import Floats.SpecFloat.
From Verif.Model Require Import Base.
Open Scope N_scope.

Local Infix "^^" := append (right associativity, at level 60).

(** External, conversion of an integer to float64 (Go specification; used by time.ParseDuration, called at internal/js/scan.go:46, 146). *)
Definition f64_of_Z (z : Z) : spec_float := binary_normalize 53 1024 z 0 false.
(** External, product of float64 values (Go specification); internal/render/unit.go:13-21. *)
Definition f64_mul : spec_float -> spec_float -> spec_float := SFmul 53 1024.
(** External, quotient of float64 values (Go specification). *)
Definition f64_div : spec_float -> spec_float -> spec_float := SFdiv 53 1024.
(** External, conversion of a float64 to an integer: truncated towards zero (Go specification; internal/render/unit.go:13-21); None: not a number or infinite. *)
Definition f64_trunc (x : spec_float) : option Z :=
  match x with
  | S754_zero _ => Some 0%Z
  | S754_finite s m e => Some (cond_Zopp s (if (0 <=? e)%Z then Zpos m * 2 ^ e else Zpos m / 2 ^ (- e))%Z)
  | _ => None
  end.

(** External, src/time/time.go:597-604, for internal/render/unit.go:13-21. *)
Definition nanosecond : N := 1.
(** External, src/time/time.go:597-604. *)
Definition microsecond : N := 1000.
(** External, src/time/time.go:597-604. *)
Definition millisecond : N := 1000000.
(** External, src/time/time.go:597-604. *)
Definition second : N := 1000000000.
(** External, src/time/time.go:597-604. *)
Definition minute : N := 60 * second.
(** External, src/time/time.go:597-604. *)
Definition hour : N := 60 * minute.

(** External, the test '0' <= c and c <= '9' of src/time/format.go. *)
Definition is_digit (c : ascii) : bool := let n := N_of_ascii c in (48 <=? n) && (n <=? 57).
(** External, uint64(c) - '0' in src/time/format.go leadingInt. *)
Definition digit_val (c : ascii) : N := N_of_ascii c - 48.
(** External, byte(v%10) + '0' in src/time/time.go fmtInt and fmtFrac. *)
Definition digit_char (n : N) : ascii := ascii_of_N (48 + n).

(** External, src/time/format.go leadingInt: the value of the leading digits and the rest; None: larger than 2^63. *)
Fixpoint leading_int (x : N) (s : string) : option (N * string) :=
  match s with
  | String c t =>
      if is_digit c then
        if 2 ^ 63 / 10 <? x then None
        else let y := x * 10 + digit_val c in if 2 ^ 63 <? y then None else leading_int y t
      else Some (x, s)
  | EmptyString => Some (x, s)
  end.

(** External, src/time/format.go leadingFraction: the digits read, the power of ten they are divided by, and the rest. *)
Fixpoint leading_fraction (x : N) (scale : spec_float) (overflow : bool) (s : string) : N * spec_float * string :=
  match s with
  | String c t =>
      if is_digit c then
        if overflow then leading_fraction x scale overflow t
        else if (2 ^ 63 - 1) / 10 <? x then leading_fraction x scale true t
        else let y := x * 10 + digit_val c in
             if 2 ^ 63 <? y then leading_fraction x scale true t
             else leading_fraction y (f64_mul scale (f64_of_Z 10)) false t
      else (x, scale, s)
  | EmptyString => (x, scale, s)
  end.

(** External, src/time/format.go unitMap: the first spelling of "micro", U+00B5 (bytes C2 B5). *)
Definition micro_sign : string := String "194"%char (String "181"%char "").
(** External, src/time/format.go unitMap: the second spelling of "micro", U+03BC (bytes CE BC). *)
Definition greek_mu : string := String "206"%char (String "188"%char "").
(** External, src/time/format.go unitMap. *)
Definition unit_map : list (string * N) :=
  [("ns", nanosecond); ("us", microsecond); (micro_sign ^^ "s", microsecond); (greek_mu ^^ "s", microsecond);
   ("ms", millisecond); ("s", second); ("m", minute); ("h", hour)].
(** External, src/time/format.go ParseDuration: unit, ok := unitMap[u]. *)
Definition lookup_unit (u : string) : option N := aget String.eqb u unit_map.

(** External, src/time/format.go ParseDuration: the unit is everything up to the next digit or point. *)
Fixpoint take_unit (s : string) : string * string :=
  match s with
  | String c t => if Ascii.eqb c "." || is_digit c then ("", s) else let '(u, r) := take_unit t in (String c u, r)
  | EmptyString => ("", "")
  end.

(** External, src/time/format.go ParseDuration: uint64(float64(f) * (float64(unit) / scale)). A value outside of uint64 does not occur (the product is at most the unit); it would be taken as 0. *)
Definition fraction_ns (f unit : N) (scale : spec_float) : N :=
  match f64_trunc (f64_mul (f64_of_Z (Z.of_N f)) (f64_div (f64_of_Z (Z.of_N unit)) scale)) with
  | Some z => Z.to_N z
  | None => 0
  end.

(** External, one round of the loop of src/time/format.go ParseDuration: the new sum and the rest; None: an error. *)
Definition parse_term (d : N) (s : string) : option (N * string) :=
  match s with
  | EmptyString => None
  | String c _ =>
      if Ascii.eqb c "." || is_digit c then
        match leading_int 0 s with
        | None => None
        | Some (v, s1) =>
            let pre := negb (String.length s =? String.length s1)%nat in
            let '(f, scale, s2, post) :=
              match s1 with
              | String "." t => let '(f, scale, r) := leading_fraction 0 (f64_of_Z 1) false t in
                                (f, scale, r, negb (String.length t =? String.length r)%nat)
              | _ => (0, f64_of_Z 1, s1, false)
              end in
            if negb pre && negb post then None
            else let '(u, s3) := take_unit s2 in
                 match u with
                 | EmptyString => None
                 | _ =>
                     match lookup_unit u with
                     | None => None
                     | Some unit =>
                         if 2 ^ 63 / unit <? v then None
                         else
                           let v1 := v * unit in
                           let v2 := if 0 <? f then (v1 + fraction_ns f unit scale) mod 2 ^ 64 else v1 in
                           if (0 <? f) && (2 ^ 63 <? v2) then None
                           else let d1 := (d + v2) mod 2 ^ 64 in
                                if 2 ^ 63 <? d1 then None else Some (d1, s3)
                     end
                 end
        end
      else None
  end.
(** External, the loop of src/time/format.go ParseDuration; a round uses up at least one byte. *)
Fixpoint parse_loop (fuel : nat) (d : N) (s : string) : option N :=
  match s with
  | EmptyString => Some d
  | _ => match fuel with
         | O => None
         | S n => match parse_term d s with None => None | Some (d1, r) => parse_loop n d1 r end
         end
  end.
(** External, src/time/format.go ParseDuration, called at internal/js/scan.go:46 and 146: nanoseconds, or None for an error. *)
Definition parse_duration (s : string) : option Z :=
  let '(neg, t) := match s with
                   | String c t => if Ascii.eqb c "-" then (true, t) else if Ascii.eqb c "+" then (false, t) else (false, s)
                   | EmptyString => (false, s)
                   end in
  if String.eqb t "0" then Some 0%Z
  else if String.eqb t "" then None
  else match parse_loop (String.length t) 0 t with
       | None => None
       | Some d => if neg then Some (- Z.of_N d)%Z
                   else if 2 ^ 63 - 1 <? d then None else Some (Z.of_N d)
       end.

(** External, src/time/time.go fmtInt: the digits of [v] in front of what is already in the buffer. A uint64 has at most 20 digits. *)
Fixpoint fmt_digits (fuel : nat) (v : N) (tail : string) : string :=
  match fuel with
  | O => tail
  | S n => if v =? 0 then tail else fmt_digits n (v / 10) (String (digit_char (v mod 10)) tail)
  end.
(** External, src/time/time.go fmtInt. *)
Definition fmt_int (v : N) (tail : string) : string := if v =? 0 then String "0" tail else fmt_digits 20 v tail.
(** External, the loop of src/time/time.go fmtFrac: [prec] digits behind the point, trailing zeros left out; also the rest of the value. *)
Fixpoint fmt_frac_loop (prec : nat) (print : bool) (v : N) (tail : string) : bool * N * string :=
  match prec with
  | O => (print, v, tail)
  | S n => let digit := v mod 10 in
           let print1 := print || negb (digit =? 0) in
           fmt_frac_loop n print1 (v / 10) (if print1 then String (digit_char digit) tail else tail)
  end.
(** External, src/time/time.go fmtFrac. *)
Definition fmt_frac (prec : nat) (v : N) (tail : string) : N * string :=
  let '(print, v1, tail1) := fmt_frac_loop prec false v tail in (v1, if print then String "." tail1 else tail1).
(** External, src/time/time.go Duration.String (format) of an int64, called at internal/render/unit.go:13-21. *)
Definition duration_string (d : Z) : string :=
  let u := Z.to_N (Z.abs d) in
  let text :=
    if u <? second then
      if u =? 0 then "0s"
      else
        let '(prec, name) := if u <? microsecond then (0%nat, "ns")
                             else if u <? millisecond then (3%nat, micro_sign ^^ "s")
                             else (6%nat, "ms") in
        let '(w, t) := fmt_frac prec u name in fmt_int w t
    else
      let '(w, t) := fmt_frac 9 u "s" in
      let t1 := fmt_int (w mod 60) t in
      let m := w / 60 in
      if 0 <? m then
        let t2 := fmt_int (m mod 60) (String "m" t1) in
        let h := m / 60 in
        if 0 <? h then fmt_int h (String "h" t2) else t2
      else t1 in
  if (d <? 0)%Z then String "-" text else text.

(** internal/render/unit.go:10-27 formatUnit. The printed form of a float64 without a unit (fmt.Sprint) and of a number of bytes
    (humanize.IBytes, external) are parameters, and so is the result of converting a float64 outside of int64
    (Go leaves it to the platform). *)
Section FormatUnit.
  Variable sprint ibytes : spec_float -> string.
  Variable out_of_range : spec_float -> Z.
  (** External, conversion of a float64 to int64 (Go specification), as in internal/render/unit.go:13-21. *)
  Definition to_int64 (x : spec_float) : Z :=
    match f64_trunc x with
    | Some z => if ((- 2 ^ 63 <=? z) && (z <? 2 ^ 63))%Z then z else out_of_range x
    | None => out_of_range x
    end.
  (** internal/render/unit.go:13-21: time.Duration(value * float64(unit)).String(). *)
  Definition unit_duration (value : spec_float) (unit : N) : string :=
    duration_string (to_int64 (f64_mul value (f64_of_Z (Z.of_N unit)))).
  (** internal/render/unit.go:10-27, formatUnit. *)
  Definition format_unit (value : spec_float) (unit : string) : string :=
    if String.eqb unit "h" then unit_duration value hour
    else if String.eqb unit "m" then unit_duration value minute
    else if String.eqb unit "s" then unit_duration value second
    else if String.eqb unit "ms" then unit_duration value millisecond
    else if String.eqb unit "ns" then unit_duration value nanosecond
    else if String.eqb unit "By" then ibytes value
    else sprint value.
End FormatUnit.
