(** Durations as texts: an optional sign followed by terms like 15m, 1.5h or 300ms. *)
From Verif.Model Require Import Base.
Open Scope N_scope.

Local Infix "^^" := append (right associativity, at level 60).

(** Decimal digits, most significant first: the text and the number. *)
Definition decimal (l : list N) : string := fold_right (fun d s => String (ascii_of_N (48 + d)) s) "" l.
Definition number (l : list N) : N := fold_left (fun n d => 10 * n + d) l 0.

(** The unit names and their lengths in nanoseconds. *)
Inductive unit_ns : string -> N -> Prop :=
| U_ns : unit_ns "ns" 1
| U_us : unit_ns "us" 1000
| U_micro : unit_ns (String "194"%char (String "181"%char "s")) 1000
| U_mu : unit_ns (String "206"%char (String "188"%char "s")) 1000
| U_ms : unit_ns "ms" 1000000
| U_s : unit_ns "s" 1000000000
| U_m : unit_ns "m" 60000000000
| U_h : unit_ns "h" 3600000000000.

(** One term: the digits before the point, the digits behind it if there is a point, the unit and its length. *)
Record term := Term { t_whole : list N; t_frac : option (list N); t_unit : string; t_ns : N }.
Definition frac_digits (t : term) : list N := match t_frac t with Some l => l | None => [] end.
Definition term_text (t : term) : string :=
  decimal (t_whole t) ^^ (match t_frac t with Some l => "." ^^ decimal l | None => "" end) ^^ t_unit t.
(** At least one digit, digits are below ten, and the unit is known. *)
Definition term_ok (t : term) : Prop :=
  Forall (fun d => d < 10) (t_whole t) /\ Forall (fun d => d < 10) (frac_digits t) /\ (t_whole t <> [] \/ frac_digits t <> []) /\
  unit_ns (t_unit t) (t_ns t).

Definition terms_text (l : list term) : string := fold_right (fun t s => term_text t ^^ s) "" l.

(** The sign. *)
Inductive sign := Plus | Minus | NoSign.
Definition sign_text (s : sign) : string := match s with Plus => "+" | Minus => "-" | NoSign => "" end.
Definition signed (s : sign) (n : N) : Z := match s with Minus => - Z.of_N n | _ => Z.of_N n end.

(** What whole numbers of units add up to, in nanoseconds. *)
Definition whole_total (l : list term) : N := fold_right (fun t n => number (t_whole t) * t_ns t + n) 0 l.

(** With fractions of at most eighteen digits: in units of 10^-18 nanoseconds. *)
Definition exact_term (t : term) : N :=
  (number (t_whole t) * 10 ^ 18 + number (frac_digits t) * 10 ^ (18 - N.of_nat (List.length (frac_digits t)))) * t_ns t.
Definition exact_total (l : list term) : N := fold_right (fun t n => exact_term t + n) 0 l.
(** With longer fractions: in units of 10^-D nanoseconds, for any D that is at least the number of digits behind a point. *)
Definition scaled_term (D : nat) (t : term) : N :=
  (number (t_whole t) * 10 ^ N.of_nat D + number (frac_digits t) * 10 ^ (N.of_nat D - N.of_nat (List.length (frac_digits t)))) * t_ns t.
Definition scaled_total (D : nat) (l : list term) : N := fold_right (fun t n => scaled_term D t + n) 0 l.
(** The fraction is a whole number of nanoseconds by its number of digits (at most 3 for micro-, 6 for milliseconds, 9
    for seconds, 10 for minutes, 11 for hours). *)
Definition fits (t : term) : Prop := (10 ^ N.of_nat (List.length (frac_digits t)) | t_ns t).
