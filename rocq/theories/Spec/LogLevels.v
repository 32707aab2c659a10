(** The log level a text asks for. *)
From Verif.Model Require Import Base.
From Verif.Spec Require Import Durations.
Open Scope Z_scope.
Local Infix "^^" := append (right associativity, at level 60).

(** [spells t w]: t is the capitals w in any case.  (Dotless i and long s have I and S as their capitals.) *)
Inductive spells : string -> string -> Prop :=
| SpNil : spells "" ""
| SpSame c t w : ~ (97 <= N_of_ascii c <= 122)%N -> spells t w -> spells (String c t) (String c w)
| SpSmall c t w : (65 <= N_of_ascii c <= 90)%N -> spells t w -> spells (String (ascii_of_N (N_of_ascii c + 32)) t) (String c w)
| SpDotless t w : spells t w -> spells (String "196" (String "177" t)) (String "I" w)
| SpLong t w : spells t w -> spells (String "197" (String "191" t)) (String "S" w).
(** The four severities and their numbers. *)
Inductive severity : string -> Z -> Prop :=
| Debug : severity "DEBUG" (-4) | Info : severity "INFO" 0 | Warn : severity "WARN" 4 | Error : severity "ERROR" 8.
(** A sign and digits, within the machine's integers. *)
Inductive offset_text : string -> Z -> Prop :=
| NoOffset : offset_text "" 0
| Plus l : l <> [] -> Forall (fun d => (d < 10)%N) l -> Z.of_N (number l) < 2 ^ 63 -> offset_text ("+" ^^ decimal l) (Z.of_N (number l))
| Minus l : l <> [] -> Forall (fun d => (d < 10)%N) l -> Z.of_N (number l) <= 2 ^ 63 -> offset_text ("-" ^^ decimal l) (- Z.of_N (number l)).
(** [asks t v]: t is a severity, in any case, perhaps with an offset; v is their sum. *)
Definition asks (t : string) (v : Z) : Prop := exists name w b rest o, t = name ^^ rest /\ spells name w /\ severity w b /\ offset_text rest o /\ v = b + o.
