(** A ten line definition of the Gregorian calendar, by its successor function.
    It shares nothing with the model of Go's date arithmetic. *)
From Coq Require Import ZArith Bool.
Open Scope Z_scope.

Definition leap (y : Z) : bool :=
  (y mod 4 =? 0) && (negb (y mod 100 =? 0) || (y mod 400 =? 0)).
Definition days_in_month (y m : Z) : Z :=
  if m =? 2 then (if leap y then 29 else 28)
  else if (m =? 4) || (m =? 6) || (m =? 9) || (m =? 11) then 30 else 31.
Definition valid_date (date : Z * Z * Z) : Prop :=
  let '(y, m, d) := date in 1 <= m <= 12 /\ 1 <= d <= days_in_month y m.
Definition next_date (date : Z * Z * Z) : Z * Z * Z :=
  let '(y, m, d) := date in
  if d <? days_in_month y m then (y, m, d + 1)
  else if m <? 12 then (y, m + 1, 1) else (y + 1, 1, 1).
(** A function from day numbers (0 = 1 January 1970) to dates is the calendar iff it is right at the
    epoch, yields valid dates, and advances by [next_date]. *)
Definition is_calendar (f : Z -> Z * Z * Z) : Prop :=
  f 0 = (1970, 1, 1) /\ forall n, valid_date (f n) /\ f (n + 1) = next_date (f n).
