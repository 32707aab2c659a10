(** The part of Go's [time] package (go1.22) used by the server, on UTC instants given as
    nanoseconds since the Unix epoch. *)
From Verif.Model Require Import Base.
Open Scope Z_scope.

(** External, time.Hour in nanoseconds. *)
Definition ns_hour : Z := 3600 * 1000000000.
(** External, twenty-four hours; internal/view/view.go:24-34 spells it 24 * time.Hour. *)
Definition ns_day : Z := 24 * ns_hour.

(** External, src/time/time.go isLeap. *)
Definition is_leap (y : Z) : bool :=
  (y mod 4 =? 0) && (negb (y mod 100 =? 0) || (y mod 400 =? 0)).

(** External, src/time/time.go daysBefore[m], 0 <= m <= 12: days before month m+1 in a common year. *)
Definition days_before (m : Z) : Z :=
  nth (Z.to_nat m) [0; 31; 59; 90; 120; 151; 181; 212; 243; 273; 304; 334; 365] 0.

(** External, src/time/time.go absDate, first half: (year, day of the year) of a day number counted from 1 January of year 1.  Go counts from an earlier year 1 modulo 400, which makes all quotients non-negative; floor division gives the same result for every day. *)
Definition abs_year (d0 : Z) : Z * Z :=
  let n400 := d0 / 146097 in
  let d1 := d0 - 146097 * n400 in
  let c := d1 / 36524 in
  let n100 := c - c / 4 in
  let d2 := d1 - 36524 * n100 in
  let n4 := d2 / 1461 in
  let d3 := d2 - 1461 * n4 in
  let k := d3 / 365 in
  let n1 := k - k / 4 in
  (400 * n400 + 100 * n100 + 4 * n4 + n1 + 1, d3 - 365 * n1).

(** External, src/time/time.go absDate, second half: (month, day) from the day of the year. *)
Definition abs_month (lp : bool) (yday : Z) : Z * Z :=
  if lp && (yday =? 59) then (2, 29)
  else
    let day := if lp && (59 <? yday) then yday - 1 else yday in
    let month := day / 31 in
    let fin := days_before (month + 1) in
    if fin <=? day then (month + 2, day - fin + 1)
    else (month + 1, day - days_before month + 1).

(** External, src/time/time.go unixToInternal: days from 1 January of year 1 to the Unix epoch. *)
Definition epoch_days : Z := 719162.

(** External, Time.Date of a day number (0 = 1 January 1970). *)
Definition date_of_day (n : Z) : Z * Z * Z :=
  let '(y, yday) := abs_year (n + epoch_days) in
  let '(m, d) := abs_month (is_leap y) yday in
  (y, m, d).

(** External, src/time/time.go absDate: the day of an instant. *)
Definition day_of (t : Z) : Z := t / ns_day.
(** External, Time.Date; called by Time.Format at internal/batch/time.go:44. *)
Definition date_of (t : Z) : Z * Z * Z := date_of_day (day_of t).
(** External, Time.Year. *)
Definition year_of (t : Z) : Z := let '(y, _, _) := date_of t in y.
(** External, Time.Month. *)
Definition month_of (t : Z) : Z := let '(_, m, _) := date_of t in m.
(** External, Time.Day. *)
Definition mday_of (t : Z) : Z := let '(_, _, d) := date_of t in d.
(** External, Time.Hour. *)
Definition hour_of (t : Z) : Z := (t mod ns_day) / ns_hour.

(** External, src/time/time.go daysSinceEpoch, relative to year 1. *)
Definition days_before_year (y : Z) : Z :=
  365 * (y - 1) + (y - 1) / 4 - (y - 1) / 100 + (y - 1) / 400.

(** External, src/time/time.go Date(year, month, day, ...): month overflow moves into the year, day overflow is linear. *)
Definition day_of_civil (y m d : Z) : Z :=
  let y' := y + (m - 1) / 12 in
  let m' := (m - 1) mod 12 in
  days_before_year y' + days_before m' + (if is_leap y' && (2 <=? m') then 1 else 0) + (d - 1) - epoch_days.

(** External, Time.AddDate; called by quantum.ViewsByTimeRange (internal/view/view.go:50-53). *)
Definition add_date (t dy dm dd : Z) : Z :=
  let '(y, m, d) := date_of t in
  day_of_civil (y + dy) (m + dm) (d + dd) * ns_day + t mod ns_day.

(** External, a decimal digit (src/time/format.go appendInt). *)
Definition digit (n : Z) : ascii := ascii_of_N (Z.to_N (48 + n)).
(** External, src/time/format.go appendInt with width 2, the fast path; beyond its range the digits are printed in full. *)
Definition append_int2 (x : Z) : string :=
  let u := Z.abs x in
  append (if x <? 0 then "-" else "")
   (if u <? 100 then String (digit (u / 10)) (String (digit (u mod 10)) "") else show_Z u).
(** External, src/time/format.go appendInt with width 4, the fast path; beyond its range the digits are printed in full. *)
Definition append_int4 (x : Z) : string :=
  let u := Z.abs x in
  append (if x <? 0 then "-" else "")
   (if u <? 10000 then
      String (digit (u / 1000)) (String (digit (u / 100 mod 10))
       (String (digit (u / 10 mod 10)) (String (digit (u mod 10)) "")))
    else show_Z u).

(** External, Time.Format with the layout "2006" (quantum, called at internal/batch/time.go:77-82 and internal/view/view.go:50-53). *)
Definition format_Y (t : Z) : string := append_int4 (year_of t).
(** External, Time.Format with the layout "200601". *)
Definition format_YM (t : Z) : string := append (format_Y t) (append_int2 (month_of t)).
(** External, Time.Format with the layout "20060102". *)
Definition format_YMD (t : Z) : string := append (format_YM t) (append_int2 (mday_of t)).
(** External, Time.Format with the layout "2006010215" (internal/batch/time.go:44). *)
Definition format_YMDH (t : Z) : string := append (format_YMD t) (append_int2 (hour_of t)).

(** External, math.MaxInt64, the largest time.Duration. *)
Definition max_int64 : Z := 2 ^ 63 - 1.
(** External, math.MinInt64, the smallest time.Duration. *)
Definition min_int64 : Z := - 2 ^ 63.
(** External, src/time/time.go: Time.Sub saturates at the int64 range. *)
Definition clamp64 (z : Z) : Z := Z.max min_int64 (Z.min max_int64 z).
(** External, Time.Sub; called at internal/view/view.go:51. *)
Definition time_sub (a b : Z) : Z := clamp64 (a - b).
