(** Time zones that change their offset (daylight saving), for the calendar windows of a query script
    (internal/js/scan.go:117-143; the command line's clock is the machine's local time, internal/commands/query/query.go:73). *)
From Verif.Model Require Import Base Labels Calendar View Store ScanBuilder.
Open Scope Z_scope.

(** External, time.Location (of the time.Now given at internal/commands/query/query.go:73): the offset before the first change, then every
    change with the offset that holds from it on.  Simplification: changes computed from a zone's rule are listed like the others;
    nanoseconds instead of seconds (all changes are whole seconds). *)
Record zone := Zone { z_first : Z; z_changes : list (Z * Z) }.
(** External, Location.lookup (used by Time.Date and time.Date, called at internal/js/scan.go:117-143): the offset, and the first and
    past-the-end instants it holds for (None: no bound). *)
Fixpoint lookup_from (o : Z) (start : option Z) (l : list (Z * Z)) (u : Z) : Z * option Z * option Z :=
  match l with
  | [] => (o, start, None)
  | (T, o') :: l' => if u <? T then (o, start, Some T) else lookup_from o' (Some T) l' u
  end.
(** External, Location.lookup (used by Time.Date and time.Date, called at internal/js/scan.go:117-143). *)
Definition lookup (z : zone) (u : Z) : Z * option Z * option Z := lookup_from (z_first z) None (z_changes z) u.
(** External, Location.lookup (used by Time.Date, called at internal/js/scan.go:117-143): the offset alone. *)
Definition offset_at (z : zone) (u : Z) : Z := fst (fst (lookup z u)).
(** External, Time.abs (used by Time.Date, called at internal/js/scan.go:117-143): what a clock in the zone shows, as nanoseconds
    since it showed 1 January 1970, 00:00. *)
Definition shows (z : zone) (u : Z) : Z := u + offset_at z u.
(** External, time.Date, src/time/time.go of go 1.22 (called at internal/js/scan.go:117-143 through jinzhu/now): the instant at which a
    clock in the zone shows [L]: the offset in force at [L] read as UTC, or, if it is not in force at the instant found with it, the
    one in force there. *)
Definition date_in (z : zone) (L : Z) : Z :=
  let '(offset, start, stop) := lookup z L in
  if offset =? 0 then L
  else
    let utc := L - offset in
    let outside := match start with Some s => utc <? s | None => false end || match stop with Some e => e <=? utc | None => false end in
    L - (if outside then offset_at z utc else offset).

(** External, github.com/jinzhu/now v1.1.5 (called at internal/js/scan.go:117-143): the day a clock in the zone shows. *)
Definition day_in (z : zone) (u : Z) : Z := day_of (shows z u).
(** External, github.com/jinzhu/now v1.1.5, BeginningOfDay (called at internal/js/scan.go:120). *)
Definition beginning_of_day_in (z : zone) (u : Z) : Z := date_in z (day_in z u * ns_day).
(** External, github.com/jinzhu/now v1.1.5, BeginningOfWeek (called at internal/js/scan.go:127): AddDate on the beginning of the day,
    which keeps what its clock shows. *)
Definition beginning_of_week_in (z : zone) (u : Z) : Z :=
  let shown := shows z (beginning_of_day_in z u) in
  date_in z (shown - weekday (day_of shown) * ns_day).
(** External, github.com/jinzhu/now v1.1.5, BeginningOfMonth (called at internal/js/scan.go:134). *)
Definition beginning_of_month_in (z : zone) (u : Z) : Z :=
  let '(y, m, _) := date_of_day (day_in z u) in date_in z (day_of_civil y m 1 * ns_day).
(** External, github.com/jinzhu/now v1.1.5, BeginningOfYear (called at internal/js/scan.go:141). *)
Definition beginning_of_year_in (z : zone) (u : Z) : Z :=
  let '(y, _, _) := date_of_day (day_in z u) in date_in z (day_of_civil y 1 1 * ns_day).

Section Builder.
  (** time.ParseDuration (Go standard library), as in [ScanBuilder]. *)
  Variable parse_duration : string -> option Z.
  Variable z : zone.
  (** internal/js/scan.go:30-153, one method call in a program whose zone is [z], when its clock reads [u]: calls other than the calendar
      windows do not look at the zone. *)
  Definition exec_in (s : scan) (u : Z) (x : call) : scan :=
    match x with
    | CToday => range_ts (beginning_of_day_in z u) u s
    | CThisWeek => range_ts (beginning_of_week_in z u) u s
    | CThisMonth => range_ts (beginning_of_month_in z u) u s
    | CThisYear => range_ts (beginning_of_year_in z u) u s
    | _ => fst (exec parse_duration s (Clock u 0) x)
    end.
  (** internal/js/scan.go:30-153, the calls of a script in turn. *)
  Definition run_in (s : scan) (l : list (Z * call)) : scan := fold_left (fun s cx => exec_in s (fst cx) (snd cx)) l s.
  (** internal/js/scan.go:21-28, Create, then the calls of the script. *)
  Definition build_scan_in (resource : string) (l : list (Z * call)) : scan := run_in (create resource) l.
End Builder.
