(** Clocks in zones that change their offset, and the windows of time a query script asks for on such a clock. *)
From Verif.Model Require Import Base ScanBuilder Zone.
From Verif.Spec Require Import Gregorian Scripts.
Open Scope Z_scope.
Definition a_day : Z := 24 * 3600 * 1000000000.

(** The offset in force at an instant is that of the last change at or before it. *)
Definition in_force (z : zone) (u o : Z) : Prop :=
  (exists T, In (T, o) (z_changes z) /\ T <= u /\ forall T' o', In (T', o') (z_changes z) -> T' <= u -> T' <= T) \/
  (o = z_first z /\ forall T o', In (T, o') (z_changes z) -> u < T).
(** What the clock on the wall shows at an instant, as nanoseconds since it showed 1 January 1970, 00:00. *)
Definition wall_shows (z : zone) (u L : Z) : Prop := exists o, in_force z u o /\ L = u + o.

(** A change at [T] from offset [o] to [o'] within one day: what the clock shows before and after the jump lies after one and the
    same midnight, and not after the next. *)
Definition within_a_day (T o o' : Z) : Prop :=
  exists day, day * a_day < T + o <= (day + 1) * a_day /\ day * a_day < T + o' <= (day + 1) * a_day.
(** A change at [T], at midnight in a zone at or east of Greenwich, that skips this midnight (Amman, Beirut, Cairo). *)
Definition skips_midnight (T o o' : Z) : Prop := 0 <= o < o' /\ exists day, T + o = day * a_day /\ T + o' <= (day + 1) * a_day.
(** Zones whose offsets are less than a day, whose changes are at least two days apart, none of which repeats a midnight, and none of which skips
    a midnight in any other way. *)
Fixpoint orderly_from (o : Z) (l : list (Z * Z)) : Prop :=
  match l with
  | [] => True
  | (T, o') :: l' => (within_a_day T o o' \/ skips_midnight T o o') /\ - a_day < o' < a_day /\ match l' with (T', _) :: _ => T + 2 * a_day <= T' | [] => True end /\ orderly_from o' l'
  end.
Definition orderly (z : zone) : Prop := - a_day < z_first z < a_day /\ orderly_from (z_first z) (z_changes z).

(** The day shown at [u] begins with a midnight that is shown at some instant. *)
Definition midnight_shown (z : zone) (u : Z) : Prop := exists i a, wall_shows z u a /\ wall_shows z i (a / a_day * a_day).

Section Windows.
  Variable parse_duration : string -> option Z.
  Variable f : Z -> Z * Z * Z.
  Variable z : zone.
  (** What the wall shows at both instants, compared. *)
  Definition both_show (same : Z -> Z -> Prop) (t u : Z) : Prop := exists a b, wall_shows z t a /\ wall_shows z u b /\ same (a / a_day) (b / a_day).
  (** [asks_window_in u x t]: call [x], made at instant [u] in the zone, asks for a window, and instant [t] is in it. *)
  Definition asks_window_in (u : Z) (x : call) (t : Z) : Prop :=
    match x with
    | CTimeRange from to_ => from * 1000000 <= t <= to_ * 1000000
    | CToday => t <= u /\ both_show (fun d e => f d = f e) t u
    | CThisWeek => t <= u /\ both_show (fun d e => (d - 3) / 7 = (e - 3) / 7) t u
    | CThisMonth => t <= u /\ both_show (fun d e => year (f d) = year (f e) /\ month (f d) = month (f e)) t u
    | CThisYear => t <= u /\ both_show (fun d e => year (f d) = year (f e)) t u
    | CAgo d => exists ns, parse_duration d = Some ns /\ u - ns <= t <= u
    | _ => False
    end.
End Windows.
