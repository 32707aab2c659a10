(** What a query script asks for when the clock of its machine has daylight saving. *)
From Verif.Model Require Import Base Otlp Duration ScanBuilder Script Zone.
From Verif.Spec Require Import Gregorian Scripts Zones Indexing Trim Asked Limits.
Open Scope Z_scope.

(** [in_window_in f z u m t]: [m], called at instant [u], asks for instants like [t]: before [u], and of the day, week (from Sunday),
    month or year that the clock on the wall shows at [u], or the given time back. *)
Definition in_window_in (f : Z -> Z * Z * Z) (z : zone) (u : Z) (m : method) (t : Z) : Prop :=
  t < u /\
  match m with
  | Latest => u - 15 * 60 * 1000000000 <= t
  | Today => both_show z (fun d e => f d = f e) t u
  | ThisWeek => both_show z (fun d e => (d - 3) / 7 = (e - 3) / 7) t u
  | ThisMonth => both_show z (fun d e => year_month (f d) = year_month (f e)) t u
  | ThisYear => both_show z (fun d e => the_year (f d) = the_year (f e)) t u
  | Ago d => exists ns, parse_duration d = Some ns /\ u - ns <= t
  | _ => False
  end.
Definition calendar_window (m : method) : Prop := match m with Today | ThisWeek | ThisMonth | ThisYear => True | _ => False end.
(** The script runs before 2262, the days, weeks, months and years it asks for are not before 1970, and it asks for the week on a day whose
    midnight is not skipped. *)
Definition in_our_time (f : Z -> Z * Z * Z) (z : zone) (l : list (Z * method)) : Prop :=
  forall u m, In (u, m) l -> 0 <= u < 2 ^ 63 /\ (calendar_window m -> forall t, in_window_in f z u m t -> 0 <= t) /\ (m = ThisWeek -> midnight_shown z u).
(** The window of [m] begins at [t0]. *)
Definition begins_in (f : Z -> Z * Z * Z) (z : zone) (u : Z) (m : method) (t0 : Z) : Prop :=
  t0 <= u /\ forall t, t0 <= t < u <-> in_window_in f z u m t.
(** The script as its methods alone read. *)
Definition plainly (l : list (Z * method)) : list (clock * method) := map (fun um => (Clock (fst um) 0, snd um)) l.
Definition asked_for_in (f : Z -> Z * Z * Z) (z : zone) (u : Z) (w : method) (k : class) (l : list (Z * method)) (e : entry) : Prop :=
  (forall m, In m (said k (plainly l)) -> says m e) /\ in_window_in f z u w (record_time (snd e)).
