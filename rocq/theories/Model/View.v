(** Views: internal/batch/time.go, internal/view/view.go, internal/x/x.go and the quantum package they call. *)
From Verif.Model Require Import Base Calendar KeySpace.
Open Scope Z_scope.

(** External, the builtin copy(dst, src) on byte slices (internal/batch/time.go:43-45). *)
Definition copy_into (dst src : string) : string :=
  append (substring 0 (String.length dst) src)
         (substring (String.length src) (String.length dst - String.length src) dst).

(** internal/batch/time.go:16-18, QuantizedTime: ten bytes, as found in the pool. *)
Definition quantized_time := string.
(** internal/batch/time.go:20-22: a new QuantizedTime. *)
Definition zero_qt : quantized_time :=
  let z := ascii_of_N 0 in
  String z (String z (String z (String z (String z (String z (String z (String z (String z (String z ""))))))))).

(** internal/batch/time.go:43-45, QuantizedTime.Set. *)
Definition qt_set (qt : quantized_time) (t : Z) : quantized_time := copy_into qt (format_YMDH t).

(** internal/batch/time.go:84-114: the test [qt.ymdh[i] == 0]. *)
Definition byte_zero (i : nat) (s : string) : bool :=
  match String.get i s with Some c => Ascii.eqb c zero | None => true end.

(** internal/batch/time.go:84-114, QuantizedTime.ViewsBuf with an empty buffer. *)
Fixpoint views_buf (q : string) (qt : quantized_time) : option (list string) :=
  match q with
  | EmptyString => Some []
  | String u q' =>
      let unit_view (i n : nat) :=
        if byte_zero i qt then None
        else match views_buf q' qt with
             | None => None
             | Some vs => Some (append view_prefix (substring 0 n qt) :: vs)
             end in
      if Ascii.eqb u "Y" then unit_view 0%nat 4%nat
      else if Ascii.eqb u "M" then unit_view 4%nat 6%nat
      else if Ascii.eqb u "D" then unit_view 6%nat 8%nat
      else if Ascii.eqb u "H" then unit_view 8%nat 10%nat
      else views_buf q' qt
  end.

(** internal/batch/batch.go:18. *)
Definition batch_quantum : string := "YMDH".

(** internal/batch/batch.go:51-55 and 80: the views of an instant, through a recycled QuantizedTime. *)
Definition filing_views (pooled : quantized_time) (t : Z) : option (list string) :=
  views_buf batch_quantum (qt_set pooled t).

(** quantum.viewByTimeUnit (external): name_<formatted time>, with name = view.StdView. *)
Definition view_Y (t : Z) : string := append view_prefix (format_Y t).
(** External, gernest/rbf/quantum (called at internal/view/view.go:50-54), reconstructed from the published algorithm (the dependency is not in /repo): viewByTimeUnit, M. *)
Definition view_M (t : Z) : string := append view_prefix (format_YM t).
(** External, gernest/rbf/quantum (called at internal/view/view.go:50-54), reconstructed from the published algorithm (the dependency is not in /repo): viewByTimeUnit, D. *)
Definition view_D (t : Z) : string := append view_prefix (format_YMD t).
(** External, gernest/rbf/quantum (called at internal/view/view.go:50-54), reconstructed from the published algorithm (the dependency is not in /repo): viewByTimeUnit, H. *)
Definition view_H (t : Z) : string := append view_prefix (format_YMDH t).

(** internal/view/view.go:18-22 Std = quantum.ViewsByTime(StdView, t, "YMDH") (external: one view per unit). *)
Definition std_views (t : Z) : list string := [view_Y t; view_M t; view_D t; view_H t].

(** internal/view/view.go:37-48: the quanta ChooseQuantum answers. *)
Inductive quantum := QY | QM | QD | QH.

(** internal/view/view.go:24-34. *)
Definition dur_hour : Z := ns_hour.
(** internal/view/view.go:24-34, day. *)
Definition dur_day : Z := 24 * dur_hour.
(** internal/view/view.go:24-34, month. *)
Definition dur_month : Z := 30 * dur_day.
(** internal/view/view.go:24-34, year. *)
Definition dur_year : Z := 12 * dur_month.

(** internal/view/view.go:37-48. *)
Definition choose_quantum (duration : Z) : quantum :=
  if dur_year <=? duration then QY
  else if dur_month <=? duration then QM
  else if dur_day <=? duration then QD
  else QH.

(* ------------------------------------------------- gernest/rbf/quantum, an external package
   Reconstructed from the published algorithm (the dependency is not in /repo). *)
(** External, gernest/rbf/quantum (called at internal/view/view.go:50-54), reconstructed from the published algorithm (the dependency is not in /repo): HasYear. *)
Definition has_year (q : quantum) := match q with QY => true | _ => false end.
(** External, gernest/rbf/quantum (called at internal/view/view.go:50-54), reconstructed from the published algorithm (the dependency is not in /repo): HasMonth. *)
Definition has_month (q : quantum) := match q with QM => true | _ => false end.
(** External, gernest/rbf/quantum (called at internal/view/view.go:50-54), reconstructed from the published algorithm (the dependency is not in /repo): HasDay. *)
Definition has_day (q : quantum) := match q with QD => true | _ => false end.
(** External, gernest/rbf/quantum (called at internal/view/view.go:50-54), reconstructed from the published algorithm (the dependency is not in /repo): HasHour. *)
Definition has_hour (q : quantum) := match q with QH => true | _ => false end.

(** External, gernest/rbf/quantum (called at internal/view/view.go:50-54), reconstructed from the published algorithm (the dependency is not in /repo): nextYearGTE. *)
Definition next_year_gte (t e : Z) : bool :=
  let next := add_date t 1 0 0 in (year_of next =? year_of e) || (next <? e).
(** External, gernest/rbf/quantum (called at internal/view/view.go:50-54), reconstructed from the published algorithm (the dependency is not in /repo): nextMonthGTE. *)
Definition next_month_gte (t e : Z) : bool :=
  let next := add_date t 0 1 0 in
  ((year_of next =? year_of e) && (month_of next =? month_of e)) || (next <? e).
(** External, gernest/rbf/quantum (called at internal/view/view.go:50-54), reconstructed from the published algorithm (the dependency is not in /repo): nextDayGTE. *)
Definition next_day_gte (t e : Z) : bool :=
  let next := add_date t 0 0 1 in
  ((year_of next =? year_of e) && (month_of next =? month_of e) && (mday_of next =? mday_of e)) || (next <? e).
(** External, gernest/rbf/quantum (called at internal/view/view.go:50-54), reconstructed from the published algorithm (the dependency is not in /repo): addMonth. *)
Definition add_month (t : Z) : Z :=
  let t' := if 28 <? mday_of t
            then day_of_civil (year_of t) (month_of t) 1 * ns_day + hour_of t * ns_hour
            else t in
  add_date t' 0 1 0.

(** External, gernest/rbf/quantum (called at internal/view/view.go:50-54), reconstructed from the published algorithm (the dependency is not in /repo): one iteration of the walk up (smallest to largest), the emitted view and next time, or stop. *)
Definition up_step (q : quantum) (t e : Z) : option (string * Z) :=
  if has_hour q && negb (next_day_gte t e) then None
  else if has_hour q && negb (hour_of t =? 0) then Some (view_H t, t + ns_hour)
  else if has_day q && negb (next_month_gte t e) then None
  else if has_day q && negb (mday_of t =? 1) then Some (view_D t, add_date t 0 0 1)
  else if has_month q && negb (next_year_gte t e) then None
  else if has_month q && negb (month_of t =? 1) then Some (view_M t, add_month t)
  else None.

(** External, gernest/rbf/quantum (called at internal/view/view.go:50-54), reconstructed from the published algorithm (the dependency is not in /repo): one iteration of the walk back down. *)
Definition down_step (q : quantum) (t e : Z) : option (string * Z) :=
  if has_year q && next_year_gte t e then Some (view_Y t, add_date t 1 0 0)
  else if has_month q && next_month_gte t e then Some (view_M t, add_month t)
  else if has_day q && next_day_gte t e then Some (view_D t, add_date t 0 0 1)
  else if has_hour q then Some (view_H t, t + ns_hour)
  else None.

(** External, gernest/rbf/quantum (called at internal/view/view.go:50-54), reconstructed from the published algorithm (the dependency is not in /repo): [for t.Before(end) { ... }]; None when the fuel runs out, which [search_total] shows never happens. *)
Fixpoint walk (step : Z -> Z -> option (string * Z)) (fuel : nat) (t e : Z) : option (list string * Z) :=
  if t <? e then
    match step t e with
    | None => Some ([], t)
    | Some (v, t') =>
        match fuel with
        | O => None
        | S f => match walk step f t' e with
                 | None => None
                 | Some (vs, t'') => Some (v :: vs, t'')
                 end
        end
    end
  else Some ([], t).

(** External, gernest/rbf/quantum (called at internal/view/view.go:50-54), reconstructed from the published algorithm (the dependency is not in /repo): ViewsByTimeRange. *)
Definition views_by_time_range (fuel : nat) (s e : Z) (q : quantum) : option (list string) :=
  match (if has_hour q || has_day q || has_month q then walk (up_step q) fuel s e else Some ([], s)) with
  | None => None
  | Some (a, t) => match walk (down_step q) fuel t e with
                   | None => None
                   | Some (b, _) => Some (app a b)
                   end
  end.

(** External, gernest/rbf/quantum (called at internal/view/view.go:50-54), reconstructed from the published algorithm (the dependency is not in /repo): every iteration advances the clock by at least one hour, so this many are enough. *)
Definition range_fuel (s e : Z) : nat := Z.to_nat ((e - s) / ns_hour + 1).

(** internal/view/view.go:50-54. *)
Definition search (s e : Z) : option (list string) :=
  views_by_time_range (range_fuel s e) s e (choose_quantum (time_sub e s)).

(* ------------------------------------------------- scan window *)
(** External, google.protobuf.Timestamp / Duration (proto/rq/v1/scan.proto:27-30 and 77-80): (seconds, nanos). *)
Definition pb_time : Type := Z * Z.
(** External, Timestamp.AsTime (called at internal/x/x.go:33-52): nil and missing fields read as zero, the Unix epoch. Simplification: Go's time.Time also wraps for |seconds| near 2^63; the model does not. *)
Definition as_time (t : option pb_time) : Z :=
  match t with None => 0 | Some (s, n) => s * 1000000000 + n end.
(** External, Duration.AsDuration (called at internal/x/x.go:41): saturates at the int64 range. Simplification: exact when seconds and nanos do not have opposite signs, as protobuf requires. *)
Definition as_duration (d : pb_time) : Z := let '(s, n) := d in clamp64 (s * 1000000000 + n).
(** External, int64 negation (internal/x/x.go:41 and 47). *)
Definition neg64 (d : Z) : Z := if d =? min_int64 then min_int64 else - d.

(** proto/rq/v1/scan.proto:13-30: the times of a Scan. *)
Record scan_times := ScanTimes {
  sc_now : option pb_time;
  sc_offset : option pb_time;
  sc_range : option (option pb_time * option pb_time)
}.

(** internal/x/x.go:11-13. *)
Definition default_time_range : Z := 15 * 60 * 1000000000.

(** internal/x/x.go:33-52; [wall] is the clock the caller passes (time.Now). *)
Definition time_bounds (wall : Z) (sc : scan_times) : Z * Z :=
  let ts0 := match sc_now sc with Some t => as_time (Some t) | None => wall end in
  let ts := match sc_offset sc with Some d => ts0 + neg64 (as_duration d) | None => ts0 end in
  match sc_range sc with
  | Some (s, e) => (as_time s, as_time e)
  | None => (ts + neg64 default_time_range, ts)
  end.

(* ------------------------------------------------- bitmap positions *)
Open Scope N_scope.
(** External, roaring/shardwidth.ShardWidth = 2^20 (used at internal/view/view.go:56-58). *)
Definition shard_width : N := 1048576.
(** internal/view/view.go:56-58, and the same expression at internal/batch/batch.go:90-93; uint64 arithmetic. *)
Definition pos (row col : N) : N := (row * shard_width + col mod shard_width) mod two64.
