(** C104: the calendar windows of a query script on a clock with daylight saving. *)
From Verif.Model Require Import Base Labels Calendar View Store ScanBuilder Zone.
From Verif.Spec Require Import Gregorian Scripts Zones.
From Verif.Proofs Require Import BaseFacts CalendarFacts ViewFacts ScanBuilderFacts ZoneFacts.
From Verif.Props Require P_Script.
Open Scope Z_scope.

Lemma exec_in_range pd z s u x : ~ sets_window pd x -> sc_range (sc_times (exec_in pd z s u x)) = sc_range (sc_times s).
Proof. intros H. destruct x; try (apply P_Script.exec_range, H); exfalso; apply H; exact Logic.I. Qed.
Lemma run_in_range pd z l : forall s, (forall c x, In (c, x) l -> ~ sets_window pd x) -> sc_range (sc_times (run_in pd z s l)) = sc_range (sc_times s).
Proof.
  induction l as [|[u x] l IH]; intros s H; [reflexivity|]. change (sc_range (sc_times (run_in pd z (exec_in pd z s u x) l)) = sc_range (sc_times s)).
  rewrite IH by (intros c' x' I; apply (H c'); right; exact I). apply exec_in_range. apply (H u). left. reflexivity.
Qed.

(** ------ C104: the window of the request is exactly the one the last window call describes, where day, week, month and year
    are those the clock on the wall shows at each instant, also when daylight saving begins or ends inside the window; for
    thisWeek() the midnight of the day of the call must be shown at some instant. *)
Theorem C104_window_of_last_call_partial : forall pd f z resource l1 u x l2 wall t, is_calendar f -> orderly z -> P_Script.int64_durations pd ->
  sets_window pd x -> (forall u' x', In (u', x') l2 -> ~ sets_window pd x') ->
  (forall d, x = CAgo d -> pd d <> Some (- 2 ^ 63)) -> (x = CThisWeek -> midnight_shown z u) ->
  let w := time_bounds wall (sc_times (build_scan_in pd z resource (l1 ++ (u, x) :: l2))) in
  fst w <= t <= snd w <-> asks_window_in pd f z u x t.
Proof.
  intros pd f z resource l1 u x l2 wall t Cal Or Pd Sx Sl Sm Mn w. subst w. unfold build_scan_in, run_in. rewrite fold_left_app.
  assert (R : exists lo hi, sc_range (sc_times (fold_left (fun s cx => exec_in pd z s (fst cx) (snd cx)) ((u, x) :: l2) (fold_left (fun s cx => exec_in pd z s (fst cx) (snd cx)) l1 (create resource)))) = Some (Some (pb_of_time lo), Some (pb_of_time hi)) /\ (lo <= t <= hi <-> asks_window_in pd f z u x t)).
  { cbn [fold_left fst snd]. change (fold_left (fun s cx => exec_in pd z s (fst cx) (snd cx)) l2 ?s) with (run_in pd z s l2). rewrite (run_in_range _ _ _ _ Sl).
    set (s := fold_left _ l1 _). clearbody s.
    destruct x; try (destruct Sx; fail); cbn [exec_in exec fst sc_range sc_times range_ts set_times].
    - eexists _, _. split; [reflexivity|]. unfold unix_milli, asks_window_in. reflexivity.
    - eexists _, _. split; [reflexivity|]. cbn [asks_window_in]. rewrite (both_show_days z _ t u Or). split; (intros [H1 H2]; split; [try assumption|]); try assumption; apply (today_in f z u t Cal Or); assumption.
    - eexists _, _. split; [reflexivity|]. cbn [asks_window_in]. rewrite (both_show_days z _ t u Or). split; (intros [H1 H2]; split; [try assumption|]); try assumption; apply (week_in z u t Or); try assumption; apply (midnight_shown_day z u Or), Mn; reflexivity.
    - eexists _, _. split; [reflexivity|]. cbn [asks_window_in]. rewrite (both_show_days z _ t u Or). split; (intros [H1 H2]; split; [try assumption|]); try assumption; apply (month_in f z u t Cal Or); assumption.
    - eexists _, _. split; [reflexivity|]. cbn [asks_window_in]. rewrite (both_show_days z _ t u Or). split; (intros [H1 H2]; split; [try assumption|]); try assumption; apply (year_in f z u t Cal Or); assumption.
    - cbn [sets_window] in Sx. destruct (pd duration) as [ns|] eqn:E; [|congruence]. cbn [fst]. eexists _, _. split; [reflexivity|]. cbn [asks_window_in ck_ns].
      assert (N : neg64 ns = - ns). { unfold neg64, min_int64. destruct (Z.eqb_spec ns (- 2 ^ 63)) as [->|]; [exfalso; apply (Sm duration eq_refl); assumption|reflexivity]. }
      rewrite N. split; [intros H; exists ns; split; [exact E|lia]|intros (ns' & E' & H)]. rewrite E in E'. apply some_inj in E'. subst. lia. }
  destruct R as (lo & hi & E & H). unfold time_bounds. rewrite E. rewrite !as_time_pb. cbn [fst snd]. exact H.
Qed.
Print Assumptions C104_window_of_last_call_partial.

(** A zone that never changes is the fixed offset of [ScanBuilder]: the two models of the builder agree. *)
Theorem C104_one_offset : forall pd o resource l,
  build_scan_in pd (Zone o []) resource l = build_scan pd resource (map (fun ux => (Clock (fst ux) o, snd ux)) l).
Proof.
  intros pd o resource l. unfold build_scan_in, build_scan. generalize (create resource). induction l as [|[u x] l IH]; intros s; [reflexivity|].
  change (run_in pd (Zone o []) (exec_in pd (Zone o []) s u x) l = run pd (fst (exec pd s (Clock u o) x)) (map (fun ux => (Clock (fst ux) o, snd ux)) l)).
  rewrite IH. f_equal.
  assert (D : forall L, date_in (Zone o []) L = L - o).
  { intros L. unfold date_in, lookup. cbn [z_changes z_first lookup_from orb]. destruct (Z.eqb_spec o 0); lia. }
  assert (S : day_in (Zone o []) u = local_day (Clock u o)) by reflexivity.
  assert (M : forall k, date_in (Zone o []) (k * ns_day) = midnight (Clock u o) k) by (intros k; rewrite D; reflexivity).
  destruct x; try reflexivity; cbn [exec_in exec fst ck_ns].
  - f_equal. unfold beginning_of_day_in, beginning_of_day. rewrite M, S. reflexivity.
  - f_equal. unfold beginning_of_week_in, beginning_of_week, beginning_of_day_in. rewrite S, M. set (k := local_day (Clock u o)).
    assert (E : shows (Zone o []) (midnight (Clock u o) k) = k * a_day) by (change (k * ns_day - o + o = k * ns_day); lia). rewrite E, day_mult.
    replace (k * a_day - weekday k * ns_day) with ((k - weekday k) * ns_day) by (rewrite a_day_ns; lia). apply M.
  - f_equal. unfold beginning_of_month_in, beginning_of_month. rewrite S. destruct (date_of_day (local_day (Clock u o))) as [[y m] d]. apply M.
  - f_equal. unfold beginning_of_year_in, beginning_of_year. rewrite S. destruct (date_of_day (local_day (Clock u o))) as [[y m] d]. apply M.
Qed.

(** Refuted where the clock jumps over midnight west of Greenwich (Sao Paulo, 4 November 2018: 00:00 became 01:00): today() on that day
    begins at 23:00 of the day before, and so contains an instant of yesterday. *)
Definition sao_paulo : zone := Zone (- 3 * 3600000000000) [(1541300400000000000, - 2 * 3600000000000)].
Theorem C104_skipped_midnight_refuted : forall pd f, is_calendar f -> exists u t,
  let w := time_bounds 0 (sc_times (build_scan_in pd sao_paulo "logs" [(u, CToday)])) in
  fst w <= t <= snd w /\ ~ asks_window_in pd f sao_paulo u CToday t.
Proof.
  intros pd f Cal. exists 1541340000000000000, 1541298600000000000. intros w.
  assert (E : w = (1541296800000000000, 1541340000000000000)) by (subst w; vm_compute; reflexivity). rewrite E. cbn [fst snd]. split; [lia|].
  cbn [asks_window_in]. intros [_ (a & b & (oa & Ia & Ea) & (ob & Ib & Eb) & H)].
  assert (Oa : oa = - 3 * 3600000000000).
  { destruct Ia as [(T & [K|[]] & L & _)|[K _]]; [apply pair_inj in K; destruct K; subst; lia|exact K]. }
  assert (Ob : ob = - 2 * 3600000000000).
  { destruct Ib as [(T & [K|[]] & L & _)|[_ K]]; [apply pair_inj in K; destruct K as [_ K]; symmetry; exact K|].
    specialize (K _ _ (or_introl eq_refl)). lia. }
  subst. assert (Ha : (1541298600000000000 + - 3 * 3600000000000) / a_day = 17838) by reflexivity. assert (Hb : (1541340000000000000 + - 2 * 3600000000000) / a_day = 17839) by reflexivity.
  rewrite Ha, Hb in H. rewrite !(calendar_unique f Cal) in H. vm_compute in H. discriminate.
Qed.
Print Assumptions C104_skipped_midnight_refuted.

(** New York, 2024: clocks go forward on Sunday, 10 March, 02:00 (07:00 UTC), back on 3 November, 02:00 (06:00 UTC).
    On Wednesday, 13 March, 12:00, this week begins at Sunday's midnight in winter time (05:00 UTC), today in summer time (04:00 UTC);
    on 3 November, after the change, today has already lasted an hour longer than the clock shows. *)
Definition new_york : zone := Zone (- 5 * 3600000000000) [(1710054000000000000, - 4 * 3600000000000); (1730613600000000000, - 5 * 3600000000000)].
Example C104_example :
  orderly new_york /\
  time_bounds 0 (sc_times (build_scan_in P_Script.sample_pd new_york "logs" [(1710345600000000000, CThisWeek)])) = (1710046800000000000, 1710345600000000000) /\
  time_bounds 0 (sc_times (build_scan_in P_Script.sample_pd new_york "logs" [(1710345600000000000, CToday)])) = (1710302400000000000, 1710345600000000000) /\
  time_bounds 0 (sc_times (build_scan_in P_Script.sample_pd new_york "logs" [(1710345600000000000, CThisMonth)])) = (1709269200000000000, 1710345600000000000) /\
  time_bounds 0 (sc_times (build_scan_in P_Script.sample_pd new_york "logs" [(1710345600000000000, CThisYear)])) = (1704085200000000000, 1710345600000000000) /\
  time_bounds 0 (sc_times (build_scan_in P_Script.sample_pd new_york "logs" [(1730635200000000000, CToday)])) = (1730606400000000000, 1730635200000000000) /\
  ~ orderly sao_paulo.
Proof.
  split. { split; [split; reflexivity|]. cbn [orderly_from z_changes z_first new_york]. split; [left; exists 19792; unfold a_day; lia|]. split; [split; reflexivity|].
    split; [unfold a_day; lia|]. split; [left; exists 20030; unfold a_day; lia|]. split; [split; reflexivity|]. split; exact Logic.I. }
  do 5 (split; [vm_compute; reflexivity|]).
  intros [_ (H & _)]. destruct H as [(d & A & B)|(A & _)]; unfold a_day in *; cbn [z_first sao_paulo] in *; lia.
Qed.

(** Amman, 25 February 2022, a Friday: 00:00 became 01:00.  On that day today() begins with the first instant of the day. *)
Definition amman : zone := Zone (2 * 3600000000000) [(1645740000000000000, 3 * 3600000000000)].
Example C104_skipped_midnight_example :
  orderly amman /\ day_in amman (1645740000000000000 - 1) = 19047 /\ shows amman 1645740000000000000 = 19048 * a_day + 3600000000000 /\
  time_bounds 0 (sc_times (build_scan_in P_Script.sample_pd amman "logs" [(1645779600000000000, CToday)])) = (1645740000000000000, 1645779600000000000).
Proof.
  split; [|split; [|split]; vm_compute; reflexivity]. split; [split; reflexivity|]. cbn [orderly_from z_changes z_first amman].
  split; [right; split; [lia|]; exists 19048; unfold a_day; lia|]. split; [split; reflexivity|]. split; exact Logic.I.
Qed.
(** Refuted for thisWeek() on a day whose midnight is skipped, also in a zone where today() is right: on that Friday the week begins on
    Sunday at 01:00, and so lacks its first hour. *)
Theorem C104_week_refuted : forall pd f, exists u t, orderly amman /\ asks_window_in pd f amman u CThisWeek t /\
  let w := time_bounds 0 (sc_times (build_scan_in pd amman "logs" [(u, CThisWeek)])) in ~ (fst w <= t <= snd w).
Proof.
  intros pd f. exists 1645779600000000000, 1645309800000000000. split; [exact (proj1 C104_skipped_midnight_example)|]. split.
  - split; [lia|]. apply (both_show_days amman _ _ _ (proj1 C104_skipped_midnight_example)). vm_compute. reflexivity.
  - intros w. assert (E : w = (1645311600000000000, 1645779600000000000)) by (subst w; vm_compute; reflexivity). rewrite E. cbn [fst snd]. lia.
Qed.
Print Assumptions C104_week_refuted.
