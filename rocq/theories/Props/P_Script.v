(** C64, C71: the scan a query script builds (internal/js/scan.go). *)
From Verif.Model Require Import Base Labels Calendar View Store ScanBuilder.
From Verif.Spec Require Import Gregorian Scripts.
From Verif.Proofs Require Import BaseFacts CalendarFacts ViewFacts ScanBuilderFacts.
Open Scope Z_scope.

(** time.ParseDuration yields an int64 number of nanoseconds. *)
Definition int64_durations (pd : string -> option Z) : Prop := forall s d, pd s = Some d -> - 2 ^ 63 <= d < 2 ^ 63.

(** ------ C64: conditions, in call order. *)
Theorem C64_conditions_in_call_order : forall pd resource l scope,
  map (filter_label scope) (sc_filters (build_scan pd resource l)) =
  map (fun '(prefix, key, value) => Some (Label scope prefix key value)) (flat_map condition (map snd l)).
Proof.
  intros pd resource l scope. unfold build_scan. induction l as [|[c x] l IH] using rev_ind.
  - unfold create. destruct (resource_scope resource); reflexivity.
  - rewrite run_app, map_app, flat_map_app, map_app, <- IH. set (s := run pd (create resource) l). clearbody s. cbn [run fold_left fst snd map flat_map].
    destruct x; cbn [exec fst sc_filters set_scope set_limit set_reverse set_times set_now set_offset range_ts add_filter condition app map];
      rewrite ?app_nil_r; try reflexivity; try (rewrite map_app; reflexivity).
    + destruct (resource_scope name); reflexivity.
    + destruct (pd duration); reflexivity.
    + destruct (pd duration); reflexivity.
Qed.
Print Assumptions C64_conditions_in_call_order.

(** A call raises an exception in the script only if it is given a duration that cannot be read, and then it
    leaves the request as it was. *)
Theorem C64_fails_only_on_bad_duration : forall pd s c x,
  (snd (exec pd s c x) = false <-> exists d, (x = COffset d \/ x = CAgo d) /\ pd d = None) /\
  (snd (exec pd s c x) = false -> fst (exec pd s c x) = s).
Proof.
  intros pd s c x.
  assert (N : (forall d, x <> COffset d /\ x <> CAgo d) -> snd (exec pd s c x) = true -> (snd (exec pd s c x) = false <-> exists d, (x = COffset d \/ x = CAgo d) /\ pd d = None) /\ (snd (exec pd s c x) = false -> fst (exec pd s c x) = s)).
  { intros H E. rewrite E. split; [split; [discriminate|]|discriminate]. intros (d & [K|K] & _); destruct (H d); contradiction. }
  destruct x; try (apply N; [intros d; split; discriminate|reflexivity]).
  - cbn [exec]. destruct (pd duration) eqn:E; cbn [fst snd]; (split; [split; [try discriminate|]|try discriminate]); [intros (d & [K|K] & E'); congruence|intros _; exists duration; auto|reflexivity|reflexivity].
  - cbn [exec]. destruct (pd duration) eqn:E; cbn [fst snd]; (split; [split; [try discriminate|]|try discriminate]); [intros (d & [K|K] & E'); congruence|intros _; exists duration; auto|reflexivity|reflexivity].
Qed.

(** The signal, the limit and the direction are those of the last call that sets them. *)
Theorem C64_last_setting_wins : forall pd resource l,
  let sc := build_scan pd resource l in
  sc_scope sc = match last_setting asked_resource (CResource resource :: map snd l) with Some z => z | None => 0 end /\
  Z.of_N (sc_limit sc) = match last_setting asked_limit (map snd l) with Some n => n mod 2 ^ 64 | None => 0 end /\
  (sc_reverse sc = true <-> In CReverse (map snd l)).
Proof.
  intros pd resource l sc. unfold sc, build_scan. clear sc. induction l as [|[c x] l (A & B & C)] using rev_ind.
  - cbn [run fold_left map]. unfold create, resource_scope, last_setting. cbn [flat_map asked_resource app]. rewrite app_nil_r.
    destruct (String.eqb resource "metrics"); [cbn; intuition discriminate|]. destruct (String.eqb resource "logs") eqn:EL, (String.eqb resource "traces") eqn:ET; cbn; try (intuition discriminate).
    apply String.eqb_eq in EL, ET. congruence.
  - rewrite run_app, map_app. set (s := run pd (create resource) l) in *. clearbody s. cbn [run fold_left fst snd map].
    change (CResource resource :: map snd l ++ [x]) with ((CResource resource :: map snd l) ++ [x]). rewrite !last_setting_snoc, in_app_iff.
    assert (R : In CReverse [x] <-> x = CReverse) by (cbn [In]; intuition). rewrite R. clear R.
    destruct x; cbn [exec fst sc_scope sc_limit sc_reverse set_scope set_limit set_reverse set_times set_now set_offset range_ts add_filter asked_resource asked_limit map last];
      try (split; [exact A|split; [exact B|split; [intros H; left; apply C, H|intros [H|H]; [apply C, H|discriminate]]]]).
    + assert (Q : sc_limit (match resource_scope name with Some z => set_scope z s | None => s end) = sc_limit s /\ sc_reverse (match resource_scope name with Some z => set_scope z s | None => s end) = sc_reverse s) by (destruct (resource_scope name); split; reflexivity).
      destruct Q as [-> ->]. split; [|split; [exact B|split; [intros H; left; apply C, H|intros [H|H]; [apply C, H|discriminate]]]].
      unfold resource_scope. destruct (String.eqb name "metrics"); [reflexivity|]. destruct (String.eqb name "logs") eqn:EL, (String.eqb name "traces") eqn:ET; cbn [map last]; try reflexivity; try exact A.
      apply String.eqb_eq in EL, ET. congruence.
    + split; [exact A|]. split; [|split; [intros H; left; apply C, H|intros [H|H]; [apply C, H|discriminate]]]. apply Z2N.id. apply Z.mod_pos_bound. reflexivity.
    + destruct (pd duration); (split; [exact A|split; [exact B|split; [intros H; left; apply C, H|intros [H|H]; [apply C, H|discriminate]]]]).
    + split; [exact A|split; [exact B|split; [intros _; right; reflexivity|reflexivity]]].
    + destruct (pd duration); (split; [exact A|split; [exact B|split; [intros H; left; apply C, H|intros [H|H]; [apply C, H|discriminate]]]]).
Qed.
Print Assumptions C64_last_setting_wins.

(** Every time and duration of the request is a well formed protobuf message, also before 1970. *)
Theorem C64_times_well_formed : forall pd resource l, let t := sc_times (build_scan pd resource l) in
  (forall x, sc_now t = Some x -> timestamp_ok x) /\
  (forall x, sc_offset t = Some x -> duration_ok x) /\
  (forall a b, sc_range t = Some (a, b) -> (forall x, a = Some x -> timestamp_ok x) /\ (forall x, b = Some x -> timestamp_ok x)).
Proof.
  intros pd resource l t. unfold t, build_scan. clear t.
  assert (T : forall x, timestamp_ok (pb_of_time x)) by (intros x; apply Z.mod_pos_bound; reflexivity).
  assert (D : forall x, duration_ok (pb_of_duration x)).
  { intros x. unfold duration_ok, pb_of_duration. cbn [fst snd]. Z.to_euclidean_division_equations. lia. }
  induction l as [|[c x] l (A & B & C)] using rev_ind.
  - cbn [run fold_left]. unfold create. destruct (resource_scope resource); cbn; repeat split; intros; discriminate.
  - rewrite run_app. set (s := run pd (create resource) l) in *. clearbody s. cbn [run fold_left fst snd].
    destruct x; cbn [exec fst];
      try (cbn [sc_times set_scope set_limit set_reverse add_filter]; exact (conj A (conj B C)));
      try (unfold range_ts; cbn [sc_times set_times sc_now sc_offset sc_range]; split; [exact A|]; split; [exact B|];
           intros a b H; injection H as <- <-; split; intros y Hy; injection Hy as <-; apply T).
    + destruct (resource_scope name); exact (conj A (conj B C)).
    + destruct (pd duration) as [ns|]; [|exact (conj A (conj B C))].
      cbn [fst set_offset sc_times set_times sc_now sc_offset sc_range]. split; [exact A|]. split; [|exact C].
      intros y Hy; injection Hy as <-; apply D.
    + cbn [set_now sc_times set_times sc_now sc_offset sc_range]. split; [|exact (conj B C)].
      intros y Hy; injection Hy as <-; apply T.
    + destruct (pd duration) as [ns|]; [|exact (conj A (conj B C))].
      unfold range_ts; cbn [fst sc_times set_times sc_now sc_offset sc_range]; split; [exact A|]; split; [exact B|];
           intros a b H; injection H as <- <-; split; intros y Hy; injection Hy as <-; apply T.
Qed.

(* Which calls touch the times of the request. *)
Lemma exec_range pd s c x : ~ sets_window pd x -> sc_range (sc_times (fst (exec pd s c x))) = sc_range (sc_times s).
Proof.
  intros H. destruct x; try reflexivity; try (exfalso; apply H; exact Logic.I).
  - cbn [exec]. destruct (resource_scope name); reflexivity.
  - cbn [exec]. destruct (pd duration); reflexivity.
  - cbn [exec]. cbn [sets_window] in H. destruct (pd duration); [exfalso; apply H; discriminate|reflexivity].
Qed.
Lemma run_range pd s l : (forall c x, In (c, x) l -> ~ sets_window pd x) -> sc_range (sc_times (run pd s l)) = sc_range (sc_times s).
Proof.
  revert s. induction l as [|[c x] l IH]; intros s H; [reflexivity|]. cbn [run fold_left fst snd]. change (sc_range (sc_times (run pd (fst (exec pd s c x)) l)) = sc_range (sc_times s)).
  rewrite IH by (intros c' x' I; apply (H c'); right; exact I). apply exec_range. apply (H c). left. reflexivity.
Qed.

(** C64 and C71: the window of the request is exactly the one the last window call describes: a range in
    milliseconds; or the part, up to the clock's reading, of the local day, week, month or year the clock
    is in, for whatever function [f] is the Gregorian calendar; or the given time back from the clock.
    The clock is the caller's (the machine's local time for the command line), not the time given to [now]. *)
Theorem C71_window_of_last_call : forall pd f resource l1 c x l2 wall t, is_calendar f -> int64_durations pd ->
  sets_window pd x -> (forall c' x', In (c', x') l2 -> ~ sets_window pd x') ->
  (forall d, x = CAgo d -> pd d <> Some (- 2 ^ 63)) ->
  let w := time_bounds wall (sc_times (build_scan pd resource (l1 ++ (c, x) :: l2))) in
  fst w <= t <= snd w <-> asks_window pd f c x t.
Proof.
  intros pd f resource l1 c x l2 wall t Cal Pd Sx Sl Sm w. subst w. unfold build_scan. rewrite run_app.
  assert (R : exists lo hi, sc_range (sc_times (run pd (run pd (create resource) l1) ((c, x) :: l2))) = Some (Some (pb_of_time lo), Some (pb_of_time hi)) /\ (lo <= t <= hi <-> asks_window pd f c x t)).
  { cbn [run fold_left fst snd]. change (fold_left _ l2 ?s) with (run pd s l2). rewrite (run_range _ _ _ Sl). set (s := run pd (create resource) l1). clearbody s.
    destruct x; try (destruct Sx; fail); cbn [exec fst sc_range sc_times range_ts set_times].
    - eexists _, _. split; [reflexivity|]. unfold unix_milli, asks_window. reflexivity.
    - eexists _, _. split; [reflexivity|]. cbn [asks_window]. split; (intros [H1 H2]; split; [try assumption|]); try assumption; apply (today_window f c t Cal); assumption.
    - eexists _, _. split; [reflexivity|]. cbn [asks_window]. split; (intros [H1 H2]; split; [try assumption|]); try assumption; apply (week_window c t); assumption.
    - eexists _, _. split; [reflexivity|]. cbn [asks_window]. split; (intros [H1 H2]; split; [try assumption|]); try assumption; apply (month_window f c t Cal); assumption.
    - eexists _, _. split; [reflexivity|]. cbn [asks_window]. split; (intros [H1 H2]; split; [try assumption|]); try assumption; apply (year_window f c t Cal); assumption.
    - cbn [sets_window] in Sx. destruct (pd duration) as [ns|] eqn:E; [|congruence]. cbn [fst]. eexists _, _. split; [reflexivity|]. cbn [asks_window].
      assert (N : neg64 ns = - ns). { unfold neg64, min_int64. destruct (Z.eqb_spec ns (- 2 ^ 63)) as [->|]; [exfalso; apply (Sm duration eq_refl); assumption|reflexivity]. }
      rewrite N. split; [intros H; exists ns; split; [exact E|lia]|intros (ns' & E' & H)]. rewrite E in E'. apply some_inj in E'. subst. lia. }
  destruct R as (lo & hi & E & H). unfold time_bounds. rewrite E. rewrite !as_time_pb. cbn [fst snd]. exact H.
Qed.
Print Assumptions C71_window_of_last_call.

(** ... and without a window call the last fifteen minutes before the evaluation time less the offset. *)
Theorem C64_default_window : forall pd resource l wall, int64_durations pd -> (forall c x, In (c, x) l -> ~ sets_window pd x) ->
  (forall d, last_setting (asked_offset pd) (map snd l) <> Some d \/ d <> - 2 ^ 63) ->
  let now := match last_setting asked_now (map snd l) with Some t => t | None => wall end in
  let offset := match last_setting (asked_offset pd) (map snd l) with Some d => d | None => 0 end in
  time_bounds wall (sc_times (build_scan pd resource l)) = (now - offset - 15 * 60 * 1000000000, now - offset).
Proof.
  intros pd resource l wall Pd Sl So now offset. unfold build_scan.
  assert (R : sc_range (sc_times (run pd (create resource) l)) = None). { rewrite (run_range _ _ _ Sl). unfold create. destruct (resource_scope resource); reflexivity. }
  assert (Q : sc_now (sc_times (run pd (create resource) l)) = match last_setting asked_now (map snd l) with Some t => Some (pb_of_time t) | None => None end /\
              sc_offset (sc_times (run pd (create resource) l)) = match last_setting (asked_offset pd) (map snd l) with Some d => Some (pb_of_duration d) | None => None end).
  { clear So now offset Sl R. induction l as [|[c x] l (A & B)] using rev_ind.
    - cbn [run fold_left map]. unfold create. destruct (resource_scope resource); split; reflexivity.
    - rewrite run_app, map_app. set (s := run pd (create resource) l) in *. clearbody s. cbn [run fold_left fst snd map]. rewrite !last_setting_snoc.
      destruct x; cbn [exec fst sc_times sc_now sc_offset set_scope set_limit set_reverse set_times set_now set_offset range_ts add_filter asked_now asked_offset map last]; try (split; [exact A|exact B]).
      + destruct (resource_scope name); split; assumption.
      + unfold Scripts.duration. destruct (pd duration) as [d|]; cbn [map last fst sc_times sc_now sc_offset set_times set_offset]; (split; [exact A|]); [reflexivity|exact B].
      + split; [reflexivity|exact B].
      + destruct (pd duration); split; assumption. }
  destruct Q as [QA QB]. unfold time_bounds. rewrite R, QA, QB. subst now offset.
  assert (D : neg64 default_time_range = - (15 * 60 * 1000000000)) by reflexivity. rewrite D.
  assert (O : forall d, last_setting (asked_offset pd) (map snd l) = Some d -> neg64 (as_duration (pb_of_duration d)) = - d).
  { intros d E. assert (X : - 2 ^ 63 <= d < 2 ^ 63).
    { assert (K : In d (flat_map (asked_offset pd) (map snd l))).
      { unfold last_setting in E. revert E. generalize (flat_map (asked_offset pd) (map snd l)). intros k. induction k as [|a k IH]; [discriminate|]. destruct k as [|a' k]; cbn [map last]; intros E; [apply some_inj in E; left; exact E|right; apply IH; exact E]. }
      apply in_flat_map in K. destruct K as (x & _ & Hx). destruct x; cbn [asked_offset] in Hx; try destruct Hx. unfold Scripts.duration in Hx. destruct (pd duration) eqn:E'; [|destruct Hx]. destruct Hx as [<-|[]]. apply (Pd _ _ E'). }
    rewrite as_duration_pb by (unfold min_int64, max_int64; lia). unfold neg64, min_int64. destruct (So d) as [C|C]; [congruence|]. destruct (Z.eqb_spec d (- 2 ^ 63)); [congruence|reflexivity]. }
  destruct (last_setting asked_now (map snd l)) as [n|]; destruct (last_setting (asked_offset pd) (map snd l)) as [d|] eqn:EO; rewrite ?as_time_pb, ?(O d) by reflexivity; f_equal; lia.
Qed.
Print Assumptions C64_default_window.

(** core.ts:54-60 documents [now]: "Sets scan evaluation time. All time computations during scanning will
    be relative to this time."  It is not so: once a window call has been made, [now] and [offset] have
    no effect on the window at all (F19). *)
Theorem C64_now_is_ignored_refuted : forall pd resource l1 l2 wall c y, (exists c' x, In (c', x) (l1 ++ l2) /\ sets_window pd x) ->
  (exists ms, y = CNow ms) \/ (exists d, y = COffset d) ->
  time_bounds wall (sc_times (build_scan pd resource (l1 ++ (c, y) :: l2))) = time_bounds wall (sc_times (build_scan pd resource (l1 ++ l2))).
Proof.
  intros pd resource l1 l2 wall c y W Y. unfold build_scan. rewrite !run_app.
  assert (Ny : ~ sets_window pd y) by (destruct Y as [[? ->]|[? ->]]; intros []).
  assert (G : forall s s' k, sc_range (sc_times s) = sc_range (sc_times s') -> sc_range (sc_times (run pd s k)) = sc_range (sc_times (run pd s' k))).
  { intros s s' k. revert s s'. induction k as [|[c' x] k IH]; intros s s' E; [exact E|]. cbn [run fold_left fst snd]. apply IH.
    destruct x; cbn [exec fst sc_times sc_range set_scope set_limit set_reverse set_times set_now set_offset range_ts add_filter]; try exact E; try reflexivity.
    - destruct (resource_scope name); exact E.
    - destruct (pd duration); exact E.
    - destruct (pd duration); [reflexivity|exact E]. }
  assert (X : forall s k, (exists c' x, In (c', x) k /\ sets_window pd x) \/ sc_range (sc_times s) <> None -> sc_range (sc_times (run pd s k)) <> None).
  { intros s k. revert s. induction k as [|[c' x] k IH]; intros s H.
    - destruct H as [(c0 & x0 & [] & _)|H]; exact H.
    - cbn [run fold_left fst snd]. apply IH. destruct H as [(c0 & x0 & [E|H] & S0)|H].
      + right. apply pair_inj in E. destruct E as [-> ->]. destruct x0; cbn [sets_window] in S0; try (destruct S0; fail); cbn [exec fst sc_times sc_range range_ts set_times]; try discriminate. destruct (pd duration); [cbn [fst sc_times sc_range range_ts set_times]; discriminate|exfalso; apply S0; reflexivity].
      + left. eauto.
      + right. destruct x; cbn [exec fst sc_times sc_range set_scope set_limit set_reverse set_times set_now set_offset range_ts add_filter]; try exact H; try discriminate.
        * destruct (resource_scope name); exact H.
        * destruct (pd duration); exact H.
        * destruct (pd duration); [discriminate|exact H]. }
  assert (E : sc_range (sc_times (run pd (run pd (create resource) l1) ((c, y) :: l2))) = sc_range (sc_times (run pd (run pd (create resource) l1) l2))).
  { cbn [run fold_left fst snd]. apply G. apply exec_range, Ny. }
  assert (NN : sc_range (sc_times (run pd (run pd (create resource) l1) l2)) <> None).
  { apply X. destruct W as (c' & x & I & S). apply in_app_iff in I. destruct I as [I|I]; [right; apply X; left; eauto|left; eauto]. }
  unfold time_bounds. rewrite E. destruct (sc_range (sc_times (run pd (run pd (create resource) l1) l2))) as [[a b]|]; [reflexivity|congruence].
Qed.
Print Assumptions C64_now_is_ignored_refuted.

(** A script: metrics named "up" in scope "s" this month, asked on 15 March 2024, 01:30 in a zone two hours
    ahead of UTC (14 March, 23:30 UTC). *)
Definition sample_clock : clock := Clock 1710459000000000000 7200000000000.
Definition sample_pd (s : string) : option Z := if String.eqb s "15m" then Some 900000000000 else None.
Definition sample_script : list (clock * call) :=
  [(sample_clock, CName "up"); (sample_clock, CToday); (sample_clock, CScopeName "s"); (sample_clock, CLimit 5); (sample_clock, CThisMonth); (sample_clock, CAgo "soon"); (sample_clock, CNow 0)].
Example C64_example :
  int64_durations sample_pd /\
  sc_filters (build_scan sample_pd "metrics" sample_script) = [FBase 6 "up"; FBase 3 "s"] /\
  sc_scope (build_scan sample_pd "metrics" sample_script) = 1 /\ sc_limit (build_scan sample_pd "metrics" sample_script) = 5%N /\
  (* 1 March 2024, 00:00 at +02:00, up to the clock *)
  time_bounds 0 (sc_times (build_scan sample_pd "metrics" sample_script)) = (1709244000000000000, 1710459000000000000) /\
  sample_script = [(sample_clock, CName "up"); (sample_clock, CToday); (sample_clock, CScopeName "s"); (sample_clock, CLimit 5)] ++ (sample_clock, CThisMonth) :: [(sample_clock, CAgo "soon"); (sample_clock, CNow 0)] /\
  (forall c x, In (c, x) [(sample_clock, CAgo "soon"); (sample_clock, CNow 0)] -> ~ sets_window sample_pd x) /\
  (* "the last fifteen minutes before 1970" are taken before the clock instead *)
  time_bounds 0 (sc_times (build_scan sample_pd "logs" [(sample_clock, CNow 0); (sample_clock, CAgo "15m")])) = (1710458100000000000, 1710459000000000000) /\
  (* today starts at 14 March 22:00 UTC, the week on Sunday 10 March, the year on 1 January *)
  time_bounds 0 (sc_times (build_scan sample_pd "logs" [(sample_clock, CToday)])) = (1710453600000000000, 1710459000000000000) /\
  time_bounds 0 (sc_times (build_scan sample_pd "logs" [(sample_clock, CThisWeek)])) = (1710021600000000000, 1710459000000000000) /\
  time_bounds 0 (sc_times (build_scan sample_pd "logs" [(sample_clock, CThisYear)])) = (1704060000000000000, 1710459000000000000).
Proof.
  split. { intros s d. unfold sample_pd. destruct (String.eqb s "15m"); [|discriminate]. intros E. apply some_inj in E. subst. split; [discriminate|reflexivity]. }
  split; [vm_compute; reflexivity|]. split; [vm_compute; reflexivity|]. split; [vm_compute; reflexivity|]. split; [vm_compute; reflexivity|]. split; [reflexivity|].
  split. { intros c x [E|[E|[]]]; apply pair_inj in E; destruct E as [_ <-]; cbn [sets_window]; [|intros []]. intros H. apply H. reflexivity. }
  split; [vm_compute; reflexivity|]. split; [vm_compute; reflexivity|]. split; vm_compute; reflexivity.
Qed.
