(** C11-C16: views, query granularity, scan window, searched views, bitmap positions. *)
From Verif.Model Require Import Base Calendar KeySpace View.
From Verif.Spec Require Import Gregorian.
From Verif.Proofs Require Import BaseFacts CalendarFacts ViewFacts.
From Coq Require Import ZifyBool ZifyN.
Open Scope Z_scope.
Ltac Zify.zify_post_hook ::= idtac.

(** The instants a sample can carry: [time.Unix(0, int64(minTs))], a signed 64 bit count of nanoseconds. *)
Definition int64_instant (t : Z) : Prop := - 2 ^ 63 <= t < 2 ^ 63.

(** The model's date function is the Gregorian calendar of Spec/Gregorian.v, and there is only one. *)
Theorem C11_dates_are_gregorian : is_calendar date_of_day /\ forall f, is_calendar f -> forall n, f n = date_of_day n.
Proof. split; [apply date_of_day_calendar|apply calendar_unique]. Qed.
Print Assumptions C11_dates_are_gregorian.

(** [cal] is any function that is the Gregorian calendar; [a / 86400000000000] is the UTC day number of a. *)
Theorem C11_views_identify_calendar_units : forall cal p q a b va vb,
  is_calendar cal ->
  String.length p = 10%nat -> String.length q = 10%nat ->
  int64_instant a -> int64_instant b ->
  filing_views p a = Some va -> filing_views q b = Some vb ->
  (nth 0 va "" = nth 0 vb "" <-> fst (fst (cal (a / 86400000000000))) = fst (fst (cal (b / 86400000000000)))) /\
  (nth 1 va "" = nth 1 vb "" <-> fst (cal (a / 86400000000000)) = fst (cal (b / 86400000000000))) /\
  (nth 2 va "" = nth 2 vb "" <-> a / 86400000000000 = b / 86400000000000) /\
  (nth 3 va "" = nth 3 vb "" <-> a / 3600000000000 = b / 3600000000000).
Proof.
  intros cal p q a b va vb HC Hp Hq Ha Hb Hva Hvb.
  rewrite filing_views_eq in Hva, Hvb by (auto; apply year4_int64; auto).
  apply some_inj in Hva as <-. apply some_inj in Hvb as <-. unfold std_views. cbn [nth].
  rewrite !(calendar_unique cal HC).
  rewrite <- (date_of_div a), <- (date_of_div b).
  rewrite !date_parts. cbn [fst].
  pose proof (year4_int64 a Ha) as Ya. pose proof (year4_int64 b Hb) as Yb.
  unfold view_Y, view_M, view_D, view_H.
  assert (K : forall x y, append view_prefix x = append view_prefix y <-> x = y).
  { intros. split; [apply append_inj_l|congruence]. }
  rewrite !K. split; [apply format_Y_eq; auto|]. split; [|split].
  - rewrite format_YM_eq by auto. split; [intros [-> ->]; auto|intros H; apply pair_inj in H; auto].
  - apply format_YMD_eq; auto.
  - apply format_YMDH_eq; auto.
Qed.
Print Assumptions C11_views_identify_calendar_units.

(** 29 February 2024 23:59:59.999999999, one nanosecond later, and the last nanosecond of 1969. *)
Example C11_leap_day :
  filing_views zero_qt 1709251199999999999 = Some ["std_2024"; "std_202402"; "std_20240229"; "std_2024022923"]%string /\
  filing_views zero_qt 1709251200000000000 = Some ["std_2024"; "std_202403"; "std_20240301"; "std_2024030100"]%string /\
  filing_views zero_qt (-1) = Some ["std_1969"; "std_196912"; "std_19691231"; "std_1969123123"]%string.
Proof. repeat split. Qed.

(** C12: filing never fails, whatever is left in the recycled buffer, gives one view per unit, each a
    prefix of the next, of four different lengths. *)
Theorem C12_four_nested_views : forall pooled t,
  String.length pooled = 10%nat -> int64_instant t ->
  exists y m d h, filing_views pooled t = Some [y; m; d; h] /\ std_views t = [y; m; d; h] /\
    String.prefix y m = true /\ String.prefix m d = true /\ String.prefix d h = true /\
    String.length y = 8%nat /\ String.length m = 10%nat /\ String.length d = 12%nat /\ String.length h = 14%nat.
Proof.
  intros p t Hp Ht. pose proof (year4_int64 t Ht) as Y.
  exists (view_Y t), (view_M t), (view_D t), (view_H t).
  split; [apply filing_views_eq; auto|]. split; [reflexivity|].
  unfold view_Y, view_M, view_D, view_H.
  assert (A : forall a b, append view_prefix (append a b) = append (append view_prefix a) b) by (intros; rewrite append_assoc; reflexivity).
  split; [unfold format_YM; rewrite A; apply prefix_append|].
  split; [unfold format_YMD; rewrite A; apply prefix_append|].
  split; [unfold format_YMDH; rewrite A; apply prefix_append|].
  rewrite !length_append, length_format_Y, length_format_YM, length_format_YMD, length_format_YMDH by auto.
  cbn. auto.
Qed.
Print Assumptions C12_four_nested_views.

(** No view of one granularity equals a view of another granularity. *)
Theorem C12_no_overlap_between_units : forall p q a b va vb i j,
  String.length p = 10%nat -> String.length q = 10%nat -> int64_instant a -> int64_instant b ->
  filing_views p a = Some va -> filing_views q b = Some vb ->
  (i < 4)%nat -> (j < 4)%nat -> nth i va "" = nth j vb "" -> i = j.
Proof.
  intros p q a b va vb i j Hp Hq Ha Hb Hva Hvb Hi Hj E.
  destruct (C12_four_nested_views p a Hp Ha) as (y & m & d & h & E1 & _ & _ & _ & _ & L1 & L2 & L3 & L4).
  destruct (C12_four_nested_views q b Hq Hb) as (y' & m' & d' & h' & E1' & _ & _ & _ & _ & L1' & L2' & L3' & L4').
  rewrite E1 in Hva. rewrite E1' in Hvb. apply some_inj in Hva as <-. apply some_inj in Hvb as <-.
  apply (f_equal String.length) in E.
  destruct i as [|[|[|[|i]]]]; destruct j as [|[|[|[|j]]]]; cbn [nth] in E; try reflexivity; try (exfalso; lia).
Qed.
Print Assumptions C12_no_overlap_between_units.

(** C13: durations in nanoseconds. *)
Theorem C13_granularity : forall d : Z,
  (d < 24 * 3600000000000 -> choose_quantum d = QH) /\
  (24 * 3600000000000 <= d < 30 * 24 * 3600000000000 -> choose_quantum d = QD) /\
  (30 * 24 * 3600000000000 <= d < 360 * 24 * 3600000000000 -> choose_quantum d = QM) /\
  (360 * 24 * 3600000000000 <= d -> choose_quantum d = QY).
Proof.
  intros d. unfold choose_quantum, dur_year, dur_month, dur_day, dur_hour, ns_hour.
  repeat match goal with |- context [?x <=? d] => destruct (Z.leb_spec x d) end; repeat split; intros; try reflexivity; exfalso; lia.
Qed.
Print Assumptions C13_granularity.

(** The granularity used by a search: the length of the window saturates to the int64 range, which
    does not change the choice. *)
Theorem C13_search_granularity : forall s e, choose_quantum (time_sub e s) = choose_quantum (e - s).
Proof.
  intros s e. unfold time_sub, clamp64, max_int64, min_int64.
  destruct (C13_granularity (Z.max (- 2 ^ 63) (Z.min (2 ^ 63 - 1) (e - s)))) as (A & B & C & D).
  destruct (C13_granularity (e - s)) as (A' & B' & C' & D').
  assert (K : forall x, x < 24 * 3600000000000 \/ 24 * 3600000000000 <= x < 30 * 24 * 3600000000000 \/
     30 * 24 * 3600000000000 <= x < 360 * 24 * 3600000000000 \/ 360 * 24 * 3600000000000 <= x) by (intros; lia).
  destruct (K (e - s)) as [H|[H|[H|H]]].
  - rewrite A' by exact H. apply A. lia.
  - rewrite B' by exact H. apply B. lia.
  - rewrite C' by exact H. apply C. lia.
  - rewrite D' by exact H. apply D. lia.
Qed.
Print Assumptions C13_search_granularity.

(** C14 *)
Theorem C14_explicit_range_as_given : forall wall now off s e,
  time_bounds wall (ScanTimes now off (Some (Some s, Some e))) =
  (fst s * 1000000000 + snd s, fst e * 1000000000 + snd e).
Proof. intros wall now off [s1 s2] [e1 e2]. reflexivity. Qed.
Print Assumptions C14_explicit_range_as_given.

Theorem C14_default_window : forall wall now off,
  let w := time_bounds wall (ScanTimes now off None) in
  snd w - fst w = 15 * 60 * 1000000000 /\ fst w <= snd w /\
  (off = None -> snd w = match now with Some n => fst n * 1000000000 + snd n | None => wall end) /\
  (forall d, off = Some d -> - 2 ^ 63 < fst d * 1000000000 + snd d < 2 ^ 63 ->
     snd w = match now with Some n => fst n * 1000000000 + snd n | None => wall end - (fst d * 1000000000 + snd d)).
Proof.
  intros wall now off. unfold time_bounds. cbn [sc_now sc_offset sc_range].
  assert (N : neg64 default_time_range = - (15 * 60 * 1000000000)) by reflexivity. rewrite N. cbn zeta. cbn [fst snd].
  split; [lia|]. split; [lia|]. split.
  - intros ->. destruct now as [[a b]|]; reflexivity.
  - intros [d1 d2] -> H. cbn [fst snd] in H.
    assert (E : neg64 (as_duration (d1, d2)) = - (d1 * 1000000000 + d2)).
    { unfold as_duration, clamp64, max_int64, min_int64.
      assert (C : Z.max (- 2 ^ 63) (Z.min (2 ^ 63 - 1) (d1 * 1000000000 + d2)) = d1 * 1000000000 + d2) by lia.
      rewrite C. unfold neg64, min_int64. destruct (Z.eqb_spec (d1 * 1000000000 + d2) (- 2 ^ 63)); [lia|reflexivity]. }
    rewrite E. cbn [fst snd]. destruct now as [[a b]|]; cbn [as_time fst snd]; lia.
Qed.
Print Assumptions C14_default_window.

(** An offset of -2^63 ns (or less) is the one value whose negation wraps: the window ends 292 years
    before now instead of after it. *)
Example C14_offset_wraps :
  time_bounds 0 (ScanTimes None (Some (-9223372037, 0)) None) = (- 2 ^ 63 - 900000000000, - 2 ^ 63).
Proof. reflexivity. Qed.

(* ------------------------------------------------------------------ C15 *)
(** The search always terminates with a list of views. *)
Theorem C15_search_terminates : forall s e, exists vs, search s e = Some vs.
Proof. apply search_total. Qed.
Print Assumptions C15_search_terminates.

(** Exactly which views are consulted.
    Windows below one day: the hours reached from the start in steps of one hour. *)
Theorem C15_hour_windows_exact : forall s e vs, search s e = Some vs ->
  e - s < 24 * 3600000000000 ->
  forall v, In v vs <-> exists k, 0 <= k /\ s + k * 3600000000000 < e /\ v = view_H (s + k * 3600000000000).
Proof.
  intros s e vs H L v. unfold search in H. rewrite C13_search_granularity in H.
  rewrite (proj1 (C13_granularity (e - s)) L) in H. apply range_H in H as (n & -> & N).
  rewrite in_map_iff. split.
  - intros (k & <- & K). apply in_seq in K. exists (Z.of_nat k). rewrite <- ns_hour_val.
    repeat split; [lia|apply N; lia].
  - rewrite <- ns_hour_val. intros (k & K & K2 & ->). exists (Z.to_nat k). rewrite Z2Nat.id by lia. split; [reflexivity|].
    apply in_seq. split; [lia|]. cbn [plus]. apply N. rewrite Z2Nat.id by lia. exact K2.
Qed.
Print Assumptions C15_hour_windows_exact.

(** Windows of one day up to 30 days: the days from that of the start to the one before that of the end. *)
Theorem C15_day_windows_exact : forall s e vs, search s e = Some vs ->
  24 * 3600000000000 <= e - s < 30 * 24 * 3600000000000 ->
  forall v, In v vs <-> exists t, s / 86400000000000 <= t / 86400000000000 < e / 86400000000000 /\ v = view_D t.
Proof.
  intros s e vs H L v. unfold search in H. rewrite C13_search_granularity in H.
  rewrite (proj1 (proj2 (C13_granularity (e - s))) L) in H. pose proof (range_D _ _ _ H v) as R.
  rewrite R. split; intros (t & Ht & ->); exists t; rewrite ?day_of_val in *; auto.
Qed.
Print Assumptions C15_day_windows_exact.

(** Windows of 30 days up to 360 days: the months from that of the start to the one before that of the end;
    but none at all if the window starts on a day that the next month lacks and ends in that month. *)
Definition short_next_month (s e : Z) : Prop :=
  12 * year_of e + month_of e = 12 * year_of s + month_of s + 1 /\ days_in_month (year_of e) (month_of e) < mday_of s.
Lemma short_next_eq s e : short_next_month s e <-> short_next s e.
Proof.
  unfold short_next_month, short_next.
  assert (E : mlen (mi e) = days_in_month (year_of e) (month_of e)).
  { unfold mlen. rewrite <- year_of_mi, <- month_of_mi. unfold dim, days_in_month. rewrite is_leap_leap. reflexivity. }
  rewrite E. unfold mi. split; intros [A B]; split; auto; lia.
Qed.
Theorem C15_month_windows_exact : forall s e vs, search s e = Some vs ->
  30 * 24 * 3600000000000 <= e - s < 360 * 24 * 3600000000000 ->
  (short_next_month s e -> vs = []) /\
  (~ short_next_month s e -> forall v, In v vs <-> exists t,
    12 * year_of s + month_of s <= 12 * year_of t + month_of t < 12 * year_of e + month_of e /\ v = view_M t).
Proof.
  intros s e vs H L. unfold search in H. rewrite C13_search_granularity in H.
  rewrite (proj1 (proj2 (proj2 (C13_granularity (e - s)))) L) in H. apply range_M_any in H as [M1 M2]; [|lia].
  rewrite short_next_eq. split; [exact M1|]. intros N v. rewrite (M2 N v). unfold mi.
  split; intros (t & Ht & ->); exists t; split; auto; lia.
Qed.
(** 31 May 2024 - 30 June 2024: nothing is consulted, although the window is in two months. *)
Example C15_short_next_month_example : exists s e, s = 1717113600000000000 /\ e = 1719705600000000000 /\
  30 * 24 * 3600000000000 <= e - s < 360 * 24 * 3600000000000 /\ short_next_month s e /\ search s e = Some [].
Proof. exists 1717113600000000000, 1719705600000000000. unfold short_next_month. repeat split; vm_compute; congruence. Qed.
Print Assumptions C15_month_windows_exact.

(** Windows of 360 days and more: the years from that of the start to the one before that of the end. *)
Theorem C15_year_windows_exact : forall s e vs, search s e = Some vs ->
  360 * 24 * 3600000000000 <= e - s ->
  forall v, In v vs <-> exists t, year_of s <= year_of t < year_of e /\ v = view_Y t.
Proof.
  intros s e vs H L v. unfold search in H. rewrite C13_search_granularity in H.
  rewrite (proj2 (proj2 (proj2 (C13_granularity (e - s)))) L) in H. apply (range_Y _ _ _ H).
Qed.
Print Assumptions C15_year_windows_exact.

(** Nothing outside the window's units is consulted: every consulted view is one of the four views of
    some instant inside the window. *)
Theorem C15_search_sound : forall s e vs v, search s e = Some vs -> In v vs ->
  exists t, s <= t < e /\ In v (std_views t).
Proof.
  intros s e vs v H I. unfold std_views.
  assert (U : forall (u : Z -> Z) t, (forall a b, a <= b -> u a <= u b) -> u s <= u t < u e -> exists t', s <= t' < e /\ u t' = u t).
  { intros u t Hm Ht. destruct (Z_lt_le_dec t s) as [L|L].
    - exists s. pose proof (Hm t s). split; [split; [lia|]|lia].
      destruct (Z_lt_le_dec s e) as [|G]; auto. pose proof (Hm e s G). lia.
    - exists t. split; [|reflexivity]. split; auto. destruct (Z_lt_le_dec t e) as [|G]; auto. pose proof (Hm e t G). lia. }
  assert (K : e - s < 24 * 3600000000000 \/ 24 * 3600000000000 <= e - s < 30 * 24 * 3600000000000 \/
     30 * 24 * 3600000000000 <= e - s < 360 * 24 * 3600000000000 \/ 360 * 24 * 3600000000000 <= e - s) by lia.
  destruct K as [K|[K|[K|K]]].
  - apply (C15_hour_windows_exact s e vs H K) in I as (k & K1 & K2 & ->).
    exists (s + k * 3600000000000). split; [lia|]. right. right. right. left. reflexivity.
  - apply (C15_day_windows_exact s e vs H K) in I as (t & Ht & ->).
    rewrite <- !day_of_val in Ht. destruct (U day_of t day_of_mono Ht) as (t' & B & E). exists t'. split; auto. rewrite <- (view_D_ext _ _ E). cbn [In]. auto.
  - unfold search in H. rewrite C13_search_granularity in H.
    rewrite (proj1 (proj2 (proj2 (C13_granularity (e - s)))) K) in H. apply range_M in H as (m & M1 & M2 & _).
    apply M1 in I as (t & Ht & ->). assert (M : mi s <= mi e) by (apply mi_mono; lia).
    destruct (U mi t mi_mono ltac:(lia)) as (t' & B & E). exists t'. split; auto. rewrite <- (view_M_ext _ _ E). cbn [In]. auto.
  - apply (C15_year_windows_exact s e vs H K) in I as (t & Ht & ->).
    destruct (U year_of t year_mono_t Ht) as (t' & B & E). exists t'. split; auto. rewrite <- (view_Y_ext _ _ E). cbn [In]. auto.
Qed.
Print Assumptions C15_search_sound.

(** Where the search is complete: windows below one day that start on the hour; and, for longer windows
    (when months are used, not starting on a day the next, last, month lacks), all instants that are not in the same unit as the end. *)
Theorem C15_covers_window_partial : forall s e vs t, search s e = Some vs -> s <= t < e ->
  (e - s < 24 * 3600000000000 -> s mod 3600000000000 = 0) ->
  (24 * 3600000000000 <= e - s < 30 * 24 * 3600000000000 -> t / 86400000000000 <> e / 86400000000000) ->
  (30 * 24 * 3600000000000 <= e - s < 360 * 24 * 3600000000000 ->
     ~ short_next_month s e /\ (year_of t, month_of t) <> (year_of e, month_of e)) ->
  (360 * 24 * 3600000000000 <= e - s -> year_of t <> year_of e) ->
  exists v, In v vs /\ In v (std_views t).
Proof.
  intros s e vs t H B H1 H2 H3 H4. unfold std_views.
  assert (K : e - s < 24 * 3600000000000 \/ 24 * 3600000000000 <= e - s < 30 * 24 * 3600000000000 \/
     30 * 24 * 3600000000000 <= e - s < 360 * 24 * 3600000000000 \/ 360 * 24 * 3600000000000 <= e - s) by lia.
  destruct K as [K|[K|[K|K]]].
  - exists (view_H t). split; [|cbn [In]; auto]. specialize (H1 K).
    apply (C15_hour_windows_exact s e vs H K). set (k := (t - s) / 3600000000000).
    pose proof (Z.div_mod (t - s) 3600000000000 ltac:(lia)) as D. pose proof (Z.mod_pos_bound (t - s) 3600000000000 ltac:(lia)) as R.
    pose proof (Z.div_pos (t - s) 3600000000000 ltac:(lia) ltac:(lia)) as P.
    exists k. fold k in D, P. split; [exact P|]. split; [lia|].
    assert (E : t / ns_hour = (s + k * ns_hour) / ns_hour).
    { rewrite ns_hour_val,  Z.div_add by lia.
      pose proof (Z.div_mod s 3600000000000 ltac:(lia)). apply (div_step _ _ _ ((t - s) mod 3600000000000)); lia. }
    rewrite <- ns_hour_val. apply view_H_ext, E.
  - exists (view_D t). split; [|cbn [In]; auto]. apply (C15_day_windows_exact s e vs H K). exists t. split; [|reflexivity].
    pose proof (Z.div_le_mono s t 86400000000000). pose proof (Z.div_le_mono t e 86400000000000). specialize (H2 K). lia.
  - destruct (H3 K) as [D N]. exists (view_M t). split; [|cbn [In]; auto].
    apply (proj2 (C15_month_windows_exact s e vs H K) D). exists t. split; [|reflexivity].
    pose proof (mi_mono s t) as M1. pose proof (mi_mono t e) as M2.
    assert (mi t <> mi e). { intros Q. apply mi_eq in Q as [Q1 Q2]. apply N. congruence. }
    pose proof (mi_eqn s) as Es. pose proof (mi_eqn e) as Ee. pose proof (mi_eqn t) as Et.
    assert (L1 : mi s <= mi t <= mi e) by (split; [apply M1; apply B|apply M2; apply Z.lt_le_incl, B]).
    revert Es Ee Et L1 H0.
    generalize (mi s) (mi t) (mi e) (year_of s) (month_of s) (year_of t) (month_of t) (year_of e) (month_of e);
    clear; intros; lia.
  - exists (view_Y t). split; [|cbn [In]; auto]. apply (C15_year_windows_exact s e vs H K). exists t. split; [|reflexivity].
    pose proof (year_mono_t s t). pose proof (year_mono_t t e). specialize (H4 K). lia.
Qed.
Print Assumptions C15_covers_window_partial.

(** The property itself is false, in each of the four regimes.
    (a) 14:50 - 15:05: 15:03 is not looked at.  (b) a two day window: the whole last day is missed.
    (c) 30 days inside January: nothing is consulted.  (d) 1 January - 30 December: nothing is consulted. *)
Definition window_misses (s e t : Z) : Prop :=
  s <= t < e /\ forall vs, search s e = Some vs -> forall v, In v vs -> ~ In v (std_views t).
Theorem C15_search_incomplete_refuted :
  (* 2024-03-01 14:50 .. 15:05, t = 15:03 *)
  window_misses 1709304600000000000 1709305500000000000 1709305380000000000 /\
  (* 2024-03-01 12:00 .. 2024-03-03 12:00, t = 2024-03-03 01:00 *)
  window_misses 1709294400000000000 1709467200000000000 1709427600000000000 /\
  search 1704067200000000000 1706659200000000000 = Some [] /\
  search 1704067200000000000 1735516800000000000 = Some [].
Proof.
  repeat split; try lia; try (vm_compute; reflexivity); intros vs H v I J;
  (match type of H with ?l = _ => let r := eval vm_compute in l in assert (E : l = r) by (vm_compute; reflexivity) end);
  rewrite E in H; apply some_inj in H as <-; cbn [In] in I;
  (match type of J with In _ ?l => let r := eval vm_compute in l in change l with r in J end);
  cbn [In] in J; intuition (subst; discriminate).
Qed.
Print Assumptions C15_search_incomplete_refuted.

(** The default window (the last 15 minutes) misses the current hour whenever it crosses an hour: the
    samples just received in the new hour are not searched. *)
Theorem C15_default_window_misses_new_hour_refuted : forall ts t vs,
  int64_instant (ts - 900000000000) -> int64_instant t ->
  search (ts - 900000000000) ts = Some vs ->
  (ts - 900000000000) / 3600000000000 < t / 3600000000000 ->
  ~ In (view_H t) vs.
Proof.
  intros ts t vs Y1 Y2 H L I.
  apply (C15_hour_windows_exact _ _ _ H ltac:(lia)) in I as (k & K1 & K2 & E).
  assert (k = 0) by lia. subst k. rewrite Z.mul_0_l, Z.add_0_r in E.
  unfold view_H in E. apply append_inj_l in E. apply format_YMDH_eq in E; [|apply year4_int64; auto..].
  rewrite ns_hour_val in E. lia.
Qed.
Print Assumptions C15_default_window_misses_new_hour_refuted.

(* ------------------------------------------------------------------ C16 *)
Open Scope N_scope.
Theorem C16_position_roundtrip : forall row col, row < 2 ^ 44 ->
  pos row col / 1048576 = row /\ pos row col mod 1048576 = col mod 1048576.
Proof.
  intros row col H. unfold pos, shard_width, two64.
  pose proof (N.mod_lt col 1048576 ltac:(lia)) as M. set (m := col mod 1048576) in *. clearbody m.
  rewrite N.mod_small by lia. split.
  - symmetry. apply (N.div_unique _ _ _ m); lia.
  - symmetry. apply (N.mod_unique _ _ row m); lia.
Qed.
Print Assumptions C16_position_roundtrip.

Theorem C16_position_injective_in_shard : forall row row' col col', row < 2 ^ 44 -> row' < 2 ^ 44 ->
  col / 1048576 = col' / 1048576 -> pos row col = pos row' col' -> row = row' /\ col = col'.
Proof.
  intros row row' col col' H H' E P.
  destruct (C16_position_roundtrip row col H) as [A B]. destruct (C16_position_roundtrip row' col' H') as [A' B'].
  rewrite P in A, B. rewrite A in A'. rewrite B in B'. split; auto.
  pose proof (N.div_mod col 1048576 ltac:(lia)). pose proof (N.div_mod col' 1048576 ltac:(lia)). lia.
Qed.
Print Assumptions C16_position_injective_in_shard.

(** Sample ids that differ by 2^44 collide. *)
Theorem C16_positions_wrap : forall row col, pos (row + 2 ^ 44) col = pos row col.
Proof.
  intros. unfold pos, shard_width, two64.
  replace ((row + 2 ^ 44) * 1048576 + col mod 1048576) with (row * 1048576 + col mod 1048576 + 1 * 2 ^ 64) by lia.
  apply N.mod_add. lia.
Qed.
Print Assumptions C16_positions_wrap.
Example C16_case : pos 3 (1048576 + 7) = 3145735 /\ pos (2 ^ 44 + 3) 7 = 3145735.
Proof. split; reflexivity. Qed.
