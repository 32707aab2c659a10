(** C102, C105: what a window of less than a day makes of the current hour. *)
From Verif.Model Require Import Base Labels Calendar View KV Otlp Store Visit Query Service ScanBuilder Duration Script Zone ZoneScript.
From Verif.Spec Require Import Gregorian Scripts Indexing Translator Saves Sets Merge Trim Queries Serving Durations Asked Limits Zones ZonedScripts.
From Verif.Proofs Require Import BaseFacts ViewFacts ScanBuilderFacts.
From Verif.Props Require Import P_Asked P_AsBuilt P_ZonedScript.
Open Scope Z_scope.
Definition an_hour : Z := 3600000000000.

(** In a window of less than a day from [t0] to now, the payloads filed in the current hour are looked at exactly if the hand of the
    clock has passed, in this hour, the minute at which the window began. *)
Lemma current_hour f c t0 d : t0 <= ck_ns c -> ck_ns c - t0 < 24 * an_hour -> the_hour (filing d) = the_hour (ck_ns c) ->
  (looked_at f c t0 d <-> t0 mod an_hour < ck_ns c mod an_hour).
Proof.
  intros L S H. unfold looked_at, consulted. change (1 * 86400000000000) with (24 * an_hour). rewrite H. unfold the_hour. change 3600000000000 with an_hour.
  pose proof (Z.div_mod t0 an_hour ltac:(discriminate)) as D. pose proof (Z.div_mod (ck_ns c) an_hour ltac:(discriminate)) as D'.
  pose proof (Z.mod_pos_bound t0 an_hour eq_refl). pose proof (Z.mod_pos_bound (ck_ns c) an_hour eq_refl).
  pose proof (Z.div_le_mono t0 (ck_ns c) an_hour eq_refl L) as M.
  set (q := t0 / an_hour) in *. set (r := t0 mod an_hour) in *. set (q' := ck_ns c / an_hour) in *. set (r' := ck_ns c mod an_hour) in *.
  assert (Q : forall n, (t0 + n * an_hour) / an_hour = q + n) by (intros n; apply Z.div_add; discriminate).
  split.
  - intros [(_ & n & N & B & E)|[[K _]|[[K _]|[K _]]]]; [|change (30 * 86400000000000) with (30 * (24 * an_hour)) in *; change (360 * 86400000000000) with (360 * (24 * an_hour)) in *; unfold an_hour in *; lia..].
    rewrite Q in E. assert (n = q' - q) by lia. subst n. unfold an_hour in *. lia.
  - intros K. left. split; [exact S|]. exists (q' - q). split; [lia|]. split; [unfold an_hour in *; lia|]. rewrite Q. lia.
Qed.
(** No hour is looked at that begins later than now. *)
Lemma no_later_hour f c t0 d : ck_ns c - t0 < 24 * an_hour -> looked_at f c t0 d -> the_hour (filing d) <= the_hour (ck_ns c).
Proof.
  intros S [(_ & n & N & B & E)|[[K _]|[[K _]|[K _]]]].
  - rewrite E. apply Z.div_le_mono; [reflexivity|lia].
  - exfalso. unfold an_hour in *. lia.
  - exfalso. unfold an_hour in *. lia.
  - exfalso. unfold an_hour in *. lia.
Qed.

(** A script whose window is less than a day, run before the minute of the hour at which the window begins, gets nothing of
    what was sent in the current hour: every record it gets is in a payload filed in an earlier hour. *)
Definition gets_earlier_hours_only (o : option data) (c : clock) (k : class) (ds : list data) : Prop :=
  exists keep look, (forall d, In d ds -> look d = true -> the_hour (filing d) < the_hour (ck_ns c)) /\
    Permutation (got_records o) (map (fun e => as_seen (forget e)) (filter keep (of_class k (filter look ds)))).
Theorem C102_current_hour_refuted : forall I h h0 kvb (state : store I) wall client order k l f c w t0 ds, gets_where_looked I h h0 kvb state wall client order k l f c w t0 ds ->
  begins f c w t0 -> ck_ns c - t0 < 24 * an_hour -> ck_ns c mod an_hour <= t0 mod an_hour ->
  exists o, run_script I h h0 kvb state (calm wall) client order k l = Got o /\ gets_earlier_hours_only o c k ds.
Proof.
  intros I h h0 kvb state wall client order k l f c w t0 ds (o & keep & look & E & Lk & _ & P) [B _] S M. exists o. split; [exact E|]. exists keep, look. split; [|exact P].
  intros d Hd Ld. apply (Lk d Hd) in Ld. pose proof (no_later_hour f c t0 d S Ld). destruct (Z.eq_dec (the_hour (filing d)) (the_hour (ck_ns c))) as [Eh|]; [|lia].
  apply (current_hour f c t0 d B S Eh) in Ld. lia.
Qed.
Print Assumptions C102_current_hour_refuted.
(** After that minute, what was sent in the current hour is looked at. *)
Theorem C102_current_hour : forall I h h0 kvb (state : store I) wall client order k l f c w t0 ds, gets_where_looked I h h0 kvb state wall client order k l f c w t0 ds ->
  begins f c w t0 -> ck_ns c - t0 < 24 * an_hour -> t0 mod an_hour < ck_ns c mod an_hour ->
  exists o, run_script I h h0 kvb state (calm wall) client order k l = Got o /\
    forall d e, In d ds -> the_hour (filing d) = the_hour (ck_ns c) -> In e (of_class k [d]) -> asked_for f c w k l e -> In (as_seen (forget e)) (got_records o).
Proof.
  intros I h h0 kvb state wall client order k l f c w t0 ds (o & keep & look & E & Lk & Kp & P) [B _] S M. exists o. split; [exact E|].
  intros d e Hd Eh He As. apply (Permutation_in _ (Permutation_sym P)). apply in_map_iff. exists e. split; [reflexivity|]. apply in_of_class in He as (d' & [<-|[]] & Sg & Ie).
  apply filter_In. split.
  - apply in_of_class. exists d. split; [apply filter_In; split; [exact Hd|]|auto]. apply (Lk d Hd). apply (current_hour f c t0 d B S Eh). exact M.
  - apply Kp; [|exact As]. apply in_of_class. exists d. auto.
Qed.
(** The same in a zone with daylight saving. *)
Theorem C105_current_hour_refuted : forall I h h0 kvb (state : store I) wall client order k z l f u w t0 ds, gets_where_looked_in I h h0 kvb state wall client order k z l f u w t0 ds ->
  begins_in f z u w t0 -> u - t0 < 24 * an_hour -> u mod an_hour <= t0 mod an_hour ->
  exists o, run_script_in I h h0 kvb z state (calm wall) client order k l = Got o /\ gets_earlier_hours_only o (Clock u 0) k ds.
Proof.
  intros I h h0 kvb state wall client order k z l f u w t0 ds (o & keep & look & E & Lk & _ & P) [B _] S M. exists o. split; [exact E|]. exists keep, look. split; [|exact P].
  intros d Hd Ld. apply (Lk d Hd) in Ld. pose proof (no_later_hour f (Clock u 0) t0 d S Ld). destruct (Z.eq_dec (the_hour (filing d)) (the_hour (ck_ns (Clock u 0)))) as [Eh|]; [|lia].
  apply (current_hour f (Clock u 0) t0 d B S Eh) in Ld. cbn [ck_ns] in Ld. lia.
Qed.
(** latest() begins a quarter of an hour ago: it is blind for the current hour exactly in its first quarter. *)
Theorem C102_latest_blind_quarter : forall f c t0, begins f c Latest t0 -> t0 = ck_ns c - 900000000000 /\
  (ck_ns c mod an_hour <= t0 mod an_hour <-> ck_ns c mod an_hour < 900000000000).
Proof.
  intros f c t0 [B W]. assert (E : t0 = ck_ns c - 900000000000).
  { unfold in_window_of in W. destruct (Z_lt_le_dec t0 (ck_ns c - 900000000000)) as [L|L].
    - pose proof (proj1 (W t0) ltac:(lia)) as K. lia.
    - destruct (Z.eq_dec t0 (ck_ns c - 900000000000)) as [|N]; [assumption|]. assert (K : t0 <= ck_ns c - 900000000000 < ck_ns c) by (apply W; lia). lia. }
  split; [exact E|]. subst t0. unfold an_hour. Z.to_euclidean_division_equations. lia.
Qed.
(** today() begins at midnight: in zones half an hour off (India), it is blind for the current hour of UTC until half past. *)
Theorem C102_half_hour_zones : forall f c t0, is_calendar f -> begins f c Today t0 -> t0 < ck_ns c -> ck_zone c mod an_hour = 1800000000000 ->
  (ck_ns c mod an_hour <= t0 mod an_hour <-> ck_ns c mod an_hour <= 1800000000000).
Proof.
  intros f c t0 Cal [B W] L Z. assert (E : t0 = beginning_of_day c).
  { assert (K : forall t, t < ck_ns c -> (beginning_of_day c <= t <-> in_window_of f c Today t)).
    { intros t T. rewrite (today_window f c t Cal) by lia. unfold in_window_of. unfold Asked.local_date, Scripts.local_date. tauto. }
    assert (A : beginning_of_day c <= t0) by (apply K; [exact L|]; apply W; lia).
    destruct (Z.eq_dec t0 (beginning_of_day c)) as [|N]; [assumption|]. assert (t0 <= beginning_of_day c < ck_ns c) by (apply W, K; lia). lia. }
  assert (M : t0 mod an_hour = 1800000000000).
  { subst t0. unfold beginning_of_day, midnight. change ns_day with (24 * an_hour). unfold an_hour in *. Z.to_euclidean_division_equations. lia. }
  rewrite M. reflexivity.
Qed.
Print Assumptions C102_half_hour_zones.

(** At 01:05, latest() begins at 00:50 and today() at midnight: the first is blind for the hour from 01:00, the second sees it. *)
Example C102_minutes_example : forall f, is_calendar f ->
  let c := Clock 3900000000000 0 in
  begins f c Latest 3000000000000 /\ ck_ns c mod an_hour <= 3000000000000 mod an_hour /\
  begins f c Today 0 /\ 0 mod an_hour < ck_ns c mod an_hour /\
  ck_zone (Clock 3900000000000 19800000000000) mod an_hour = 1800000000000.
Proof.
  intros f Cal c. split; [split; [discriminate|]; intros t; unfold in_window_of, c; cbn [ck_ns]; lia|]. split; [discriminate|]. split; [|split; reflexivity].
  split; [discriminate|]. intros t. unfold in_window_of. transitivity (t < ck_ns c /\ beginning_of_day c <= t); [change (beginning_of_day c) with 0; lia|].
  split; intros [T H]; (split; [exact T|]); apply (today_window f c t Cal); try exact H; lia.
Qed.
