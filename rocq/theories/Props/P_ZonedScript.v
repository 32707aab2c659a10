(** C105: what a query script run in a zone with daylight saving gets from the server as it is built. *)
From Verif.Model Require Import Base Labels Calendar View KV Otlp Transform Batch Rows Shards Dataframe Collapse Store Sequence Translate ColumnCache Wiring Visit XxHash Query Service ScanBuilder Duration Script Zone ZoneScript.
From Verif.Spec Require Import Gregorian Scripts Indexing Translator Frames Saves Sets Merge Trim Queries Serving Durations Asked Limits Zones ZonedScripts.
From Verif.Proofs Require Import BaseFacts CalendarFacts ViewFacts ScanBuilderFacts VisitFacts StoreFacts SequenceFacts ServiceFacts OnceFacts WiringFacts WiredStore ManyLabels ZoneFacts.
From Verif.Props Require Import P_Store P_Collapse P_EndToEnd P_Query P_Once P_Service P_Serving P_Restart P_Wiring P_Displaced P_Many P_Asked P_AsBuilt.
From Verif.Props Require P_Visit P_Duration P_Zone.
Open Scope Z_scope.

(** Where a calendar window begins, for the builder. *)
Definition start (z : zone) (u : Z) (m : method) : Z :=
  match m with
  | Today => beginning_of_day_in z u | ThisWeek => beginning_of_week_in z u | ThisMonth => beginning_of_month_in z u | ThisYear => beginning_of_year_in z u
  | _ => u
  end.
(** The call that says the same in nanoseconds. *)
Definition in_ns (z : zone) (um : Z * method) : clock * method :=
  let '(u, m) := um in
  (Clock u 0, match m with Today | ThisWeek | ThisMonth | ThisYear => Ago (duration_string (u - start z u m)) | _ => m end).
Section Zoned.
Context (f : Z -> Z * Z * Z) (z : zone) (Cal : is_calendar f) (Or : orderly z).

Lemma year_month_eq d e : year_month d = year_month e <-> year d = year e /\ month d = month e.
Proof. destruct d as [[y m] d], e as [[y' m'] e]. cbn. split; [intros H; apply pair_inj in H; exact H|intros [-> ->]; reflexivity]. Qed.
Lemma the_year_eq d e : the_year d = the_year e <-> year d = year e.
Proof. destruct d as [[y m] d], e as [[y' m'] e]. reflexivity. Qed.
Lemma start_in u m t : (m = ThisWeek -> midnight_shown z u) -> calendar_window m -> t < u -> (start z u m <= t <-> in_window_in f z u m t).
Proof.
  intros Mn C T. assert (T' : t <= u) by lia. unfold in_window_in.
  destruct m; try (destruct C; fail); cbn [start]; rewrite (both_show_days z _ t u Or).
  - rewrite (today_in f z u t Cal Or T'). tauto.
  - rewrite (week_in z u t Or T') by (apply (midnight_shown_day z u Or), Mn; reflexivity). tauto.
  - rewrite (month_in f z u t Cal Or T'), year_month_eq. tauto.
  - rewrite (year_in f z u t Cal Or T'), the_year_eq. tauto.
Qed.
Lemma start_le u m : (m = ThisWeek -> midnight_shown z u) -> start z u m <= u.
Proof.
  intros Mn. assert (U : u <= u) by lia. destruct m; try exact U; cbn [start].
  - apply (today_in f z u u Cal Or U). reflexivity.
  - apply (week_in z u u Or U); [apply (midnight_shown_day z u Or), Mn|]; reflexivity.
  - apply (month_in f z u u Cal Or U). split; reflexivity.
  - apply (year_in f z u u Cal Or U). reflexivity.
Qed.
Lemma start_rep u m : 0 <= u < 2 ^ 63 -> (calendar_window m -> forall t, in_window_in f z u m t -> 0 <= t) /\ (m = ThisWeek -> midnight_shown z u) -> calendar_window m ->
  parse_duration (duration_string (u - start z u m)) = Some (u - start z u m) /\ 0 <= u - start z u m < 2 ^ 63.
Proof.
  intros U [H Mn] C. pose proof (start_le u m Mn) as L. assert (B : 0 <= u - start z u m < 2 ^ 63).
  { split; [lia|]. destruct (Z.eq_dec (start z u m) u) as [->|N]; [lia|]. assert (0 <= start z u m); [|lia].
    apply (H C). apply start_in; [exact Mn|exact C|lia|lia]. }
  split; [|exact B]. apply P_Duration.C86_printed_is_read_back. unfold P_Duration.representable. lia.
Qed.
Lemma in_ns_not u m : ~ calendar_window m -> in_ns z (u, m) = (Clock u 0, m).
Proof. intros H. destruct m; try reflexivity; destruct H; exact Logic.I. Qed.
Lemma in_ns_cal u m : calendar_window m -> in_ns z (u, m) = (Clock u 0, Ago (duration_string (u - start z u m))).
Proof. intros H. destruct m; try (destruct H; fail); reflexivity. Qed.
Lemma cal_dec m : calendar_window m \/ ~ calendar_window m.
Proof. destruct m; cbn; tauto. Qed.

Lemma exec_in_ns s u m : 0 <= u < 2 ^ 63 -> (calendar_window m -> forall t, in_window_in f z u m t -> 0 <= t) /\ (m = ThisWeek -> midnight_shown z u) ->
  exec parse_duration s (fst (in_ns z (u, m))) (call_of (snd (in_ns z (u, m)))) =
  (exec_in parse_duration z s u (call_of m), snd (exec parse_duration s (Clock u 0) (call_of m))).
Proof.
  intros U H. destruct (cal_dec m) as [C|C].
  - rewrite (in_ns_cal u m C). destruct (start_rep u m U H C) as [E B]. cbn [fst snd call_of exec]. rewrite E.
    assert (N : neg64 (u - start z u m) = - (u - start z u m)) by (unfold neg64, min_int64; destruct (Z.eqb_spec (u - start z u m) (- 2 ^ 63)); lia).
    rewrite N. cbn [ck_ns]. replace (u + - (u - start z u m)) with (start z u m) by lia. destruct m; try (destruct C; fail); reflexivity.
  - rewrite (in_ns_not u m C). cbn [fst snd]. destruct m; try (exfalso; apply C; exact Logic.I); try apply surjective_pairing.
Qed.
Lemma chain_in_ns l : in_our_time f z l -> forall s, chain s (map (in_ns z) l) = chain_in z s l.
Proof.
  induction l as [|[u m] l IH]; intros T s; [reflexivity|]. destruct (T u m (or_introl eq_refl)) as [U H].
  change (map (in_ns z) ((u, m) :: l)) with (in_ns z (u, m) :: map (in_ns z) l). rewrite (surjective_pairing (in_ns z (u, m))). cbn [chain chain_in]. rewrite (exec_in_ns s u m U H).
  destruct (snd (exec parse_duration s (Clock u 0) (call_of m))); [|reflexivity]. apply IH. intros u' m' I. apply T. right. exact I.
Qed.
Lemma run_in_ns I h h0 kvb (st : store I) e client order k l : in_our_time f z l ->
  run_script I h h0 kvb st e client order k (map (in_ns z) l) = run_script_in I h h0 kvb z st e client order k l.
Proof. intros T. unfold run_script, run_script_in. rewrite (chain_in_ns l T). reflexivity. Qed.

(** What the two scripts say. *)
Lemma said_ns k l m : In m (said k (map (in_ns z) l)) -> In m (said k (plainly l)) \/ exists d, m = Ago d.
Proof.
  unfold said, plainly. rewrite !in_app_iff, !map_map. intros [H|H]; [left; left; exact H|]. apply in_map_iff in H as ([u m'] & E & I).
  destruct (cal_dec m') as [C|C]; [rewrite (in_ns_cal u m' C) in E; right; eexists; symmetry; exact E|]. rewrite (in_ns_not u m' C) in E. left. right. apply in_map_iff. exists (u, m'). split; assumption.
Qed.
Lemma said_ns_back k l m : In m (said k (plainly l)) -> In m (said k (map (in_ns z) l)) \/ calendar_window m.
Proof.
  unfold said, plainly. rewrite !in_app_iff, !map_map. intros [H|H]; [left; left; exact H|]. apply in_map_iff in H as ([u m'] & E & I). cbn [fst snd] in E. subst m'.
  destruct (cal_dec m) as [C|C]; [right; exact C|]. left. right. apply in_map_iff. exists (u, m). rewrite (in_ns_not u m C). split; [reflexivity|exact I].
Qed.
Lemma says_ns k l e : (forall m, In m (said k (map (in_ns z) l)) -> says m e) <-> (forall m, In m (said k (plainly l)) -> says m e).
Proof.
  destruct e as [[[rs r] [ss s]] x]. split; intros H m I.
  - apply said_ns_back in I as [I|C]; [apply H, I|]. destruct m; try (destruct C; fail); exact Logic.I.
  - apply said_ns in I as [I|[d ->]]; [apply H, I|exact Logic.I].
Qed.
Lemma clear_ns k l : clear_script k (plainly l) -> clear_script k (map (in_ns z) l).
Proof.
  intros ((m & Im & Cm) & R & N). split; [|split].
  - exists m. split; [|exact Cm]. apply said_ns_back in Im as [Im|C]; [exact Im|]. destruct m; try (destruct C; fail); destruct Cm.
  - intros m' I. apply said_ns in I as [I|[d ->]]; [apply R, I|exact Logic.I].
  - intros m1 m2 I1 I2. apply said_ns in I1 as [I1|[d ->]]; [|intros []]. apply said_ns in I2 as [I2|[d ->]]; [apply N; assumption|]. destruct m1; intros [].
Qed.
Lemma good_ns l : in_our_time f z l -> good_durations (plainly l) -> good_durations (map (in_ns z) l).
Proof.
  intros T G c m d I E. apply in_map_iff in I as ([u m'] & E' & I). destruct (T u m' I) as [U H]. destruct (cal_dec m') as [C|C].
  - rewrite (in_ns_cal u m' C) in E'. apply pair_inj in E' as [_ <-]. destruct E as [E|E]; [|discriminate]. injection E as <-.
    destruct (start_rep u m' U H C) as [P B]. exists (u - start z u m'). split; [exact P|]. lia.
  - rewrite (in_ns_not u m' C) in E'. apply pair_inj in E' as [_ <-]. apply (G (Clock u 0) m' d); [|exact E]. apply in_map_iff. exists (u, m'). split; [reflexivity|exact I].
Qed.
(** The two windows. *)
Lemma window_ns u w t : 0 <= u < 2 ^ 63 -> (calendar_window w -> forall t, in_window_in f z u w t -> 0 <= t) /\ (w = ThisWeek -> midnight_shown z u) ->
  (in_window_of f (Clock u 0) (snd (in_ns z (u, w))) t <-> in_window_in f z u w t).
Proof.
  intros U H. destruct (cal_dec w) as [C|C].
  - rewrite (in_ns_cal u w C). destruct (start_rep u w U H C) as [E B]. cbn [snd]. unfold in_window_of. cbn [ck_ns]. split.
    + intros (T & ns & E' & K). rewrite E in E'. apply some_inj in E'. subst ns. apply (start_in u w t (proj2 H) C T). lia.
    + intros K. assert (T : t < u) by exact (proj1 K). split; [exact T|]. eexists. split; [exact E|]. apply (start_in u w t (proj2 H) C T) in K. lia.
  - rewrite (in_ns_not u w C). cbn [snd]. destruct w; try (exfalso; apply C; exact Logic.I); unfold in_window_of, in_window_in; cbn [ck_ns]; reflexivity.
Qed.
Lemma is_window_ns u m : is_window (snd (in_ns z (u, m))) <-> is_window m.
Proof. destruct m; reflexivity. Qed.
End Zoned.

(** What matters to a script: payloads filed where its window looks, with a record it asks for. *)
Definition matters_in (f : Z -> Z * Z * Z) (z : zone) (u : Z) (w : method) (t0 : Z) (k : class) (l : list (Z * method)) (d : data) : Prop :=
  looked_at f (Clock u 0) t0 d /\ exists e, In e (of_class k [d]) /\ asked_for_in f z u w k l e.
(** A script gets exactly the records it asks for of the payloads filed where its window looks. *)
Definition gets_where_looked_in (I : tr_impl) h h0 kvb (state : store I) wall client order (k : class) (z : zone) (l : list (Z * method)) (f : Z -> Z * Z * Z) (u : Z) (w : method) (t0 : Z) (ds : list data) : Prop :=
  exists o keep look, run_script_in I h h0 kvb z state (calm wall) client order k l = Got o /\
    (forall d, In d ds -> (look d = true <-> looked_at f (Clock u 0) t0 d)) /\
    (forall e, In e (of_class k ds) -> (keep e = true <-> asked_for_in f z u w k l e)) /\
    Permutation (got_records o) (map (fun e => as_seen (forget e)) (filter keep (of_class k (filter look ds)))).

(** C105: C102's theorem for a script whose machine is in any orderly zone, days, weeks, months and years being those
    the clock on the wall shows. *)
Theorem C105_gets_where_it_looks_partial : forall grow hash world d0 es0 es1 earlier ms s h h0 kvb wall client order k z l l1 u w l2 f t0,
  as_built grow hash world d0 es0 es1 earlier ms s -> at_rest s -> orderly z ->
  let I := wired_server grow hash world in let s0 := wired_first grow hash world d0 in let es := es0 ++ es1 in let state := after I s0 es in
  clear_script k (plainly l) -> good_durations (plainly l) -> l = l1 ++ (u, w) :: l2 -> is_window w -> (forall u' m, In (u', m) l2 -> ~ is_window m) ->
  is_calendar f -> in_our_time f z l ->
  begins_in f z u w t0 -> 0 <= t0 -> (forall d ns, w = Ago d -> parse_duration d = Some ns -> 0 <= ns) ->
  (forall ls x, In (ls, false) (sv_saves s) -> In x ls -> ~ matters_in f z u w t0 k l (smp_data x)) ->
  (forall x, In x (given es0) -> matters_in f z u w t0 k l (smp_data x) -> kept I s0 es0 x /\ few_labels I state /\ exists y ls, In (y :: ls, true) (sv_saves s)) ->
  some_order order ->
  (forall sc x v, chain_in z (construct k) l = Some sc -> In x (given es) -> signal_of (smp_data x) = class_signal k -> looked_at f (Clock u 0) t0 (smp_data x) ->
     shares_column I (st_tr state) sc (smp_data x) -> In v (home (smp_data x)) -> aligned (flushes I s0 es) v x) ->
  mergeable h kvb (sent es0 s) ->
  (forall sc d, chain_in z (construct k) l = Some sc -> do_scan I h kvb state (calm wall) sc order = SData (Some d) -> P_Visit.fair h h0 sc d) ->
  gets_where_looked_in I h h0 kvb state wall client order k z l f u w t0 (sent es0 s).
Proof.
  intros grow hash world d0 es0 es1 earlier ms s h h0 kvb wall client order k z l l1 u w l2 f t0 AB R Or I s0 es state Cl G El Hw Hl Cal T Be P0 Nn Lost Old OO Al Mg Fair.
  destruct (T u w) as [U Uw]; [rewrite El; apply in_or_app; right; left; reflexivity|].
  set (w' := snd (in_ns z (u, w))). set (l' := map (in_ns z) l).
  assert (Win : forall t, in_window_of f (Clock u 0) w' t <-> in_window_in f z u w t) by (intros t; apply (window_ns f z Cal Or u w t U Uw)).
  assert (Ask : forall e, asked_for f (Clock u 0) w' k l' e <-> asked_for_in f z u w k l e).
  { intros e. unfold asked_for, asked_for_in, l'. rewrite (says_ns z k l e), Win. reflexivity. }
  assert (Mat : forall d, matters f (Clock u 0) w' t0 k l' d <-> matters_in f z u w t0 k l d).
  { intros d. unfold matters, matters_in. split; (intros (A & e & B & C); split; [exact A|]; exists e; split; [exact B|apply Ask, C]). }
  assert (Ch : chain (construct k) l' = chain_in z (construct k) l) by (apply (chain_in_ns f z Cal Or l T)).
  assert (X : gets_where_looked I h h0 kvb state wall client order k l' f (Clock u 0) w' t0 (sent es0 s)).
  { apply (C102_gets_where_it_looks_partial grow hash world d0 es0 es1 earlier ms s h h0 kvb wall client order k l' (map (in_ns z) l1) (Clock u 0) w' (map (in_ns z) l2) f t0 AB R).
    - apply clear_ns, Cl.
    - apply (good_ns f z Cal Or l T G).
    - unfold l'. rewrite El, map_app. reflexivity.
    - apply is_window_ns, Hw.
    - intros c m Hm. apply in_map_iff in Hm as ([u' m'] & E & Hm). rewrite (surjective_pairing (in_ns z (u', m'))) in E. apply pair_inj in E as [_ <-]. rewrite is_window_ns. apply (Hl _ _ Hm).
    - exact Cal.
    - destruct Be as [Be1 Be2]. split; [exact Be1|]. intros t. rewrite Win. apply Be2.
    - exact P0.
    - exact (proj2 U).
    - intros d ns Ed Pd. unfold w' in Ed. destruct (cal_dec w) as [C|C].
      + rewrite (in_ns_cal z u w C) in Ed. cbn [snd] in Ed. injection Ed as <-. destruct (start_rep f z Cal Or u w U Uw C) as [E B]. change (pd ?x) with (parse_duration x) in Pd. rewrite E in Pd. apply some_inj in Pd. lia.
      + rewrite (in_ns_not z u w C) in Ed. exact (Nn d ns Ed Pd).
    - intros ls x Hs Hx M. exact (Lost ls x Hs Hx (proj1 (Mat _) M)).
    - intros x Hx M. exact (Old x Hx (proj1 (Mat _) M)).
    - exact OO.
    - intros sc x v Ec. rewrite Ch in Ec. exact (Al sc x v Ec).
    - exact Mg.
    - intros sc d Ec. rewrite Ch in Ec. exact (Fair sc d Ec). }
  destruct X as (o & keep & look & E & Lk & Kp & P). exists o, keep, look. split; [|split; [exact Lk|split; [|exact P]]].
  - rewrite <- (run_in_ns f z Cal Or I h h0 kvb state (calm wall) client order k l T). exact E.
  - intros e He. rewrite (Kp e He). apply Ask.
Qed.
Print Assumptions C105_gets_where_it_looks_partial.

(** The server of C102's example, its machine in a zone that goes forward an hour at 01:00 on 1 January 1970, asked for "b" today
    when the clock on the wall shows 03:00: the day began two hours ago. *)
Definition going_forward : zone := Zone 0 [(3600000000000, 3600000000000)].
Definition ask_zoned : list (Z * method) := [(7200000000000, Today)].
Example C105_example :
  let es := wlife3 ++ wlast in let state := after W0 w0 es in let k := Metrics (Some "b"%string) in
  orderly going_forward /\ clear_script k (plainly ask_zoned) /\ good_durations (plainly ask_zoned) /\
  (forall f, is_calendar f -> in_our_time f going_forward ask_zoned /\ begins_in f going_forward 7200000000000 Today 0) /\
  wall_shows going_forward 7200000000000 10800000000000 /\
  chain_in going_forward (construct k) ask_zoned = chain (construct k) ask_today /\
  exists d, run_script_in W0 xxh64 xxh64_zero toy_kvb going_forward state (calm 0) 0 group_columns k ask_zoned = Got (Some d) /\
    map snd (records d) = [IPoint "b" KGauge (Point half1 [] "y"); IPoint "b" KGauge (Point half1 [] "z")].
Proof.
  cbv zeta. pose proof C102_example as X. cbv zeta in X. destruct X as (_ & _ & Cl & G & _ & _ & _ & _ & _ & _ & _ & _ & _ & d & R & E).
  assert (Or : orderly going_forward).
  { split; [split; reflexivity|]. cbn [orderly_from z_changes z_first going_forward]. split; [left; exists 0; unfold a_day; lia|]. split; [split; reflexivity|]. split; exact Logic.I. }
  assert (Ch : chain_in going_forward (construct (Metrics (Some "b"%string))) ask_zoned = chain (construct (Metrics (Some "b"%string))) ask_today) by (vm_compute; reflexivity).
  assert (S : start going_forward 7200000000000 Today = 0) by (vm_compute; reflexivity).
  split; [exact Or|]. split; [exact Cl|]. split; [exact G|]. split; [|split; [|split; [exact Ch|]]].
  - intros f Cal. assert (W : forall t, t < 7200000000000 -> (0 <= t <-> in_window_in f going_forward 7200000000000 Today t)).
    { intros t T. rewrite <- S. apply (start_in f going_forward Cal Or 7200000000000 Today t ltac:(discriminate) Logic.I T). }
    split.
    + intros u m [H|[]]. apply pair_inj in H as [<- <-]. split; [split; [discriminate|reflexivity]|]. split; [|discriminate]. intros _ t H. apply W; [exact (proj1 H)|exact H].
    + split; [discriminate|]. intros t. split; [intros H; apply W; lia|]. intros H. pose proof (proj1 H) as T. apply W in H; [lia|exact T].
  - exists 3600000000000. split; [|reflexivity]. left. exists 3600000000000. split; [left; reflexivity|]. split; [discriminate|]. intros T' o' [H|[]] _. apply pair_inj in H as [<- _]. lia.
  - exists d. split; [|exact E]. unfold run_script_in. rewrite Ch. exact R.
Qed.
