(** C102: what a query script gets from the server as it is built, in any window, over any number of processes. *)
From Verif.Model Require Import Base Labels Calendar View KV Otlp Transform Batch Rows Shards Dataframe Collapse Store Sequence Translate ColumnCache Wiring Visit XxHash Query Service ScanBuilder Duration Script.
From Verif.Spec Require Import Gregorian Scripts Indexing Translator Frames Saves Sets Merge Trim Queries Serving Durations Asked Limits.
From Verif.Proofs Require Import BaseFacts CalendarFacts ViewFacts LabelsFacts ScanBuilderFacts VisitFacts ListTranslator StoreFacts SequenceFacts ServiceFacts OnceFacts WiringFacts WiredStore ManyLabels DataframeFacts TransformFacts TransformLaws.
From Verif.Props Require Import P_Store P_Collapse P_EndToEnd P_Query P_Once P_Service P_Serving P_Restart P_Wiring P_Displaced P_Many P_Asked.
From Verif.Props Require P_Visit P_Time P_Script P_Duration P_Own.
Open Scope Z_scope.
Notation entries := Trim.entries.

(* ------------------------------------------------------------------ where a query looks *)
Section Calendar.
Context (f : Z -> Z * Z * Z) (Cal : is_calendar f).
Lemma the_calendar n : f n = date_of_day n. Proof. exact (proj2 P_Time.C11_dates_are_gregorian f Cal n). Qed.
Lemma month_is t : the_month f t = 12 * year_of t + month_of t.
Proof. unfold the_month, the_day, year_of, month_of, date_of, day_of. rewrite the_calendar, ns_day_val. destruct (date_of_day (t / 86400000000000)) as [[y m] d]. reflexivity. Qed.
Lemma year_is t : year_in f t = year_of t.
Proof. unfold year_in, the_year, the_day, year_of, date_of, day_of. rewrite the_calendar, ns_day_val. reflexivity. Qed.
Lemma mday_is t : day_of_month f t = mday_of t.
Proof. unfold day_of_month, the_day, mday_of, date_of, day_of. rewrite the_calendar, ns_day_val. reflexivity. Qed.
Lemma length_is t : month_length f t = days_in_month (year_of t) (month_of t).
Proof. unfold month_length, the_day, year_of, month_of, date_of, day_of. rewrite the_calendar, ns_day_val. destruct (date_of_day (t / 86400000000000)) as [[y m] d]. reflexivity. Qed.

(** The views of a search hold exactly what was filed at times it consults. *)
Lemma consulted_iff t0 en vs t : search t0 en = Some vs -> 0 <= t0 -> en < 2 ^ 63 -> int64_range t ->
  ((exists v, In v vs /\ In v (std_views t)) <-> consulted f t0 en t).
Proof.
  intros H P0 Pe Ht. pose proof (year4_int64 t Ht) as Yt.
  assert (Yin : forall x, t0 <= x < en -> year4 x) by (intros x Hx; apply year4_int64; unfold int64_range; lia).
  unfold consulted. rewrite !month_is, !year_is, mday_is, length_is. unfold the_hour, the_day.
  assert (K : en - t0 < 24 * 3600000000000 \/ 24 * 3600000000000 <= en - t0 < 30 * 24 * 3600000000000 \/
     30 * 24 * 3600000000000 <= en - t0 < 360 * 24 * 3600000000000 \/ 360 * 24 * 3600000000000 <= en - t0) by lia.
  destruct K as [K|[K|[K|K]]].
  - transitivity (exists n, 0 <= n /\ t0 + n * 3600000000000 < en /\ t / 3600000000000 = (t0 + n * 3600000000000) / 3600000000000).
    + split.
      * intros (v & Hv & Hs). apply (P_Time.C15_hour_windows_exact t0 en vs H K) in Hv as (n & N1 & N2 & ->). exists n. split; [exact N1|]. split; [exact N2|].
        apply own_H in Hs; [|apply Yin; lia|exact Yt]. rewrite ns_hour_val in Hs. symmetry. exact Hs.
      * intros (n & N1 & N2 & E). exists (view_H t). split; [|right; right; right; left; reflexivity]. apply (P_Time.C15_hour_windows_exact t0 en vs H K). exists n. split; [exact N1|]. split; [exact N2|].
        apply view_H_ext. rewrite ns_hour_val. exact E.
    + split; [intros X; left; split; [lia|exact X]|]. intros [[_ X]|[X|[X|X]]]; [exact X|exfalso; lia..].
  - transitivity (t0 / 86400000000000 <= t / 86400000000000 < en / 86400000000000).
    + split.
      * intros (v & Hv & Hs). pose proof (P_Time.C15_search_sound _ _ _ _ H Hv) as (u & Hu & Hvu). apply (P_Time.C15_day_windows_exact t0 en vs H K) in Hv as (x & Hx & ->).
        assert (E : day_of x = day_of t).
        {
          apply own_D; [apply year4_int64; unfold int64_range; Z.to_euclidean_division_equations; lia|exact Yt|exact Hs]. }
        rewrite !day_of_val in E. rewrite <- E. exact Hx.
      * intros E. exists (view_D t). split; [|right; right; left; reflexivity]. apply (P_Time.C15_day_windows_exact t0 en vs H K). exists t. split; [exact E|reflexivity].
    + split; [intros X; right; left; split; [lia|exact X]|]. intros [[X _]|[[_ X]|[[X _]|[X _]]]]; [exfalso; lia|exact X|exfalso; lia|exfalso; lia].
  - destruct (P_Time.C15_month_windows_exact t0 en vs H K) as [M1 M2].
    transitivity (~ P_Time.short_next_month t0 en /\ 12 * year_of t0 + month_of t0 <= 12 * year_of t + month_of t < 12 * year_of en + month_of en).
    + split.
      * intros (v & Hv & Hs). assert (NS : ~ P_Time.short_next_month t0 en) by (intros S; rewrite (M1 S) in Hv; destruct Hv). split; [exact NS|].
        pose proof (P_Time.C15_search_sound _ _ _ _ H Hv) as (u & Hu & Hvu). apply (M2 NS) in Hv as (x & Hx & ->).
        assert (E : mi x = mi t).
        { assert (Yx : year4 x). { pose proof (year_of_int64 t0). pose proof (year_of_int64 en). unfold int64_range in *. pose proof (month_of_bounds x). pose proof (month_of_bounds t0). pose proof (month_of_bounds en). unfold year4. lia. }
          apply own_M; [exact Yx|exact Yt|exact Hs]. }
        rewrite !mi_eqn in E. lia.
      * intros [NS E]. exists (view_M t). split; [|right; left; reflexivity]. apply (M2 NS). exists t. split; [exact E|reflexivity].
    + unfold P_Time.short_next_month. split; [intros [X1 X2]; right; right; left; split; [lia|split; [exact X1|exact X2]]|].
      intros [[X _]|[[X _]|[(_ & X1 & X2)|[X _]]]]; [exfalso; lia|exfalso; lia|split; [exact X1|exact X2]|exfalso; lia].
  - transitivity (year_of t0 <= year_of t < year_of en).
    + split.
      * intros (v & Hv & Hs). apply (P_Time.C15_year_windows_exact t0 en vs H K) in Hv as (x & Hx & ->).
        assert (Yx : year4 x). { pose proof (year_of_int64 t0). pose proof (year_of_int64 en) as Ye. unfold int64_range in *. unfold year4.
          lia. }
        rewrite <- (own_Y x t Yx Yt Hs). exact Hx.
      * intros E. exists (view_Y t). split; [|left; reflexivity]. apply (P_Time.C15_year_windows_exact t0 en vs H K). exists t. split; [exact E|reflexivity].
    + split; [intros X; right; right; right; split; [lia|exact X]|]. intros [[X _]|[[X _]|[[X _]|[_ X]]]]; [exfalso; lia..|exact X].
Qed.
End Calendar.

(* ------------------------------------------------------------------ the script, for any answer of the query *)
(** The filing time of a payload's views. *)
Definition filing (d : data) : Z := int64_of_u64 (filed_at d).
Lemma filing_range d : (forall t1 t2, In (t1, t2) (record_times d) -> (t1 < two64 /\ t2 < two64)%N) -> int64_range (filing d).
Proof.
  intros T. assert (B : (filed_at d < two64)%N).
  { unfold filed_at. assert (T' : forall x, In x (map fst (record_times d)) -> (x < two64)%N) by (intros x Hx; apply in_map_iff in Hx as ([t1 t2] & <- & Hx); apply (T t1 t2 Hx)).
    assert (G : forall l a, (a < two64)%N -> (forall x, In x l -> (x < two64)%N) -> (fold_left fmin l a < two64)%N).
    { clear. induction l as [|x l IH]; intros a Ha T; [exact Ha|]. cbn [fold_left]. apply IH; [|intros y Hy; apply T; right; exact Hy].
      specialize (T x (or_introl eq_refl)). destruct (N.eqb_spec a 0); lia. }
    apply G; [reflexivity|exact T']. }
  unfold filing, int64_of_u64, int64_range, two63. unfold two64 in *. change (2 ^ 64)%N with 18446744073709551616%N in *. change (2 ^ 63)%N with 9223372036854775808%N. change (2 ^ 63) with 9223372036854775808.
  destruct (N.ltb_spec (filed_at d) 9223372036854775808); lia.
Qed.
Lemma given_times I st es : possible I st es -> forall x, In x (given es) -> forall t1 t2, In (t1, t2) (record_times (smp_data x)) -> (t1 < two64 /\ t2 < two64)%N.
Proof.
  revert st. induction es as [|e es IH]; intros st P x Hx; [destruct Hx|]. destruct P as [E P]. unfold given in Hx. cbn [flat_map] in Hx. apply in_app_iff in Hx as [Hx|Hx]; [|exact (IH _ P x Hx)].
  destruct e as [l ch|]; [|destruct Hx]. intros t1 t2. apply (proj2 E x t1 t2 Hx).
Qed.
(** The payloads filed where the window looks. *)
Definition looked_at (f : Z -> Z * Z * Z) (c : clock) (t0 : Z) (d : data) : Prop := consulted f t0 (ck_ns c) (filing d).
(** The record is asked for. *)
Definition asked_for (f : Z -> Z * Z * Z) (c : clock) (w : method) (k : class) (l : list (clock * method)) (e : entry) : Prop :=
  (forall m, In m (said k l) -> says m e) /\ in_window_of f c w (record_time (snd e)).
(** A script gets, of the payloads [ds], exactly the records asked for that are in payloads filed where its window looks,
    each as often as it is there. *)
Definition gets_where_looked (I : tr_impl) h h0 kvb (state : store I) wall client order (k : class) (l : list (clock * method)) (f : Z -> Z * Z * Z) (c : clock) (w : method) (t0 : Z) (ds : list data) : Prop :=
  exists o keep look, run_script I h h0 kvb state (calm wall) client order k l = Got o /\
    (forall d, In d ds -> (look d = true <-> looked_at f c t0 d)) /\
    (forall e, In e (of_class k ds) -> (keep e = true <-> asked_for f c w k l e)) /\
    Permutation (got_records o) (map (fun e => as_seen (forget e)) (filter keep (of_class k (filter look ds)))).

Lemma in_of_class k ds e : In e (of_class k ds) <-> exists d, In d ds /\ signal_of d = class_signal k /\ In e (entries d).
Proof.
  unfold of_class. rewrite in_flat_map. split; intros (d & Hd & He).
  - apply filter_In in Hd as [Hd Sg]. apply Z.eqb_eq in Sg. eauto.
  - destruct He as [Sg He]. exists d. split; [|exact He]. apply filter_In. split; [exact Hd|apply Z.eqb_eq, Sg].
Qed.
Lemma script_where_looked I h h0 kvb (state : store I) wall client order k l l1 c w l2 f t0 ds :
  clear_script k l -> good_durations l -> l = l1 ++ (c, w) :: l2 -> is_window w -> (forall c' m, In (c', m) l2 -> ~ is_window m) -> is_calendar f ->
  begins f c w t0 -> 0 <= t0 -> ck_ns c < 2 ^ 63 -> (forall d ns, w = Ago d -> pd d = Some ns -> 0 <= ns) ->
  (forall d, In d ds -> int64_range (filing d)) ->
  (forall sc vs, chain (construct k) l = Some sc -> sc_scope sc = class_signal k -> answerable (sc_scope sc) (sc_filters sc) -> sc_range (sc_times sc) <> None ->
     four_digit_years wall (sc_times sc) -> P_Visit.window client sc t0 (ck_ns c) -> window (calm wall) sc vs ->
     (forall d, In d ds -> ((exists v, In v vs /\ In v (home d)) <-> looked_at f c t0 d)) ->
     (forall e, In e (of_class k ds) -> (wanted (sc_filters sc) t0 (ck_ns c) e = true <-> asked_for f c w k l e)) ->
     exists out look, query I h h0 kvb state (calm wall) client sc order = AData out /\
       (forall d, In d ds -> (look d = true <-> exists v, In v vs /\ In v (home d))) /\
       Permutation (records out) (matching_of (filter look ds) sc t0 (ck_ns c))) ->
  gets_where_looked I h h0 kvb state wall client order k l f c w t0 ds.
Proof.
  intros Cl G El Hw Hl Cal [Be1 Be2] P0 Ck Nn Fr Core.
  set (sc := build_scan pd (resource_name k) (first_calls k ++ calls l)).
  assert (Ec : chain (construct k) l = Some sc) by (apply chain_build, G).
  pose proof (fun w' => last_window k l1 c w l2 f w' Cal Hw Hl ltac:(rewrite <- El; exact G)) as W. rewrite <- El in W. fold sc in W. cbv zeta in W.
  assert (Esc : sc_scope sc = class_signal k) by apply said_scope. assert (Ef : sc_filters sc = flat_map filters_of (said k l)) by apply said_filters.
  destruct (W wall) as (We & Ww & Wr & _ & Wo). specialize (Wo Nn).
  assert (Et : fst (time_bounds wall (sc_times sc)) = t0).
  { rewrite We in Wo, Ww. set (st := fst (time_bounds wall (sc_times sc))) in *. clearbody st. clear - Wo Ww Be1 Be2.
    destruct (Z_lt_le_dec st t0) as [L|L].
    - assert (K : t0 <= st) by (apply (Be2 st), Ww; lia). lia.
    - destruct (Z_lt_le_dec t0 st) as [L'|L']; [|lia]. assert (K : st <= t0) by (apply (Ww t0), Be2; lia). lia. }
  assert (TB : forall w', time_bounds w' (sc_times sc) = (t0, ck_ns c)).
  { intros w'. rewrite <- We, <- Et. destruct (sc_range (sc_times sc)) as [[a b]|] eqn:E; [|congruence]. unfold time_bounds. rewrite E. reflexivity. }
  destruct (search_total t0 (ck_ns c)) as [vs Hvs].
  assert (HW : window (calm wall) sc vs). { unfold window. cbn [e_wall calm]. rewrite TB. exact Hvs. }
  assert (Wan : forall e, In e (of_class k ds) -> (wanted (sc_filters sc) t0 (ck_ns c) e = true <-> asked_for f c w k l e)).
  { intros e He. rewrite Ef, (wanted_says k l Cl t0 (ck_ns c) e (fits_of_class _ _ _ He)). unfold asked_for. rewrite Be2. reflexivity. }
  assert (Loo : forall d, In d ds -> ((exists v, In v vs /\ In v (home d)) <-> looked_at f c t0 d)).
  { intros d Hd. apply (consulted_iff f Cal t0 (ck_ns c) vs (filing d) Hvs P0 Ck (Fr d Hd)). }
  destruct (Core sc vs Ec Esc) as (out & look & EQ & Lk & P).
  - rewrite Esc, Ef. apply clear_answerable, Cl.
  - exact Wr.
  - unfold four_digit_years. rewrite TB. cbn [fst snd].
    assert (Y1 := year_of_int64 t0). assert (Y2 := year_of_int64 (ck_ns c)). unfold int64_range in Y1, Y2. lia.
  - split; [apply TB|]. change (Z.of_N two63) with (2 ^ 63). lia.
  - exact HW.
  - exact Loo.
  - exact Wan.
  - unfold matching_of in P. rewrite Esc in P. change (flat_map entries (filter (fun d => (signal_of d =? class_signal k)%Z) (filter look ds))) with (of_class k (filter look ds)) in P.
    exists (getter k out), (wanted (sc_filters sc) t0 (ck_ns c)), look. split; [|split; [|split]].
    + unfold run_script. rewrite Ec, EQ. reflexivity.
    + intros d Hd. rewrite (Lk d Hd). apply Loo, Hd.
    + exact Wan.
    + rewrite (getter_records k out _ P); [exact P|]. intros e He. apply filter_In in He as [He _]. apply (fits_of_class k _ _ He).
Qed.

(* ------------------------------------------------------------------ the server as it is built *)
(** [es0]: what the earlier processes did to the database, new at first, all of them wired as the server is; [es1]: what the
    current one has done, now in state [s] after the moves [ms]. *)
Record as_built (grow : nat -> nat) (hash : string -> N) (world : nat -> around) (d : kv) (es0 es1 : list event) (earlier : list N) (ms : list move) (s : service) : Prop := {
  ab_empty : forall x, kvget (append "5" x) d = None;
  ab_possible : possible (wired_server grow hash world) (new_store _ (wired_first grow hash world d)) (es0 ++ es1);
  ab_earlier : increasing (given es0);
  ab_drawn : forall x, In x (given es0) -> In (smp_id x) earlier;
  ab_small : forall x, In x (given (es0 ++ es1)) -> (smp_id x < 2^44 - 1)%N;
  ab_cost : (N.of_nat (events_cost (es0 ++ es1)) < 2^43)%N;
  ab_hashes : hashes_differ hash (es0 ++ es1);
  ab_writes : written_by (wired_server grow hash world) (after _ (wired_first grow hash world d) es0) es1 s;
  ab_served : served earlier ms s }.

Lemma increasing_joined earlier ms s es0 es1 : served earlier ms s -> given es1 = given_to_store s -> increasing (given es0) -> (forall x, In x (given es0) -> In (smp_id x) earlier) ->
  increasing (given (es0 ++ es1)).
Proof.
  intros SV GH B D. unfold given. rewrite flat_map_app. change (increasing (given es0 ++ given es1)). rewrite GH.
  destruct (C43_handed_over_exactly_once _ _ _ SV) as (rest & _ & Srt & Old & _).
  assert (A : increasing (given_to_store s)).
  { assert (K : increasing (given_to_store s ++ rest)). { unfold increasing. clear - Srt. induction (given_to_store s ++ rest) as [|x l IH]; [constructor|]. cbn in Srt. inversion Srt; subst. constructor; [auto|].
      rewrite Forall_forall in *. intros y Hy. apply H2, in_map, Hy. }
    apply increasing_app in K as (K & _). exact K. }
  assert (X : forall x y, In x (given es0) -> In y (given_to_store s) -> (smp_id x < smp_id y)%N).
  { intros x y Hx Hy. apply (Old (smp_id x) y); [apply D, Hx|apply in_app_iff; left; exact Hy]. }
  clear - A B X. induction (given es0) as [|x l IH]; [exact A|]. cbn [app]. inversion B; subst. constructor; [apply IH; [assumption|intros u w Hu; apply X; right; exact Hu]|].
  apply Forall_app. split; [assumption|]. apply Forall_forall. intros y Hy. apply X; [left; reflexivity|exact Hy].
Qed.

Section AsBuilt.
Context (grow : nat -> nat) (hash : string -> N) (world : nat -> around) (d0 : kv) (es0 es1 : list event) (earlier : list N) (ms : list move) (s : service).
Context (AB : as_built grow hash world d0 es0 es1 earlier ms s).
Notation W := (wired_server grow hash world).
Notation Q := (wired_server grow hash (no_cache world)).
Notation s0 := (wired_first grow hash world d0).
Notation t0_ := (wired_first grow hash (no_cache world) d0).
Notation es := (es0 ++ es1).

Lemma ab_given : given es1 = given_to_store s.
Proof. destruct (ab_writes _ _ _ _ _ _ _ _ _ AB) as [_ Wr]. rewrite (given_saves W (after W s0 es0)), Wr. reflexivity. Qed.
Lemma ab_life : long_life grow hash world d0 es.
Proof.
  destruct AB. split; auto. eapply increasing_joined; eauto. apply ab_given.
Qed.
Lemma ab_now x ls : In (ls, true) (sv_saves s) -> In x ls -> saved_now Q t0_ es x.
Proof.
  intros H Hx. destruct (ab_writes _ _ _ _ _ _ _ _ _ AB) as [NR Wr]. rewrite <- Wr in H.
  destruct (success_now W s0 es0 es1 ls x NR H Hx) as (e1 & l & ch & e2 & E & Hl & OK & N). exists e1, l, ch, e2. split; [exact E|]. split; [exact Hl|]. split; [|exact N].
  assert (H1 : long_life grow hash world d0 (e1 ++ [ESave l ch])) by (apply (ll_prefix grow hash world d0 _ e2); rewrite <- app_assoc; cbn [app]; rewrite <- E; exact ab_life).
  pose proof (ll_save grow hash world d0 e1 l ch H1) as X. congruence.
Qed.
End AsBuilt.

(** All payloads ever sent: of the samples of the earlier processes, and of the answered requests of this one. *)
Definition sent (es0 : list event) (s : service) : list data := map smp_data (given es0) ++ payloads s.
(** The payload holds a record the script asks for, filed where its window looks. *)
Definition matters (f : Z -> Z * Z * Z) (c : clock) (w : method) (t0 : Z) (k : class) (l : list (clock * method)) (d : data) : Prop :=
  looked_at f c t0 d /\ exists e, In e (of_class k [d]) /\ asked_for f c w k l e.
(** C102.  The server as it is wired, at rest; any earlier processes, crashes, restarts, any number of labels.  What matters to
    the script was in no save that failed or was interrupted; if some of it is from an earlier process, there are fewer than
    2^20 labels and one save has succeeded since.  Then the script gets exactly the records it asks for of the payloads filed
    where its window looks, each as often as sent. *)
Theorem C102_gets_where_it_looks_partial : forall grow hash world d0 es0 es1 earlier ms s h h0 kvb wall client order k l l1 c w l2 f t0,
  as_built grow hash world d0 es0 es1 earlier ms s -> at_rest s ->
  let I := wired_server grow hash world in let s0 := wired_first grow hash world d0 in let es := es0 ++ es1 in let state := after I s0 es in
  clear_script k l -> good_durations l -> l = l1 ++ (c, w) :: l2 -> is_window w -> (forall c' m, In (c', m) l2 -> ~ is_window m) -> is_calendar f ->
  begins f c w t0 -> 0 <= t0 -> ck_ns c < 2 ^ 63 -> (forall d ns, w = Ago d -> parse_duration d = Some ns -> 0 <= ns) ->
  (forall ls x, In (ls, false) (sv_saves s) -> In x ls -> ~ matters f c w t0 k l (smp_data x)) ->
  (forall x, In x (given es0) -> matters f c w t0 k l (smp_data x) -> kept I s0 es0 x /\ few_labels I state /\ exists y ls, In (y :: ls, true) (sv_saves s)) ->
  some_order order ->
  (forall sc x v, chain (construct k) l = Some sc -> In x (given es) -> signal_of (smp_data x) = class_signal k -> looked_at f c t0 (smp_data x) ->
     shares_column I (st_tr state) sc (smp_data x) -> In v (home (smp_data x)) -> aligned (flushes I s0 es) v x) ->
  mergeable h kvb (sent es0 s) ->
  (forall sc d, chain (construct k) l = Some sc -> do_scan I h kvb state (calm wall) sc order = SData (Some d) -> P_Visit.fair h h0 sc d) ->
  gets_where_looked I h h0 kvb state wall client order k l f c w t0 (sent es0 s).
Proof.
  intros grow hash world d0 es0 es1 earlier ms s h h0 kvb wall client order k l l1 c w l2 f t0 AB (Rm & Rf & Rb) I s0 es state Cl G El Hw Hl Cal Be P0 Ck Nn Lost Old OO Al Mg Fair.
  set (Q := wired_server grow hash (no_cache world)). set (q0 := wired_first grow hash (no_cache world) d0).
  pose proof (ab_life grow hash world d0 es0 es1 earlier ms s AB) as Life. fold es in Life. pose proof (ll_history grow hash world d0 es Life) as HI. fold Q q0 in HI.
  pose proof (many_labels_stable grow hash world : tr_stable Q bare) as L.
  destruct (C43_handed_over_exactly_once _ _ _ (ab_served _ _ _ _ _ _ _ _ _ AB)) as (rest & P & _ & _ & Rest). rewrite (Rest Rf Rb), app_nil_r, <- (ab_given grow hash world d0 es0 es1 earlier ms s AB) in P.
  destruct (served_inv _ _ _ (ab_served _ _ _ _ _ _ _ _ _ AB)) as (lo0 & lo & hi & _ & Hi). assert (PP : Permutation (map smp_data (given es1)) (payloads s)).
  { rewrite <- (payloads_accepted _ _ _ _ Hi Rm). apply Permutation_map, P. }
  assert (GE : given es = given es0 ++ given es1) by (unfold es, given; apply flat_map_app).
  assert (PE : Permutation (map smp_data (given es)) (sent es0 s)) by (unfold sent; rewrite GE, map_app; apply Permutation_app_head, PP).
  assert (InE : forall x, In x (given es) -> In (smp_data x) (sent es0 s)) by (intros x Hx; apply (Permutation_in _ PE), in_map, Hx).
  apply (script_where_looked I h h0 kvb state wall client order k l l1 c w l2 f t0 (sent es0 s) Cl G El Hw Hl Cal Be P0 Ck Nn).
  { intros d Hd. apply (Permutation_in _ (Permutation_sym PE)) in Hd. apply in_map_iff in Hd as (x & <- & Hx). apply filing_range.
    exact (given_times I _ es (ab_possible _ _ _ _ _ _ _ _ _ AB) x Hx). }
  intros sc vs Ec Esc An NR Y PW Wd Loo Wan.
  assert (Saved : forall x e, In x (given es) -> signal_of (smp_data x) = sc_scope sc -> In e (entries (smp_data x)) -> wanted (sc_filters sc) t0 (ck_ns c) e = true ->
     (exists v, In v vs /\ In v (home (smp_data x))) -> saved Q q0 es x).
  { intros x e Hx Sg He Hwa Hv. rewrite Esc in Sg. apply (Loo _ (InE x Hx)) in Hv. assert (Hm : matters f c w t0 k l (smp_data x)).
    { split; [exact Hv|]. exists e. split; [apply in_of_class; exists (smp_data x); split; [left; reflexivity|auto]|]. apply Wan; [|exact Hwa]. apply in_of_class. exists (smp_data x). auto. }
    rewrite GE in Hx. apply in_app_iff in Hx as [Hx|Hx].
    - destruct (Old x Hx Hm) as ((e1 & l0 & ch & e2 & E & Hl0 & OK) & Few & y & ls & Hy). apply (back Q bare q0 es x L HI).
      + apply (ll_few grow hash world d0 es Life Few).
      + destruct (ab_now grow hash world d0 es0 es1 earlier ms s AB y (y :: ls) Hy (or_introl eq_refl)) as (a & l' & ch' & b & E' & Hl' & OK' & N). exists a, l', ch', b. repeat split; auto. intros ->. destruct Hl'.
      + apply (ll_kept grow hash world d0 es x Life). exists e1, l0, ch, (e2 ++ es1). unfold es. rewrite E, <- app_assoc. auto.
    - left. rewrite (given_saves I (after I s0 es0)) in Hx. apply in_flat_map in Hx as ([ls ok] & Hls & Hx). cbn [fst] in Hx.
      destruct (ab_writes _ _ _ _ _ _ _ _ _ AB) as [_ Wr]. unfold I, s0 in Hls. rewrite Wr in Hls. destruct ok; [|destruct (Lost ls x Hls Hx Hm)].
      exact (ab_now grow hash world d0 es0 es1 earlier ms s AB x ls Hls Hx). }
  unfold state, I, s0. rewrite (ll_query grow hash world d0 es h h0 kvb _ client sc order Life).
  destruct (exact_where_consulted Q bare q0 es h h0 kvb wall client sc order vs t0 (ck_ns c) L HI OO) as (out & E & PO); auto.
  - rewrite Esc. destruct k; vm_compute; auto.
  - intros x v Hx Sg (la & lb & col & A & B & C & D) Hv Hh. unfold Q, q0. rewrite <- (ll_flushes grow hash world d0 es Life). apply (Al sc x v Ec Hx); [congruence|apply (Loo _ (InE x Hx)); eauto| |exact Hh].
    exists la, lb, col. unfold state, I, s0. rewrite !(ll_find grow hash world d0 es _ Life). auto.
  - eapply mergeable_sub; [|exact Mg]. intros d Hd. apply (Permutation_in _ PE), Hd.
  - intros x Ex. apply (Fair sc x Ec). unfold state, I, s0. rewrite (ll_do_scan grow hash world d0 es h kvb _ sc order Life). exact Ex.
  - exists out, (fun d => existsb (fun v => existsb (String.eqb v) (home d)) vs). split; [exact E|]. split.
    + intros d _. exact (filed_among_iff vs (Sample 0 d)).
    + rewrite PO. apply matching_of_perm. etransitivity; [|apply filter_perm, PE].
      assert (M : forall (g : data -> bool) xs, map smp_data (filter (fun x => g (smp_data x)) xs) = filter g (map smp_data xs)).
      { intros g xs. induction xs as [|x xs IH]; [reflexivity|]. cbn [filter map]. destruct (g (smp_data x)); cbn [map]; rewrite IH; reflexivity. }
      unfold filed_among. rewrite (M (fun d => existsb (fun v => existsb (String.eqb v) (home d)) vs)). reflexivity.
Qed.
Print Assumptions C102_gets_where_it_looks_partial.

(** thisMonth() from the thirty-first on, and thisYear() from the 361st day on, of a machine whose zone is UTC: a script gets
    nothing at all, whatever was sent. *)
Lemma same_month f c t0 : ck_zone c = 0 -> in_window_of f c ThisMonth t0 -> the_month f t0 = the_month f (ck_ns c).
Proof.
  intros Z0 [_ H]. unfold Asked.local_date in H. rewrite Z0, !Z.add_0_r in H. unfold the_month, the_day. destruct (f (t0 / 86400000000000)) as [[y m] d], (f (ck_ns c / 86400000000000)) as [[y' m'] d'].
  cbn [year_month] in H. apply pair_inj in H as [-> ->]. reflexivity.
Qed.
Lemma month_year f t u : is_calendar f -> the_month f t = the_month f u -> year_in f t = year_in f u.
Proof.
  intros Cal E. rewrite !(month_is f Cal) in E. rewrite !(year_is f Cal). pose proof (month_of_bounds t). pose proof (month_of_bounds u). lia.
Qed.
Lemma nothing_looked_at I h h0 kvb (state : store I) wall client order k l f c w t0 ds : gets_where_looked I h h0 kvb state wall client order k l f c w t0 ds ->
  (forall d, ~ looked_at f c t0 d) -> exists o, run_script I h h0 kvb state (calm wall) client order k l = Got o /\ got_records o = [].
Proof.
  intros (o & keep & look & E & Lk & _ & P) No. exists o. split; [exact E|].
  assert (F : filter look ds = []).
  { clear P. induction ds as [|d ds IH]; [reflexivity|]. cbn [filter]. destruct (look d) eqn:K; [exfalso; apply (No d), (Lk d); [left; reflexivity|exact K]|]. apply IH. intros x Hx. apply Lk. right. exact Hx. }
  rewrite F in P. cbn in P. apply Permutation_sym, Permutation_nil in P. exact P.
Qed.
Theorem C102_end_of_month_refuted : forall I h h0 kvb (state : store I) wall client order k l f c t0 ds, gets_where_looked I h h0 kvb state wall client order k l f c ThisMonth t0 ds ->
  is_calendar f -> begins f c ThisMonth t0 -> ck_zone c = 0 -> 30 * 86400000000000 <= ck_ns c - t0 ->
  exists o, run_script I h h0 kvb state (calm wall) client order k l = Got o /\ got_records o = [].
Proof.
  intros I h h0 kvb state wall client order k l f c t0 ds G Cal [_ Be] Z0 Late. apply (nothing_looked_at I h h0 kvb state wall client order k l f c ThisMonth t0 ds G).
  assert (M : the_month f t0 = the_month f (ck_ns c)) by (apply same_month; [exact Z0|apply Be; lia]). pose proof (month_year f _ _ Cal M) as Y.
  intros d [[K _]|[[K _]|[(_ & _ & K)|[_ K]]]]; lia.
Qed.
Theorem C102_end_of_year_refuted : forall I h h0 kvb (state : store I) wall client order k l f c t0 ds, gets_where_looked I h h0 kvb state wall client order k l f c ThisYear t0 ds ->
  is_calendar f -> begins f c ThisYear t0 -> ck_zone c = 0 -> 360 * 86400000000000 <= ck_ns c - t0 ->
  exists o, run_script I h h0 kvb state (calm wall) client order k l = Got o /\ got_records o = [].
Proof.
  intros I h h0 kvb state wall client order k l f c t0 ds G Cal [_ Be] Z0 Late. apply (nothing_looked_at I h h0 kvb state wall client order k l f c ThisYear t0 ds G).
  assert (Y : year_in f t0 = year_in f (ck_ns c)).
  { destruct (proj1 (Be t0) ltac:(lia)) as [_ H]. unfold Asked.local_date in H. rewrite Z0, !Z.add_0_r in H. exact H. }
  intros d [[K _]|[[K _]|[(K & _)|[_ K]]]]; lia.
Qed.
Print Assumptions C102_end_of_year_refuted.

(** ------ two processes: the first saved samples 0 ("a"), 1 and 2 ("b") and died in the midst of a save; the second answered a
    request ("c") and flushed it.  Asked at 02:00 for "b" today. *)
Definition wlast : list event := [evs [Sample 3 (mtp "c" "w")] wlife3].
Definition ask_today : list (clock * method) := [(at_clock 7200, Today)].
Lemma few_from_table (st : store W0) t : ts_proc (cs_tr (w_state (st_tr st))) = Some t -> TranslateFacts.tr_wf t ->
  forallb (fun kv => negb (String.prefix (keys_prefix t) (fst kv)) || (be_val (snd kv) <? 2^20)%N) (ts_db (cs_tr (w_state (st_tr st)))) = true -> few_labels W0 st.
Proof.
  intros Et Wf F key c E. cbn in E. unfold w_find in E. rewrite Et in E. remember (cs_tr (w_state (st_tr st))) as q eqn:Eq. clear Eq Et.
  destruct (tr_find dbl t (ts_db q) key) as [t' r] eqn:G. apply (TranslateFacts.tr_find_spec _ _ _ _ _ _ Wf) in G as (_ & _ & _ & _ & _ & _ & _ & _ & ->). cbn [snd] in E.
  destruct (kvget (keys_prefix t ++ key) (ts_db q)) as [v|] eqn:G; [|discriminate].
  apply some_inj in E. subst c. unfold kvget in G. rewrite forallb_forall in F.
  assert (K : In (keys_prefix t ++ key, v)%string (ts_db q)).
  { clear F. induction (ts_db q) as [|[a b] m IH]; [discriminate|]. cbn [aget] in G. destruct (String.eqb_spec (keys_prefix t ++ key) a) as [<-|]; [left; congruence|right; apply IH, G]. }
  specialize (F _ K). cbn [fst snd] in F. rewrite ViewFacts.prefix_append in F. apply N.ltb_lt in F. exact F.
Qed.
Example C102_example :
  let es := wlife3 ++ wlast in let state := after W0 w0 es in let k := Metrics (Some "b"%string) in
  as_built dbl xxh64 quiet_world [] wlife3 wlast [0; 1; 2]%N told2 server2 /\ at_rest server2 /\
  clear_script k ask_today /\ good_durations ask_today /\ (forall f, is_calendar f -> begins f (at_clock 7200) Today 0) /\
  (forall ls x, In (ls, false) (sv_saves server2) -> ~ In x ls) /\
  (forall x, In x (given wlife3) -> kept W0 w0 wlife3 x) /\ few_labels W0 state /\ (exists y ls, In (y :: ls, true) (sv_saves server2)) /\
  (forall x v, In x (given es) -> In v (home (smp_data x)) -> aligned (flushes W0 w0 es) v x) /\
  mergeable xxh64 toy_kvb (sent wlife3 server2) /\
  (forall sc d, chain (construct k) ask_today = Some sc -> do_scan W0 xxh64 toy_kvb state (calm 0) sc group_columns = SData (Some d) -> P_Visit.fair xxh64 xxh64_zero sc d) /\
  (forall f d, is_calendar f -> In d (sent wlife3 server2) -> looked_at f (at_clock 7200) 0 d) /\
  exists d, run_script W0 xxh64 xxh64_zero toy_kvb state (calm 0) 0 group_columns k ask_today = Got (Some d) /\
    map snd (records d) = [IPoint "b" KGauge (Point half1 [] "y"); IPoint "b" KGauge (Point half1 [] "z")].
Proof.
  cbv zeta. assert (Es : wlife3 ++ wlast = wlife4) by reflexivity. rewrite Es. destruct C99_example_life as [G E P Inc S C L].
  split; [|split; [split; [vm_compute; reflexivity|split; vm_compute; reflexivity]|]].
  { split; rewrite ?Es.
    - exact E.
    - exact P.
    - vm_compute. repeat constructor.
    - intros x Hx. vm_compute in Hx. repeat (destruct Hx as [<-|Hx]; [cbn; tauto|]). destruct Hx.
    - exact S.
    - exact C.
    - intros before process rest E1 S1 S2. apply (L before process rest E1 S1 S2).
    - split; [intros keys [K|[]]; discriminate|vm_compute; reflexivity].
    - exists [], ops2, seq2. split; [reflexivity|]. split; [vm_compute; reflexivity|]. split; vm_compute; reflexivity. }
  split. { split; [exists (Name "b"); split; [left; reflexivity|exact Logic.I]|]. split.
    - intros m H. cbn in H. repeat (destruct H as [<-|H]; [cbn; repeat split; discriminate|]). destruct H.
    - intros m m' H H'. cbn in H, H'. repeat (destruct H as [<-|H]; [repeat (destruct H' as [<-|H']; [cbn; intros []; reflexivity|]); destruct H'|]). destruct H. }
  split. { intros c m d H. cbn in H. repeat (destruct H as [H|H]; [apply pair_inj in H as [_ <-]; intros [K|K]; discriminate K|]). destruct H. }
  split. { intros f Cal. split; [vm_compute; discriminate|]. intros t. unfold in_window_of. cbn [at_clock ck_ns ck_zone]. pose proof (today_window f (at_clock 7200) t Cal) as K. cbn [at_clock ck_ns ck_zone] in K. unfold Asked.local_date. cbn [at_clock ck_ns ck_zone].
    change (beginning_of_day (at_clock 7200)) with 0 in K. split; [intros Ht; split; [lia|apply K; lia]|]. intros [H1 H2]. split; [apply K; [lia|exact H2]|exact H1]. }
  split. { intros ls x H. vm_compute in H. destruct H as [H|[]]. discriminate. }
  split.
  { intros x Hx. assert (Gx : In x [Sample 0 (mtp "a" "x")] \/ In x [Sample 1 (mtp "b" "y"); Sample 2 (mtp "b" "z")]) by (vm_compute in Hx; cbn [In]; tauto). clear Hx. destruct Gx as [Gx|Gx].
    - exists [], [Sample 0 (mtp "a" "x")], (smooth W0 (after W0 w0 []) [Sample 0 (mtp "a" "x")]). eexists. split; [unfold wlife3, wlife2, wlife1; rewrite <- !app_assoc; reflexivity|]. split; [exact Gx|vm_compute; reflexivity].
    - exists wlife1, [Sample 1 (mtp "b" "y"); Sample 2 (mtp "b" "z")], (smooth W0 (after W0 w0 wlife1) [Sample 1 (mtp "b" "y"); Sample 2 (mtp "b" "z")]).
      eexists. split; [unfold wlife3, wlife2; rewrite <- !app_assoc; reflexivity|]. split; [exact Gx|vm_compute; reflexivity]. }
  split. { eapply few_from_table; [vm_compute; reflexivity| |vm_compute; reflexivity]. unfold TranslateFacts.tr_wf, TranslateFacts.slice_ok; cbn; lia. }
  split. { exists (Sample 3 (mtp "c" "w")), []. vm_compute. left. reflexivity. }
  split. { intros x v Hx Hv. left. rewrite given_wlife4 in Hx. repeat (destruct Hx as [<-|Hx]; [vm_compute in Hv; repeat (destruct Hv as [<-|Hv]; [vm_compute; reflexivity|]); destruct Hv|]). destruct Hx. }
  split.
  { change (sent wlife3 server2) with (map smp_data (given life11)). exact (proj1 (proj2 (proj2 (proj2 (proj2 (proj2 (proj2 C98_example_hypotheses))))))). }
  split.
  { intros sc d Ec. vm_compute in Ec. apply some_inj in Ec. subst sc. intros D. vm_compute in D. injection D as <-. apply (P_Visit.fair_of [FBase PREFIX_NAME "b"] answer7 0 0); vm_compute; reflexivity. }
  split.
  { intros f d Cal Hd. left. split; [vm_compute; reflexivity|]. exists 0. split; [lia|]. split; [vm_compute; reflexivity|]. vm_compute in Hd. repeat (destruct Hd as [<-|Hd]; [vm_compute; reflexivity|]). destruct Hd. }
  eexists. split; vm_compute; reflexivity.
Qed.

(** The same server asked for "b" this month: at noon of the 30th both records, at noon of the 31st none. *)
Definition ask_month (secs : Z) : list (clock * method) := [(at_clock secs, ThisMonth)].
Example C102_lost_on_the_31st :
  let state := after W0 w0 (wlife3 ++ wlast) in let ask secs := run_script W0 xxh64 xxh64_zero toy_kvb state (calm 0) 0 group_columns (Metrics (Some "b"%string)) (ask_month secs) in
  (exists d, ask (29 * 86400 + 43200)%Z = Got (Some d) /\ map snd (records d) = [IPoint "b" KGauge (Point half1 [] "y"); IPoint "b" KGauge (Point half1 [] "z")]) /\
  (exists o, ask (30 * 86400 + 43200)%Z = Got o /\ got_records o = []) /\
  (forall f, is_calendar f -> begins f (at_clock (30 * 86400 + 43200)) ThisMonth 0 /\ (30 * 86400000000000 <= ck_ns (at_clock (30 * 86400 + 43200)) - 0)%Z).
Proof.
  cbv zeta. split; [eexists; split; vm_compute; reflexivity|]. split; [eexists; split; vm_compute; reflexivity|].
  intros f Cal. split; [|vm_compute; discriminate].
  split; [vm_compute; discriminate|]. intros t. unfold in_window_of. pose proof (month_window f (at_clock (30 * 86400 + 43200)) t Cal) as K. cbn [at_clock ck_ns ck_zone] in K |- *.
  change (beginning_of_month (at_clock (30 * 86400 + 43200))) with 0 in K. unfold Scripts.local_date in K. unfold Asked.local_date. cbn [at_clock ck_zone]. rewrite !Z.add_0_r in K |- *.
  destruct (f (t / 86400000000000)) as [[y m] d], (f ((30 * 86400 + 43200) * 1000000000 / 86400000000000)) as [[y' m'] d']. cbn [year month fst snd year_month] in K |- *.
  split.
  - intros Ht. split; [lia|]. destruct (proj1 (K ltac:(lia)) ltac:(lia)) as [-> ->]. reflexivity.
  - intros [H1 H2]. apply pair_inj in H2 as [-> ->]. split; [apply K; [lia|split; reflexivity]|exact H1].
Qed.
