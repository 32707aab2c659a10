(** C98: what was saved before restarts and crashes is found again. *)
From Verif.Model Require Import Base Labels Calendar View KV Otlp Transform Batch Rows Shards Dataframe Collapse Store Sequence Translate Visit XxHash Query Service.
From Verif.Spec Require Import Indexing Translator Frames Saves Sets Merge Trim Queries Serving.
From Verif.Proofs Require Import BaseFacts CalendarFacts LabelsFacts TransformFacts DataframeFacts StoreFacts ScanFacts ListTranslator VisitFacts OnceFacts SequenceFacts ServiceFacts.
From Verif.Props Require Import P_Dataframe P_Store P_Collapse P_EndToEnd P_Query P_Once P_Service P_Serving.
From Verif.Props Require P_Visit P_Time.
Open Scope N_scope.
Notation entries := Trim.entries.

(** Fewer than 2^20 different labels so far. *)
Definition few_labels (I : tr_impl) (st : store I) : Prop := forall key c, ti_find I (st_tr st) key = Some c -> c < 2^20.
(** Since the last start, some save with at least one sample has succeeded. *)
Definition saves_again (I : tr_impl) (s0 : ti_state I) (es : list event) : Prop :=
  exists es1 l ch es2, es = es1 ++ ESave l ch :: es2 /\ l <> [] /\ snd (save I (after I s0 es1) l ch) = true /\ existsb is_restart es2 = false.

Lemma back I inv s0 es s : tr_stable I inv -> history I inv s0 es -> few_labels I (after I s0 es) -> saves_again I s0 es -> kept I s0 es s -> saved I s0 es s.
Proof.
  intros L HI Few (es1 & l & ch & es2 & E & NE & OK & NR) K. right. split; [exact K|].
  destruct l as [|s1 l]; [congruence|]. assert (S1 : saved I s0 es s1) by (left; exists es1, (s1 :: l), ch, es2; repeat split; auto; left; reflexivity).
  destruct (saved_filing I inv L s0 es HI s1 S1) as (x & g & Hx & Hg & <- & Hc & _). pose proof (hist_inv I inv L s0 es HI) as H.
  assert (G : In g (all_filings (trace I (new_store I s0) es))) by (apply in_all_filings; eauto).
  assert (Z0 : forall c key, ti_find I (st_tr (after I s0 es)) key = Some c -> c / 2^20 = 0) by (intros c key F; apply N.div_small, (Few key), F).
  assert (O : In 0 (sh_open (st_shards (after I s0 es)))).
  { destruct (filing_known I inv 0 _ _ H g (Label (g_marker g) PREFIX_UNKNOWN "" "") G (or_intror eq_refl)) as [c F].
    assert (In c (f_cols (g_filed g))) by (apply (filing_cols I inv 0 _ _ H g c G); eexists; split; [right; reflexivity|exact F]).
    destruct (Hc c H0) as [_ O]. rewrite (Z0 c _ F) in O. exact O. }
  intros l' c _ F. rewrite (Z0 c _ F). exact O.
Qed.

(** Whatever saves failed and wherever the process was stopped: the answer of a query consists of the matching
    records of some of the samples ever given to the store, of each one as often as it has them; and all
    samples that were saved (in this process, or in an earlier one and their shards have been opened since)
    and filed in a consulted view are among them. *)
Theorem C98_every_history_partial : forall I inv s0 es h h0 kvb wall client sc order vs st en, tr_stable I inv -> history I inv s0 es -> some_order order ->
  let state := after I s0 es in
  In (sc_scope sc) signals -> answerable (sc_scope sc) (sc_filters sc) -> sc_range (sc_times sc) <> None ->
  four_digit_years wall (sc_times sc) -> P_Visit.window client sc st en -> window (calm wall) sc vs ->
  (forall s v, In s (given es) -> In v vs -> In v (home (smp_data s)) -> aligned (flushes I s0 es) v s) ->
  mergeable h kvb (map smp_data (given es)) ->
  (forall d, do_scan I h kvb state (calm wall) sc order = SData (Some d) -> P_Visit.fair h h0 sc d) ->
  exists out ss, query I h h0 kvb state (calm wall) client sc order = AData out /\ NoDup ss /\ incl ss (given es) /\
    (forall s e, saved I s0 es s -> signal_of (smp_data s) = sc_scope sc -> In e (entries (smp_data s)) -> wanted (sc_filters sc) st en e = true ->
       (exists v, In v vs /\ In v (home (smp_data s))) -> In s ss) /\
    Permutation (records out) (matching_of (map smp_data ss) sc st en).
Proof.
  intros I inv s0 es h h0 kvb wall client sc order vs st en L HI OO state Sig An NR Y PW W Al Mg Fair.
  assert (Ask : P_Visit.asks sc) by (left; exact NR).
  assert (Doc : forall s e, signal_of (smp_data s) = sc_scope sc -> In e (entries (smp_data s)) -> wanted (sc_filters sc) st en e = true -> forall l, asks sc l -> documented_label (smp_data s) l)
    by (intros s e Sg He Hw l Hl; eapply wanted_labels; eauto).
  assert (Zero : forall d, records d = [] -> entries d = [] -> do_scan I h kvb state (calm wall) sc order = SData (Some d) \/ (d = DNone /\ do_scan I h kvb state (calm wall) sc order = SData None) ->
     (forall rows, scan_rows I state (calm wall) sc order = RRows rows -> rows = []) ->
     exists out ss, query I h h0 kvb state (calm wall) client sc order = AData out /\ NoDup ss /\ incl ss (given es) /\
      (forall s e, saved I s0 es s -> signal_of (smp_data s) = sc_scope sc -> In e (entries (smp_data s)) -> wanted (sc_filters sc) st en e = true -> (exists v, In v vs /\ In v (home (smp_data s))) -> In s ss) /\
      Permutation (records out) (matching_of (map smp_data ss) sc st en)).
  { intros d Rd Ed DS NoRows. assert (Q : exists out, query I h h0 kvb state (calm wall) client sc order = AData out /\ records out = []).
    { unfold query. destruct DS as [DS|[-> DS]]; rewrite DS; cbn [over_grpc].
      - destruct (P_Visit.C46_what_remains h h0 client sc d st en Ask PW (Fair d DS)) as (out & EJ & _ & EO & _). rewrite EJ. exists out. split; [reflexivity|]. rewrite records_seen, EO, Ed. reflexivity.
      - rewrite (P_Visit.js_scan_visit _ _ _ _ _ _ _ Ask PW). cbn. exists DNone. split; reflexivity. }
    destruct Q as (out & EQ & R). exists out, []. split; [exact EQ|]. split; [constructor|]. split; [intros x []|]. split; [|rewrite R; constructor].
    intros s e Sv Sg He Hw (v & Hv & Hh).
    destruct (C36_scan_complete_partial I inv s0 es wall sc order vs s v L HI OO Sv) as (rows & ER & Hrow); auto; [rewrite Sg; exact Sig|apply answerable_asks, An|apply (Doc s e); assumption|apply Al; auto; apply (kept_given I s0), saved_kept, Sv|].
    rewrite (NoRows rows ER) in Hrow. destruct Hrow. }
  destruct (scan_rows I state (calm wall) sc order) as [| |rows] eqn:ER.
  - (* no error without faults *)
    exfalso. clear - ER Sig. unfold scan_rows in ER. cbn [calm e_wall e_find_fails e_index_fails e_frame_fails] in ER. destruct (time_bounds wall (sc_times sc)) as [a b].
    destruct (compile_spec I (st_tr state) sc) as (cols & EC & _). rewrite EC in ER.
    destruct (sempty cols); [discriminate|]. destruct (P_Time.C15_search_terminates a b) as [ws EW]. rewrite EW in ER.
    destruct (rows_loop (st_shards state) ws (order cols) None) as [hits|]; [|discriminate]. destruct (sempty hits); [discriminate|].
    apply scope_signals in Sig. rewrite Sig in ER. destruct (read_views _ _ _ _ _); discriminate.
  - assert (DS : do_scan I h kvb state (calm wall) sc order = SData (zero_data (sc_scope sc))) by (unfold do_scan; rewrite ER; reflexivity).
    assert (Zd : exists d, zero_data (sc_scope sc) = Some d /\ records d = [] /\ entries d = []) by (destruct Sig as [<-|[<-|[<-|[]]]]; eexists; repeat split; reflexivity).
    destruct Zd as (d & E & R1 & R2). rewrite E in DS. apply (Zero d); auto. intros rows C. congruence.
  - destruct (scan_samples I inv L s0 es HI wall sc order vs rows OO Y W Al ER) as (ss & -> & ND & Fs & Comp). rewrite Forall_forall in Fs.
    destruct ss as [|s1 ss1].
    + apply (Zero DNone); auto; [right; split; [reflexivity|unfold do_scan; rewrite ER; reflexivity]|]. intros rows E. cbn [map] in E. congruence.
    + set (ss := s1 :: ss1) in *.
      destruct (C52_merge_loses_nothing h kvb (map smp_data ss) (sc_scope sc)) as (merged & EC & ES & P).
      * cbn in *; tauto.
      * discriminate.
      * intros d Hd. apply in_map_iff in Hd as (s & <- & Hs). apply (Fs s Hs).
      * eapply mergeable_sub; [|exact Mg]. intros d Hd. apply in_map_iff in Hd as (s & <- & Hs). apply in_map, (Fs s Hs).
      * assert (DS : do_scan I h kvb state (calm wall) sc order = SData (Some merged)).
        { unfold do_scan. rewrite ER. cbn [finish]. rewrite (P_Store.all_some_map (fun s => Some (smp_data s)) smp_data) by auto. rewrite EC. reflexivity. }
        assert (Sup : supported (sc_filters sc) merged) by (apply answerable_supported; rewrite ES; assumption).
        destruct (P_Visit.C46_matching_records_remain_partial h h0 client sc merged st en Ask PW (Fair merged DS) Sup) as (out & EJ & _ & EO & _).
        exists out, ss. split; [unfold query; rewrite DS; cbn [over_grpc]; rewrite EJ; reflexivity|]. split; [apply (nodup_of_map smp_id), ND|]. split; [intros s Hs; apply (Fs s Hs)|]. split.
        -- intros s e Sv Sg He Hw (v & Hv & Hh). apply (Comp s v); auto; [apply answerable_asks, An|apply (Doc s e); assumption].
        -- rewrite records_seen, EO, map_map. unfold matching_of.
           assert (FS : filter (fun d => Z.eqb (signal_of d) (sc_scope sc)) (map smp_data ss) = map smp_data ss).
           { clear - Fs. induction ss as [|s l IH]; [reflexivity|]. cbn [map filter]. destruct (Fs s (or_introl eq_refl)) as [_ ->]. rewrite Z.eqb_refl, IH; [reflexivity|]. intros x Hx. apply Fs. right. exact Hx. }
           rewrite FS. apply seen_filter. rewrite <- records_seen, map_flat_map. etransitivity; [exact P|].
           rewrite !flat_map_concat_map, !map_map. erewrite map_ext; [reflexivity|]. intros s. apply records_seen.
Qed.

(** After any number of restarts and crashes: as soon as one save has succeeded since the last start, and while
    there are fewer than 2^20 labels, everything a successful save ever took is answered. *)
Theorem C98_found_again_partial : forall I inv s0 es h h0 kvb wall client sc order vs st en, tr_stable I inv -> history I inv s0 es -> some_order order ->
  let state := after I s0 es in
  few_labels I state -> saves_again I s0 es ->
  In (sc_scope sc) signals -> answerable (sc_scope sc) (sc_filters sc) -> sc_range (sc_times sc) <> None ->
  four_digit_years wall (sc_times sc) -> P_Visit.window client sc st en -> window (calm wall) sc vs ->
  (forall s v, In s (given es) -> In v vs -> In v (home (smp_data s)) -> aligned (flushes I s0 es) v s) ->
  mergeable h kvb (map smp_data (given es)) ->
  (forall d, do_scan I h kvb state (calm wall) sc order = SData (Some d) -> P_Visit.fair h h0 sc d) ->
  exists out ss, query I h h0 kvb state (calm wall) client sc order = AData out /\ NoDup ss /\ incl ss (given es) /\
    (forall s e, kept I s0 es s -> signal_of (smp_data s) = sc_scope sc -> In e (entries (smp_data s)) -> wanted (sc_filters sc) st en e = true ->
       (exists v, In v vs /\ In v (home (smp_data s))) -> In s ss) /\
    Permutation (records out) (matching_of (map smp_data ss) sc st en).
Proof.
  intros I inv s0 es h h0 kvb wall client sc order vs st en L HI OO state Few Again Sig An NR Y PW W Al Mg Fair.
  destruct (C98_every_history_partial I inv s0 es h h0 kvb wall client sc order vs st en L HI OO Sig An NR Y PW W Al Mg Fair) as (out & ss & EQ & ND & Inc & All & P).
  exists out, ss. split; [exact EQ|]. split; [exact ND|]. split; [exact Inc|]. split; [|exact P].
  intros s e K. apply All, (back I inv); assumption.
Qed.
(** If nothing that matches was in a failed or interrupted save, the answer is all matching records ever sent. *)
Theorem C98_exact_answer_partial : forall I inv s0 es h h0 kvb wall client sc order vs st en, tr_stable I inv -> history I inv s0 es -> some_order order ->
  let state := after I s0 es in
  few_labels I state -> saves_again I s0 es ->
  In (sc_scope sc) signals -> answerable (sc_scope sc) (sc_filters sc) -> sc_range (sc_times sc) <> None ->
  four_digit_years wall (sc_times sc) -> P_Visit.window client sc st en -> window (calm wall) sc vs ->
  (forall s e, In s (given es) -> signal_of (smp_data s) = sc_scope sc -> In e (entries (smp_data s)) -> wanted (sc_filters sc) st en e = true ->
     kept I s0 es s /\ exists v, In v vs /\ In v (home (smp_data s))) ->
  (forall s v, In s (given es) -> In v vs -> In v (home (smp_data s)) -> aligned (flushes I s0 es) v s) ->
  mergeable h kvb (map smp_data (given es)) ->
  (forall d, do_scan I h kvb state (calm wall) sc order = SData (Some d) -> P_Visit.fair h h0 sc d) ->
  exists out, query I h h0 kvb state (calm wall) client sc order = AData out /\ Permutation (records out) (matching_of (map smp_data (given es)) sc st en).
Proof.
  intros I inv s0 es h h0 kvb wall client sc order vs st en L HI OO state Few Again Sig An NR Y PW W Cov Al Mg Fair.
  destruct (C82_exact_answer_partial I inv s0 es h h0 kvb wall client sc order vs st en L HI OO Sig An NR Y PW W) as (out & EQ & P); auto.
  - intros s e G Sg He Hw. destruct (Cov s e G Sg He Hw) as [K V]. split; [apply (back I inv); assumption|exact V].
  - exists out. split; [exact EQ|]. rewrite <- matching_data. exact P.
Qed.

(** From request to answer across processes: the current server, at rest, has had no failed save and at least one
    successful one, and nothing that matches was in a failed or interrupted save of an earlier process.  Then the
    answer is all matching records of the earlier processes and of the requests this one has answered. *)
Theorem C98_across_processes_partial : forall I inv s0 es0 es1 earlier ms s h h0 kvb wall client sc order vs st en,
  tr_stable I inv -> serving I inv s0 es0 es1 earlier s -> served earlier ms s -> Serving.at_rest s -> (forall ls, ~ In (ls, false) (sv_saves s)) ->
  (exists x ls, In (x :: ls, true) (sv_saves s)) -> some_order order ->
  let es := es0 ++ es1 in let state := after I s0 es in
  few_labels I state ->
  In (sc_scope sc) signals -> answerable (sc_scope sc) (sc_filters sc) -> sc_range (sc_times sc) <> None ->
  four_digit_years wall (sc_times sc) -> P_Visit.window client sc st en -> window (calm wall) sc vs ->
  (forall x e, In x (given es0) -> signal_of (smp_data x) = sc_scope sc -> In e (entries (smp_data x)) -> wanted (sc_filters sc) st en e = true ->
     kept I s0 es0 x /\ exists v, In v vs /\ In v (home (smp_data x))) ->
  (forall d e, In d (payloads s) -> signal_of d = sc_scope sc -> In e (entries d) -> wanted (sc_filters sc) st en e = true -> exists v, In v vs /\ In v (home d)) ->
  (forall x v, In x (given es) -> In v vs -> In v (home (smp_data x)) -> aligned (flushes I s0 es) v x) ->
  mergeable h kvb (map smp_data (given es0) ++ payloads s) ->
  (forall d, do_scan I h kvb state (calm wall) sc order = SData (Some d) -> P_Visit.fair h h0 sc d) ->
  exists out, query I h h0 kvb state (calm wall) client sc order = AData out /\
    Permutation (records out) (matching_of (map smp_data (given es0)) sc st en ++ matching_of (payloads s) sc st en).
Proof.
  intros I inv s0 es0 es1 earlier ms s h h0 kvb wall client sc order vs st en L SG SV (Rm & Rf & Rb) NF (x1 & ls1 & Hx1) OO es state Few Sig An NR Y PW W Cov0 Cov Al Mg Fair.
  pose proof (serving_history I inv s0 es0 es1 earlier s SG ms SV) as HI. fold es in HI.
  pose proof (given_here I inv s0 es0 es1 earlier s SG) as GH. destruct (sg_writes _ _ _ _ _ _ _ SG) as [NRs Wr].
  destruct (C43_handed_over_exactly_once _ _ _ SV) as (rest & P & _ & _ & Rest). rewrite (Rest Rf Rb), app_nil_r, <- GH in P.
  destruct (served_inv _ _ _ SV) as (lo0 & lo & hi & _ & Hi). assert (PP : Permutation (map smp_data (given es1)) (payloads s)).
  { rewrite <- (payloads_accepted _ _ _ _ Hi Rm). apply Permutation_map, P. }
  assert (GE : given es = given es0 ++ given es1) by (unfold es, given; apply flat_map_app).
  assert (PE : Permutation (map smp_data (given es)) (map smp_data (given es0) ++ payloads s)) by (rewrite GE, map_app; apply Permutation_app_head, PP).
  assert (Sv1 : forall x, In x (given es1) -> saved_now I s0 es x).
  { intros x G. rewrite (given_saves I (after I s0 es0)) in G. apply in_flat_map in G as ([ls ok] & Hls & Hx). cbn [fst] in Hx.
    destruct ok; [|exfalso; rewrite Wr in Hls; exact (NF ls Hls)]. apply (success_now I s0 es0 es1 ls x NRs Hls Hx). }
  assert (Again : saves_again I s0 es).
  { rewrite <- Wr in Hx1. destruct (success_now I s0 es0 es1 (x1 :: ls1) x1 NRs Hx1 (or_introl eq_refl)) as (e1 & l & ch & e2 & E & Hl & OK & N). exists e1, l, ch, e2. repeat split; auto. intros ->. destruct Hl. }
  destruct (C98_exact_answer_partial I inv s0 es h h0 kvb wall client sc order vs st en L HI OO Few Again Sig An NR Y PW W) as (out & E & PO); [| |..|].
  - intros x e G Sg He Hw. rewrite GE in G. apply in_app_iff in G as [G|G].
    + destruct (Cov0 x e G Sg He Hw) as [(e1 & l & ch & e2 & E & Hl & OK) V]. split; [|exact V]. exists e1, l, ch, (e2 ++ es1). unfold es. rewrite E, <- app_assoc. auto.
    + split; [apply now_kept, Sv1, G|]. apply (Cov (smp_data x) e); auto. apply (Permutation_in _ PP), in_map, G.
  - exact Al.
  - eapply mergeable_sub; [|exact Mg]. intros d Hd. apply (Permutation_in _ PE), Hd.
  - exact Fair.
  - exists out. split; [exact E|]. rewrite PO, (matching_of_perm _ _ sc st en PE). unfold matching_of. rewrite filter_app, flat_map_app, filter_app, map_app. apply Permutation_refl.
Qed.

(** ------ a life with a restart: samples 0 ("a"), 1 and 2 ("b"); the process dies in the midst of a save that has
    translated a label; the next process saves sample 3 ("c").  Asked for "b": samples 1 and 2, as before. *)
Definition crash7 : list event := life7 ++ [ERestart ["1:6:q"%string]].
Definition life11 : list event := crash7 ++ [ev [Sample 3 (mtp "c" "w")] crash7].
Lemma crash7_possible : possible list_impl (new_store list_impl []) crash7.
Proof. unfold crash7. apply possible_snoc; [apply life7_history|exact Logic.I]. Qed.
Lemma life11_history : history list_impl list_inv [] life11.
Proof.
  split; [vm_compute; reflexivity|]. split; [unfold life11; apply life_snoc; [exact crash7_possible|apply times_forall; repeat constructor]|].
  split; [vm_compute; repeat constructor|]. intros s Hs. vm_compute in Hs. repeat (destruct Hs as [<-|Hs]; [reflexivity|]). destruct Hs.
Qed.
Lemma list_few es n : N.of_nat (List.length (A:=string) (st_tr (after list_impl [] es))) <= n -> n < 2^20 -> few_labels list_impl (after list_impl [] es).
Proof. intros E B key c F. apply index_of_spec in F as (_ & F & _). revert F E. generalize (List.length (A:=string) (st_tr (after list_impl [] es))). intros m F E. apply (N.le_lt_trans c (N.of_nat m)); [lia|]. eapply N.le_lt_trans; eassumption. Qed.
Lemma life11_kept s : In s (given life11) -> kept list_impl [] life11 s.
Proof.
  intros Hs. assert (G : In s [Sample 0 (mtp "a" "x")] \/ In s [Sample 1 (mtp "b" "y"); Sample 2 (mtp "b" "z")] \/ In s [Sample 3 (mtp "c" "w")]).
  { vm_compute in Hs. cbn [In]. tauto. }
  clear Hs. destruct G as [G|[G|G]].
  - exists life0, [Sample 0 (mtp "a" "x")], (smooth list_impl (after list_impl [] life0) [Sample 0 (mtp "a" "x")]). eexists. split; [unfold life11, crash7, life7, life6; rewrite <- !app_assoc; reflexivity|]. split; [exact G|vm_compute; reflexivity].
  - exists life6, [Sample 1 (mtp "b" "y"); Sample 2 (mtp "b" "z")], (smooth list_impl (after list_impl [] life6) [Sample 1 (mtp "b" "y"); Sample 2 (mtp "b" "z")]).
    eexists. split; [unfold life11, crash7, life7; rewrite <- !app_assoc; reflexivity|]. split; [exact G|vm_compute; reflexivity].
  - exists crash7, [Sample 3 (mtp "c" "w")], (smooth list_impl (after list_impl [] crash7) [Sample 3 (mtp "c" "w")]), []. split; [reflexivity|]. split; [exact G|vm_compute; reflexivity].
Qed.
Example C98_example : history list_impl list_inv [] life11 /\ few_labels list_impl (after list_impl [] life11) /\ saves_again list_impl [] life11 /\
  existsb is_restart life11 = true /\ (forall s, In s (given life11) -> kept list_impl [] life11 s) /\ ~ saved_now list_impl [] crash7 (Sample 2 (mtp "b" "z")) /\
  query list_impl xxh64 xxh64_zero toy_kvb (after list_impl [] life11) (calm 0) 0 (ask "b" 0 3600) group_columns = AData answer7 /\
  matching_of (map smp_data (given life11)) (ask "b" 0 3600) 0 3600000000000 = [as_seen (seen_b "y"); as_seen (seen_b "z")].
Proof.
  split; [exact life11_history|]. split; [apply (list_few _ 10); vm_compute; congruence|]. split.
  { exists crash7, [Sample 3 (mtp "c" "w")], (smooth list_impl (after list_impl [] crash7) [Sample 3 (mtp "c" "w")]), []. split; [reflexivity|]. split; [discriminate|]. split; vm_compute; reflexivity. }
  split; [reflexivity|]. split; [exact life11_kept|]. split; [|split; vm_compute; reflexivity].
  intros (es1 & l & ch & es2 & E & _ & _ & NR). unfold crash7 in E. destruct es2 as [|e es2] using rev_ind.
  - apply app_inj_tail in E as [_ E]. discriminate.
  - change (es1 ++ ESave l ch :: es2 ++ [e]) with (es1 ++ (ESave l ch :: es2) ++ [e]) in E. rewrite app_assoc in E. apply app_inj_tail in E as [_ <-]. rewrite existsb_app, orb_true_r in NR. discriminate.
Qed.
(** The other hypotheses hold of that life, too. *)
Lemma life11_scan : do_scan list_impl xxh64 toy_kvb (after list_impl [] life11) (calm 0) (ask "b" 0 3600) group_columns = SData (Some answer7).
Proof. vm_compute. reflexivity. Qed.
Example C98_example_hypotheses : answerable RESOURCE_METRICS (sc_filters (ask "b" 0 3600)) /\ four_digit_years 0 (sc_times (ask "b" 0 3600)) /\
  P_Visit.window 0 (ask "b" 0 3600) 0 3600000000000 /\ window (calm 0) (ask "b" 0 3600) ["std_1970010100"%string] /\
  (forall s e, In s (given life11) -> signal_of (smp_data s) = RESOURCE_METRICS -> In e (entries (smp_data s)) -> wanted (sc_filters (ask "b" 0 3600)) 0 3600000000000 e = true ->
     kept list_impl [] life11 s /\ exists v, In v ["std_1970010100"%string] /\ In v (home (smp_data s))) /\
  (forall s v, In s (given life11) -> In v ["std_1970010100"%string] -> In v (home (smp_data s)) -> aligned (flushes list_impl [] life11) v s) /\
  mergeable xxh64 toy_kvb (map smp_data (given life11)) /\
  (forall d, do_scan list_impl xxh64 toy_kvb (after list_impl [] life11) (calm 0) (ask "b" 0 3600) group_columns = SData (Some d) -> P_Visit.fair xxh64 xxh64_zero (ask "b" 0 3600) d).
Proof.
  split; [apply ask_answerable; discriminate|]. split; [vm_compute; split; congruence|]. split; [repeat split; vm_compute; congruence|]. split; [vm_compute; reflexivity|]. split; [|split; [|split]].
  - intros s e G _ _ _. split; [apply life11_kept, G|]. exists "std_1970010100"%string. split; [left; reflexivity|].
    vm_compute in G. repeat (destruct G as [<-|G]; [vm_compute; auto|]). destruct G.
  - intros s v _ [<-|[]] _. left. vm_compute. reflexivity.
  - assert (G : map smp_data (given life11) = [mtp "a" "x"; mtp "b" "y"; mtp "b" "z"; mtp "c" "w"]) by reflexivity. rewrite G. split; [|split; [|split]].
    + split; [|split]; cbv zeta; cbn [flat_map metric_groups mtp app].
      * intros g g' H1 H2 E. pick; reflexivity.
      * intros g s g' s' H1 H2 H3 H4 E. pick; split; reflexivity.
      * intros g s a n g' s' a' n' H1 H2 H3 H4 H5 H6 Ea Ea' E. pick; unfold metric_name in Ea, Ea'; cbn in Ea, Ea'; apply some_inj in Ea; apply some_inj in Ea'; subst n n'; first [split; [reflexivity|split; reflexivity]|vm_compute in E; discriminate E].
    + intros X Y a b (g & s & H1 & H2 & H3 & _) (g' & s' & H4 & H5 & H6 & _) _. cbn in H1, H4. pick; reflexivity.
    + split; [|split]; cbv zeta; cbn; intros; contradiction.
    + split; [|split]; cbv zeta; cbn; intros; contradiction.
  - intros d E. rewrite life11_scan in E. injection E as <-. apply (P_Visit.fair_of [FBase PREFIX_NAME "b"] answer7 0 0); vm_compute; reflexivity.
Qed.
(** Two processes: the first saved samples 0, 1 and 2 and released its ids; the second is started, gets a request with
    metric "c", and flushes it. *)
Definition ops2 : list seq_op := [SOpen false; SNext false; SNext false; SNext false; SRelease false; SCrash; SOpen false].
Definition seq2 : seq_state := fst (seq_run (SeqState [] None) ops2).
Definition told2 : list move := MRequest (rq "c" "w") :: repeat (MClient 0 false) 4 ++ flush_once.
Definition server2 : service := match service_run (service_new seq2) told2 with Some s => s | None => service_new seq2 end.
Example C98_processes_example : serving list_impl list_inv [] crash7 [ev [Sample 3 (mtp "c" "w")] crash7] [0; 1; 2] server2 /\ served [0; 1; 2] told2 server2 /\
  Serving.at_rest server2 /\ sv_saves server2 = [([Sample 3 (mtp "c" "w")], true)] /\ payloads server2 = [mtp "c" "w"] /\ map smp_data (given crash7) = [mtp "a" "x"; mtp "b" "y"; mtp "b" "z"].
Proof.
  destruct life11_history as (A & B & C & D). split; [split; [exact A|exact B| | |exact D|]|].
  - vm_compute. repeat constructor.
  - intros x Hx. vm_compute in Hx. repeat (destruct Hx as [<-|Hx]; [cbn; tauto|]). destruct Hx.
  - split; [intros keys [K|[]]; discriminate|vm_compute; reflexivity].
  - split; [exists [], ops2, seq2; split; [reflexivity|]; split; [vm_compute; reflexivity|]; split; vm_compute; reflexivity|].
    split; [split; [vm_compute; reflexivity|split; vm_compute; reflexivity]|]. split; [vm_compute; reflexivity|]. split; vm_compute; reflexivity.
Qed.
(** Until then nothing is: right after the restart the same query, matched by two saved records, answers none. *)
Theorem C98_nothing_until_a_save_refuted : history list_impl list_inv [] crash7 /\ kept list_impl [] crash7 (Sample 2 (mtp "b" "z")) /\ few_labels list_impl (after list_impl [] crash7) /\
  In (seen_b "z") (entries (mtp "b" "z")) /\ wanted (sc_filters (ask "b" 0 3600)) 0 3600000000000 (seen_b "z") = true /\ P_Visit.window 0 (ask "b" 0 3600) 0 3600000000000 /\
  exists out, query list_impl xxh64 xxh64_zero toy_kvb (after list_impl [] crash7) (calm 0) 0 (ask "b" 0 3600) group_columns = AData out /\ records out = [].
Proof.
  split.
  { split; [vm_compute; reflexivity|]. split; [exact crash7_possible|]. split; [vm_compute; repeat constructor|]. intros s Hs. vm_compute in Hs. repeat (destruct Hs as [<-|Hs]; [reflexivity|]). destruct Hs. }
  split.
  { exists life6, [Sample 1 (mtp "b" "y"); Sample 2 (mtp "b" "z")], (smooth list_impl (after list_impl [] life6) [Sample 1 (mtp "b" "y"); Sample 2 (mtp "b" "z")]).
    eexists. split; [unfold crash7, life7; rewrite <- !app_assoc; reflexivity|]. split; [right; left; reflexivity|vm_compute; reflexivity]. }
  split; [apply (list_few _ 10); vm_compute; congruence|]. split; [left; reflexivity|]. split; [vm_compute; reflexivity|]. split; [repeat split; vm_compute; congruence|].
  eexists. split; vm_compute; reflexivity.
Qed.
(** Nor is one save enough beyond 2^20 labels: samples with labels in shards that no save has opened since stay
    unanswered. *)
Definition wide3 : list event := (wide2 ++ [ERestart []]) ++ [evw [Sample 3 (mts "t" "c")] (wide2 ++ [ERestart []])].
Definition ask_b : scan := asking RESOURCE_METRICS [FBase PREFIX_NAME "b"] 0 3600.
Theorem C98_one_save_not_enough_refuted : history wide_impl wide_inv [] wide3 /\ kept wide_impl [] wide3 (Sample 2 (mts "s" "b")) /\ saves_again wide_impl [] wide3 /\
  P_Visit.window 0 ask_b 0 3600000000000 /\ (exists e, In e (entries (mts "s" "b")) /\ wanted (sc_filters ask_b) 0 3600000000000 e = true) /\
  exists out, query wide_impl xxh64 xxh64_zero toy_kvb (after wide_impl [] wide3) (calm 0) 0 ask_b group_columns = AData out /\ records out = [].
Proof.
  split.
  { split; [vm_compute; reflexivity|]. split.
    - unfold wide3. apply wide_snoc; [|apply times_forall; repeat constructor]. apply possible_snoc; [apply wide2_history|exact Logic.I].
    - split; [vm_compute; repeat constructor|]. intros s Hs. vm_compute in Hs. repeat (destruct Hs as [<-|Hs]; [reflexivity|]). destruct Hs. }
  split.
  { exists wide1, [Sample 2 (mts "s" "b")], (smooth wide_impl (after wide_impl [] wide1) [Sample 2 (mts "s" "b")]).
    eexists. split; [unfold wide3, wide2; rewrite <- !app_assoc; reflexivity|]. split; [left; reflexivity|vm_compute; reflexivity]. }
  split.
  { exists (wide2 ++ [ERestart []]), [Sample 3 (mts "t" "c")], (smooth wide_impl (after wide_impl [] (wide2 ++ [ERestart []])) [Sample 3 (mts "t" "c")]), []. split; [reflexivity|]. split; [discriminate|]. split; vm_compute; reflexivity. }
  split; [repeat split; vm_compute; congruence|]. split; [eexists; split; [left; reflexivity|vm_compute; reflexivity]|].
  eexists. split; vm_compute; reflexivity.
Qed.
Print Assumptions C98_every_history_partial.
Print Assumptions C98_found_again_partial.
Print Assumptions C98_exact_answer_partial.
Print Assumptions C98_across_processes_partial.
Print Assumptions C98_nothing_until_a_save_refuted.
Print Assumptions C98_one_save_not_enough_refuted.
