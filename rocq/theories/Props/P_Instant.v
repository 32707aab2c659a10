(** C37, to the end: what a script's query without a time range answers. *)
From Verif.Model Require Import Base Labels Calendar View Otlp Transform Batch Rows Shards Dataframe Collapse Store Sequence Translate Visit XxHash Query.
From Verif.Spec Require Import Indexing Translator Frames Saves Sets Merge Trim Queries.
From Verif.Proofs Require Import BaseFacts LabelsFacts TransformFacts StoreFacts ScanFacts ListTranslator VisitFacts.
From Verif.Props Require Import P_Store P_Collapse P_EndToEnd P_Query.
From Verif.Props Require P_Visit P_Time.
Open Scope N_scope.
Notation entries := Trim.entries.

(** Without a time range the scan consults one hour, [v].  If some saved sample filed in that hour has a record that
    matches, the answer is that of one stored sample, whole and nothing else: the matching records of the sample with the
    largest id among the saved samples filed in that hour that have a record satisfying the conditions (at any time). *)
Theorem C37_instant_answer_partial : forall I inv s0 es h h0 kvb wall client sc order st en s1 v, tr_laws I inv -> history I inv s0 es -> some_order order ->
  let state := after I s0 es in
  sc_range (sc_times sc) = None -> answerable (sc_scope sc) (sc_filters sc) -> P_Visit.window client sc st en -> window (calm wall) sc [v] ->
  (forall s', In s' (given es) -> In v (home (smp_data s')) -> aligned (flushes I s0 es) v s') ->
  (forall d, do_scan I h kvb state (calm wall) sc order = SData (Some d) -> P_Visit.fair h h0 sc d) ->
  let matching s := signal_of (smp_data s) = sc_scope sc /\ In v (home (smp_data s)) /\
                    exists e a b, In e (entries (smp_data s)) /\ wanted (sc_filters sc) a b e = true in
  saved I s0 es s1 -> matching s1 -> In (sc_scope sc) signals ->
  exists out s, query I h h0 kvb state (calm wall) client sc order = AData out /\ In s (given es) /\ signal_of (smp_data s) = sc_scope sc /\ In v (home (smp_data s)) /\
    (forall s', saved I s0 es s' -> matching s' -> smp_id s' <= smp_id s) /\
    records out = map (fun e => as_seen (forget e)) (filter (wanted (sc_filters sc) st en) (entries (smp_data s))).
Proof.
  intros I inv s0 es h h0 kvb wall client sc order st en s1 v L HI OO state NR An PW W Al Fair matching Sv (Sg1 & Hh1 & e & a & b & He & Hw) Sig.
  pose proof (answerable_asks sc An) as EA.
  assert (Doc : forall s', matching s' -> forall l, asks sc l -> documented_label (smp_data s') l).
  { intros s' (Sg' & _ & e' & a' & b' & He' & Hw') l Hl. eapply wanted_labels; eauto. }
  assert (D1 : forall l, asks sc l -> documented_label (smp_data s1) l) by (apply Doc; repeat split; eauto 7).
  assert (OS : forall vs, window (calm wall) sc vs -> conclusive I s0 es sc vs).
  { intros vs W'. assert (vs = [v]) by (unfold window in *; congruence). subst vs. right. exists s1, v. repeat split; auto. left. reflexivity. }
  assert (NP : forall l, asks sc l -> l_prefix l <> PREFIX_UNKNOWN).
  { intros l Hl. destruct An as ((f0 & Hf0 & _) & HB & _ & HA). destruct Hl as [[E _]|[(p & w & Hp & ->)|(p & k & w & Hp & ->)]]; cbn [l_prefix].
    - rewrite E in Hf0. destruct Hf0.
    - destruct (HB p w Hp) as (P & _). intros ->. destruct Sig as [E|[E|[E|[]]]]; rewrite <- E in P; vm_compute in P; intuition discriminate.
    - destruct (HA p k w Hp) as (P & _). intros ->. vm_compute in P. intuition discriminate. }
  destruct (saved_hit I inv s0 es sc [v] s1 v order L HI OO Sv (or_introl eq_refl) Hh1 EA D1) as (cols & hits & EC & NC & LK & Hin & _). fold state in EC, LK.
  destruct (scan_rows_hit I state wall sc order cols [v] hits EC NC W LK) as (rows & ER & _); [intros ->; destruct Hin|exact Sig|].
  destruct (C37_instant_scan_partial I inv s0 es wall sc order rows L HI OO NR OS EA NP ER) as (s & v' & row & W' & -> & G & Hv & Sg & _ & Ad & Mx).
  assert (v' = v) by (unfold window in *; congruence). subst v'. rewrite (Ad (Al s G Hv)) in ER. fold state in ER.
  assert (ED : do_scan I h kvb state (calm wall) sc order = SData (Some (smp_data s))) by (unfold do_scan, finish; rewrite ER; cbn [all_some collapse]; reflexivity).
  assert (Sup : supported (sc_filters sc) (smp_data s)) by (apply answerable_supported; rewrite Sg; assumption).
  assert (Ask : P_Visit.asks sc) by (right; destruct An as ((f & Hf & _) & _); intros E; rewrite E in Hf; destruct Hf).
  destruct (P_Visit.C46_matching_records_remain_partial h h0 client sc (smp_data s) st en Ask PW (Fair _ ED) Sup) as (out & EJ & _ & EO & _).
  exists out, s. split; [unfold query; rewrite ED; cbn [over_grpc]; rewrite EJ; reflexivity|]. split; [exact G|]. split; [exact Sg|]. split; [exact Hv|]. split.
  - intros s' Sv' Hm. apply Mx; [exact Sv'|apply Hm|apply Doc, Hm].
  - rewrite records_seen, EO, map_map. reflexivity.
Qed.

(** ------ lives: metric "a" in sample 0 at [t0] seconds and in sample 1 at [t1] seconds, then asked for at [now] *)
Definition at_s (t : N) : data := mt "a" (t * 1000000000).
Definition pair_life (t0 t1 : N) : list event := (life0 ++ [ev [Sample 0 (at_s t0)] life0]) ++ [ev [Sample 1 (at_s t1)] (life0 ++ [ev [Sample 0 (at_s t0)] life0])].
Definition now_a (now : Z) : scan := ask_now [FBase PREFIX_NAME "a"] now.
Definition ans (t0 t1 : N) (now : Z) : answer := query list_impl xxh64 xxh64_zero toy_kvb (after list_impl [] (pair_life t0 t1)) (calm 0) 0 (now_a now) group_columns.
Definition rec_a (t : N) : entry := (("", None), ("", None), RPoint "a" "" "" KGauge 0 false (Point (t * 1000000000) [] "a")).
Ltac saved_second t0 t1 := left; exists (life0 ++ [ev [Sample 0 (at_s t0)] life0]), [Sample 1 (at_s t1)], (smooth list_impl (after list_impl [] (life0 ++ [ev [Sample 0 (at_s t0)] life0])) [Sample 1 (at_s t1)]), [];
  split; [reflexivity|]; split; [left; reflexivity|]; split; vm_compute; reflexivity.
Ltac pair_history := split; [vm_compute; reflexivity|]; split; [unfold pair_life; apply life_snoc; [apply life_snoc; [exact Logic.I|apply times_forall; repeat constructor]|apply times_forall; repeat constructor]|];
  split; [vm_compute; repeat constructor|]; intros s Hs; vm_compute in Hs; repeat (destruct Hs as [<-|Hs]; [reflexivity|]); destruct Hs.

(** At 00:58, with samples of 00:50 and 00:55: the hypotheses hold of sample 0 and the answer is sample 1's. *)
Example C37_instant_example :
  history list_impl list_inv [] (pair_life 3000 3300) /\ saved list_impl [] (pair_life 3000 3300) (Sample 0 (at_s 3000)) /\
  P_Visit.window 0 (now_a 3480) 2580000000000 3480000000000 /\ window (calm 0) (now_a 3480) ["std_1970010100"%string] /\ In "std_1970010100"%string (home (at_s 3000)) /\
  wanted (sc_filters (now_a 3480)) 2580000000000 3480000000000 (rec_a 3000) = true /\
  (forall s', In s' (given (pair_life 3000 3300)) -> In "std_1970010100"%string (home (smp_data s')) -> aligned (flushes list_impl [] (pair_life 3000 3300)) "std_1970010100" s') /\
  ans 3000 3300 3480 = AData (at_s 3300).
Proof.
  split; [pair_history|]. split; [|split; [repeat split; vm_compute; congruence|]].
  - left. exists life0, [Sample 0 (at_s 3000)], (smooth list_impl (after list_impl [] life0) [Sample 0 (at_s 3000)]), [ev [Sample 1 (at_s 3300)] (life0 ++ [ev [Sample 0 (at_s 3000)] life0])].
    split; [reflexivity|]. split; [left; reflexivity|]. split; vm_compute; reflexivity.
  - split; [vm_compute; reflexivity|]. split; [vm_compute; auto|]. split; [vm_compute; reflexivity|]. split; [|vm_compute; reflexivity].
    intros s' Hs Hv. left. vm_compute in Hs. repeat (destruct Hs as [<-|Hs]; [vm_compute; reflexivity|]). destruct Hs.
Qed.
(** Samples of 00:55 and 01:03, asked for at 01:05: the answer is the older one. *)
Theorem C37_newest_refuted : history list_impl list_inv [] (pair_life 3300 3780) /\ sc_range (sc_times (now_a 3900)) = None /\
  P_Visit.window 0 (now_a 3900) 3000000000000 3900000000000 /\
  saved list_impl [] (pair_life 3300 3780) (Sample 1 (at_s 3780)) /\ In (rec_a 3780) (entries (at_s 3780)) /\
  wanted (sc_filters (now_a 3900)) 3000000000000 3900000000000 (rec_a 3780) = true /\
  exists out, ans 3300 3780 3900 = AData out /\ records out = [as_seen (forget (rec_a 3300))].
Proof.
  split; [pair_history|]. split; [reflexivity|]. split; [repeat split; vm_compute; congruence|]. split; [saved_second 3300 3780|]. split; [left; reflexivity|].
  split; [vm_compute; reflexivity|]. eexists. split; vm_compute; reflexivity.
Qed.
(** A sample of 00:50, then a late one of 00:10, asked for at 00:58: the late one, outside the quarter of an hour, is taken and trimmed
    away, and the answer is empty although the record of 00:50 matches. *)
Theorem C37_late_sample_hides_refuted : history list_impl list_inv [] (pair_life 3000 600) /\ sc_range (sc_times (now_a 3480)) = None /\
  P_Visit.window 0 (now_a 3480) 2580000000000 3480000000000 /\
  saved list_impl [] (pair_life 3000 600) (Sample 0 (at_s 3000)) /\ In (rec_a 3000) (entries (at_s 3000)) /\
  wanted (sc_filters (now_a 3480)) 2580000000000 3480000000000 (rec_a 3000) = true /\
  exists out, ans 3000 600 3480 = AData out /\ records out = [].
Proof.
  split; [pair_history|]. split; [reflexivity|]. split; [repeat split; vm_compute; congruence|]. split.
  - left. exists life0, [Sample 0 (at_s 3000)], (smooth list_impl (after list_impl [] life0) [Sample 0 (at_s 3000)]), [ev [Sample 1 (at_s 600)] (life0 ++ [ev [Sample 0 (at_s 3000)] life0])].
    split; [reflexivity|]. split; [left; reflexivity|]. split; vm_compute; reflexivity.
  - split; [left; reflexivity|]. split; [vm_compute; reflexivity|]. eexists. split; vm_compute; reflexivity.
Qed.
Print Assumptions C37_instant_answer_partial.
Print Assumptions C37_newest_refuted.
Print Assumptions C37_late_sample_hides_refuted.
