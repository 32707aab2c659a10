(** C109: the retention period. *)
From Verif.Model Require Import Base Labels Calendar View KV Otlp Transform Batch Rows Shards Dataframe Collapse Store Sequence Translate Visit XxHash Query Service Retention.
From Verif.Spec Require Import Indexing Translator Frames Saves Sets Merge Trim Queries Serving.
From Verif.Proofs Require Import BaseFacts CalendarFacts LabelsFacts TransformFacts DataframeFacts StoreFacts ScanFacts ListTranslator VisitFacts OnceFacts SequenceFacts ServiceFacts.
From Verif.Props Require Import P_Dataframe P_Store P_Collapse P_EndToEnd P_Query P_Once P_Service P_Serving P_Restart.
From Verif.Props Require P_Visit P_Time.
Open Scope N_scope.

(** When a record that a client sees happened (Unix nanoseconds), and whether that is longer ago than the retention period. *)
Definition seen_time (r : seen) : N := match snd r with IPoint _ _ p => p_time p | ILog l => lr_time l | ISpan s => sp_start s end.
Definition older_than (period now : Z) (r : seen) : Prop := (Z.of_N (seen_time r) + period < now)%Z.

Lemma bounds_of_range w w' t : sc_range t <> None -> time_bounds w t = time_bounds w' t.
Proof. intros H. unfold time_bounds. destruct (sc_range t) as [[a b]|]; [reflexivity|congruence]. Qed.
(** ------ C109 *)
(** The answer to a question about a given range does not depend on when it is asked (by the clocks of server and client), nor on the retention period. *)
Theorem C109_age_does_not_matter : forall I h h0 kvb (st : store I) retention wall client wall' client' sc order, sc_range (sc_times sc) <> None ->
  query I h h0 kvb (new_service retention st) (calm wall') client' sc order = query I h h0 kvb st (calm wall) client sc order.
Proof.
  intros I h h0 kvb st retention wall client wall' client' sc order NR. unfold new_service, query, do_scan, scan_rows, js_scan.
  cbn [e_wall e_find_fails e_index_fails e_frame_fails calm]. rewrite (bounds_of_range wall' wall _ NR), (bounds_of_range client' client _ NR). reflexivity.
Qed.
(** So whatever the retention period, everything saved is answered for ever (conditions as in C98_exact_answer_partial). *)
Theorem C109_answered_at_any_age_partial : forall I inv s0 es h h0 kvb now sc order vs st en, tr_stable I inv -> history I inv s0 es -> some_order order ->
  let state := after I s0 es in
  few_labels I state -> saves_again I s0 es ->
  In (sc_scope sc) signals -> answerable (sc_scope sc) (sc_filters sc) -> sc_range (sc_times sc) <> None ->
  four_digit_years now (sc_times sc) -> P_Visit.window now sc st en -> window (calm now) sc vs ->
  (forall s e, In s (given es) -> signal_of (smp_data s) = sc_scope sc -> In e (entries (smp_data s)) -> wanted (sc_filters sc) st en e = true ->
     kept I s0 es s /\ exists v, In v vs /\ In v (home (smp_data s))) ->
  (forall s v, In s (given es) -> In v vs -> In v (home (smp_data s)) -> aligned (flushes I s0 es) v s) ->
  mergeable h kvb (map smp_data (given es)) ->
  (forall d, do_scan I h kvb state (calm now) sc order = SData (Some d) -> P_Visit.fair h h0 sc d) ->
  forall retention, exists out, (forall later, query I h h0 kvb (new_service retention state) (calm later) later sc order = AData out) /\
    Permutation (records out) (matching_of (map smp_data (given es)) sc st en).
Proof.
  intros I inv s0 es h h0 kvb now sc order vs st en L HI OO state Few Again Sig An NR Y PW W Cov Al Mg Fair retention.
  destruct (C98_exact_answer_partial I inv s0 es h h0 kvb now now sc order vs st en L HI OO Few Again Sig An NR Y PW W Cov Al Mg Fair) as (out & E & P).
  exists out. split; [|exact P]. intros later. rewrite <- E. apply C109_age_does_not_matter, NR.
Qed.
(** The claim is false of the code: for every retention period there is a life of the server and a time at which everything it answers is older. *)
Theorem C109_retention_refuted : forall retention, exists es now out,
  history list_impl list_inv [] es /\
  query list_impl xxh64 xxh64_zero toy_kvb (new_service retention (after list_impl [] es)) (calm now) now (ask "b" 0 3600) group_columns = AData out /\
  records out <> [] /\ forall r, In r (records out) -> older_than retention now r.
Proof.
  intros retention. destruct C98_example as (HI & _ & _ & _ & _ & _ & Q & _). exists life11, (retention + 3600000000000)%Z, answer7. split; [exact HI|]. split; [|split].
  - rewrite <- Q. apply C109_age_does_not_matter. discriminate.
  - vm_compute. discriminate.
  - intros r H. assert (T : seen_time r = half1) by (vm_compute in H; repeat (destruct H as [<-|H]; [reflexivity|]); destruct H).
    unfold older_than. rewrite T. change (Z.of_N half1) with 1800000000000%Z. lia.
Qed.
(** With the default of one week, a year later. *)
Example C109_example : query list_impl xxh64 xxh64_zero toy_kvb (new_service default_retention (after list_impl [] life11)) (calm (365 * 24 * 3600000000000)) (365 * 24 * 3600000000000) (ask "b" 0 3600) group_columns = AData answer7 /\
  Forall (older_than default_retention (365 * 24 * 3600000000000)) (records answer7).
Proof.
  split; [|repeat constructor; vm_compute; reflexivity]. destruct C98_example as (_ & _ & _ & _ & _ & _ & Q & _). rewrite <- Q. apply C109_age_does_not_matter. discriminate.
Qed.
Print Assumptions C109_age_does_not_matter.
Print Assumptions C109_answered_at_any_age_partial.
Print Assumptions C109_retention_refuted.
