(** C84: from the request of a client, through buffer, flush loop and store, to the answer of a query. *)
From Verif.Model Require Import Base Labels Calendar View KV Otlp Transform Batch Rows Shards Dataframe Collapse Store Sequence Translate Visit XxHash Query Service.
From Verif.Spec Require Import Indexing Translator Frames Saves Sets Merge Trim Queries Serving.
From Verif.Proofs Require Import BaseFacts CalendarFacts LabelsFacts TransformFacts DataframeFacts StoreFacts ScanFacts ListTranslator VisitFacts OnceFacts SequenceFacts ServiceFacts.
From Verif.Props Require Import P_Dataframe P_Store P_Collapse P_EndToEnd P_Query P_Once P_Service.
From Verif.Props Require P_Visit P_Time.
Open Scope N_scope.
Notation entries := Trim.entries.

(** A database with an earlier history [es0], whose sample ids all came from the id sequence ([earlier]), and
    the history [es1] made by the current process, now in state [s]. *)
Record serving (I : tr_impl) (inv : nat -> ti_state I -> Prop) (s0 : ti_state I) (es0 es1 : list event) (earlier : list N) (s : service) : Prop := {
  sg_inv : inv (events_cost (es0 ++ es1)) s0;
  sg_possible : possible I (new_store I s0) (es0 ++ es1);
  sg_earlier : increasing (given es0);
  sg_drawn : forall x, In x (given es0) -> In (smp_id x) earlier;
  sg_small : forall x, In x (given (es0 ++ es1)) -> smp_id x < 2^44 - 1;
  sg_writes : written_by I (after I s0 es0) es1 s
}.
Lemma given_saves I st es : given es = flat_map fst (saves_made I st es).
Proof.
  revert st. induction es as [|e es IH]; intros st; [reflexivity|]. cbn [saves_made]. rewrite flat_map_app, <- IH. unfold given. cbn [flat_map].
  destruct e; cbn [flat_map fst app]; rewrite ?app_nil_r; reflexivity.
Qed.
Lemma no_restart es : (forall keys, ~ In (ERestart keys) es) -> existsb is_restart es = false.
Proof.
  intros H. destruct (existsb is_restart es) eqn:E; [|reflexivity]. exfalso. apply existsb_exists in E as (e & He & K).
  destruct e as [l ch|keys]; [discriminate|]. exact (H keys He).
Qed.
(** What was in a call that succeeded is saved. *)
Lemma success_now I s0 es0 es1 ls x : (forall keys, ~ In (ERestart keys) es1) -> In (ls, true) (saves_made I (after I s0 es0) es1) -> In x ls -> saved_now I s0 (es0 ++ es1) x.
Proof.
  intros NR H Hx. revert es0 H. induction es1 as [|e es1 IH]; intros es0 H; [destruct H|]. cbn [saves_made] in H. apply in_app_iff in H as [H|H].
  - destruct e as [l ch|keys]; [|destruct H]. destruct H as [H|[]]. exists es0, l, ch, es1. split; [reflexivity|].
    assert (ls = l /\ snd (save I (after I s0 es0) l ch) = true) as [-> B] by (split; congruence). split; [exact Hx|]. split; [exact B|].
    apply no_restart. intros keys K. apply (NR keys). right. exact K.
  - change (es0 ++ e :: es1) with (es0 ++ [e] ++ es1). rewrite app_assoc. apply IH; [intros keys K; apply (NR keys); right; exact K|].
    unfold after in *. rewrite run_app. exact H.
Qed.
Lemma success_saved I s0 es0 es1 ls x : (forall keys, ~ In (ERestart keys) es1) -> In (ls, true) (saves_made I (after I s0 es0) es1) -> In x ls -> saved I s0 (es0 ++ es1) x.
Proof. intros NR H Hx. left. eapply success_now; eassumption. Qed.
Section Joined.
Context (I : tr_impl) (inv : nat -> ti_state I -> Prop) (s0 : ti_state I) (es0 es1 : list event) (earlier : list N) (s : service).
Context (SG : serving I inv s0 es0 es1 earlier s) (ms : list move) (SV : served earlier ms s).
Lemma given_here : given es1 = given_to_store s.
Proof. destruct (sg_writes _ _ _ _ _ _ _ SG) as [_ W]. rewrite (given_saves I (after I s0 es0)), W. reflexivity. Qed.
Lemma serving_history : history I inv s0 (es0 ++ es1).
Proof.
  split; [exact (sg_inv _ _ _ _ _ _ _ SG)|]. split; [exact (sg_possible _ _ _ _ _ _ _ SG)|]. split; [|exact (sg_small _ _ _ _ _ _ _ SG)].
  unfold given. rewrite flat_map_app. change (increasing (given es0 ++ given es1)). rewrite given_here.
  destruct (C43_handed_over_exactly_once _ _ _ SV) as (rest & _ & Srt & Old & _).
  assert (A : increasing (given_to_store s)).
  { assert (K : increasing (given_to_store s ++ rest)). { unfold increasing. clear - Srt. induction (given_to_store s ++ rest) as [|x l IH]; [constructor|]. cbn in Srt. inversion Srt; subst. constructor; [auto|].
      rewrite Forall_forall in *. intros y Hy. apply H2, in_map, Hy. }
    apply increasing_app in K as (K & _). exact K. }
  pose proof (sg_earlier _ _ _ _ _ _ _ SG) as B. pose proof (sg_drawn _ _ _ _ _ _ _ SG) as D.
  assert (X : forall x y, In x (given es0) -> In y (given_to_store s) -> smp_id x < smp_id y).
  { intros x y Hx Hy. apply (Old (smp_id x) y); [apply D, Hx|apply in_app_iff; left; exact Hy]. }
  clear - A B X. induction (given es0) as [|x l IH]; [exact A|]. cbn [app]. inversion B; subst. constructor; [apply IH; [assumption|intros u w Hu; apply X; right; exact Hu]|].
  apply Forall_app. split; [assumption|]. apply Forall_forall. intros y Hy. apply X; [left; reflexivity|exact Hy].
Qed.
End Joined.

(** C84.  A client's request was answered (state [s]); one more flush has completed since (state [s']) and no
    call of SaveSamples that included the request failed.  Then every record of the request that matches a
    query, if its sample's first record is in a consulted view, is in the query's answer. *)
Theorem C84_answered_then_found_partial : forall I inv s0 es0 es1 earlier s s' q id h h0 kvb wall client sc order vs st en v e,
  tr_laws I inv -> serving I inv s0 es0 es1 earlier s' -> served_then earlier s s' ->
  In (CDone q id) (sv_clients s) -> sv_flusher s = FIdle -> (List.length (sv_saves s) < List.length (sv_saves s'))%nat ->
  (forall ls, In (ls, false) (sv_saves s') -> ~ In (Sample id (export q)) ls) ->
  some_order order ->
  let es := es0 ++ es1 in
  let state := after I s0 es in
  sc_scope sc = signal_of (export q) -> answerable (sc_scope sc) (sc_filters sc) -> sc_range (sc_times sc) <> None -> P_Visit.window client sc st en ->
  window (calm wall) sc vs -> In v vs -> In v (home (export q)) ->
  (forall x v', In x (given es) -> In v' vs -> In v' (home (smp_data x)) -> aligned (flushes I s0 es) v' x) ->
  mergeable h kvb (map smp_data (given es)) ->
  (forall d, do_scan I h kvb state (calm wall) sc order = SData (Some d) -> P_Visit.fair h h0 sc d) ->
  In e (entries (export q)) -> wanted (sc_filters sc) st en e = true ->
  exists out, query I h h0 kvb state (calm wall) client sc order = AData out /\ In (as_seen (forget e)) (records out).
Proof.
  intros I inv s0 es0 es1 earlier s s' q id h h0 kvb wall client sc order vs st en v e L SG ST Hc Hf Hl NF OO es state Esc An NR PW W Hv Hh Al Mg Fair He Hw.
  destruct (served_then_right _ _ _ ST) as (ms & SV). pose proof (serving_history I inv s0 es0 es1 earlier s' SG ms SV) as HI.
  pose proof (C43_next_flush_hands_over _ _ _ _ _ ST Hf Hc Hl) as G. unfold given_to_store in G. apply in_flat_map in G as ([ls ok] & Hls & Hx). cbn [fst] in Hx.
  destruct ok; [|exfalso; exact (NF ls Hls Hx)]. destruct (sg_writes _ _ _ _ _ _ _ SG) as [NRs Wr].
  assert (Sv : saved I s0 es (Sample id (export q))) by (eapply success_saved; [exact NRs|rewrite Wr; exact Hls|exact Hx]).
  apply (C82_matching_records_returned_partial I inv s0 es h h0 kvb wall client sc order vs st en (Sample id (export q)) v e); auto.
  cbn [smp_data]. destruct q; cbn; tauto.
Qed.

(** And nothing else: every record of an answer is a matching record of an answered request of this process,
    or of a sample of the earlier history. *)
Theorem C84_found_then_answered_partial : forall I inv s0 es0 es1 earlier ms s h h0 kvb wall client sc order st en out r,
  tr_laws I inv -> serving I inv s0 es0 es1 earlier s -> served earlier ms s -> some_order order ->
  let es := es0 ++ es1 in
  let state := after I s0 es in
  In (sc_scope sc) signals -> answerable (sc_scope sc) (sc_filters sc) -> P_Visit.window client sc st en ->
  (forall x v' vs, In x (given es) -> window (calm wall) sc vs -> In v' vs -> In v' (home (smp_data x)) -> aligned (flushes I s0 es) v' x) ->
  mergeable h kvb (map smp_data (given es)) ->
  (forall d, do_scan I h kvb state (calm wall) sc order = SData (Some d) -> P_Visit.fair h h0 sc d) ->
  query I h h0 kvb state (calm wall) client sc order = AData out -> In r (records out) ->
  exists d e, ((exists q, answered s q /\ d = export q) \/ (exists x, In x (given es0) /\ d = smp_data x)) /\
    signal_of d = sc_scope sc /\ In e (entries d) /\ wanted (sc_filters sc) st en e = true /\ r = as_seen (forget e).
Proof.
  intros I inv s0 es0 es1 earlier ms s h h0 kvb wall client sc order st en out r L SG SV OO es state Sig An PW Al Mg Fair EQ Hr.
  pose proof (serving_history I inv s0 es0 es1 earlier s SG ms SV) as HI.
  destruct (C82_only_matching_records_partial I inv s0 es h h0 kvb wall client sc order st en out r L HI OO Sig An PW Al Mg Fair EQ Hr) as (x & e & G & Sg & He & Hw & E).
  exists (smp_data x), e. split; [|auto]. unfold es in G. unfold given in G. rewrite flat_map_app in G. apply in_app_iff in G as [G|G]; [right; exists x; auto|left].
  change (In x (given es1)) in G. rewrite (given_here I inv s0 es0 es1 earlier s SG) in G.
  destruct (C43_nothing_else_is_handed_over _ _ _ SV) as [_ K]. destruct (K x G) as (q & Hq & E'). exists q. split; [exists (smp_id x); exact Hq|exact E'].
Qed.

(** ------ exactly *)
Lemma payloads_accepted lo0 lo hi s : ServiceFacts.inv lo0 lo hi s -> sv_mutex s = None -> map smp_data (accepted s) = payloads s.
Proof.
  intros Hi Hm. assert (N : forall c, In c (sv_clients s) -> c_holds c = false).
  { intros c Hc. apply In_nth_error in Hc as (i & E). destruct (c_holds c) eqn:K; [|reflexivity]. apply (i_client _ _ _ _ Hi i c E) in K. congruence. }
  unfold accepted, payloads. clear - N. induction (sv_clients s) as [|c l IH]; [reflexivity|]. cbn [flat_map]. rewrite map_app, IH by (intros x Hx; apply N; right; exact Hx).
  specialize (N c (or_introl eq_refl)). destruct c; cbn in *; try reflexivity; discriminate.
Qed.
Lemma filter_perm {A} (f : A -> bool) l l' : Permutation l l' -> Permutation (filter f l) (filter f l').
Proof. induction 1; cbn; [constructor| | |]; [destruct (f x); auto|destruct (f x), (f y); auto; constructor|etransitivity; eauto]. Qed.
Lemma flat_perm {A B} (f : A -> list B) l l' : Permutation l l' -> Permutation (flat_map f l) (flat_map f l').
Proof. intros P. rewrite P. reflexivity. Qed.
(** The records of some payloads that a query should answer. *)
Definition matching_of (ds : list data) (sc : scan) (st en : Z) : list seen :=
  map (fun e => as_seen (forget e)) (filter (wanted (sc_filters sc) st en) (flat_map entries (filter (fun d => Z.eqb (signal_of d) (sc_scope sc)) ds))).
Lemma matching_data es sc st en : matching es sc st en = matching_of (map smp_data (given es)) sc st en.
Proof.
  unfold matching, matching_of. f_equal. f_equal. induction (given es) as [|s l IH]; [reflexivity|]. cbn [map filter].
  destruct (Z.eqb (signal_of (smp_data s)) (sc_scope sc)); cbn [flat_map]; rewrite ?IH; reflexivity.
Qed.
Lemma matching_of_perm ds ds' sc st en : Permutation ds ds' -> Permutation (matching_of ds sc st en) (matching_of ds' sc st en).
Proof. intros P. unfold matching_of. apply Permutation_map, filter_perm, flat_perm, filter_perm, P. Qed.

(** On a new database: once the server is at rest and no save has failed, the answer of a query consists of
    exactly the matching records of all answered requests, each as often as it was sent, if every payload with
    a matching record is filed in a consulted view. *)
Theorem C84_exact_answer_partial : forall I inv s0 es earlier ms s h h0 kvb wall client sc order vs st en,
  tr_stable I inv -> serving I inv s0 [] es earlier s -> served earlier ms s -> at_rest s -> (forall ls, ~ In (ls, false) (sv_saves s)) -> some_order order ->
  let state := after I s0 es in
  In (sc_scope sc) signals -> answerable (sc_scope sc) (sc_filters sc) -> sc_range (sc_times sc) <> None ->
  four_digit_years wall (sc_times sc) -> P_Visit.window client sc st en -> window (calm wall) sc vs ->
  (forall d e, In d (payloads s) -> signal_of d = sc_scope sc -> In e (entries d) -> wanted (sc_filters sc) st en e = true -> exists v, In v vs /\ In v (home d)) ->
  (forall x v, In x (given es) -> In v vs -> In v (home (smp_data x)) -> aligned (flushes I s0 es) v x) ->
  mergeable h kvb (payloads s) ->
  (forall d, do_scan I h kvb state (calm wall) sc order = SData (Some d) -> P_Visit.fair h h0 sc d) ->
  exists out, query I h h0 kvb state (calm wall) client sc order = AData out /\ Permutation (records out) (matching_of (payloads s) sc st en).
Proof.
  intros I inv s0 es earlier ms s h h0 kvb wall client sc order vs st en L SG SV (Rm & Rf & Rb) NF OO state Sig An NR Y PW W Cov Al Mg Fair.
  pose proof (serving_history I inv s0 [] es earlier s SG ms SV) as HI. cbn [app] in HI.
  pose proof (given_here I inv s0 [] es earlier s SG) as GH. destruct (sg_writes _ _ _ _ _ _ _ SG) as [NRs Wr].
  destruct (C43_handed_over_exactly_once _ _ _ SV) as (rest & P & _ & _ & Rest). rewrite (Rest Rf Rb), app_nil_r, <- GH in P.
  destruct (served_inv _ _ _ SV) as (lo0 & lo & hi & _ & Hi). assert (PP : Permutation (map smp_data (given es)) (payloads s)).
  { rewrite <- (payloads_accepted _ _ _ _ Hi Rm). apply Permutation_map, P. }
  destruct (C82_exact_answer_partial I inv s0 es h h0 kvb wall client sc order vs st en L HI OO Sig An NR Y PW W) as (out & E & PO); [| |..|].
  - intros x e G Sg He Hw. split; [|apply (Cov (smp_data x) e); auto; apply (Permutation_in _ PP), in_map, G].
    rewrite (given_saves I (after I s0 [])) in G. apply in_flat_map in G as ([ls ok] & Hls & Hx). cbn [fst] in Hx.
    destruct ok; [|exfalso; rewrite Wr in Hls; exact (NF ls Hls)]. apply (success_saved I s0 [] es ls x NRs Hls Hx).
  - exact Al.
  - eapply mergeable_sub; [|exact Mg]. intros d Hd. apply (Permutation_in _ PP), Hd.
  - exact Fair.
  - exists out. split; [exact E|]. rewrite PO, matching_data. apply matching_of_perm, PP.
Qed.

(** ------ a concrete run: "a" is exported and flushed, then two clients export "b", the later one getting
    the mutex first; one more flush follows. *)
Definition rq (n r : string) : request := RqMetrics [RGroup "" None [SGroup "" None [Metric n "" "" (Some (MData KGauge 0 false [Point half1 [] r]))]]].
Definition flush_once : list move := repeat (MFlusher true) 5.
Definition told : list move :=
  MRequest (rq "a" "x") :: repeat (MClient 0 false) 4 ++ flush_once ++ [MRequest (rq "b" "z"); MRequest (rq "b" "y")] ++ repeat (MClient 2 false) 4 ++ repeat (MClient 1 false) 4.
Definition told_state : service := match service_run (service_new open_seq) told with Some s => s | None => service_new open_seq end.
Definition told_later : service := match service_run told_state flush_once with Some s => s | None => told_state end.
Example C84_example :
  serving list_impl list_inv [] [] life7 [] told_later /\ served_then [] told_state told_later /\ served [] (told ++ flush_once) told_later /\
  In (CDone (rq "b" "z") 2) (sv_clients told_state) /\ sv_flusher told_state = FIdle /\ (List.length (sv_saves told_state) < List.length (sv_saves told_later))%nat /\
  at_rest told_later /\ (forall ls, ~ In (ls, false) (sv_saves told_later)) /\
  payloads told_later = [mtp "a" "x"; mtp "b" "z"; mtp "b" "y"] /\
  matching_of (payloads told_later) (ask "b" 0 3600) 0 3600000000000 = [as_seen (seen_b "z"); as_seen (seen_b "y")] /\
  query list_impl xxh64 xxh64_zero toy_kvb (after list_impl [] life7) (calm 0) 0 (ask "b" 0 3600) group_columns = AData answer7.
Proof.
  destruct life7_history as (A & B & C & D). split.
  { split; [exact A|exact B|constructor|intros x []|exact D|]. split; [|vm_compute; reflexivity]. intros keys K. assert (E : existsb is_restart life7 = false) by reflexivity.
    assert (existsb is_restart life7 = true) by (apply existsb_exists; exists (ERestart keys); split; [exact K|reflexivity]). congruence. }
  split; [exists [], [SOpen false], open_seq, told, flush_once; split; [reflexivity|]; split; [vm_compute; reflexivity|]; split; [vm_compute; reflexivity|]; split; vm_compute; reflexivity|].
  split; [exists [], [SOpen false], open_seq; split; [reflexivity|]; split; [vm_compute; reflexivity|]; split; vm_compute; reflexivity|].
  split; [vm_compute; auto|]. split; [vm_compute; reflexivity|]. split; [vm_compute; lia|].
  split; [split; [vm_compute; reflexivity|split; vm_compute; reflexivity]|]. split; [intros ls K; vm_compute in K; destruct K as [K|[K|[]]]; discriminate|].
  split; [vm_compute; reflexivity|]. split; [vm_compute; reflexivity|]. apply C82_example.
Qed.
Print Assumptions C84_exact_answer_partial.
