(** C99: the label translator as the server wires it. *)
From Verif.Model Require Import Base Labels Calendar View KV Otlp Transform Batch Rows Shards Dataframe Collapse Store Sequence Translate ColumnCache Wiring Visit XxHash Query.
From Verif.Spec Require Import Indexing Translator Frames Saves Sets Merge Trim Queries Serving Limits.
From Verif.Proofs Require Import BaseFacts LabelsFacts TransformFacts TransformLaws DataframeFacts StoreFacts ScanFacts TranslatorFacts WiringFacts WiredStore VisitFacts OnceFacts.
From Verif.Props Require Import P_Dataframe P_Store P_Collapse P_EndToEnd P_Query P_Once P_Serving P_Restart.
From Verif.Props Require P_Visit P_Time.
Open Scope N_scope.
Notation entries := Trim.entries.

(** The server as it is, and the same server with a translator that keeps its key prefixes apart and has no cache in
    front of it, both started on the database [d]. *)
Section Setting.
Context (grow : nat -> nat) (hash : string -> N) (world : nat -> around) (d : kv).
Definition wired_server : tr_impl := wired_impl grow hash world.
Definition plain_server : tr_impl := kv_impl "5" grow.
Definition wired_first : ti_state wired_server := wired_start grow hash d.
Definition plain_first : ti_state plain_server := fst (tr_step (TrConfig grow "5" (String.length "5")) (TrState d None) (TOpen false)).

(** A possible life of the server as it is, within its limits. *)
Record server_life (es : list event) : Prop := {
  sl_grow : forall n, (n <= grow n)%nat;
  sl_empty : forall x, kvget (append "5" x) d = None;
  sl_possible : possible wired_server (new_store wired_server wired_first) es;
  sl_inc : increasing (given es);
  sl_small : forall s, In s (given es) -> smp_id s < 2^44 - 1;
  sl_cost : N.of_nat (events_cost es) < 2^43;
  sl_limits : within_limits hash es }.
End Setting.

Section Transfer.
Context (grow : nat -> nat) (hash : string -> N) (world : nat -> around) (d : kv).
Notation W := (wired_server grow hash world).
Notation Q := (plain_server grow).
Notation s0 := (wired_first grow hash world d).
Notation t0 := (plain_first grow d).
Notation life := (server_life grow hash world d).

Lemma life_alike es : life es -> exists P, alike grow hash world 0 P (after W s0 es) (after Q t0 es).
Proof. intros [G E _ _ _ C L]. exact (wired_alike grow hash world G d E es L C). Qed.
Lemma sorted_first (l m : list sample) : increasing (l ++ m) -> increasing l.
Proof.
  induction l as [|x l IH]; intros H; [constructor|]. apply StronglySorted_inv in H as [H1 H2]. constructor; [apply IH, H1|]. apply Forall_app in H2. apply H2.
Qed.
Lemma life_prefix a b : life (a ++ b) -> life a.
Proof.
  intros [G E P Inc S C L]. split; auto.
  - apply possible_app in P. apply P.
  - unfold given in *. rewrite flat_map_app in Inc. exact (sorted_first _ _ Inc).
  - intros s Hs. apply S. unfold given in *. rewrite flat_map_app. apply in_app_iff. auto.
  - eapply cost_prefix, C.
  - eapply within_prefix, L.
Qed.
Lemma life_save es l ch : life (es ++ [ESave l ch]) ->
  snd (save W (after W s0 es) l ch) = snd (save Q (after Q t0 es) l ch) /\ (choices_ok W (after W s0 es) l ch <-> choices_ok Q (after Q t0 es) l ch) /\
  snd (process_samples (ti_translate W) (st_ctx (after W s0 es)) l) = snd (process_samples (ti_translate Q) (st_ctx (after Q t0 es)) l) /\
  res (st_ctx (after W s0 es)) = res (st_ctx (after Q t0 es)).
Proof. intros [G E _ _ _ C L]. exact (wired_save grow hash world G d E es l ch L C). Qed.
Lemma life_possible es : life es -> possible Q (new_store Q t0) es.
Proof.
  induction es as [|e es IH] using rev_ind; intros H; [exact Logic.I|]. pose proof (life_prefix _ _ H) as H1. apply possible_app. split; [apply IH, H1|].
  pose proof (sl_possible _ _ _ _ _ H) as P. apply possible_app in P as [_ [P _]]. split; [|exact Logic.I]. destruct e as [l ch|keys]; [|exact Logic.I]. destruct P as [P1 P2]. split; [|exact P2].
  destruct (life_save es l ch H) as (_ & C & _). apply C, P1.
Qed.
Lemma life_history es : life es -> history Q (kv_inv "5") t0 es.
Proof.
  intros H. split; [|split; [apply life_possible, H|split; apply H]]. apply kv_fresh; [apply H|apply H|]. pose proof (sl_cost _ _ _ _ _ H) as C. change (2^43) with 8796093022208 in C. change (2^50) with 1125899906842624. lia.
Qed.
Lemma life_trace es : life es -> trace W (new_store W s0) es = trace Q (new_store Q t0) es.
Proof.
  induction es as [|e es IH] using rev_ind; intros H; [reflexivity|]. pose proof (life_prefix _ _ H) as H1. rewrite !trace_app, (IH H1). f_equal. cbn [trace]. rewrite !app_nil_r.
  destruct e as [l ch|keys]; [|reflexivity]. destruct (life_save es l ch H) as (_ & _ & Fs & R). unfold after in Fs, R. unfold past_of. rewrite Fs. f_equal. f_equal.
  unfold ctx_signal. unfold res in R. rewrite R. reflexivity.
Qed.
Lemma life_flushes es : life es -> flushes W s0 es = flushes Q t0 es.
Proof. intros H. unfold flushes. rewrite (life_trace es H). reflexivity. Qed.
Lemma life_find es k : life es -> ti_find W (st_tr (after W s0 es)) k = ti_find Q (st_tr (after Q t0 es)) k.
Proof. intros H. destruct (life_alike es H) as [P A]. exact (wired_find grow hash world 0 P _ _ k (a_like _ _ _ _ _ _ _ A)). Qed.
Lemma life_back es k n : life es -> ti_find Q (st_tr (after Q t0 es)) k = Some n -> ti_back W (st_tr (after W s0 es)) n = ti_back Q (st_tr (after Q t0 es)) n.
Proof. intros H F. destruct (life_alike es H) as [P A]. exact (wired_back grow hash world 0 P _ _ k n (a_like _ _ _ _ _ _ _ A) F). Qed.
Lemma life_shards es : life es -> st_shards (after W s0 es) = st_shards (after Q t0 es).
Proof. intros H. destruct (life_alike es H) as [P A]. apply A. Qed.
Lemma life_frames es : life es -> st_frames (after W s0 es) = st_frames (after Q t0 es).
Proof. intros H. destruct (life_alike es H) as [P A]. apply A. Qed.
Lemma life_kept es s : life es -> (kept W s0 es s <-> kept Q t0 es s).
Proof.
  intros H. split; intros (es1 & l & ch & es2 & E & Hs & OK); exists es1, l, ch, es2; (split; [exact E|]); (split; [exact Hs|]).
  all: assert (H1 : life (es1 ++ [ESave l ch])) by (apply (life_prefix _ es2); rewrite <- app_assoc; cbn [app]; rewrite <- E; exact H); destruct (life_save es1 l ch H1) as (X & _); congruence.
Qed.
Lemma life_compile es fails sc : life es -> compile_filters W fails (st_tr (after W s0 es)) sc = compile_filters Q fails (st_tr (after Q t0 es)) sc.
Proof.
  intros H. assert (C : forall l, find_col W fails (st_tr (after W s0 es)) l = find_col Q fails (st_tr (after Q t0 es)) l) by (intros l; unfold find_col; rewrite (life_find es _ H); reflexivity).
  assert (K : forall fs scope r, compile_loop W fails (st_tr (after W s0 es)) scope fs r = compile_loop Q fails (st_tr (after Q t0 es)) scope fs r).
  { induction fs as [|f fs IH]; intros scope r; [reflexivity|]. cbn [compile_loop]. destruct (filter_label scope f) as [l|]; [|apply IH]. rewrite C. destruct (find_col Q fails (st_tr (after Q t0 es)) l) as [[c|]|]; auto. }
  unfold compile_filters. destruct (sc_filters sc) as [|f fs]; [rewrite C; reflexivity|apply K].
Qed.
Lemma life_scan es e sc order : life es -> scan_rows W (after W s0 es) e sc order = scan_rows Q (after Q t0 es) e sc order.
Proof. intros H. unfold scan_rows. rewrite (life_compile es _ sc H), (life_shards es H), (life_frames es H). reflexivity. Qed.
Lemma life_few es : life es -> few_labels W (after W s0 es) -> few_labels Q (after Q t0 es).
Proof. intros H F k c E. apply (F k). rewrite life_find; assumption. Qed.
Lemma life_again es : life es -> saves_again W s0 es -> saves_again Q t0 es.
Proof.
  intros H (es1 & l & ch & es2 & E & Ne & OK & NR). exists es1, l, ch, es2. split; [exact E|]. split; [exact Ne|]. split; [|exact NR].
  assert (H1 : life (es1 ++ [ESave l ch])) by (apply (life_prefix _ es2); rewrite <- app_assoc; cbn [app]; rewrite <- E; exact H). destruct (life_save es1 l ch H1) as (X & _). congruence.
Qed.

(** Within the limits nothing that can be observed differs: saves succeed or fail alike, the index and the rows are the
    same, labels have the same columns, scans and queries answer the same, and the labels of samples are read back
    the same.  And the life is one that the properties of the store are about. *)
Theorem C99_no_difference_partial : forall es, life es ->
  history Q (kv_inv "5") t0 es /\ (forall s, kept W s0 es s <-> kept Q t0 es s) /\
  st_shards (after W s0 es) = st_shards (after Q t0 es) /\ st_frames (after W s0 es) = st_frames (after Q t0 es) /\
  (forall k, ti_find W (st_tr (after W s0 es)) k = ti_find Q (st_tr (after Q t0 es)) k) /\
  (forall h kvb e sc order, do_scan W h kvb (after W s0 es) e sc order = do_scan Q h kvb (after Q t0 es) e sc order) /\
  (forall h h0 kvb e client sc order, query W h h0 kvb (after W s0 es) e client sc order = query Q h h0 kvb (after Q t0 es) e client sc order) /\
  (forall v id order, id < 2^44 - 1 -> Permutation (sh_open (st_shards (after W s0 es))) order -> labels_of W (after W s0 es) v id order = labels_of Q (after Q t0 es) v id order).
Proof.
  intros es H. pose proof (life_history es H) as HI. split; [exact HI|]. split; [intros s; apply life_kept, H|]. split; [apply life_shards, H|]. split; [apply life_frames, H|]. split; [intros k; apply life_find, H|].
  assert (DS : forall h kvb e sc order, do_scan W h kvb (after W s0 es) e sc order = do_scan Q h kvb (after Q t0 es) e sc order) by (intros; unfold do_scan; rewrite (life_scan es e sc order H); reflexivity).
  split; [exact DS|]. split; [intros; unfold query; rewrite DS; reflexivity|].
  intros v id order Hid P. unfold labels_of. rewrite (life_shards es H) in *. f_equal. apply map_ext_in. intros c Hc.
  pose proof (kv_laws "5" grow (sl_grow _ _ _ _ _ H)) as L. pose proof (hist_inv Q (kv_inv "5") L t0 es HI) as HV.
  destruct (P_Shards.C28_row_exact (st_shards (after Q t0 es)) v id order P Hid (I_open _ _ _ _ _ HV) (fun k => I_sorted _ _ _ _ _ HV k v)) as [_ RI].
  apply RI in Hc as [_ Hc]. destruct (carried_stored Q (kv_inv "5") 0 _ _ HV (hist_small Q (kv_inv "5") L t0 es HI) v id c Hc) as (g & Hg & _ & _ & _ & Hcol).
  apply (filing_cols Q (kv_inv "5") 0 _ _ HV g c Hg) in Hcol as (l & _ & F). apply (life_back es (encode l)); assumption.
Qed.

(** So the server as it is answers a query with all matching records ever sent, under the conditions of C98. *)
Theorem C99_exact_answer_partial : forall es h h0 kvb wall client sc order vs st en, life es -> some_order order ->
  let state := after W s0 es in
  few_labels W state -> saves_again W s0 es ->
  In (sc_scope sc) signals -> answerable (sc_scope sc) (sc_filters sc) -> sc_range (sc_times sc) <> None ->
  four_digit_years wall (sc_times sc) -> P_Visit.window client sc st en -> window (calm wall) sc vs ->
  (forall s e, In s (given es) -> signal_of (smp_data s) = sc_scope sc -> In e (entries (smp_data s)) -> wanted (sc_filters sc) st en e = true ->
     kept W s0 es s /\ exists v, In v vs /\ In v (home (smp_data s))) ->
  (forall s v, In s (given es) -> In v vs -> In v (home (smp_data s)) -> aligned (flushes W s0 es) v s) ->
  mergeable h kvb (map smp_data (given es)) ->
  (forall x, do_scan W h kvb state (calm wall) sc order = SData (Some x) -> P_Visit.fair h h0 sc x) ->
  exists out, query W h h0 kvb state (calm wall) client sc order = AData out /\ Permutation (records out) (matching_of (map smp_data (given es)) sc st en).
Proof.
  intros es h h0 kvb wall client sc order vs st en H OO state Few Again Sig An NR Y PW Wd Cov Al Mg Fair.
  destruct (C99_no_difference_partial es H) as (HI & Kp & _ & _ & _ & DS & QS & _). unfold state in *. rewrite QS.
  apply (C98_exact_answer_partial Q (kv_inv "5") t0 es h h0 kvb wall client sc order vs st en (kv_laws "5" grow (sl_grow _ _ _ _ _ H)) HI OO (life_few es H Few) (life_again es H Again)); auto.
  - intros s e G Sg He Hw. destruct (Cov s e G Sg He Hw) as [K V]. split; [apply Kp, K|exact V].
  - rewrite <- (life_flushes es H). exact Al.
  - intros x E. apply Fair. rewrite DS. exact E.
Qed.
End Transfer.

(* ------------------------------------------------------------------ a life within the limits *)
(** All labels of a short life in one list without equal hashes: within the limits. *)
Lemma few_within hash es all : (List.length all <= 4092)%nat -> (forall k, met es k \/ In k signal_keys -> In k all) -> NoDup (map hash all) -> within_limits hash es.
Proof.
  intros LA HA ND before process rest E _ _. assert (M : forall k, met process k -> met es k).
  { intros k [(s & l & Hs & D & ->)|(keys & Hk & Hin)]; [left; exists s, l; split; [|auto]|right; exists keys; split; [|exact Hin]]; rewrite E.
    - unfold given in *. rewrite !flat_map_app, !in_app_iff. auto.
    - rewrite !in_app_iff. auto. }
  split.
  - exists all. split; [exact LA|]. intros k Hk. right. apply HA. left. apply M, Hk.
  - intros k k' Hk Hk' Eh. assert (A : In k all) by (apply HA; destruct Hk; auto). assert (A' : In k' all) by (apply HA; destruct Hk'; auto).
    clear -ND A A' Eh. induction all as [|x all IH]; [destruct A|]. cbn [map] in ND. apply NoDup_cons_iff in ND as [N1 N2].
    destruct A as [<-|A], A' as [<-|A']; auto.
    + exfalso. apply N1. rewrite Eh. apply in_map, A'.
    + exfalso. apply N1. rewrite <- Eh. apply in_map, A.
Qed.
(** Nothing is evicted, everything is admitted; scans look up a short label (which overwrites spare bytes of the shared
    array) and a long one; the server is closed properly. *)
Definition quiet_world (n : nat) : around := Around ["x"; "a long label"]%string (fun _ => true) true true.
Definition dbl (n : nat) : nat := (2 * n)%nat.
Notation W0 := (wired_server dbl xxh64 quiet_world).
Notation w0 := (wired_first dbl xxh64 quiet_world []).
Definition evs (l : list sample) (es : list event) : event := ESave l (smooth W0 (after W0 w0 es) l).
Definition wlife1 : list event := [] ++ [evs [Sample 0 (mtp "a" "x")] []].
Definition wlife2 : list event := wlife1 ++ [evs [Sample 1 (mtp "b" "y"); Sample 2 (mtp "b" "z")] wlife1].
Definition wlife3 : list event := wlife2 ++ [ERestart ["1:6:q"%string]].
Definition wlife4 : list event := wlife3 ++ [evs [Sample 3 (mtp "c" "w")] wlife3].
Lemma wlife_snoc es l : possible W0 (new_store W0 w0) es -> (forall s t1 t2, In s l -> In (t1, t2) (record_times (smp_data s)) -> t1 < two64 /\ t2 < two64) ->
  possible W0 (new_store W0 w0) (es ++ [evs l es]).
Proof. intros P T. apply possible_snoc; [exact P|]. split; [apply smooth_ok|exact T]. Qed.
Lemma wlife4_possible : possible W0 (new_store W0 w0) wlife4.
Proof.
  unfold wlife4, wlife3, wlife2, wlife1. apply wlife_snoc; [|apply times_forall; repeat constructor]. apply possible_snoc; [|exact Logic.I].
  apply wlife_snoc; [|apply times_forall; repeat constructor]. apply wlife_snoc; [exact Logic.I|apply times_forall; repeat constructor].
Qed.
Lemma given_wlife4 : given wlife4 = [Sample 0 (mtp "a" "x"); Sample 1 (mtp "b" "y"); Sample 2 (mtp "b" "z"); Sample 3 (mtp "c" "w")]. Proof. reflexivity. Qed.
Lemma mtp_labels n r l : documented_label (mtp n r) l -> l = Label RESOURCE_METRICS PREFIX_NAME n "".
Proof. intros H. apply in_L_data in H. cbn in H. destruct H as [<-|[]]. reflexivity. Qed.
Lemma evs_in l es keys ys : In (ERestart keys) (ys ++ [evs l es]) -> In (ERestart keys) ys.
Proof. intros H. apply in_app_iff in H as [H|[H|[]]]; [exact H|]. discriminate H. Qed.
Lemma wlife4_keys keys : In (ERestart keys) wlife4 -> keys = ["1:6:q"%string].
Proof.
  intros H. apply evs_in in H. apply in_app_iff in H as [H|[H|[]]].
  - apply evs_in, evs_in in H. destruct H.
  - congruence.
Qed.
Example C99_example_life : server_life dbl xxh64 quiet_world [] wlife4.
Proof.
  split.
  - intros n. unfold dbl. lia.
  - reflexivity.
  - exact wlife4_possible.
  - rewrite given_wlife4. repeat constructor.
  - rewrite given_wlife4. intros s Hs. repeat (destruct Hs as [<-|Hs]; [reflexivity|]). destruct Hs.
  - vm_compute. reflexivity.
  - apply (few_within xxh64 wlife4 ["1:6:a"; "1:6:b"; "1:6:c"; "1:6:q"; "0:0:"; "1:0:"; "2:0:"; "3:0:"]%string).
    + cbn. lia.
    + intros k [[(s & l & Hs & D & ->)|(keys & Hk & Hin)]|Hk].
      * rewrite given_wlife4 in Hs. repeat (destruct Hs as [<-|Hs]; [apply mtp_labels in D as ->; vm_compute; tauto|]). destruct Hs.
      * apply wlife4_keys in Hk as ->. destruct Hin as [<-|[]]. vm_compute. tauto.
      * vm_compute in Hk. vm_compute. tauto.
    + vm_compute. repeat constructor; cbn [In]; intuition discriminate.
Qed.
Example C99_example_answer :
  query W0 xxh64 xxh64_zero toy_kvb (after W0 w0 wlife4) (calm 0) 0 (ask "b" 0 3600) group_columns = AData answer7 /\
  map (ti_find W0 (st_tr (after W0 w0 wlife4))) ["0:0:"; "1:6:a"; "1:0:"; "1:6:b"; "1:6:q"; "1:6:c"]%string = [Some 0; Some 1; Some 2; Some 3; Some 4; Some 4096] /\
  saves_again W0 w0 wlife4 /\ kept W0 w0 wlife4 (Sample 2 (mtp "b" "z")).
Proof.
  split; [vm_compute; reflexivity|]. split; [vm_compute; reflexivity|]. split.
  - exists wlife3, [Sample 3 (mtp "c" "w")], (smooth W0 (after W0 w0 wlife3) [Sample 3 (mtp "c" "w")]), []. split; [reflexivity|]. split; [discriminate|]. split; vm_compute; reflexivity.
  - exists wlife1, [Sample 1 (mtp "b" "y"); Sample 2 (mtp "b" "z")], (smooth W0 (after W0 w0 wlife1) [Sample 1 (mtp "b" "y"); Sample 2 (mtp "b" "z")]).
    eexists. split; [unfold wlife4, wlife3, wlife2; rewrite <- !app_assoc; reflexivity|]. split; [right; left; reflexivity|vm_compute; reflexivity].
Qed.

(* ------------------------------------------------------------------ outside the limits *)
(** Two metric names whose labels have the same hash.  The second one, saved while the first is cached, gets the
    column of the first and never enters the label table: no query for it finds the saved sample. *)
Definition name1 : string := "httptcgaitch_request_seconds_bucket_gacaaaaa_of_the_frontend".
Definition name2 : string := "httpcjvqdpbw_request_seconds_bucket_afafgdht_of_the_frontend".
Definition clash1 : list event := [] ++ [evs [Sample 0 (mtp name1 "x")] []].
Definition clash2 : list event := clash1 ++ [evs [Sample 1 (mtp name2 "y")] clash1].
Theorem C99_equal_hashes_refuted : name1 <> name2 /\ possible W0 (new_store W0 w0) clash2 /\ saved_now W0 w0 clash2 (Sample 1 (mtp name2 "y")) /\
  P_Visit.window 0 (ask name2 0 3600) 0 3600000000000 /\ (exists e, In e (entries (mtp name2 "y")) /\ wanted (sc_filters (ask name2 0 3600)) 0 3600000000000 e = true) /\
  (exists out, query W0 xxh64 xxh64_zero toy_kvb (after W0 w0 clash2) (calm 0) 0 (ask name2 0 3600) group_columns = AData out /\ records out = []) /\
  exists out, query (plain_server dbl) xxh64 xxh64_zero toy_kvb (after (plain_server dbl) (plain_first dbl []) clash2) (calm 0) 0 (ask name2 0 3600) group_columns = AData out /\ records out <> [].
Proof.
  split; [discriminate|]. split; [|split].
  - unfold clash2, clash1. apply wlife_snoc; [|apply times_forall; repeat constructor]. apply wlife_snoc; [exact Logic.I|apply times_forall; repeat constructor].
  - exists clash1, [Sample 1 (mtp name2 "y")], (smooth W0 (after W0 w0 clash1) [Sample 1 (mtp name2 "y")]), []. split; [reflexivity|]. split; [left; reflexivity|]. split; vm_compute; reflexivity.
  - split; [repeat split; vm_compute; congruence|]. split; [eexists; split; [left; reflexivity|vm_compute; reflexivity]|]. split.
    + eexists. split; vm_compute; reflexivity.
    + eexists. split; [vm_compute; reflexivity|vm_compute; discriminate].
Qed.
Print Assumptions C99_no_difference_partial.
Print Assumptions C99_exact_answer_partial.
Print Assumptions C99_equal_hashes_refuted.
