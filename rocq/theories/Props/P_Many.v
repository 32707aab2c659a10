(** C101: any number of labels. *)
From Verif.Model Require Import Base Labels Calendar View KV Otlp Transform Batch Rows Shards Dataframe Collapse Store Sequence Translate ColumnCache Wiring Visit XxHash Query.
From Verif.Spec Require Import Indexing Translator Frames Saves Sets Merge Trim Queries Serving Limits.
From Verif.Proofs Require Import BaseFacts LabelsFacts TransformFacts TransformLaws DataframeFacts StoreFacts ScanFacts TranslateFacts ColumnCacheFacts TranslatorFacts WiringFacts WiredStore Simulation ManyLabels VisitFacts OnceFacts.
From Verif.Props Require Import P_Translate P_Dataframe P_Store P_Collapse P_EndToEnd P_Query P_Once P_Serving P_Restart P_Wiring P_Displaced.
From Verif.Props Require P_Visit P_Time.
Open Scope N_scope.
Notation entries := Trim.entries.

(** A possible life of the server as it is wired, with any number of labels. *)
Record long_life (grow : nat -> nat) (hash : string -> N) (world : nat -> around) (d : kv) (es : list event) : Prop := {
  ll_empty : forall x, kvget (append "5" x) d = None;
  ll_possible : possible (wired_server grow hash world) (new_store _ (wired_first grow hash world d)) es;
  ll_inc : increasing (given es);
  ll_small : forall s, In s (given es) -> smp_id s < 2^44 - 1;
  ll_cost : N.of_nat (events_cost es) < 2^43;
  ll_hashes : hashes_differ hash es }.

Lemma find_stays I inv s0 es more k c : tr_stable I inv -> history I inv s0 (es ++ more) ->
  ti_find I (st_tr (after I s0 es)) k = Some c -> ti_find I (st_tr (after I s0 (es ++ more))) k = Some c.
Proof.
  intros L (A & B & _) F. apply possible_app in B as [B1 B2]. rewrite events_cost_app in A.
  assert (B0 : Inv I inv (events_cost more + 0) (after I s0 es) (trace I (new_store I s0) es)) by (apply (life I inv L _ s0 es); [|exact B1]; rewrite Nat.add_0_r; exact A).
  destruct (run_inv I inv L more 0 _ _ B0 B2) as [_ X]. unfold after at 1. rewrite StoreFacts.run_app. apply X, F.
Qed.

Section Transfer.
Context (grow : nat -> nat) (hash : string -> N) (world : nat -> around) (d : kv).
Notation W := (wired_server grow hash world).
Notation Q := (wired_server grow hash (no_cache world)).
Notation s0 := (wired_first grow hash world d).
Notation t0 := (wired_first grow hash (no_cache world) d).
Notation life := (long_life grow hash world d).
Notation rel := (follows hash).

Lemma ll_each es : life es -> each_process (differ hash) es.
Proof. intros H before process rest E S1 S2. exact (ll_hashes _ _ _ _ _ H before process rest E S1 S2). Qed.
Lemma ll_start es : life es -> forall P b, differ hash P -> (b <= events_cost es)%nat -> rel b P s0 t0.
Proof. intros H P b Df Hb. apply (follows_start grow hash P d b (ll_empty _ _ _ _ _ H)); [|exact Df]. pose proof (ll_cost _ _ _ _ _ H). lia. Qed.
Notation step_ := (follows_step grow hash world).
Notation le_ := (follows_le hash).
Notation reopen_ := (follows_reopen grow hash world).
Lemma ll_prefix a b : life (a ++ b) -> life a.
Proof.
  intros [E P Inc S C L]. split; auto.
  - apply possible_app in P. apply P.
  - unfold given in *. rewrite flat_map_app in Inc. exact (sorted_first _ _ Inc).
  - intros s Hs. apply S. unfold given in *. rewrite flat_map_app. apply in_app_iff. auto.
  - eapply cost_prefix, C.
  - intros before process rest E1 S1 S2. apply (L before process (rest ++ b)); auto. rewrite E1, <- !app_assoc. reflexivity.
Qed.
Lemma ll_alike es : life es -> exists P, same_store W Q rel 0 P (after W s0 es) (after Q t0 es).
Proof. intros H. exact (sim_run W Q rel (differ hash) le_ step_ reopen_ s0 t0 _ (ll_start es H) es (ll_each es H) (le_n _)). Qed.
Lemma ll_save es l ch : life (es ++ [ESave l ch]) ->
  snd (save W (after W s0 es) l ch) = snd (save Q (after Q t0 es) l ch).
Proof. intros H. exact (proj1 (sim_saves W Q rel (differ hash) le_ step_ reopen_ s0 t0 _ (ll_start _ H) es l ch (ll_each _ H) (le_n _))). Qed.
Lemma ll_history es : life es -> history Q bare t0 es.
Proof.
  intros H. split; [|split; [|split; apply H]].
  - apply bare_start; apply H.
  - apply (sim_possible W Q rel (differ hash) le_ step_ reopen_ s0 t0 _ (ll_start es H) es (ll_each es H) (le_n _)), H.
Qed.
Lemma ll_flushes es : life es -> flushes W s0 es = flushes Q t0 es.
Proof. intros H. unfold flushes. rewrite (sim_trace W Q rel (differ hash) le_ step_ reopen_ s0 t0 _ (ll_start es H) es (ll_each es H) (le_n _)). reflexivity. Qed.
Lemma ll_find es k : life es -> ti_find W (st_tr (after W s0 es)) k = ti_find Q (st_tr (after Q t0 es)) k.
Proof. intros H. destruct (ll_alike es H) as [P A]. exact (follows_find grow hash world 0 P _ _ k (m_like _ _ _ _ _ _ _ A)). Qed.
Lemma ll_shards es : life es -> st_shards (after W s0 es) = st_shards (after Q t0 es).
Proof. intros H. destruct (ll_alike es H) as [P A]. apply A. Qed.
Lemma ll_frames es : life es -> st_frames (after W s0 es) = st_frames (after Q t0 es).
Proof. intros H. destruct (ll_alike es H) as [P A]. apply A. Qed.
Lemma ll_kept es s : life es -> (kept W s0 es s <-> kept Q t0 es s).
Proof.
  intros H. split; intros (es1 & l & ch & es2 & E & Hs & OK); exists es1, l, ch, es2; (split; [exact E|]); (split; [exact Hs|]).
  all: assert (H1 : life (es1 ++ [ESave l ch])) by (apply (ll_prefix _ es2); rewrite <- app_assoc; cbn [app]; rewrite <- E; exact H); pose proof (ll_save es1 l ch H1) as X; congruence.
Qed.
Lemma ll_compile es fails sc : life es -> compile_filters W fails (st_tr (after W s0 es)) sc = compile_filters Q fails (st_tr (after Q t0 es)) sc.
Proof.
  intros H. assert (C : forall l, find_col W fails (st_tr (after W s0 es)) l = find_col Q fails (st_tr (after Q t0 es)) l) by (intros l; unfold find_col; rewrite (ll_find es _ H); reflexivity).
  assert (K : forall fs scope r, compile_loop W fails (st_tr (after W s0 es)) scope fs r = compile_loop Q fails (st_tr (after Q t0 es)) scope fs r).
  { induction fs as [|f fs IH]; intros scope r; [reflexivity|]. cbn [compile_loop]. destruct (filter_label scope f) as [l|]; [|apply IH]. rewrite C. destruct (find_col Q fails (st_tr (after Q t0 es)) l) as [[c|]|]; auto. }
  unfold compile_filters. destruct (sc_filters sc) as [|f fs]; [rewrite C; reflexivity|apply K].
Qed.
Lemma ll_scan es e sc order : life es -> scan_rows W (after W s0 es) e sc order = scan_rows Q (after Q t0 es) e sc order.
Proof. intros H. unfold scan_rows. rewrite (ll_compile es _ sc H), (ll_shards es H), (ll_frames es H). reflexivity. Qed.
Lemma ll_do_scan es h kvb e sc order : life es -> do_scan W h kvb (after W s0 es) e sc order = do_scan Q h kvb (after Q t0 es) e sc order.
Proof. intros H. unfold do_scan. rewrite (ll_scan es e sc order H). reflexivity. Qed.
Lemma ll_query es h h0 kvb e client sc order : life es -> query W h h0 kvb (after W s0 es) e client sc order = query Q h h0 kvb (after Q t0 es) e client sc order.
Proof. intros H. unfold query. rewrite (ll_do_scan es h kvb e sc order H). reflexivity. Qed.
Lemma ll_few es : life es -> few_labels W (after W s0 es) -> few_labels Q (after Q t0 es).
Proof. intros H F k c E. apply (F k). rewrite ll_find; assumption. Qed.
Lemma ll_again es : life es -> saves_again W s0 es -> saves_again Q t0 es.
Proof.
  intros H (es1 & l & ch & es2 & E & Ne & OK & NR). exists es1, l, ch, es2. split; [exact E|]. split; [exact Ne|]. split; [|exact NR].
  assert (H1 : life (es1 ++ [ESave l ch])) by (apply (ll_prefix _ es2); rewrite <- app_assoc; cbn [app]; rewrite <- E; exact H). pose proof (ll_save es1 l ch H1) as X. congruence.
Qed.

(** A label keeps its column, over all later saves, failures, crashes and restarts. *)
Theorem C101_labels_keep_their_columns : forall es more k c, life (es ++ more) ->
  ti_find W (st_tr (after W s0 es)) k = Some c -> ti_find W (st_tr (after W s0 (es ++ more))) k = Some c.
Proof.
  intros es more k c H F. pose proof (ll_prefix _ _ H) as H1. rewrite ll_find in * by assumption.
  apply (find_stays Q bare t0 es more k c (many_labels_stable grow hash world) (ll_history _ H) F).
Qed.
(** With one successful save since the last start, a query answers all matching records, each as often as sent, and nothing else. *)
Theorem C101_exact_answer_partial : forall es h h0 kvb wall client sc order vs st en, life es -> some_order order ->
  let state := after W s0 es in
  few_labels W state -> saves_again W s0 es ->
  In (sc_scope sc) signals -> answerable (sc_scope sc) (sc_filters sc) -> sc_range (sc_times sc) <> None ->
  four_digit_years wall (sc_times sc) -> P_Visit.window client sc st en -> window (calm wall) sc vs ->
  (forall s e, In s (given es) -> signal_of (smp_data s) = sc_scope sc -> In e (entries (smp_data s)) -> wanted (sc_filters sc) st en e = true ->
     kept W s0 es s /\ exists v, In v vs /\ In v (home (smp_data s))) ->
  (forall s v, In s (given es) -> signal_of (smp_data s) = sc_scope sc -> shares_column W (st_tr state) sc (smp_data s) -> In v vs -> In v (home (smp_data s)) -> aligned (flushes W s0 es) v s) ->
  mergeable h kvb (map smp_data (given es)) ->
  (forall x, do_scan W h kvb state (calm wall) sc order = SData (Some x) -> P_Visit.fair h h0 sc x) ->
  exists out, query W h h0 kvb state (calm wall) client sc order = AData out /\ Permutation (records out) (matching_of (map smp_data (given es)) sc st en).
Proof.
  intros es h h0 kvb wall client sc order vs st en H OO state Few Again Sig An NR Y PW Wd Cov Al Mg Fair. unfold state in *. pose proof (many_labels_stable grow hash world) as L. pose proof (ll_history es H) as HI.
  rewrite (ll_query es h h0 kvb _ client sc order H).
  apply (exact_if_shared_aligned Q bare t0 es h h0 kvb wall client sc order vs st en L HI OO Sig An NR Y PW Wd); auto.
  - intros s e G Sg He Hw. destruct (Cov s e G Sg He Hw) as [K V]. split; [|exact V]. apply (back Q bare t0 es s L HI (ll_few es H Few) (ll_again es H Again)). apply ll_kept; assumption.
  - intros s v G Sg (l & l' & c & A & B & C & D). rewrite <- (ll_flushes es H). apply Al; auto. exists l, l', c. rewrite !ll_find by exact H. auto.
  - intros x E. apply Fair. rewrite ll_do_scan by exact H. exact E.
Qed.
(** Nothing is answered that was not sent, and nothing more often than it was sent. *)
Theorem C101_only_what_was_sent_partial : forall es h h0 kvb wall client sc order vs st en, life es ->
  let state := after W s0 es in
  In (sc_scope sc) signals -> answerable (sc_scope sc) (sc_filters sc) -> sc_range (sc_times sc) <> None ->
  four_digit_years wall (sc_times sc) -> P_Visit.window client sc st en -> window (calm wall) sc vs ->
  mergeable h kvb (map smp_data (given es)) ->
  (forall x, do_scan W h kvb state (calm wall) sc order = SData (Some x) -> P_Visit.fair h h0 sc x) ->
  query W h h0 kvb state (calm wall) client sc order = AError \/
  exists out ss, query W h h0 kvb state (calm wall) client sc order = AData out /\ NoDup ss /\ incl ss (given es) /\
    Permutation (records out) (matching_of (map smp_data ss) sc st en).
Proof.
  intros es h h0 kvb wall client sc order vs st en H state Sig An NR Y PW Wd Mg Fair. unfold state in *. pose proof (many_labels_stable grow hash world) as L. pose proof (ll_history es H) as HI.
  rewrite (ll_query es h h0 kvb _ client sc order H).
  destruct (C100_only_what_was_sent_partial Q bare t0 es h h0 kvb wall client sc order vs st en L HI Sig An NR Y PW Wd Mg) as [E|(out & ss & E & ND & Inc & _ & P)]; [|left; exact E|right; exists out, ss; auto].
  intros x E. apply Fair. rewrite ll_do_scan by exact H. exact E.
Qed.
End Transfer.

(* ------------------------------------------------------------------ columns are shared *)
Lemma all_stay I inv keys : tr_stable I inv -> forall b s k n, inv (List.length keys + b)%nat s -> ti_find I s k = Some n -> ti_find I (translate_all I s keys) k = Some n /\ inv b (translate_all I s keys).
Proof.
  intros L. induction keys as [|x keys IH]; intros b s k n H F; [auto|]. unfold translate_all. cbn [fold_left]. destruct (ti_translate I s x) as [s1 m] eqn:E. cbn [fst]. cbn [List.length plus] in H.
  destruct (tl_step _ _ L _ _ _ _ _ H E) as (H1 & F1 & O1 & S1). apply IH; [exact H1|]. destruct (string_dec k x) as [->|Hk]; [rewrite (S1 n F); exact F1|rewrite (O1 k Hk); exact F].
Qed.
Lemma run_finds grow hash world ls : forall b s ts, bare (List.length ls + b) s -> w_state s = CState ts [] -> forall k n,
  In (OKey k n) (snd (tr_run (production_config grow) ts (map (fun k => TKey k FNone) ls))) ->
  ti_find (wired_impl grow hash (no_cache world)) (translate_all (wired_impl grow hash (no_cache world)) s ls) k = Some n.
Proof.
  induction ls as [|x ls IH]; intros b s ts H E k n; [intros []|]. cbn [map tr_run]. pose proof (many_labels_stable grow hash world) as L.
  unfold translate_all. cbn [fold_left]. cbn [List.length plus] in H. pose proof H as (t & d & E' & S0). rewrite E in E'. injection E' as ->.
  destruct (key_sound grow _ t d x S0) as (d' & t' & m & Et & S1 & _). rewrite Et. destruct (tr_run (production_config grow) (TrState d' (Some t')) (map (fun k => TKey k FNone) ls)) as [s2 outs] eqn:Er. cbn [snd].
  assert (J1 : ti_translate (wired_impl grow hash (no_cache world)) s x = (Wired (CState (TrState d' (Some t')) []) (S (w_calls s)), m)).
  { cbn [wired_impl ti_translate]. unfold w_translate, no_cache. cbn [w_scans w_left w_admit]. rewrite E. cbn [w_look fold_left c_step fst cs_tr cs_cache filter]. unfold c_step. cbn [cs_tr ts_proc cs_cache aget]. rewrite Et. reflexivity. }
  rewrite J1. cbn [fst]. assert (B1 : bare (List.length ls + b) (Wired (CState (TrState d' (Some t')) []) (S (w_calls s)))) by (exists t', d'; auto).
  intros [X|X].
  - injection X as <- <-. destruct (tl_step _ _ L _ _ _ _ _ H J1) as (_ & F & _). apply (proj1 (all_stay _ _ ls L b _ _ _ B1 F)).
  - apply (IH b _ _ B1 eq_refl k n). rewrite Er. exact X.
Qed.
(** A process that meets more than 4096 new labels gives two of them the same column: C99 does not speak of its life, the
    theorems above do.  (The process is one whose only save is interrupted; any life can follow.) *)
Theorem C101_columns_are_shared : forall grow hash world k1 ls k2 more, NoDup (k1 :: ls ++ [k2]) -> N.of_nat (List.length ls) = 4095 ->
  let es := ERestart (k1 :: ls ++ [k2]) :: more in long_life grow hash world [] es ->
  let W := wired_server grow hash world in
  ti_find W (st_tr (after W (wired_first grow hash world []) es)) k1 = Some 0 /\ ti_find W (st_tr (after W (wired_first grow hash world []) es)) k2 = Some 0.
Proof.
  intros grow hash world k1 ls k2 more ND Len es H W. destruct (C09_production_ids_repeat grow k1 ls k2 ND Len) as [outs E].
  assert (Es : es = [ERestart (k1 :: ls ++ [k2])] ++ more) by reflexivity. unfold W. rewrite Es in *. clear Es es.
  assert (K : forall k, In (OKey k 0) (OKey k1 0 :: outs ++ [OKey k2 0]) -> ti_find (wired_server grow hash world) (st_tr (after (wired_server grow hash world) (wired_first grow hash world []) ([ERestart (k1 :: ls ++ [k2])] ++ more))) k = Some 0).
  2:{ split; apply K; [left; reflexivity|right; apply in_app_iff; right; left; reflexivity]. }
  intros k Hk. apply C101_labels_keep_their_columns; [exact H|]. pose proof (ll_prefix grow hash world [] _ _ H) as H1. rewrite ll_find by exact H1.
  set (J := wired_impl grow hash (no_cache world)). pose proof (many_labels_stable grow hash world) as L. fold J in L.
  change (ti_find J (ti_reopen J (translate_all J (wired_start grow hash []) (k1 :: ls ++ [k2]))) k = Some 0).
  assert (B : forall b, N.of_nat b < 2^43 -> bare b (wired_start grow hash [])) by (intros b Hb; apply (bare_start grow hash [] b); [reflexivity|exact Hb]).
  set (keys := k1 :: ls ++ [k2]) in *.
  assert (F : ti_find J (translate_all J (wired_start grow hash []) keys) k = Some 0).
  { destruct (tr_step (production_config grow) (TrState [] None) (TOpen false)) as [ts r] eqn:Eo.
    apply (run_finds grow hash world keys 0 (wired_start grow hash []) ts).
    - apply B. rewrite Nat.add_0_r. unfold keys. cbn [List.length]. rewrite app_length. cbn [List.length]. change (2^43) with 8796093022208. lia.
    - unfold wired_start. cbn [c_step cs_tr cs_cache]. rewrite Eo. destruct (open_sound grow 0 [] 0) as (d' & t & Eo' & _); [change translate_bandwidth with 4096; change (2^56) with 72057594037927936; lia|apply start_tidy; reflexivity|]. rewrite Eo in Eo'. apply pair_inj in Eo' as [-> _]. reflexivity.
    - revert E. unfold keys. cbn [tr_run]. rewrite Eo. cbn [map tr_run]. rewrite map_app. cbn [map].
      destruct (tr_step (production_config grow) ts (TKey k1 FNone)) as [s1 r1]. destruct (tr_run (production_config grow) s1 (map (fun k => TKey k FNone) ls ++ [TKey k2 FNone])) as [s2 l2]. cbn [snd].
      intros E. injection E as _ -> ->. exact Hk. }
  assert (Bn : bare 1 (translate_all J (wired_start grow hash []) keys)).
  { assert (G : forall ks b s, bare (List.length ks + b) s -> bare b (translate_all J s ks)).
    { clear -L. induction ks as [|x ks IH]; intros b s Hs; [exact Hs|]. unfold translate_all. cbn [fold_left]. destruct (ti_translate J s x) as [s1 m] eqn:Ex. apply IH. apply (tl_step _ _ L _ _ _ _ _ Hs Ex). }
    apply G, B. unfold keys. cbn [List.length]. rewrite app_length. cbn [List.length]. change (2^43) with 8796093022208. lia. }
  destruct (tl_reopen _ _ L _ _ Bn) as [_ R]. rewrite R. exact F.
Qed.

(* ------------------------------------------------------------------ such lives *)
Lemma short_is_long grow hash world d es : server_life grow hash world d es -> long_life grow hash world d es.
Proof. intros [G E P Inc S C L]. split; auto. intros before process rest E1 S1 S2. apply (L before process rest E1 S1 S2). Qed.
(** The life of C99's example, with a restart and scans that overwrite the shared array; what it is asked for. *)
Example C101_example_life : long_life dbl xxh64 quiet_world [] wlife4 /\
  let W := wired_server dbl xxh64 quiet_world in
  saves_again W (wired_first dbl xxh64 quiet_world []) wlife4 /\ kept W (wired_first dbl xxh64 quiet_world []) wlife4 (Sample 2 (mtp "b" "z")) /\
  query W xxh64 xxh64_zero toy_kvb (after W (wired_first dbl xxh64 quiet_world []) wlife4) (calm 0) 0 (ask "b" 0 3600) group_columns = AData answer7.
Proof. split; [apply short_is_long, C99_example_life|]. destruct C99_example_answer as (A & _ & B & C). split; [exact B|]. split; [exact C|exact A]. Qed.

(** More than 4096 labels: a process that is interrupted after it has met the labels 0, 1, 2, ..., 4094, x and y. *)
Fixpoint num (s : string) : N := match s with EmptyString => 0 | String c t => 1 + N_of_ascii c + 256 * num t end.
Lemma num_inj s t : num s = num t -> s = t.
Proof.
  revert t. induction s as [|c s IH]; intros [|c' t] E; cbn [num] in E; [reflexivity|lia|lia|].
  pose proof (N_ascii_bounded c). pose proof (N_ascii_bounded c'). assert (A : N_of_ascii c = N_of_ascii c' /\ num s = num t) by lia. destruct A as [A B].
  rewrite (IH _ B). f_equal. rewrite <- (ascii_N_embedding c), A. apply ascii_N_embedding.
Qed.
Definition many_keys : list string := "x" :: map show_N (upto (N.to_nat 4095)) ++ ["y"].
Example C101_example_shared : NoDup many_keys /\ long_life dbl num quiet_world [] [ERestart many_keys].
Proof.
  split.
  - assert (Hd : forall m c, digit_or_minus c = false -> show_N m <> String c "").
    { intros m c Hc E. assert (D : digit_or_minus c = true) by (apply (show_Z_digits (Z.of_N m)); fold (show_N m); rewrite E; simpl; rewrite Ascii.eqb_refl; reflexivity). congruence. }
    unfold many_keys. apply Permutation_NoDup with (l := "x" :: "y" :: map show_N (upto (N.to_nat 4095))).
    + constructor. apply Permutation_cons_append.
    + generalize (N.to_nat 4095) as n; intros n. constructor; [|constructor].
      * simpl. rewrite in_map_iff. intros [E|(m & E & _)]; [discriminate|]. revert E. apply Hd. reflexivity.
      * rewrite in_map_iff. intros (m & E & _). revert E. apply Hd. reflexivity.
      * apply nodup_map_inj; [|apply nodup_upto]. intros; apply show_N_inj; auto.
  - split.
    + reflexivity.
    + split; exact Logic.I.
    + constructor.
    + intros s [].
    + rewrite events_cost_cons. unfold many_keys. cbn [event_cost List.length]. rewrite app_length, map_length, length_upto. cbn [List.length]. change (events_cost []) with 0%nat. change (2^43) with 8796093022208. clear. lia.
    + intros before process rest _ _ _ k k' _ _. apply num_inj.
Qed.
Print Assumptions C101_labels_keep_their_columns.
Print Assumptions C101_exact_answer_partial.
Print Assumptions C101_only_what_was_sent_partial.
Print Assumptions C101_columns_are_shared.
