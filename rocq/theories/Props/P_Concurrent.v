(** C73: scans that run while a flush is being written (internal/store/scan.go against store.go). *)
From Verif.Model Require Import Base Labels View Otlp Transform Batch Rows Shards Dataframe Collapse Store Concurrent.
From Verif.Spec Require Import Indexing Translator Frames Saves Sets Instants.
From Verif.Proofs Require Import BaseFacts TransformFacts TransformLaws BatchFacts RowsFacts ShardsFacts DataframeFacts StoreFacts ScanFacts ListTranslator ConcurrentFacts ConcurrentShards.
From Verif.Props Require Import P_Shards P_Dataframe P_Store.
Open Scope N_scope.

(** When nothing is written in between, the spread reads are the scan of Store.v. *)
Theorem C73_quiet_scan : forall I (st : store I) e sc order,
  scan_rows_at I (fun _ => st_tr st) (fun _ => st_shards st) (fun _ => st_frames st) e sc order = scan_rows I st e sc order.
Proof.
  intros I st e sc order.
  assert (C : forall fails scope fs i r, compile_loop_at I fails (fun _ => st_tr st) i scope fs r = compile_loop I fails (st_tr st) scope fs r).
  { intros fails scope. induction fs as [|f fs IH]; intros i r; cbn [compile_loop_at compile_loop]; [reflexivity|]. destruct (filter_label scope f); [|apply IH]. destruct (find_col I fails (st_tr st) l) as [[c|]|]; [apply IH|reflexivity|reflexivity]. }
  assert (R : forall vs gs k acc, rows_loop_at (fun _ => st_shards st) k vs gs acc = rows_loop (st_shards st) vs gs acc).
  { intros vs. induction gs as [|[g l] gs IH]; intros k acc; cbn [rows_loop_at rows_loop]; [reflexivity|]. destruct (is_open (st_shards st) g); [|reflexivity]. cbv zeta. destruct (sempty _); [apply IH|]. destruct acc; [|apply IH]. destruct (_ && _); [reflexivity|apply IH]. }
  assert (V : forall fault sig rows vs k, read_views_at fault (fun _ => st_frames st) k sig rows vs = read_views fault (st_frames st) sig rows vs).
  { intros fault sig rows. induction vs as [|v vs IH]; intros k; cbn [read_views_at read_views]; [reflexivity|]. rewrite IH. reflexivity. }
  assert (CF : compile_filters_at I (e_find_fails e) (fun _ => st_tr st) sc = compile_filters I (e_find_fails e) (st_tr st) sc) by (unfold compile_filters_at, compile_filters; destruct (sc_filters sc); [reflexivity|apply C]).
  unfold scan_rows_at, scan_rows. rewrite CF. destruct (time_bounds (e_wall e) (sc_times sc)) as [a b]. destruct (compile_filters I (e_find_fails e) (st_tr st) sc) as [cols|]; [|reflexivity].
  destruct (sempty cols); [reflexivity|]. destruct (e_index_fails e); [reflexivity|]. destruct (search a b) as [vs|]; [|reflexivity]. rewrite R. destruct (rows_loop (st_shards st) vs (order cols) None) as [hits|]; [|reflexivity].
  destruct (sempty hits); [reflexivity|]. cbv zeta. rewrite V. reflexivity.
Qed.

(** The labels are looked up in the states [fd 0], [fd 1], ... of the store, the index is read at the
    instant [ix 0], the views at the instants [fm 0], [fm 1], ..., all of one process, the look-ups not
    after the index and the views not before it; each of them may be in the midst of a save.  The answer is
    that of a scan made at one of these instants. *)
Theorem C73_scan_is_atomic_partial : forall I inv s0 (fd : nat -> store I) (ix fm : nat -> list event) final e sc order, tr_stable I inv -> history I inv s0 final -> some_order order ->
  (forall i, instant I s0 (fd i) (ix 0%nat)) -> (forall k, earlier (ix 0%nat) (fm k)) -> (forall k, earlier (fm k) final) ->
  one_shard I (after I s0 (ix 0%nat)) sc ->
  let answer := scan_rows_at I (fun i => st_tr (fd i)) (fun k => st_shards (after I s0 (ix k))) (fun k => st_frames (after I s0 (fm k))) e sc order in
  (exists i, (i < Nat.max 1 (List.length (sc_filters sc)))%nat /\ answer = scan_rows I (fd i) e sc order) \/
  same_answer (scan_rows I (after I s0 (ix 0%nat)) e sc order) answer.
Proof.
  intros I inv s0 fd ix fm final e sc order L HF OO Hd Hx Hf OS answer. unfold answer. clear answer.
  assert (H0 : history I inv s0 (ix 0%nat)) by (apply (history_earlier I inv L s0 _ _ (Hx 0%nat)), (history_earlier I inv L s0 _ _ (Hf 0%nat)), HF).
  unfold scan_rows_at. destruct (compile_at_spec I (e_find_fails e) (fun i => st_tr (fd i)) (st_tr (after I s0 (ix 0%nat))) sc) as [E|(E & j & J & N)].
  { intros i. apply (instant_extends I inv L s0 _ _ (Hd i) H0). }
  2: { left. exists j. split; [exact J|]. unfold scan_rows. destruct (time_bounds (e_wall e) (sc_times sc)) as [a b]. rewrite E, N. reflexivity. }
  right. rewrite E. unfold scan_rows. destruct (time_bounds (e_wall e) (sc_times sc)) as [a b]. destruct (compile_filters I (e_find_fails e) (st_tr (after I s0 (ix 0%nat))) sc) as [cols|] eqn:EC; [|constructor].
  apply compile_agree in EC. destruct (sempty cols) eqn:S1; [constructor|]. destruct (e_index_fails e); [constructor|]. destruct (search a b) as [vs|]; [|constructor].
  assert (NC : cols <> []) by (intros ->; discriminate).
  destruct (compile_spec I (st_tr (after I s0 (ix 0%nat))) sc) as (cols' & EC' & U & X). rewrite EC in EC'. apply some_inj in EC'. subst cols'.
  assert (K : forall l, asks sc l -> ti_find I (st_tr (after I s0 (ix 0%nat))) (encode l) <> None). { intros l Hl F. apply NC, U. exists l. auto. }
  destruct (X K) as [_ XC]. destruct cols as [|c0 cols]; [congruence|].
  assert (SH : forall c, In c (c0 :: cols) -> c / 2^20 = c0 / 2^20).
  { intros c Hc. apply XC in Hc as (l & Al & Fl). assert (Hc0 : In c0 (c0 :: cols)) by (left; reflexivity). apply XC in Hc0 as (l0 & Al0 & Fl0). exact (OS l l0 c c0 Al Al0 Fl Fl0). }
  destruct (one_group (c0 :: cols) (order (c0 :: cols)) (c0 / 2^20) (OO _) NC SH) as [lc EO]. rewrite EO, rows_one, <- EO.
  destruct (rows_loop (st_shards (after I s0 (ix 0%nat))) vs (order (c0 :: cols)) None) as [hits|] eqn:LK; [|constructor].
  destruct (sempty hits) eqn:S2; [constructor|]. cbv zeta. fold (selected sc hits).
  destruct (existsb (Z.eqb (sc_scope sc)) [RESOURCE_METRICS; RESOURCE_LOGS; RESOURCE_TRACES]) eqn:SG; [|constructor]. apply scope_signals in SG.
  assert (Car : forall id, In id (selected sc hits) -> exists w c, carries (st_shards (after I s0 (ix 0%nat))) w id c).
  { intros id Hid. apply selected_sub in Hid. eapply (hits_carried I s0 (ix 0%nat) vs (c0 :: cols)); [apply OO|exact LK|exact Hid]. }
  assert (R := read_views_carried I inv L s0 (ix 0%nat) fm final (e_frame_fails e) (sc_scope sc) (selected sc hits) Hx Hf HF SG Car vs 0%nat).
  destruct (read_views (e_frame_fails e) (st_frames (after I s0 (ix 0%nat))) (sc_scope sc) (selected sc hits) vs) as [p|], (read_views_at (e_frame_fails e) _ 0 (sc_scope sc) (selected sc hits) vs) as [q|]; try contradiction; constructor; [exact R|constructor].
Qed.
(** Unless a row beyond the end of its record is read, what the client receives is exactly what a scan at
    that instant would have returned. *)
Lemma all_some_same p q l : Forall2 same_row p q -> all_some p = Some l -> p = q.
Proof.
  intros F. revert l. induction F as [|a b p q H F IH]; intros l E; [reflexivity|]. cbn [all_some] in E. destruct a as [a|]; [|discriminate]. destruct (all_some p) as [l'|]; [|discriminate]. destruct H as [<-|H]; [|discriminate]. f_equal. eapply IH. reflexivity.
Qed.
Theorem C73_client_sees_one_instant_partial : forall I inv s0 (fd : nat -> store I) (ix fm : nat -> list event) final h kvb e sc order, tr_stable I inv -> history I inv s0 final -> some_order order ->
  (forall i, instant I s0 (fd i) (ix 0%nat)) -> (forall k, earlier (ix 0%nat) (fm k)) -> (forall k, earlier (fm k) final) ->
  one_shard I (after I s0 (ix 0%nat)) sc -> do_scan I h kvb (after I s0 (ix 0%nat)) e sc order <> SPanic ->
  let answer := finish h kvb (sc_scope sc) (scan_rows_at I (fun i => st_tr (fd i)) (fun k => st_shards (after I s0 (ix k))) (fun k => st_frames (after I s0 (fm k))) e sc order) in
  exists st, (st = after I s0 (ix 0%nat) \/ exists i, st = fd i) /\ answer = do_scan I h kvb st e sc order.
Proof.
  intros I inv s0 fd ix fm final h kvb e sc order L HF OO Hd Hx Hf OS NP answer.
  destruct (C73_scan_is_atomic_partial I inv s0 fd ix fm final e sc order L HF OO Hd Hx Hf OS) as [(i & _ & E)|S].
  - exists (fd i). split; [eauto|]. unfold answer. rewrite E. reflexivity.
  - exists (after I s0 (ix 0%nat)). split; [auto|]. unfold answer, do_scan in *. destruct S as [| |p q F]; [reflexivity|reflexivity|].
    cbn [finish] in NP. destruct (all_some p) as [l|] eqn:A; [|congruence]. rewrite (all_some_same p q l F A). reflexivity.
Qed.

(** Labels in several shards, each shard read at an instant of its own, [ix 0], [ix 1], ..., in this order: if
    a sample with all the labels had been saved before the first of these reads, the answer still is that of
    one instant, not before the first and not after the last of the reads of the index. *)
Theorem C73_scan_across_shards_partial : forall I inv s0 (fd : nat -> store I) (ix fm : nat -> list event) final e sc order vs s v, tr_stable I inv -> history I inv s0 final -> some_order order ->
  (forall i, instant I s0 (fd i) (ix 0%nat)) -> (forall j k, (j <= k)%nat -> earlier (ix j) (ix k)) -> (forall j k, earlier (ix j) (fm k)) -> (forall k, earlier (fm k) final) ->
  window e sc vs -> saved_now I s0 (ix 0%nat) s -> In v vs -> In v (home (smp_data s)) -> (forall l, asks sc l -> documented_label (smp_data s) l) ->
  let answer := scan_rows_at I (fun i => st_tr (fd i)) (fun k => st_shards (after I s0 (ix k))) (fun k => st_frames (after I s0 (fm k))) e sc order in
  (exists i, (i < Nat.max 1 (List.length (sc_filters sc)))%nat /\ answer = scan_rows I (fd i) e sc order) \/
  exists m k, earlier (ix 0%nat) m /\ earlier m (ix k) /\ (k < Nat.max 1 (List.length (sc_filters sc)))%nat /\ same_answer (scan_rows I (after I s0 m) e sc order) answer.
Proof.
  intros I inv s0 fd ix fm final e sc order vs s v L HF OO Hd Hx Hm Hf W Sv Hv Hh Doc answer. unfold answer. clear answer.
  assert (Hfm : forall k, history I inv s0 (fm k)) by (intros k; apply (history_earlier I inv L s0 _ _ (Hf k)), HF).
  assert (Hix : forall k, history I inv s0 (ix k)) by (intros k; apply (history_earlier I inv L s0 _ _ (Hm k 0%nat)), Hfm).
  assert (Here : forall a, same_answer (scan_rows I (after I s0 (ix 0%nat)) e sc order) a -> exists m k, earlier (ix 0%nat) m /\ earlier m (ix k) /\ (k < Nat.max 1 (List.length (sc_filters sc)))%nat /\ same_answer (scan_rows I (after I s0 m) e sc order) a).
  { intros a Sa. exists (ix 0%nat), 0%nat. split; [apply Hx; lia|]. split; [apply Hx; lia|]. split; [lia|exact Sa]. }
  unfold scan_rows_at. destruct (compile_at_spec I (e_find_fails e) (fun i => st_tr (fd i)) (st_tr (after I s0 (ix 0%nat))) sc) as [E|(E & j & J & N)].
  { intros i. apply (instant_extends I inv L s0 _ _ (Hd i) (Hix 0%nat)). }
  2: { left. exists j. split; [exact J|]. unfold scan_rows. destruct (time_bounds (e_wall e) (sc_times sc)) as [a b]. rewrite E, N. reflexivity. }
  right. rewrite E. unfold window in W. revert Here. unfold scan_rows. destruct (time_bounds (e_wall e) (sc_times sc)) as [a b]. cbn [fst snd] in W. rewrite W.
  destruct (compile_filters I (e_find_fails e) (st_tr (after I s0 (ix 0%nat))) sc) as [cols|] eqn:EC; [|intros Here; apply Here; constructor].
  destruct (sempty cols) eqn:S1; [intros Here; apply Here; constructor|]. destruct (e_index_fails e); [intros Here; apply Here; constructor|].
  assert (NC : cols <> []) by (intros ->; discriminate). intros _.
  destruct (spread_lookup I inv L s0 ix Hix Hx sc vs cols (order cols) (OO cols) NC (compile_agree _ _ _ _ _ EC) s v Sv Hv Hh Doc) as (m & K & LK & E0m & EmK & Emc & ER).
  exists m, K. split; [exact E0m|]. split; [exact EmK|]. split.
  { pose proof (Permutation_length (OO cols)) as PL. pose proof (group_len cols). pose proof (compile_len I _ _ _ _ EC). lia. }
  assert (Hhm : history I inv s0 m) by (apply (history_earlier I inv L s0 _ _ EmK), Hix).
  assert (ECm : compile_filters I (e_find_fails e) (st_tr (after I s0 m)) sc = Some cols) by (eapply compile_later; [apply (earlier_extends I inv L s0 _ _ E0m Hhm)|exact EC|exact NC]).
  rewrite ECm, S1, ER. destruct (rows_loop (st_shards (after I s0 m)) vs (order cols) None) as [hits|] eqn:LKP; [|constructor].
  destruct (sempty hits) eqn:S2; [constructor|]. cbv zeta. fold (selected sc hits).
  destruct (existsb (Z.eqb (sc_scope sc)) [RESOURCE_METRICS; RESOURCE_LOGS; RESOURCE_TRACES]) eqn:SG; [|constructor]. apply scope_signals in SG.
  assert (Car : forall id, In id (selected sc hits) -> exists w c, carries (st_shards (after I s0 m)) w id c).
  { intros id Hid. apply selected_sub in Hid. eapply (hits_carried I s0 m vs cols); [apply OO|exact LKP|exact Hid]. }
  assert (R := read_views_carried I inv L s0 m fm final (e_frame_fails e) (sc_scope sc) (selected sc hits) (fun k => Emc (fm k) (Hm 0%nat k) (Hm K k)) Hf HF SG Car vs 0%nat).
  destruct (read_views (e_frame_fails e) (st_frames (after I s0 m)) (sc_scope sc) (selected sc hits) vs) as [p|], (read_views_at (e_frame_fails e) _ 0 (sc_scope sc) (selected sc hits) vs) as [q|]; try contradiction; constructor; [exact R|constructor].
Qed.

(** The states in the midst of a save are the real ones: the translations made so far, of the labels the
    save is going to translate. *)
Theorem C73_save_passes_instants : forall I (st : store I) l ch,
  st_tr (fst (save I st l ch)) = translate_all I (st_tr st) (save_keys (ctx_signal I (st_ctx st)) l).
Proof. exact process_translates. Qed.

(** When the asked labels have columns in two shards the answer can be that of no instant: sample 8 is being
    saved with columns 5 and 2^20 (shards 0 and 1); sample 7 has only the second.  The first shard is read
    before the save (nothing matches, so it is passed over), the second after it. *)
Definition sample7 : shards :=
  let s := fst (sh_update true (sh_new []) 0 (fun t => (tx_add_roaring "std_2024" [pos 6 4] t, true))) in
  fst (sh_update true s 1 (fun t => (tx_add_roaring "std_2024" [pos 7 1048576] t, true))).
Definition sample8 : fragments := [(0, [("std_2024"%string, [pos 8 5])]); (1, [("std_2024"%string, [pos 8 1048576])])].
Definition save8 (commits : list bool) : shards := fst (update_shards sample8 sample7 [(0, ["std_2024"%string]); (1, ["std_2024"%string])] commits).
Theorem C73_two_shards_refuted :
  exists before after order, visits order [5; 1048576] /\ before = save8 [] /\ after = save8 [true; true] /\
    forall commits, rows_loop_at (fun k => match k with 0%nat => before | _ => after end) 0 ["std_2024"] order None <>
                    rows_loop (save8 commits) ["std_2024"] order None.
Proof.
  exists (save8 []), (save8 [true; true]), (group_columns [5; 1048576]). split; [apply Permutation_refl|]. split; [reflexivity|]. split; [reflexivity|].
  intros commits. destruct commits as [|[|] [|[|] commits]]; vm_compute; discriminate.
Qed.

(** Concrete schedules that meet the hypotheses.  The scan asks for metrics named "b" between 01:00 and
    02:00 while the save of [life2] runs.  Either "b" was looked up when the save had translated only the
    resource marker, and nothing is found; or it was looked up later, the index was read after the save, and
    the views when the next save had finished too: the answer is that of the end of [life2]. *)
Definition mid (j : nat) : store list_impl :=
  with_tr list_impl (after list_impl [] life1) (translate_all list_impl (st_tr (after list_impl [] life1))
    (firstn j (save_keys (ctx_signal list_impl (st_ctx (after list_impl [] life1))) [Sample 1 (mt "b" hour2); Sample 2 (mt "c" hour2)]))).
Lemma earlier_self es : earlier es es.
Proof. rewrite <- (app_nil_r es) at 2. apply earlier_between. intros keys []. Qed.
Lemma mid_instant j : instant list_impl [] (mid j) life2.
Proof.
  unfold mid, life2. apply (instant_translating list_impl [] life1 _ (smooth list_impl (after list_impl [] life1) [Sample 1 (mt "b" hour2); Sample 2 (mt "c" hour2)]) j).
  apply earlier_self.
Qed.
Example C73_example :
  (forall j, instant list_impl [] (mid j) life2) /\ earlier life2 life3 /\ earlier life3 life3 /\ history list_impl list_inv [] life3 /\
  one_shard list_impl (after list_impl [] life2) (ask "b" 3600 7200) /\
  let answer j := scan_rows_at list_impl (fun i => st_tr (mid j)) (fun _ => st_shards (after list_impl [] life2)) (fun _ => st_frames (after list_impl [] life3)) (calm 0) (ask "b" 3600 7200) group_columns in
  answer 1%nat = RZero /\ answer 2%nat = RRows [Some (mt "c" hour2)] /\
  scan_rows list_impl (mid 1) (calm 0) (ask "b" 3600 7200) group_columns = RZero /\
  scan_rows list_impl (after list_impl [] life2) (calm 0) (ask "b" 3600 7200) group_columns = RRows [Some (mt "c" hour2)].
Proof.
  split; [exact mid_instant|]. split; [unfold life3; apply earlier_between; intros keys [H|[]]; discriminate|].
  split; [apply earlier_self|]. split; [exact life3_history|]. split; [apply one_col|].
  cbv zeta. split; [vm_compute; reflexivity|]. split; [vm_compute; reflexivity|]. split; vm_compute; reflexivity.
Qed.
(** The instants inside a save: after two of its views, after all of them, with the shard open but its
    update not committed. *)
Definition cut (views : nat) (commits : list bool) : list event :=
  let ch := smooth list_impl (after list_impl [] life1) [Sample 1 (mt "b" hour2); Sample 2 (mt "c" hour2)] in
  life1 ++ [ESave [Sample 1 (mt "b" hour2); Sample 2 (mt "c" hour2)] (Choices (ch_pools ch) (ch_pool ch) (ch_views ch) views (ch_shards ch) commits)].
Lemma cut_earlier n m c c' d r : (n <= m)%nat -> (c = d \/ c = d ++ [false]) -> c' = d ++ r -> earlier (cut n c) (cut m c').
Proof.
  intros Hn Hc Hc'. unfold cut. generalize (smooth list_impl (after list_impl [] life1) [Sample 1 (mt "b" hour2); Sample 2 (mt "c" hour2)]). intros ch. generalize life1. intros a. cbv zeta.
  apply earlier_within; [|intros keys []]. unfold further. cbn [ch_pools ch_pool ch_views ch_shards ch_views_done ch_commits]. repeat (split; [reflexivity|]). split; [exact Hn|]. exists d, r. auto.
Qed.
Lemma life2_cut : life2 = cut 4 [true]. Proof. vm_compute. reflexivity. Qed.
Example C73_inside_a_save : earlier (cut 2 []) life2 /\ earlier (cut 4 []) (cut 4 [false]) /\ earlier (cut 4 [false]) life2.
Proof.
  split; [rewrite life2_cut; apply (cut_earlier _ _ _ _ [] [true]); [lia|left; reflexivity|reflexivity]|].
  split; [apply (cut_earlier _ _ _ _ [] [false]); [lia|left; reflexivity|reflexivity]|].
  rewrite life2_cut. apply (cut_earlier _ _ _ _ [] [true]); [lia|right; reflexivity|reflexivity].
Qed.
Example C73_instants_differ : List.length (st_frames (after list_impl [] (cut 2 []))) <> List.length (st_frames (after list_impl [] life2)) /\
  existsb (N.eqb 1) (rows_with (tx_view (sh_tx (st_shards (after list_impl [] (cut 4 [false]))) 0) "std_1970010101") [3]) = false /\
  existsb (N.eqb 1) (rows_with (tx_view (sh_tx (st_shards (after list_impl [] life2)) 0) "std_1970010101") [3]) = true.
Proof. vm_compute. split; [discriminate|]. split; reflexivity. Qed.

(** Labels "s" and "b" in shards 1 and 5 (P_Store.v); sample 2 has both, sample 3 is being saved with both.
    [half n] is the instant at which [n] of its shards are committed. *)
Definition save3 : choices := smooth wide_impl (after wide_impl [] wide2) [Sample 3 (mts "s" "b")].
Definition half (n : nat) : list event := wide2 ++ [ESave [Sample 3 (mts "s" "b")]
  (Choices (ch_pools save3) (ch_pool save3) (ch_views save3) (ch_views_done save3) (ch_shards save3) (repeat true n))].
Lemma choices_commits I st l ch n cm : choices_ok I st l ch -> choices_ok I st l (Choices (ch_pools ch) (ch_pool ch) (ch_views ch) n (ch_shards ch) cm).
Proof. intros H. exact H. Qed.
Lemma cut_possible l es n cm : possible wide_impl (new_store wide_impl []) es -> times_ok l -> let ch := smooth wide_impl (after wide_impl [] es) l in
  possible wide_impl (new_store wide_impl []) (es ++ [ESave l (Choices (ch_pools ch) (ch_pool ch) (ch_views ch) n (ch_shards ch) cm)]).
Proof. intros H T ch. apply possible_snoc; [exact H|]. split; [|exact T]. apply choices_commits, smooth_ok. Qed.
Lemma half_earlier n m : (n <= m)%nat -> earlier (half n) (half m).
Proof.
  intros H. apply earlier_within; [|intros keys H0; destruct H0]. unfold further. cbn [ch_pools ch_pool ch_views ch_shards ch_views_done ch_commits]. do 4 (split; [reflexivity|]). split; [apply Nat.le_refl|].
  exists (repeat true n), (repeat true (m - n)). split; [left; reflexivity|]. rewrite <- repeat_app. f_equal. lia.
Qed.
Example C73_across_shards_example :
  history wide_impl wide_inv [] (half 3) /\ map fst (ch_shards save3) = [1; 3; 5] /\
  saved_now wide_impl [] (half 2) (Sample 2 (mts "s" "b")) /\
  let answer order := scan_rows_at wide_impl (fun _ => st_tr (after wide_impl [] (half 2))) (fun k => st_shards (after wide_impl [] (half (2 + k)))) (fun _ => st_frames (after wide_impl [] (half 3))) (calm 0) (ask2 "s" "b") order in
  answer group_columns = RRows [Some (mts "s" "b"); Some (mts "s" "b")] /\
  answer (fun cols => rev (group_columns cols)) = RRows [Some (mts "s" "b")].
Proof.
  split; [|split; [vm_compute; reflexivity|split; [|split; vm_compute; reflexivity]]].
  - split; [vm_compute; reflexivity|]. split; [|split].
    + apply (cut_possible [Sample 3 (mts "s" "b")] wide2); [apply wide2_history|apply times_forall; repeat constructor].
    + vm_compute. repeat constructor.
    + intros s Hs. vm_compute in Hs. repeat (destruct Hs as [<-|Hs]; [reflexivity|]). destruct Hs.
  - unfold half. exists wide1, [Sample 2 (mts "s" "b")], (smooth wide_impl (after wide_impl [] wide1) [Sample 2 (mts "s" "b")]).
    eexists. split; [unfold wide2; rewrite <- app_assoc; reflexivity|]. split; [left; reflexivity|]. split; vm_compute; reflexivity.
Qed.
