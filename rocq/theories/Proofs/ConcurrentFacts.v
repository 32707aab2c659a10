From Verif.Model Require Import Base Labels Calendar View Otlp Transform Batch Rows Shards Dataframe Collapse Store Concurrent.
From Verif.Spec Require Import Indexing Translator Frames Saves Sets Instants.
From Verif.Proofs Require Import BaseFacts TransformFacts TransformLaws BatchFacts RowsFacts ShardsFacts DataframeFacts StoreFacts ScanFacts.
From Verif.Props Require Import P_Shards P_Dataframe P_Store.
Open Scope N_scope.

(* ------------------------------------------------------------------ the translations of a save *)
Section Keys.
Context (I : tr_impl).
Lemma tr_all_state ls : forall s pos, fst (tr_all (ti_translate I) s pos ls) = translate_all I s (map encode ls).
Proof.
  induction ls as [|l ls IH]; intros s pos; [reflexivity|]. cbn [tr_all map]. unfold translate_all. cbn [fold_left]. destruct (ti_translate I s (encode l)) as [s' c]. cbn [fst]. apply IH.
Qed.
Lemma translate_all_app s a b : translate_all I s (a ++ b) = translate_all I (translate_all I s a) b. Proof. apply fold_left_app. Qed.
Lemma save_keys_spec l : forall c c' fs, process_samples (ti_translate I) c l = (c', fs) -> c_tr c' = translate_all I (c_tr c) (save_keys (ctx_signal I c) l).
Proof.
  induction l as [|s l IH]; intros c c' fs E; cbn [process_samples save_keys] in *.
  - apply pair_inj in E as [<- _]. reflexivity.
  - destruct (process_sample (ti_translate I) c s) as [c1 f] eqn:E1. destruct (process_samples (ti_translate I) c1 l) as [c2 fs2] eqn:E2. apply pair_inj in E as [<- _].
    rewrite (IH _ _ _ E2). destruct (process_sample_spec (ti_translate I) c s) as (c1' & E1' & T1 & R1). rewrite E1 in E1'. apply pair_inj in E1' as [ <- _].
    rewrite T1, tr_all_state. change (encode (Label (ctx_signal I c) PREFIX_UNKNOWN "" "") :: map encode (L_data (smp_data s)) ++ save_keys (last_signal (ctx_signal I c) [s]) l)
      with (map encode (marker (res c) :: L_data (smp_data s)) ++ save_keys (last_signal (ctx_signal I c) [s]) l).
    rewrite translate_all_app. f_equal. f_equal. unfold last_signal, ctx_signal. cbn [fold_left]. fold (res c1) (res c). rewrite R1. unfold next_res. destruct (smp_data s); reflexivity.
Qed.
Lemma save_keys_len l : forall r, List.length (save_keys r l) = cost l.
Proof.
  induction l as [|s l IH]; intros r; [reflexivity|]. cbn [save_keys]. unfold cost. cbn [map]. unfold list_sum at 1. cbn [fold_right]. fold (list_sum (map (fun s => S (List.length (L_data (smp_data s)))) l)). fold (cost l).
  cbn [List.length]. rewrite app_length, map_length, IH. reflexivity.
Qed.
End Keys.

(* ------------------------------------------------------------------ earlier and later *)
Section Earlier.
Context (I : tr_impl) (inv : nat -> ti_state I -> Prop) (L : tr_stable I inv) (s0 : ti_state I).
Notation st0 := (new_store I s0).
Lemma event_ok_further st l ch ch' : further ch ch' -> event_ok I st (ESave l ch') -> event_ok I st (ESave l ch).
Proof. intros (E1 & E2 & E3 & E4 & _) [C T]. split; [|exact T]. unfold choices_ok in *. rewrite E1, E2, E3, E4 in C. exact C. Qed.
Lemma given_app a b : given (a ++ b) = given a ++ given b. Proof. apply flat_map_app. Qed.
Lemma increasing_app a b : increasing (a ++ b) -> increasing a.
Proof.
  induction a as [|x a IH]; intros H; [constructor|]. cbn in H. inversion H as [|? ? H1 H2]; subst. constructor; [apply IH, H1|]. rewrite Forall_forall in *. intros y Hy. apply H2, in_app_iff. left. exact Hy.
Qed.
Lemma history_app a b : history I inv s0 (a ++ b) -> history I inv s0 a.
Proof.
  intros (H1 & H2 & H3 & H4). rewrite events_cost_app in H1. apply possible_app in H2 as [H2 _]. rewrite given_app in *. split; [revert H1; apply (inv_le I inv L); lia|]. split; [exact H2|]. split; [eapply increasing_app, H3|]. intros s Hs. apply H4, in_app_iff. left. exact Hs.
Qed.
Lemma history_further a l ch ch' : further ch ch' -> history I inv s0 (a ++ [ESave l ch']) -> history I inv s0 (a ++ [ESave l ch]).
Proof.
  intros F (H1 & H2 & H3 & H4). rewrite events_cost_app in *. rewrite given_app in *. split; [rewrite events_cost_app; exact H1|]. split; [|rewrite given_app; auto]. apply possible_app in H2 as [P1 [P2 _]]. apply possible_app. split; [exact P1|]. split; [|exact Logic.I]. eapply event_ok_further; eassumption.
Qed.
Lemma history_earlier a b : earlier a b -> history I inv s0 b -> history I inv s0 a.
Proof.
  intros E H. destruct E as [a more _|a l ch ch' more F _]; [eapply history_app, H|]. change (ESave l ch' :: more) with ([ESave l ch'] ++ more) in H. rewrite app_assoc in H. apply history_app in H. eapply history_further; eassumption.
Qed.
Lemma run_snoc a e : run I st0 (a ++ [e]) = step I (run I st0 a) e. Proof. rewrite run_app. reflexivity. Qed.
Lemma trace_snoc a l ch : trace I st0 (a ++ [ESave l ch]) = trace I st0 a ++ [past_of I (run I st0 a) l ch].
Proof. rewrite trace_app. reflexivity. Qed.
Lemma earlier_filings a b g : earlier a b -> In g (all_filings (trace I st0 a)) -> In g (all_filings (trace I st0 b)).
Proof.
  unfold all_filings. intros E. destruct E as [a more _|a l ch ch' more F _].
  - rewrite trace_app, flat_map_app, in_app_iff. auto.
  - rewrite trace_snoc, trace_app, !flat_map_app, !in_app_iff. cbn [trace flat_map app]. rewrite !in_app_iff. unfold past_of. cbn [p_filings]. intros [H|[H|[]]]; auto.
Qed.
Lemma earlier_written a b : earlier a b -> exists more, flat_map written (flushes I s0 b) = flat_map written (flushes I s0 a) ++ more.
Proof.
  unfold flushes. intros E. destruct E as [a more _|a l ch ch' more F _].
  - rewrite trace_app, map_app, flat_map_app. eauto.
  - rewrite trace_snoc, trace_app. cbn [trace app map]. rewrite !map_app, !flat_map_app. cbn [map flat_map]. rewrite app_nil_r. destruct F as (_ & _ & E3 & _ & Le & _).
    unfold past_of. cbn [p_flush]. unfold written at 2 5. cbn [fl_done fl_order]. rewrite E3. rewrite <- (firstn_skipn (ch_views_done ch) (firstn (ch_views_done ch') (ch_views ch))). rewrite firstn_firstn, Nat.min_l by exact Le. exists (skipn (ch_views_done ch) (firstn (ch_views_done ch') (ch_views ch)) ++ flat_map written (map p_flush (trace I (step I (run I st0 a) (ESave l ch')) more))). rewrite !app_assoc. reflexivity.
Qed.
Lemma process_translates st l ch : st_tr (fst (save I st l ch)) = translate_all I (st_tr st) (save_keys (ctx_signal I (st_ctx st)) l).
Proof.
  unfold save. destruct (process_samples (ti_translate I) (st_ctx st) l) as [c fs] eqn:E. rewrite <- (save_keys_spec I l _ _ _ E : _ = translate_all I (st_tr st) _).
  destruct (snd (batch_build (add_filed (ch_pools ch) fs batch_new))); [|reflexivity]. destruct (group_samples (ch_pool ch) (combine l (map f_min fs)) []); [|reflexivity].
  destruct (Nat.ltb (ch_views_done ch) (List.length (ch_views ch))); [reflexivity|]. destruct (update_shards f (st_shards st) (ch_shards ch) (ch_commits ch)). reflexivity.
Qed.
Lemma earlier_extends a b : earlier a b -> history I inv s0 b -> extends I (st_tr (run I st0 a)) (st_tr (run I st0 b)).
Proof.
  intros E H. destruct E as [a more _|a l ch ch' more F _].
  - destruct H as (H1 & H2 & _). rewrite events_cost_app in H1. apply possible_app in H2 as [P1 P2]. rewrite run_app.
    assert (B : Inv I inv (events_cost more + 0) (run I st0 a) (trace I st0 a)) by (apply (life I inv L _ s0 a); [rewrite Nat.add_0_r; exact H1|exact P1]).
    apply (run_inv I inv L more 0 _ _ B P2).
  - destruct H as (H1 & H2 & _). change (ESave l ch' :: more) with ([ESave l ch'] ++ more) in *. rewrite app_assoc in *. rewrite events_cost_app in H1. apply possible_app in H2 as [P1 P2]. rewrite (run_app I st0 (a ++ [ESave l ch']) more), !run_snoc.
    assert (B : Inv I inv (events_cost more + 0) (run I st0 (a ++ [ESave l ch'])) (trace I st0 (a ++ [ESave l ch']))) by (apply (life I inv L _ s0 _); [rewrite Nat.add_0_r; exact H1|exact P1]).
    destruct (run_inv I inv L more 0 _ _ B P2) as [_ X]. rewrite run_snoc in X. eapply extends_trans; [|exact X]. cbn [step]. rewrite !process_translates. apply extends_refl.
Qed.
Lemma instant_extends st b : instant I s0 st b -> history I inv s0 b -> extends I (st_tr st) (st_tr (run I st0 b)).
Proof.
  intros J H. destruct J as [a b E|a l ch j b E]; [apply earlier_extends; assumption|].
  eapply extends_trans; [|apply (earlier_extends _ _ E H)]. apply (history_earlier _ _ E) in H. destruct H as (H1 & H2 & _). rewrite events_cost_app in H1. apply possible_app in H2 as [P1 _].
  assert (B : Inv I inv (cost l + 0) (run I st0 a) (trace I st0 a)). { apply (life I inv L _ s0 a); [|exact P1]. change (events_cost [ESave l ch]) with (cost l + 0)%nat in H1. exact H1. }
  rewrite run_snoc. cbn [step]. rewrite process_translates. 
  set (ks := save_keys (ctx_signal I (st_ctx (run I st0 a))) l).
  change (extends I (translate_all I (st_tr (run I st0 a)) (firstn j ks)) (translate_all I (st_tr (run I st0 a)) ks)).
  assert (Sp : translate_all I (st_tr (run I st0 a)) ks = translate_all I (translate_all I (st_tr (run I st0 a)) (firstn j ks)) (skipn j ks)) by (rewrite <- translate_all_app, firstn_skipn; reflexivity). rewrite Sp.
  assert (Len : (List.length (firstn j ks) + List.length (skipn j ks))%nat = cost l) by (rewrite <- app_length, firstn_skipn; apply save_keys_len).
  destruct (translate_all_laws I inv L (firstn j ks) (List.length (skipn j ks) + 0) (st_tr (run I st0 a))) as [V1 _].
  { rewrite Nat.add_assoc, Len. apply (I_tr _ _ _ _ _ B). }
  apply (translate_all_laws I inv L (skipn j ks) 0 _ V1).
Qed.

(** Records only grow. *)
Lemma append_step_rows fs g v : exists more, match aget String.eqb v (append_step fs g) with Some f => fr_rows f | None => [] end = match aget String.eqb v fs with Some f => fr_rows f | None => [] end ++ more.
Proof.
  unfold append_step. rewrite (aget_aset _ string_eqb_reflect). destruct (String.eqb_spec (fst g) v) as [<-|N].
  - rewrite String.eqb_refl. unfold append_view. destruct (aget String.eqb (fst g) fs); cbn [fr_rows app]; eexists; reflexivity.
  - destruct (String.eqb_spec (fst g) v); [congruence|]. destruct (String.eqb_spec v (fst g)); [congruence|]. exists []. rewrite app_nil_r. reflexivity.
Qed.
Lemma append_steps_rows gs : forall fs v, exists more, match aget String.eqb v (append_steps fs gs) with Some f => fr_rows f | None => [] end = match aget String.eqb v fs with Some f => fr_rows f | None => [] end ++ more.
Proof.
  induction gs as [|g gs IH]; intros fs v; [exists []; rewrite app_nil_r; reflexivity|]. unfold append_steps. cbn [fold_left]. fold (append_steps (append_step fs g) gs).
  destruct (IH (append_step fs g) v) as (m1 & E1). destruct (append_step_rows fs g v) as (m2 & E2). rewrite E1, E2, <- app_assoc. eauto.
Qed.
Lemma row_at_rows fs v id : row_at fs v id = nth_error (match aget String.eqb v fs with Some f => fr_rows f | None => [] end) (N.to_nat id).
Proof. unfold row_at. destruct (aget String.eqb v fs); [reflexivity|]. destruct (N.to_nat id); reflexivity. Qed.
Lemma earlier_row a b v id : earlier a b -> row_at (run_flushes (flushes I s0 a)) v id = row_at (run_flushes (flushes I s0 b)) v id \/ row_at (run_flushes (flushes I s0 a)) v id = None.
Proof.
  intros E. destruct (earlier_written _ _ E) as (more & W). unfold run_flushes at 2. rewrite W, append_steps_app. fold (run_flushes (flushes I s0 a)). destruct (append_steps_rows more (run_flushes (flushes I s0 a)) v) as (m & R).
  rewrite !row_at_rows, R. destruct (nth_error (match aget String.eqb v (run_flushes (flushes I s0 a)) with Some f => fr_rows f | None => [] end) (N.to_nat id)) as [d|] eqn:X; [|right; reflexivity]. left. rewrite nth_error_app1; [congruence|]. apply nth_error_Some. congruence.
Qed.
(** What was indexed before is listed in no other view later. *)
Lemma earlier_stored a b v s : earlier a b -> stored v (flushes I s0 a) s -> stored v (flushes I s0 b) s.
Proof.
  unfold flushes. intros E (fl & ts & Hf & R & Hin & Hv). destruct E as [a more _|a l ch ch' more F _].
  - exists fl, ts. split; [rewrite trace_app, map_app, in_app_iff; auto|auto].
  - rewrite trace_snoc, map_app, in_app_iff in Hf. rewrite trace_app, map_app. cbn [trace app map]. destruct Hf as [Hf|[<-|[]]].
    + exists fl, ts. split; [rewrite in_app_iff; auto|auto].
    + exists (p_flush (past_of I (run I st0 a) l ch')), ts. destruct F as (_ & _ & E3 & _ & Le & _). split; [rewrite in_app_iff; right; left; reflexivity|]. unfold past_of in *. cbn [p_flush fl_samples] in *. split; [|auto].
      unfold reached, written in *. cbn [fl_done fl_order] in *. rewrite E3. apply existsb_exists in R as (g & Hg & Eg). apply existsb_exists. exists g. split; [|exact Eg].
      rewrite <- (Nat.min_l _ _ Le), <- firstn_firstn in Hg. rewrite <- (firstn_skipn (ch_views_done ch) (firstn (ch_views_done ch') (ch_views ch))), in_app_iff. left. exact Hg.
Qed.
End Earlier.

(* ------------------------------------------------------------------ one scan *)
Section Scan.
Context (I : tr_impl).
Lemma compile_loop_at_spec fails (fd : nat -> ti_state I) T scope : (forall i, extends I (fd i) T) -> forall fs i r,
  compile_loop_at I fails fd i scope fs r = compile_loop I fails T scope fs r \/
  (compile_loop_at I fails fd i scope fs r = Some [] /\ exists j, (i <= j < i + List.length fs)%nat /\ forall r', compile_loop I fails (fd j) scope fs r' = Some []).
Proof.
  intros X. induction fs as [|f fs IH]; intros i r; cbn [compile_loop_at compile_loop List.length]; [left; reflexivity|].
  destruct (filter_label scope f) as [l|].
  - unfold find_col. destruct (fails (encode l)) eqn:Fl; [left; reflexivity|]. destruct (ti_find I (fd i) (encode l)) as [c|] eqn:Fi.
    + rewrite (X _ _ _ Fi). destruct (IH (S i) (sadd c r)) as [E|(E & j & J & N)]; [left; exact E|]. right. split; [exact E|]. exists j. split; [lia|]. intros r'. destruct (ti_find I (fd j) (encode l)); [apply N|reflexivity].
    + right. split; [reflexivity|]. exists i. split; [lia|]. intros r'. rewrite Fi. reflexivity.
  - destruct (IH (S i) r) as [E|(E & j & J & N)]; [left; exact E|]. right. split; [exact E|]. exists j. split; [lia|exact N].
Qed.
Lemma compile_at_spec fails (fd : nat -> ti_state I) T sc : (forall i, extends I (fd i) T) ->
  compile_filters_at I fails fd sc = compile_filters I fails T sc \/
  (compile_filters_at I fails fd sc = Some [] /\ exists j, (j < Nat.max 1 (List.length (sc_filters sc)))%nat /\ compile_filters I fails (fd j) sc = Some []).
Proof.
  intros X. unfold compile_filters_at, compile_filters. destruct (sc_filters sc) as [|f fs].
  - unfold find_col. destruct (fails _) eqn:Fl; [left; reflexivity|]. destruct (ti_find I (fd 0%nat) _) as [c|] eqn:Fi; [left; rewrite (X _ _ _ Fi); reflexivity|]. right. split; [reflexivity|]. exists 0%nat. split; [cbn; lia|]. rewrite Fi. reflexivity.
  - destruct (compile_loop_at_spec fails fd T (sc_scope sc) X (f :: fs) 0 []) as [E|(E & j & J & N)]; [left; exact E|]. right. split; [exact E|]. exists j. split; [cbn [List.length] in *; lia|apply N].
Qed.
(** Columns of one shard make one group. *)
Lemma one_group cols order k : visits order cols -> cols <> [] -> (forall c, In c cols -> c / 2^20 = k) -> exists l, order = [(k, l)].
Proof.
  intros V NE One. assert (Eq : group_columns cols = [(k, cols)]).
  { unfold group_columns. assert (G : forall l pre, (forall c, In c l -> c / shard_width = k) -> fold_left group_add l [(k, pre)] = [(k, pre ++ l)]).
    { induction l as [|c l IH]; intros pre H; cbn [fold_left]; [rewrite app_nil_r; reflexivity|]. unfold group_add at 2. rewrite (H c (or_introl eq_refl)). cbn [aget aset fst snd]. rewrite N.eqb_refl. rewrite IH by (intros x Hx; apply H; right; exact Hx). rewrite <- app_assoc. reflexivity. }
    destruct cols as [|c cols]; [congruence|]. cbn [fold_left]. unfold group_add at 2. change (c / shard_width) with (c / 2^20). rewrite (One c (or_introl eq_refl)). cbn [aget aset app]. apply (G cols [c]). intros x Hx. apply One. right. exact Hx. }
  unfold visits in V. rewrite Eq in V. apply Permutation_length_1_inv in V. eauto.
Qed.
Lemma rows_one ix k views g l : rows_loop_at ix k views [(g, l)] None = rows_loop (ix k) views [(g, l)] None.
Proof. reflexivity. Qed.
End Scan.

(* ------------------------------------------------------------------ the stored rows *)
Section Rows.
Context (I : tr_impl) (inv : nat -> ti_state I -> Prop) (L : tr_stable I inv) (s0 : ti_state I).
Notation st0 := (new_store I s0).
Lemma hits_carried es vs cols order hits id : visits order cols -> lookup (st_shards (after I s0 es)) vs cols order = Some hits -> In id hits ->
  exists v c, carries (st_shards (after I s0 es)) v id c.
Proof.
  intros V LK Hid. assert (R : res_in id (lookup (st_shards (after I s0 es)) vs cols order)) by (rewrite LK; exact Hid).
  apply (C24_lookup_exact _ _ _ _ V) in R as (_ & (c & Hc & id' & Hid') & M). destruct (M c Hc (ex_intro _ id' Hid')) as (v & _ & Cv). exists v, c. apply Cv; auto.
Qed.
(** Whatever is indexed at an instant is listed, at every later one, in exactly the same views. *)
Lemma listed_same a b v sig rows : earlier a b -> history I inv s0 b -> In sig signals ->
  (forall id, In id rows -> exists w c, carries (st_shards (after I s0 a)) w id c) ->
  view_ids (run_flushes (flushes I s0 b)) sig rows v = view_ids (run_flushes (flushes I s0 a)) sig rows v.
Proof.
  intros E Hb Sg Car. assert (Ha := history_earlier I inv L s0 a b E Hb). assert (IVa := hist_inv I inv L s0 a Ha). assert (IVb := hist_inv I inv L s0 b Hb).
  assert (Fa : Forall flush_ok (flushes I s0 a)) by apply (I_flush _ _ _ _ _ IVa). assert (Fb : Forall flush_ok (flushes I s0 b)) by apply (I_flush _ _ _ _ _ IVb).
  assert (Srt : forall es, Forall flush_ok (flushes I s0 es) -> ssorted (view_ids (run_flushes (flushes I s0 es)) sig rows v)).
  { intros es F. destruct (C31_membership_exact (flushes I s0 es) v sig F Sg) as [S _]. unfold view_ids, members in *. destruct (aget String.eqb v (run_flushes (flushes I s0 es))); [apply ssorted_sinter, S|constructor]. }
  apply ssorted_ext; [apply Srt, Fb|apply Srt, Fa|]. intros id. rewrite !(in_view_ids _ _ _ _ _ Fb Sg), !(in_view_ids _ _ _ _ _ Fa Sg). split; intros (Hid & s & St & Es & Sig); (split; [exact Hid|]); exists s; (split; [|auto]).
  - destruct (Car id Hid) as (w & c & C). apply (carries_iff I inv 0 _ _ IVa (hist_small I inv L s0 a Ha)) in C as (x & g & Hx & Hg & Hk & Hc & Hw & Eg).
    destruct (stored_filing I inv 0 _ _ IVb v s St) as (y & g' & Hy & Hg' & Eg' & Hv & _).
    assert (g' = g). { apply (filing_unique I inv 0 _ _ IVb (hist_inc I inv L s0 b Hb)); [apply in_all_filings; eauto|apply (earlier_filings I s0 a b _ E), in_all_filings; eauto|congruence]. } subst g'. rewrite <- Eg'.
    eapply (filing_stored I inv 0 _ _ IVa); [exact Hx|exact Hg|exact Hv|]. eapply (reached_full I inv 0 _ _ IVa); [exact Hx| |exact Hg|exact Hv]. intros X. rewrite X in Hk. destruct Hk.
  - eapply earlier_stored; eassumption.
Qed.

(** Reading the views one after the other while more records are appended. *)
Lemma read_view_spec fault fs sig rows v : read_view fault fs sig rows v =
  if fault v then None else Some (map (fun id => option_map (only_signal sig) (row_at fs v id)) (view_ids fs sig rows v)).
Proof. unfold read_view, row_at, view_ids. destruct (fault v); [reflexivity|]. destruct (aget String.eqb v fs); reflexivity. Qed.
Lemma read_views_carried a (fm : nat -> list event) final fault sig rows : (forall k, earlier a (fm k)) -> (forall k, earlier (fm k) final) -> history I inv s0 final -> In sig signals ->
  (forall id, In id rows -> exists w c, carries (st_shards (after I s0 a)) w id c) -> forall vs k,
  match read_views fault (st_frames (after I s0 a)) sig rows vs, read_views_at fault (fun k => st_frames (after I s0 (fm k))) k sig rows vs with
  | None, None => True
  | Some p, Some q => Forall2 same_row p q
  | _, _ => False
  end.
Proof.
  intros Ea Ef HF Sg Car. assert (Hk : forall k, history I inv s0 (fm k)) by (intros k; eapply history_earlier; eauto). assert (Ha : history I inv s0 a) by (eapply history_earlier; [exact L|exact (Ea 0%nat)|apply Hk]).
  induction vs as [|v vs IH]; intros k; cbn [read_views read_views_at]; [constructor|]. rewrite !read_view_spec. destruct (fault v); [exact Logic.I|].
  specialize (IH (S k)). destruct (read_views fault (st_frames (after I s0 a)) sig rows vs) as [p|], (read_views_at fault _ (S k) sig rows vs) as [q|]; try exact IH; try exact Logic.I.
  assert (Fa : st_frames (after I s0 a) = run_flushes (flushes I s0 a)) by apply (I_frames _ _ _ _ _ (hist_inv I inv L s0 a Ha)).
  assert (Fk : st_frames (after I s0 (fm k)) = run_flushes (flushes I s0 (fm k))) by apply (I_frames _ _ _ _ _ (hist_inv I inv L s0 _ (Hk k))).
  rewrite Fa, Fk, (listed_same a (fm k) v sig rows (Ea k) (Hk k) Sg Car). apply Forall2_app; [|exact IH].
  induction (view_ids (run_flushes (flushes I s0 a)) sig rows v) as [|id l IHl]; cbn [map]; constructor; [|exact IHl].
  destruct (earlier_row I s0 a (fm k) v id (Ea k)) as [E|E]; [left; rewrite E; reflexivity|right; rewrite E; reflexivity].
Qed.
End Rows.
