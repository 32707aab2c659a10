(** C73 across shards: the reads of the shards of one look-up are spread over time. *)
From Verif.Model Require Import Base Labels Calendar View Otlp Transform Batch Rows Shards Dataframe Collapse Store Concurrent.
From Verif.Spec Require Import Indexing Translator Frames Saves Sets Instants.
From Verif.Proofs Require Import BaseFacts TransformFacts TransformLaws BatchFacts RowsFacts ShardsFacts DataframeFacts StoreFacts ScanFacts ConcurrentFacts.
From Verif.Props Require Import P_Shards P_Dataframe P_Store.
Open Scope N_scope.

(* ------------------------------------------------------------------ the loop over the shards *)
Lemma shard_match_sorted s views k cols : ssorted (shard_match s views k cols).
Proof.
  unfold shard_match. assert (G : forall b, ssorted b -> ssorted (fold_left (fun b v => sunion b (rows_with (tx_view (sh_tx s k) v) cols)) views b)).
  { induction views as [|v vs IH]; intros b Hb; cbn [fold_left]; [exact Hb|]. apply IH, ssorted_sunion, Hb. }
  apply G, ssorted_nil.
Qed.
Lemma rows_loop_at_spec views : forall groups (ix : nat -> shards) k acc,
  (forall i g, nth_error groups i = Some g -> is_open (ix (k + i)%nat) (fst g) = true /\ shard_match (ix (k + i)%nat) views (fst g) (snd g) <> []) ->
  acc_ok acc -> (acc <> None \/ groups <> []) ->
  exists r, rows_loop_at ix k views groups acc = Some r /\ ssorted r /\
    forall x, In x r <-> (forall a, acc = Some a -> In x a) /\ (forall i g, nth_error groups i = Some g -> In x (shard_match (ix (k + i)%nat) views (fst g) (snd g))).
Proof.
  induction groups as [|[g cols] groups IH]; intros ix k acc Hg Ha NE; cbn [rows_loop_at].
  - destruct NE as [NE|NE]; [|congruence]. destruct acc as [r|]; [|congruence]. exists r. split; [reflexivity|]. split; [apply Ha|].
    intros x. split; [intros H; split; [intros a E; apply some_inj in E; subst; exact H|intros [|i] g E; discriminate]|intros [H _]; apply H; reflexivity].
  - destruct (Hg 0%nat _ eq_refl) as [O M]. rewrite Nat.add_0_r in O, M. cbn [fst snd] in O, M. rewrite O. cbv zeta.
    assert (Hg' : forall i g0, nth_error groups i = Some g0 -> is_open (ix (S k + i)%nat) (fst g0) = true /\ shard_match (ix (S k + i)%nat) views (fst g0) (snd g0) <> []).
    { intros i g0 E. specialize (Hg (S i) g0 E). rewrite <- Nat.add_succ_comm in Hg. exact Hg. }
    pose proof (shard_match_sorted (ix k) views g cols) as SM.
    assert (Split : forall x, (forall i g0, nth_error ((g, cols) :: groups) i = Some g0 -> In x (shard_match (ix (k + i)%nat) views (fst g0) (snd g0))) <->
       In x (shard_match (ix k) views g cols) /\ forall i g0, nth_error groups i = Some g0 -> In x (shard_match (ix (S k + i)%nat) views (fst g0) (snd g0))).
    { intros x. split.
      - intros H. split; [specialize (H 0%nat _ eq_refl); rewrite Nat.add_0_r in H; exact H|]. intros i g0 E. specialize (H (S i) g0 E). rewrite <- Nat.add_succ_comm in H. exact H.
      - intros [H1 H2] [|i] g0 E; [cbn in E; apply some_inj in E; subst g0; rewrite Nat.add_0_r; exact H1|]. rewrite <- Nat.add_succ_comm. apply H2, E. }
    destruct (sempty (shard_match (ix k) views g cols)) eqn:EB; [apply sempty_nil in EB; congruence|].
    destruct acc as [r|].
    + destruct (sempty (sinter r (shard_match (ix k) views g cols)) && negb (sempty r)) eqn:EE.
      * apply andb_true_iff in EE as [EE _]. apply sempty_nil in EE. exists (sinter r (shard_match (ix k) views g cols)). split; [reflexivity|].
        rewrite EE. split; [apply ssorted_nil|]. intros x. split; [intros []|]. intros [H1 H2]. apply Split in H2 as [H2 _].
        assert (K : In x (sinter r (shard_match (ix k) views g cols))) by (apply in_sinter; split; [apply H1; reflexivity|exact H2]). rewrite EE in K. exact K.
      * assert (NEr : sinter r (shard_match (ix k) views g cols) <> []).
        { intros C. rewrite C in EE. cbn in EE. destruct r; [destruct Ha as [_ Ha]; congruence|discriminate]. }
        destruct (IH ix (S k) (Some (sinter r (shard_match (ix k) views g cols))) Hg') as (r' & E & S & Q); [split; [apply ssorted_sinter, Ha|exact NEr]|left; discriminate|].
        exists r'. split; [exact E|]. split; [exact S|]. intros x. rewrite Q, Split. split.
        -- intros [H1 H2]. specialize (H1 _ eq_refl). apply in_sinter in H1 as [H1 H3]. split; [intros a Ea; apply some_inj in Ea; subst a; exact H1|auto].
        -- intros [H1 [H2 H3]]. split; [|exact H3]. intros a Ea. apply some_inj in Ea. subst a. apply in_sinter. split; [apply H1; reflexivity|exact H2].
    + destruct (IH ix (S k) (Some (shard_match (ix k) views g cols)) Hg') as (r' & E & S & Q); [split; [exact SM|exact M]|left; discriminate|].
      exists r'. split; [exact E|]. split; [exact S|]. intros x. rewrite Q, Split. split.
      * intros [H1 H2]. split; [discriminate|]. split; [apply H1; reflexivity|exact H2].
      * intros [_ [H2 H3]]. split; [|exact H3]. intros a Ea. apply some_inj in Ea. subst a. exact H2.
Qed.
Lemma rows_loop_still s vs : forall gs k acc, rows_loop_at (fun _ => s) k vs gs acc = rows_loop s vs gs acc.
Proof.
  induction gs as [|[g l] gs IH]; intros k acc; cbn [rows_loop_at rows_loop]; [reflexivity|]. destruct (is_open s g); [|reflexivity]. cbv zeta.
  destruct (sempty _); [apply IH|]. destruct acc; [|apply IH]. destruct (_ && _); [reflexivity|apply IH].
Qed.

(* ------------------------------------------------------------------ later instants *)
Section Later.
Context (I : tr_impl) (inv : nat -> ti_state I -> Prop) (L : tr_stable I inv) (s0 : ti_state I).
Notation st0 := (new_store I s0).
Notation tr es := (trace I st0 es).

Lemma update_further frags order done rest : forall s commits, commits = done \/ commits = done ++ [false] ->
  snd (update_shards frags s order commits) = true -> snd (update_shards frags s order (done ++ rest)) = true.
Proof.
  revert order. induction done as [|ok done IH]; intros order s commits [ -> | -> ] H; cbn [app] in *.
  - destruct order as [|[k vs] order]; [destruct rest; reflexivity|]. cbn in H. discriminate.
  - destruct order as [|[k vs] order]; [destruct rest; reflexivity|]. cbn [update_shards] in H. unfold sh_update in H. cbn in H. discriminate.
  - destruct order as [|[k vs] order]; [reflexivity|]. cbn [update_shards] in *. destruct (sh_update ok s k _) as [s' r]. destruct r; [|exact H]. apply (IH order s' done); auto.
  - destruct order as [|[k vs] order]; [reflexivity|]. cbn [update_shards] in *. destruct (sh_update ok s k _) as [s' r]. destruct r; [|exact H]. apply (IH order s' (done ++ [false])); auto.
Qed.
Lemma save_further st l ch ch' : further ch ch' -> snd (save I st l ch) = true -> snd (save I st l ch') = true.
Proof.
  intros (E1 & E2 & E3 & E4 & Le & done & rest & Ec & Ec'). unfold save. rewrite E1, E2, E3, E4.
  destruct (process_samples (ti_translate I) (st_ctx st) l) as [c fs]. destruct (snd (batch_build (add_filed (ch_pools ch) fs batch_new))) as [frags|]; [|auto].
  destruct (group_samples (ch_pool ch) (combine l (map f_min fs)) []); [|auto].
  destruct (Nat.ltb_spec (ch_views_done ch) (List.length (ch_views ch))) as [H|H]; [discriminate|].
  destruct (Nat.ltb_spec (ch_views_done ch') (List.length (ch_views ch))) as [H'|H']; [lia|].
  pose proof (update_further frags (ch_shards ch) done rest (st_shards st) (ch_commits ch) Ec) as U. rewrite Ec'.
  destruct (update_shards frags (st_shards st) (ch_shards ch) (ch_commits ch)), (update_shards frags (st_shards st) (ch_shards ch) (done ++ rest)). exact U.
Qed.
Lemma no_restart_false es : no_restart es -> existsb is_restart es = false.
Proof.
  intros H. destruct (existsb is_restart es) eqn:E; [|reflexivity]. apply existsb_exists in E as ([l ch|keys] & Hin & K); [discriminate|]. destruct (H keys Hin).
Qed.
Lemma saved_later a b s : earlier a b -> saved_now I s0 a s -> saved_now I s0 b s.
Proof.
  intros E (es1 & l1 & ch1 & es2 & Ea & Hs & OK & NR). destruct E as [a more NM|a l ch ch' more F NM].
  - exists es1, l1, ch1, (es2 ++ more). rewrite Ea, <- app_assoc. split; [reflexivity|]. split; [exact Hs|]. split; [exact OK|]. rewrite existsb_app, NR, (no_restart_false _ NM). reflexivity.
  - destruct es2 as [|e es2] using rev_ind.
    + apply app_inj_tail in Ea as [-> E]. injection E as -> ->. exists es1, l1, ch', more. split; [reflexivity|]. split; [exact Hs|]. split; [eapply save_further; eassumption|apply no_restart_false, NM].
    + clear IHes2. change (es1 ++ ESave l1 ch1 :: es2 ++ [e]) with (es1 ++ (ESave l1 ch1 :: es2) ++ [e]) in Ea. rewrite app_assoc in Ea. apply app_inj_tail in Ea as [-> <-].
      exists es1, l1, ch1, (es2 ++ ESave l ch' :: more). rewrite <- app_assoc. split; [reflexivity|]. split; [exact Hs|]. split; [exact OK|].
      rewrite existsb_app in NR. apply orb_false_iff in NR as [NR _]. rewrite existsb_app, NR. cbn. apply no_restart_false, NM.
Qed.
Lemma committed_further order done rest : forall commits, commits = done \/ commits = done ++ [false] -> incl (committed order commits) (committed order (done ++ rest)).
Proof.
  revert order. induction done as [|ok done IH]; intros order commits [ -> | -> ] k H; cbn [app] in *; destruct order as [|[k' vs] order]; try (destruct H; fail); cbn [committed] in *; try (destruct H; fail).
  - destruct ok; [|destruct H]. destruct H as [<-|H]; [left; reflexivity|right]. eapply (IH order done); [left; reflexivity|exact H].
  - destruct ok; [|destruct H]. destruct H as [<-|H]; [left; reflexivity|right]. eapply (IH order (done ++ [false])); [right; reflexivity|exact H].
Qed.
(** Each save recorded at an instant is recorded at every later one, not less far. *)
Lemma earlier_past a b pre x r : earlier a b -> tr a = pre ++ x :: r ->
  exists x' r', tr b = pre ++ x' :: r' /\ p_filings x' = p_filings x /\ incl (p_shards x) (p_shards x').
Proof.
  intros E Ea. destruct E as [a more NM|a l ch ch' more F NM].
  - rewrite trace_app, Ea, <- app_assoc. exists x, (r ++ trace I (run I st0 a) more). split; [reflexivity|]. split; [reflexivity|apply incl_refl].
  - rewrite trace_snoc in Ea. rewrite trace_app. cbn [trace app]. destruct r as [|y r] using rev_ind.
    + apply app_inj_tail in Ea as [-> <-]. eexists _, _. split; [reflexivity|]. split; [reflexivity|].
      destruct F as (_ & _ & E3 & E4 & Le & done & rest & Ec & Ec'). unfold past_of. cbn [p_shards]. rewrite E3, E4.
      destruct (Nat.ltb_spec (ch_views_done ch) (List.length (ch_views ch))) as [H|H]; [intros k []|].
      destruct (Nat.ltb_spec (ch_views_done ch') (List.length (ch_views ch))) as [H'|H']; [lia|]. rewrite Ec'. apply committed_further, Ec.
    + clear IHr. change (pre ++ x :: r ++ [y]) with (pre ++ (x :: r) ++ [y]) in Ea. rewrite app_assoc in Ea. apply app_inj_tail in Ea as [-> <-].
      rewrite <- app_assoc. cbn [app]. eexists _, _. split; [reflexivity|]. split; [reflexivity|apply incl_refl].
Qed.
(** The instant, between two, at which the save last under way at the first stood as it does at the second. *)
Lemma last_save_then a b pre x : earlier a b -> tr a = pre ++ [x] ->
  exists m x' r', earlier a m /\ earlier m b /\ (forall c, earlier a c -> earlier b c -> earlier m c) /\ tr m = pre ++ [x'] /\ tr b = pre ++ x' :: r' /\ p_filings x' = p_filings x.
Proof.
  intros E Ea. destruct E as [a more NM|a l ch ch' more F NM].
  - exists a, x, (trace I (run I st0 a) more). split; [rewrite <- (app_nil_r a) at 2; constructor; intros k []|]. split; [constructor; exact NM|].
    split; [auto|]. split; [exact Ea|]. split; [|reflexivity]. rewrite trace_app, Ea, <- app_assoc. reflexivity.
  - rewrite trace_snoc in Ea. apply app_inj_tail in Ea as [Ep Ex]. exists (a ++ [ESave l ch']), (past_of I (run I st0 a) l ch'), (trace I (step I (run I st0 a) (ESave l ch')) more).
    split; [constructor; [exact F|intros k []]|]. split; [change (ESave l ch' :: more) with ([ESave l ch'] ++ more); rewrite app_assoc; constructor; exact NM|]. split; [|split; [|split]].
    + intros c Eac Ebc. inversion Ebc as [b' more' NM' Eb Ec|b' l2 ch2 ch2' more' F' NM' Eb Ec].
      * change (ESave l ch' :: more) with ([ESave l ch'] ++ more). rewrite <- app_assoc, <- app_assoc, app_assoc. constructor. intros k H. apply in_app_iff in H as [H|H]; [exact (NM k H)|exact (NM' k H)].
      * destruct more as [|e more] using rev_ind.
        -- apply app_inj_tail in Eb as [E1 E2]. injection E2 as E2 E3. subst. constructor; assumption.
        -- clear IHmore. change (a ++ ESave l ch' :: more ++ [e]) with (a ++ (ESave l ch' :: more) ++ [e]) in Eb. rewrite app_assoc in Eb. apply app_inj_tail in Eb as [-> <-].
           rewrite <- app_assoc. change ((ESave l ch' :: more) ++ ESave l2 ch2' :: more') with ([ESave l ch'] ++ more ++ ESave l2 ch2' :: more'). rewrite app_assoc. constructor.
           intros k H. apply in_app_iff in H as [H|[H|H]]; [apply (NM k), in_app_iff; left; exact H|discriminate|exact (NM' k H)].
    + rewrite trace_snoc, Ep. reflexivity.
    + rewrite trace_app, Ep. reflexivity.
    + rewrite <- Ex. reflexivity.
Qed.
End Later.

(* ------------------------------------------------------------------ one look-up *)
Lemma compile_later I fails (s s' : ti_state I) sc cols : extends I s s' -> compile_filters I fails s sc = Some cols -> cols <> [] -> compile_filters I fails s' sc = Some cols.
Proof.
  intros X E NE. destruct (compile_at_spec I fails (fun _ => s) s' sc (fun _ => X)) as [C|(C & _)].
  - rewrite <- C. rewrite <- E. unfold compile_filters_at, compile_filters. destruct (sc_filters sc) as [|f fs]; [reflexivity|].
    assert (G : forall fs i r, compile_loop_at I fails (fun _ => s) i (sc_scope sc) fs r = compile_loop I fails s (sc_scope sc) fs r).
    { induction fs0 as [|f0 fs0 IH]; intros i r; cbn [compile_loop_at compile_loop]; [reflexivity|]. destruct (filter_label (sc_scope sc) f0); [|apply IH]. destruct (find_col I fails s l) as [[c|]|]; [apply IH|reflexivity|reflexivity]. }
    apply G.
  - exfalso. apply NE. assert (G : compile_filters_at I fails (fun _ => s) sc = compile_filters I fails s sc).
    { unfold compile_filters_at, compile_filters. destruct (sc_filters sc) as [|f fs]; [reflexivity|].
      assert (G : forall fs i r, compile_loop_at I fails (fun _ => s) i (sc_scope sc) fs r = compile_loop I fails s (sc_scope sc) fs r).
      { induction fs0 as [|f0 fs0 IH]; intros i r; cbn [compile_loop_at compile_loop]; [reflexivity|]. destruct (filter_label (sc_scope sc) f0); [|apply IH]. destruct (find_col I fails s l) as [[c|]|]; [apply IH|reflexivity|reflexivity]. }
      apply G. }
    rewrite G, E in C. apply some_inj in C. exact C.
Qed.
Lemma sorted_disjoint a b x y : increasing (map g_sample (a ++ b)) -> In x a -> In y b -> smp_id (g_sample x) < smp_id (g_sample y).
Proof.
  induction a as [|z a IH]; intros S Hx Hy; [destruct Hx|]. cbn in S. inversion S as [|? ? S' F]; subst. destruct Hx as [->|Hx]; [|auto].
  rewrite Forall_forall in F. apply (F (g_sample y)), in_map, in_app_iff. right. exact Hy.
Qed.
Lemma all_or_not {A} (l : list A) : forall (P : nat -> A -> Prop), (forall i a, nth_error l i = Some a -> P i a \/ ~ P i a) ->
  (forall i a, nth_error l i = Some a -> P i a) \/ exists i a, nth_error l i = Some a /\ ~ P i a.
Proof.
  induction l as [|a l IH]; intros P D; [left; intros [|i] a E; discriminate|].
  destruct (D 0%nat a eq_refl) as [H|H]; [|right; exists 0%nat, a; auto].
  destruct (IH (fun i => P (S i))) as [H'|(i & b & E & H')].
  - intros i b E. apply (D (S i) b E).
  - left. intros [|i] b E; [cbn in E; apply some_inj in E; subst; exact H|apply H', E].
  - right. exists (S i), b. auto.
Qed.
Section Spread.
Context (I : tr_impl) (inv : nat -> ti_state I -> Prop) (L : tr_stable I inv) (s0 : ti_state I).
Notation st0 := (new_store I s0).
Notation tr es := (trace I st0 es).
Context (ix : nat -> list event) (Hix : forall k, history I inv s0 (ix k)).
Context (Up : forall j k, (j <= k)%nat -> earlier (ix j) (ix k)).

Lemma carries_at es v id c : history I inv s0 es -> carries (st_shards (after I s0 es)) v id c <->
  exists y g, In y (tr es) /\ In g (p_filings y) /\ In (c / 2^20) (p_shards y) /\ In c (f_cols (g_filed g)) /\ In v (views_of g) /\ smp_id (g_sample g) = id.
Proof. intros H. apply (carries_iff I inv 0 _ _ (hist_inv I inv L s0 es H) (hist_small I inv L s0 es H)). Qed.
Lemma carries_later a b v id c : earlier a b -> history I inv s0 b -> carries (st_shards (after I s0 a)) v id c -> carries (st_shards (after I s0 b)) v id c.
Proof.
  intros E Hb C. apply (carries_at a) in C as (y & g & Hy & R); [|eapply history_earlier; eassumption]. apply carries_at; [exact Hb|].
  apply in_split in Hy as (pre & r & Hy). destruct (earlier_past I s0 a b pre y r E Hy) as (y' & r' & Eb & Ef & Inc). exists y', g.
  split; [rewrite Eb; apply in_app_iff; right; left; reflexivity|]. rewrite Ef. destruct R as (R1 & R2 & R3). auto.
Qed.
Lemma same_filing es y y' g g' : history I inv s0 es -> In y (tr es) -> In y' (tr es) -> In g (p_filings y) -> In g' (p_filings y') -> smp_id (g_sample g) = smp_id (g_sample g') -> g = g'.
Proof.
  intros H Hy Hy' Hg Hg'. apply (filing_unique I inv 0 _ _ (hist_inv I inv L s0 es H) (hist_inc I inv L s0 es H)); apply in_all_filings; eauto.
Qed.
(** A filing belongs to one save. *)
Lemma one_save es pre y r z g : history I inv s0 es -> tr es = pre ++ y :: r -> In g (p_filings y) -> In z pre \/ In z r -> ~ In g (p_filings z).
Proof.
  intros H E Hg Hz C. pose proof (hist_inc I inv L s0 es H) as INC. rewrite <- (filings_all I inv 0 _ _ (hist_inv I inv L s0 es H)), E in INC.
  unfold all_filings in INC. rewrite flat_map_app in INC. destruct Hz as [Hz|Hz].
  - assert (K : smp_id (g_sample g) < smp_id (g_sample g)).
    { eapply (sorted_disjoint _ _ g g INC); [apply in_flat_map; eauto|cbn [flat_map]; apply in_app_iff; left; exact Hg]. }
    lia.
  - cbn [flat_map] in INC. rewrite app_assoc in INC. assert (K : smp_id (g_sample g) < smp_id (g_sample g)).
    { eapply (sorted_disjoint _ _ g g INC); [apply in_app_iff; right; exact Hg|apply in_flat_map; eauto]. }
    lia.
Qed.

Context (sc : scan) (vs : list string) (cols : nset) (order : list (N * list N)) (V : visits order cols) (NC : cols <> []).
Context (EC : compile_filters I (fun _ => false) (st_tr (after I s0 (ix 0%nat))) sc = Some cols).
Context (s : sample) (v : string) (Sv : saved_now I s0 (ix 0%nat) s) (Hv : In v vs) (Hh : In v (home (smp_data s))) (Doc : forall l, asks sc l -> documented_label (smp_data s) l).

Lemma ready es : earlier (ix 0%nat) es -> history I inv s0 es -> forall g, In g order ->
  is_open (st_shards (after I s0 es)) (fst g) = true /\ shard_match (st_shards (after I s0 es)) vs (fst g) (snd g) <> [].
Proof.
  intros E H [k l] Hg. apply (group_in _ _ _ _ V) in Hg as [El NEl]. cbn [fst snd].
  assert (EC' : compile_filters I (fun _ => false) (st_tr (after I s0 es)) sc = Some cols).
  { eapply compile_later; [|exact EC|exact NC]. apply (earlier_extends I inv L s0 _ _ E H). }
  destruct (saved_carries I inv s0 es sc s v cols L H (now_saved _ _ _ _ (saved_later I s0 _ _ s E Sv)) Hh Doc) as [_ C]. specialize (C EC').
  destruct l as [|c l]; [congruence|]. assert (Hc : In c (c :: l)) by (left; reflexivity). rewrite El in Hc. apply filter_In in Hc as [Hc Ek]. apply N.eqb_eq in Ek.
  split; [apply is_open_spec; rewrite <- Ek; apply (C c Hc)|].
  assert (K : In (smp_id s) (shard_match (st_shards (after I s0 es)) vs k (c :: l))).
  { apply (group_match _ _ cols k _ El NEl). exists v. split; [exact Hv|]. intros c' Hc' _. apply C, Hc'. }
  intros N0. rewrite N0 in K. destruct K.
Qed.
Lemma spread_lookup : exists m K, (K < List.length order)%nat /\ earlier (ix 0%nat) m /\ earlier m (ix K) /\
  (forall c, earlier (ix 0%nat) c -> earlier (ix K) c -> earlier m c) /\
  rows_loop_at (fun k => st_shards (after I s0 (ix k))) 0 vs order None = rows_loop (st_shards (after I s0 m)) vs order None.
Proof.
  assert (NO : order <> []).
  { destruct cols as [|c cl] eqn:Ec; [congruence|]. intros E. rewrite E in V. pose proof (group_of (c :: cl) [] c V (or_introl eq_refl)) as []. }
  (* the last save recorded at the first read *)
  assert (LS : exists pre x, tr (ix 0%nat) = pre ++ [x]).
  { destruct (saved_filing I inv L s0 _ (Hix 0%nat) s (now_saved _ _ _ _ Sv)) as (y & _ & Hy & _). destruct (tr (ix 0%nat)) as [|z r] using rev_ind; [destruct Hy|eauto]. }
  destruct LS as (pre & x & E0).
  assert (At : forall j, exists xj rj, tr (ix j) = pre ++ xj :: rj /\ p_filings xj = p_filings x /\ incl (p_shards x) (p_shards xj)).
  { intros j. apply (earlier_past I s0 (ix 0%nat) (ix j) pre x []); [apply Up; lia|exact E0]. }
  set (K := (List.length order - 1)%nat).
  assert (LenK : (K < List.length order)%nat) by (unfold K; destruct order; [congruence|cbn; lia]).
  (* what is read of group i *)
  assert (Mat : forall es i g id, history I inv s0 es -> nth_error order i = Some g ->
    In id (shard_match (st_shards (after I s0 es)) vs (fst g) (snd g)) <-> matches_shard (st_shards (after I s0 es)) vs cols (fst g) id).
  { intros es i [k l] id _ Hg. apply nth_error_In in Hg. apply (group_in _ _ _ _ V) in Hg as [El NEl]. apply (group_match _ _ cols k l El NEl). }
  assert (Wit : forall i g, nth_error order i = Some g -> exists c, In c cols /\ c / 2^20 = fst g).
  { intros i [k l] Hg. apply nth_error_In in Hg. apply (group_in _ _ _ _ V) in Hg as [El NEl]. destruct l as [|c l]; [congruence|].
    assert (Hc : In c (c :: l)) by (left; reflexivity). rewrite El in Hc. apply filter_In in Hc as [Hc Ek]. apply N.eqb_eq in Ek. exists c. auto. }
  (* the spread reads *)
  destruct (rows_loop_at_spec vs order (fun k => st_shards (after I s0 (ix k))) 0 None) as (r & Er & Sr & Qr); [|exact Logic.I|right; exact NO|].
  { intros i g Hg. cbn [Nat.add]. apply ready; [apply Up; lia|apply Hix|apply nth_error_In in Hg; exact Hg]. }
  cbn [Nat.add] in Qr.
  assert (Still : forall m, earlier (ix 0%nat) m -> history I inv s0 m -> (forall id, In id r <-> forall i g, nth_error order i = Some g -> matches_shard (st_shards (after I s0 m)) vs cols (fst g) id) ->
    rows_loop_at (fun k => st_shards (after I s0 (ix k))) 0 vs order None = rows_loop (st_shards (after I s0 m)) vs order None).
  { intros m Em Hm Q. rewrite Er, <- (rows_loop_still (st_shards (after I s0 m)) vs order 0 None).
    destruct (rows_loop_at_spec vs order (fun _ => st_shards (after I s0 m)) 0 None) as (r' & Er' & Sr' & Qr'); [|exact Logic.I|right; exact NO|].
    { intros i g Hg. apply ready; [exact Em|exact Hm|apply nth_error_In in Hg; exact Hg]. }
    rewrite Er'. f_equal. apply ssorted_ext; [exact Sr|exact Sr'|]. intros id. rewrite Q, Qr'. split.
    - intros H. split; [discriminate|]. intros i g Hg. apply (Mat m i g id Hm Hg), (H i g Hg).
    - intros [_ H] i g Hg. apply (Mat m i g id Hm Hg), (H i g Hg). }
  (* how a hit of the spread reads was recorded *)
  assert (Rec : forall id, In id r -> forall i g c, nth_error order i = Some g -> In c cols -> c / 2^20 = fst g -> exists y gg w, In w vs /\
    In y (tr (ix i)) /\ In gg (p_filings y) /\ In (fst g) (p_shards y) /\ In w (views_of gg) /\ smp_id (g_sample gg) = id /\ In gg (all_filings (tr (ix i))) /\
    (forall c', In c' cols -> c' / 2^20 = fst g -> In c' (f_cols (g_filed gg)))).
  { intros id Hid i g c Hg Hc Ek. apply Qr in Hid as [_ Hid]. specialize (Hid i g Hg). apply (Mat (ix i) i g id (Hix i) Hg) in Hid as (w & Hw & Cw).
    pose proof (Cw c Hc Ek) as C1. apply (carries_at _ _ _ _ (Hix i)) in C1 as (y & gg & Hy & Hgg & Hk & Hcol & Hwv & Eid).
    exists y, gg, w. rewrite <- Ek. repeat (split; [assumption|]). split; [apply in_all_filings; eauto|].
    intros c' Hc' Ek'. pose proof (Cw c' Hc' (eq_trans Ek' Ek)) as C2. apply (carries_at _ _ _ _ (Hix i)) in C2 as (y2 & g2 & Hy2 & Hg2 & _ & Hcol2 & _ & Eid2).
    assert (g2 = gg) by (eapply (same_filing (ix i)); [apply Hix|exact Hy2|exact Hy|exact Hg2|exact Hgg|congruence]). subst g2. exact Hcol2. }
  assert (R2 : forall id, In id r -> exists gg, smp_id (g_sample gg) = id /\ (exists w, In w vs /\ In w (views_of gg)) /\
    forall i g xi ri, nth_error order i = Some g -> tr (ix i) = pre ++ xi :: ri -> p_filings xi = p_filings x ->
      (forall c', In c' cols -> c' / 2^20 = fst g -> In c' (f_cols (g_filed gg))) /\
      ((exists y, In y pre /\ In gg (p_filings y) /\ In (fst g) (p_shards y)) \/ (In gg (p_filings x) /\ In (fst g) (p_shards xi)))).
  { intros id Hid. destruct order as [|g0 order'] eqn:Eo; [congruence|]. destruct (Wit 0%nat g0 eq_refl) as (c0 & Hc0 & Ek0).
    destruct (Rec id Hid 0%nat g0 c0 eq_refl Hc0 Ek0) as (y0 & gg & w & Hw & Hy0 & Hgg & Hk0 & Hwv & Eid & Hall & _).
    exists gg. split; [exact Eid|]. split; [eauto|]. intros i g xi ri Hg Ei Ef. destruct (Wit i g Hg) as (c & Hc & Ek).
    destruct (Rec id Hid i g c Hg Hc Ek) as (yi & gi & wi & _ & Hyi & Hgi & Hki & _ & Eidi & Halli & Hcols).
    assert (gi = gg).
    { apply (filing_unique I inv 0 _ _ (hist_inv I inv L s0 _ (Hix i)) (hist_inc I inv L s0 _ (Hix i))); [exact Halli| |congruence].
      eapply earlier_filings; [|exact Hall]. apply Up. lia. }
    subst gi. split; [exact Hcols|]. rewrite E0 in Hy0. rewrite Ei in Hyi. apply in_app_iff in Hyi as [Hyi|[Hyi|Hyi]].
    - left. exists yi. auto.
    - right. subst yi. rewrite <- Ef. auto.
    - exfalso. apply in_app_iff in Hy0 as [Hy0|[Hy0|[]]].
      + apply in_split in Hy0 as (p1 & p2 & Ep). rewrite Ep, <- app_assoc in Ei. cbn [app] in Ei.
        apply (one_save (ix i) p1 y0 (p2 ++ xi :: ri) yi gg (Hix i) Ei Hgg); [right; apply in_app_iff; right; right; exact Hyi|exact Hgi].
      + subst y0. rewrite <- Ef in Hgg. apply (one_save (ix i) pre xi ri yi gg (Hix i) Ei Hgg); [right; exact Hyi|exact Hgi]. }
  assert (Mono : forall id m, (forall i, earlier m (ix i)) -> history I inv s0 m -> (forall i g, nth_error order i = Some g -> matches_shard (st_shards (after I s0 m)) vs cols (fst g) id) -> In id r).
  { intros id m Em Hm Q. apply Qr. split; [discriminate|]. intros i g Hg. apply (Mat (ix i) i g id (Hix i) Hg). destruct (Q i g Hg) as (w & Hw & Cw). exists w. split; [exact Hw|].
    intros c Hc Ek. eapply carries_later; [apply Em|apply Hix|apply Cw; assumption]. }
  destruct (all_or_not order (fun i g => forall xi ri, tr (ix i) = pre ++ xi :: ri -> In (fst g) (p_shards xi))) as [All|(j & gj & Hj & Not)].
  { intros i g Hg. destruct (At i) as (xi & ri & Ei & _). destruct (in_dec N.eq_dec (fst g) (p_shards xi)) as [H|H].
    - left. intros xi' ri' Ei'. rewrite Ei in Ei'. apply app_inv_head in Ei'. injection Ei' as <- _. exact H.
    - right. intros C. exact (H (C xi ri Ei)). }
  - (* every shard had the save when it was read *)
    destruct (last_save_then I s0 (ix 0%nat) (ix K) pre x (Up 0%nat K (Nat.le_0_l K)) E0) as (m & x' & r' & Em & Emk & Ec & Etm & Etk & Ef').
    assert (Hm : history I inv s0 m) by (eapply history_earlier; [exact L|exact Emk|apply Hix]).
    exists m, K. split; [exact LenK|]. split; [exact Em|]. split; [exact Emk|]. split; [exact Ec|]. apply Still; [exact Em|exact Hm|]. intros id. split.
    + intros Hid i g Hg. destruct (R2 id Hid) as (gg & Eid & (w & Hw & Hwv) & Rg). destruct (At i) as (xi & ri & Ei & Efi & _).
      destruct (Rg i g xi ri Hg Ei Efi) as [Hcols Hpl]. exists w. split; [exact Hw|]. intros c Hc Ek. apply (carries_at _ _ _ _ Hm). destruct Hpl as [(y & Hy & Hgy & Hky)|[Hgx Hkx]].
      * exists y, gg. rewrite Etm, Ek. split; [apply in_app_iff; left; exact Hy|]. auto.
      * exists x', gg. rewrite Etm, Ek. split; [apply in_app_iff; right; left; reflexivity|]. split; [rewrite Ef'; exact Hgx|]. split; [|auto].
        destruct (earlier_past I s0 (ix i) (ix K) pre xi ri) as (x'' & r'' & Ek'' & _ & Inc); [apply Up; unfold K; pose proof (proj1 (nth_error_Some order i) ltac:(congruence)); lia|exact Ei|].
        rewrite Etk in Ek''. apply app_inv_head in Ek''. injection Ek'' as <- _. apply Inc, Hkx.
    + intros Q. apply Qr. split; [discriminate|]. intros i g Hg. apply (Mat (ix i) i g id (Hix i) Hg). destruct (Q i g Hg) as (w & Hw & Cw). exists w. split; [exact Hw|].
      intros c Hc Ek. specialize (Cw c Hc Ek). apply (carries_at _ _ _ _ Hm) in Cw as (y & gg & Hy & Hgy & Hky & Hcol & Hwv & Eid).
      destruct (At i) as (xi & ri & Ei & Efi & _). apply (carries_at _ _ _ _ (Hix i)). rewrite Etm in Hy. apply in_app_iff in Hy as [Hy|[Hy|[]]].
      * exists y, gg. split; [rewrite Ei; apply in_app_iff; left; exact Hy|]. auto.
      * subst y. exists xi, gg. split; [rewrite Ei; apply in_app_iff; right; left; reflexivity|]. split; [rewrite Efi, <- Ef'; exact Hgy|]. split; [rewrite Ek; eapply All; eassumption|auto].
  - (* one did not: nothing of it is answered *)
    exists (ix 0%nat), K. split; [exact LenK|]. split; [apply Up; lia|]. split; [apply Up; lia|]. split; [auto|]. apply Still; [apply Up; lia|apply Hix|]. intros id. split.
    + intros Hid i g Hg. destruct (R2 id Hid) as (gg & Eid & (w & Hw & Hwv) & Rg). destruct (At i) as (xi & ri & Ei & Efi & _).
      destruct (Rg i g xi ri Hg Ei Efi) as [Hcols Hpl]. exists w. split; [exact Hw|]. intros c Hc Ek. apply (carries_at _ _ _ _ (Hix 0%nat)). destruct Hpl as [(y & Hy & Hgy & Hky)|[Hgx Hkx]].
      * exists y, gg. rewrite E0, Ek. split; [apply in_app_iff; left; exact Hy|]. auto.
      * exfalso. destruct (At j) as (xj & rj & Ej & Efj & _). destruct (Rg j gj xj rj Hj Ej Efj) as [_ [(y & Hy & Hgy & _)|[_ Hkj]]].
        -- rewrite <- Efj in Hgx. apply (one_save (ix j) pre xj rj y gg (Hix j) Ej Hgx); [left; exact Hy|exact Hgy].
        -- apply Not. intros xj' rj' Ej'. rewrite Ej in Ej'. apply app_inv_head in Ej'. injection Ej' as <- _. exact Hkj.
    + apply (Mono id (ix 0%nat)); [intros i; apply Up; lia|apply Hix].
Qed.
End Spread.

(** A look-up reads at most as many shards as there are labels. *)
Lemma sadd_len c r : (List.length (sadd c r) <= S (List.length r))%nat.
Proof.
  induction r as [|x r IH]; cbn; [lia|]. destruct (c <? x); [cbn; lia|]. destruct (c =? x); cbn; lia.
Qed.
Lemma aset_len {K V} (eqb : K -> K -> bool) k (v : V) m : (List.length (aset eqb k v m) <= S (List.length m))%nat.
Proof. induction m as [|[a b] m IH]; cbn; [lia|]. destruct (eqb k a); cbn; lia. Qed.
Lemma group_len cols : (List.length (group_columns cols) <= List.length cols)%nat.
Proof.
  unfold group_columns. assert (G : forall l m, (List.length (fold_left group_add l m) <= List.length m + List.length l)%nat).
  { induction l as [|c l IH]; intros m; cbn [fold_left List.length]; [lia|]. specialize (IH (group_add m c)).
    assert (A : (List.length (group_add m c) <= S (List.length m))%nat) by apply aset_len. lia. }
  apply (G cols []).
Qed.
Lemma compile_len I fails (s : ti_state I) sc cols : compile_filters I fails s sc = Some cols -> (List.length cols <= Nat.max 1 (List.length (sc_filters sc)))%nat.
Proof.
  unfold compile_filters. assert (G : forall fs r, compile_loop I fails s (sc_scope sc) fs r = Some cols -> (List.length cols <= List.length r + List.length fs)%nat).
  { induction fs as [|f fs IH]; intros r E; cbn [compile_loop List.length] in *; [apply some_inj in E; subst; lia|].
    destruct (filter_label (sc_scope sc) f) as [l|]; [|apply IH in E; lia]. destruct (find_col I fails s l) as [[c|]|]; [|apply some_inj in E; subst; cbn; lia|discriminate].
    apply IH in E. pose proof (sadd_len c r). lia. }
  destruct (sc_filters sc) as [|f fs] eqn:Ef.
  - destruct (find_col I fails s _) as [[c|]|]; intros E; [| |discriminate]; apply some_inj in E; subst; cbn; lia.
  - intros E. apply G in E. cbn [List.length] in *. lia.
Qed.
