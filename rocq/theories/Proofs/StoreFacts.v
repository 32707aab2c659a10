(** Invariants of a store over its life. *)
From Verif.Model Require Import Base Labels Calendar View Otlp Transform Batch Rows Shards Dataframe Store.
From Verif.Spec Require Import Indexing Translator Frames Saves.
From Verif.Proofs Require Import BaseFacts CalendarFacts ViewFacts TransformFacts TransformLaws BatchFacts RowsFacts ShardsFacts DataframeFacts.
Open Scope N_scope.

(* ------------------------------------------------------------------ shards *)
Lemma add_views_spec frags k vs : forall t v p, In p (tx_view (add_views frags k vs t) v) <->
  In p (tx_view t v) \/ (In v vs /\ In p (frag_get frags k v)).
Proof.
  unfold add_views. induction vs as [|w vs IH]; intros t v p; cbn [fold_left In]; [tauto|].
  rewrite IH, tx_add_roaring_view. destruct (String.eqb_spec v w) as [->|NE].
  - rewrite in_sunion. tauto.
  - intuition congruence.
Qed.
Lemma add_views_sorted frags k vs : forall t, (forall v, ssorted (tx_view t v)) -> forall v, ssorted (tx_view (add_views frags k vs t) v).
Proof.
  unfold add_views. induction vs as [|w vs IH]; intros t H v; cbn [fold_left]; [apply H|].
  apply IH. intros x. rewrite tx_add_roaring_view. destruct (String.eqb x w); [apply ssorted_sunion|]; apply H.
Qed.
Lemma update_shards_spec frags order : forall s commits s' ok,
  (forall k vs, In (k, vs) order -> forall v, frag_get frags k v <> [] -> In v vs) ->
  (forall k v, ssorted (tx_view (sh_tx s k) v)) ->
  update_shards frags s order commits = (s', ok) ->
  (forall k v p, In p (tx_view (sh_tx s' k) v) <-> In p (tx_view (sh_tx s k) v) \/ (In k (committed order commits) /\ In p (frag_get frags k v))) /\
  (forall k v, ssorted (tx_view (sh_tx s' k) v)) /\
  (forall k, In k (sh_open s) \/ In k (committed order commits) -> In k (sh_open s')) /\
  (forall k, In k (sh_open s') -> In k (sh_open s) \/ In k (map fst order)) /\
  (ok = true -> committed order commits = map fst order).
Proof.
  induction order as [|[k vs] order IH]; intros s commits s' ok Hv Hs E; cbn [update_shards committed] in *.
  - apply pair_inj in E as [<- <-]. cbn [In map]. intuition.
  - destruct commits as [|c commits].
    { apply pair_inj in E as [<- <-]. cbn [In map fst]. intuition discriminate. }
    destruct (sh_update c s k (fun t => (add_views frags k vs t, true))) as [s1 r] eqn:U.
    assert (R : r = c). { revert U. unfold sh_update. destruct c; cbn; intros U; apply pair_inj in U as [_ <-]; reflexivity. }
    pose proof (sh_update_tx c s k (fun t => (add_views frags k vs t, true))) as T. rewrite U in T. cbn [fst snd] in T.
    pose proof (sh_update_open c s k (fun t => (add_views frags k vs t, true))) as O. rewrite U in O. cbn [fst] in O. subst r.
    destruct c.
    + destruct (IH s1 commits s' ok) as (B & S' & O1 & O2 & F); [intros k' vs' H; apply (Hv k' vs'); right; exact H| |exact E|].
      { intros j v. rewrite T. destruct (j =? k); [apply add_views_sorted; intros; apply Hs|apply Hs]. }
      split; [|split; [exact S'|split; [|split]]].
      * intros j v p. rewrite B, T. cbn [In]. destruct (N.eqb_spec j k) as [->|NE].
        -- rewrite add_views_spec. split; [intuition|]. intros [H|[[_|H1] H2]]; [tauto| |tauto]. left. right. split; [|exact H2].
           apply (Hv k vs (or_introl eq_refl)). intros C. rewrite C in H2. destruct H2.
        -- intuition congruence.
      * cbn [In]. intros j Hj. apply O1. rewrite O. intuition.
      * cbn [map fst In]. intros j Hj. apply O2 in Hj as [Hj|Hj]; [apply O in Hj; intuition|auto].
      * intros H. cbn [map fst]. f_equal. exact (F H).
    + apply pair_inj in E as [<- <-]. split; [|split; [|split; [|split]]].
      * intros j v p. rewrite T. cbn [In]. tauto.
      * intros j v. rewrite T. apply Hs.
      * cbn [In]. intros j [H|[]]. apply O. auto.
      * cbn [map fst In]. intros j Hj. apply O in Hj. intuition.
      * discriminate.
Qed.

(* ------------------------------------------------------------------ batch *)
Fixpoint entries (pools : list quantized_time) (fs : list filed) : list entry :=
  match fs with [] => [] | f :: t => Entry (f_id f) (int64_of_u64 (f_min f)) (Some (f_cols f)) (hd zero_qt pools) :: entries (tl pools) t end.
Lemma add_filed_fill fs : forall pools b, add_filed pools fs b = fill (entries pools fs) b.
Proof. induction fs as [|f fs IH]; intros pools b; cbn [add_filed entries fill fold_left]; [reflexivity|]. rewrite IH. reflexivity. Qed.
Lemma in_entries fs : forall pools e, In e (entries pools fs) ->
  exists f, In f fs /\ e_id e = f_id f /\ e_ts e = int64_of_u64 (f_min f) /\ e_cols e = Some (f_cols f) /\ (e_pool e = zero_qt \/ In (e_pool e) pools).
Proof.
  induction fs as [|f fs IH]; intros pools e H; cbn [entries] in H; [destruct H|]. destruct H as [<-|H].
  - exists f. cbn. repeat split; auto. destruct pools; cbn; auto.
  - apply IH in H as (f' & I1 & H1 & H2 & H3 & H4). exists f'. repeat split; auto; [right; exact I1|].
    destruct H4 as [H4|H4]; [auto|]. destruct pools; cbn in H4; auto. right. right. exact H4.
Qed.
Lemma entries_in fs : forall pools f, In f fs -> exists e, In e (entries pools fs) /\ e_id e = f_id f /\ e_ts e = int64_of_u64 (f_min f) /\ e_cols e = Some (f_cols f).
Proof.
  induction fs as [|f0 fs IH]; intros pools f H; [destruct H|]. cbn [entries]. destruct H as [->|H].
  - eexists. split; [left; reflexivity|]. auto.
  - destruct (IH (tl pools) f H) as (e & I1 & H1). exists e. split; [right; exact I1|exact H1].
Qed.
Lemma build_spec pools fs : (forall q, In q pools -> String.length q = 10%nat) -> (forall f, In f fs -> f_min f < two64) ->
  exists frags, snd (batch_build (add_filed pools fs batch_new)) = Some frags /\ frag_sorted frags /\
    forall k v p, In p (frag_get frags k v) <-> exists f col, In f fs /\ In col (f_cols f) /\ k = col / shard_width /\
      In v (std_views (int64_of_u64 (f_min f))) /\ p = pos (f_id f) col.
Proof.
  intros Hp Hf. rewrite add_filed_fill.
  assert (OK : Forall entry_ok (entries pools fs)).
  { apply Forall_forall. intros e He. apply in_entries in He as (f & I1 & _ & E2 & _ & P). split.
    - destruct P as [->|P]; [reflexivity|apply Hp, P].
    - rewrite E2. apply when_year4, Hf, I1. }
  destruct (make_fragments_spec (entries pools fs) [] OK) as (f & E & S & H); [intros s v; constructor|].
  exists f. split; [|split; [exact S|]].
  - unfold batch_build. rewrite fill_eq. cbn [b_ids b_labels b_frags b_times batch_new app]. rewrite E. reflexivity.
  - intros k v p. rewrite H. split.
    + intros [[]|(e & cols & col & He & Hc & Hin & Hk & Hv & Hpos)]. apply in_entries in He as (g & I1 & E1 & E2 & E3 & _).
      rewrite E3 in Hc. apply some_inj in Hc. subst cols. exists g, col. rewrite <- E1, <- E2. auto.
    + intros (g & col & I1 & Hin & Hk & Hv & Hpos). destruct (entries_in fs pools g I1) as (e & He & E1 & E2 & E3).
      right. exists e, (f_cols g), col. rewrite E1, E2. auto 10.
Qed.
Lemma frag_get_key (f : fragments) k v : frag_get f k v <> [] -> exists m, aget N.eqb k f = Some m /\ In v (map fst m).
Proof.
  unfold frag_get. destruct (aget N.eqb k f) as [m|]; [|congruence]. destruct (aget String.eqb v m) as [b|] eqn:E; [|congruence].
  intros _. exists m. split; [reflexivity|]. apply (aget_in _ string_eqb_reflect) in E. apply in_map_iff. exists (v, b). auto.
Qed.

(* the shards of a batch all come from a column *)
Definition keys_from (P : N -> Prop) (f : fragments) : Prop := forall k, In k (map fst f) -> P k.
Lemma frag_add_keys (P : N -> Prop) f s v p : P s -> keys_from P f -> keys_from P (frag_add f s v p).
Proof. intros Hs H k Hk. unfold frag_add in Hk. apply (in_aset_keys _ N_eqb_reflect) in Hk as [->|Hk]; auto. Qed.
Lemma fold_views_keys (P : N -> Prop) views s p : P s -> forall f, keys_from P f -> keys_from P (fold_left (fun f v => frag_add f s v p) views f).
Proof. intros Hs. induction views as [|v views IH]; intros f H; cbn [fold_left]; [exact H|]. apply IH, frag_add_keys; auto. Qed.
Lemma add_cols_keys (P : N -> Prop) id views cols f : (forall c, In c cols -> P (c / shard_width)) -> keys_from P f -> keys_from P (add_cols id views cols f).
Proof.
  unfold add_cols. generalize (two64 - 1) as sh. revert f. induction cols as [|c cols IH]; intros f sh Hc H; cbn [fold_left]; [exact H|].
  cbv zeta. apply IH; [intros; apply Hc; right; auto|]. destruct (N.eqb_spec (c / shard_width) sh) as [E|NE]; cbn [negb].
  - apply fold_views_keys; [rewrite <- E; apply Hc; left; reflexivity|exact H].
  - apply fold_views_keys; [apply Hc; left; reflexivity|exact H].
Qed.
Lemma make_fragments_keys (P : N -> Prop) labels : forall ids times f, (forall cols c, In (Some cols) labels -> In c cols -> P (c / shard_width)) ->
  keys_from P f -> keys_from P (fst (make_fragments ids labels times f)).
Proof.
  induction labels as [|l labels IH]; intros ids times f Hl H; destruct ids as [|id ids]; cbn [make_fragments]; try exact H.
  destruct times as [|t times]; [exact H|].
  destruct l as [cols|]; [|apply IH; [intros; eapply Hl; [right|]; eauto|exact H]].
  destruct (views_buf batch_quantum t) as [vs|]; [|exact H].
  apply IH; [intros; eapply Hl; [right|]; eauto|]. apply add_cols_keys; [intros c Hc; eapply Hl; [left; reflexivity|exact Hc]|exact H].
Qed.
Lemma build_keys pools fs frags : snd (batch_build (add_filed pools fs batch_new)) = Some frags ->
  forall k, In k (map fst frags) -> exists f col, In f fs /\ In col (f_cols f) /\ k = col / shard_width.
Proof.
  rewrite add_filed_fill. unfold batch_build. rewrite fill_eq. cbn [b_ids b_labels b_frags b_times batch_new app].
  pose proof (make_fragments_keys (fun k => exists f col, In f fs /\ In col (f_cols f) /\ k = col / shard_width) (map e_cols (entries pools fs)) (map e_id (entries pools fs))
    (map (fun e => qt_set (e_pool e) (e_ts e)) (entries pools fs)) []) as K.
  destruct (make_fragments _ _ _ _) as [f ok]. cbn [fst] in K. destruct ok; cbn [snd]; [|discriminate].
  intros E. apply some_inj in E. subst f. apply K; [|intros k []].
  intros cols c Hin Hc. apply in_map_iff in Hin as (e & E1 & He). apply in_entries in He as (g & I1 & _ & _ & E3 & _).
  rewrite E3 in E1. apply some_inj in E1. subst cols. exists g, c. auto.
Qed.

Lemma fold_views_nodup views s p : forall f : fragments, NoDup (map fst f) -> NoDup (map fst (fold_left (fun f v => frag_add f s v p) views f)).
Proof. induction views as [|v views IH]; intros f H; cbn [fold_left]; [exact H|]. apply IH. unfold frag_add. apply (nodup_aset _ N_eqb_reflect), H. Qed.
Lemma add_cols_nodup id views cols (f : fragments) : NoDup (map fst f) -> NoDup (map fst (add_cols id views cols f)).
Proof.
  unfold add_cols. generalize (two64 - 1) as sh. revert f. induction cols as [|c cols IH]; intros f sh H; cbn [fold_left]; [exact H|].
  cbv zeta. apply IH. apply fold_views_nodup, H.
Qed.
Lemma make_fragments_nodup labels : forall ids times f, NoDup (map fst f) -> NoDup (map fst (fst (make_fragments ids labels times f))).
Proof.
  induction labels as [|l labels IH]; intros ids times f H; destruct ids as [|id ids]; cbn [make_fragments]; try exact H.
  destruct times as [|t times]; [exact H|]. destruct l as [cols|]; [|apply IH, H].
  destruct (views_buf batch_quantum t) as [vs|]; [|exact H]. apply IH, add_cols_nodup, H.
Qed.
Lemma build_nodup pools fs frags : snd (batch_build (add_filed pools fs batch_new)) = Some frags -> NoDup (map fst frags).
Proof.
  rewrite add_filed_fill. unfold batch_build. rewrite fill_eq. cbn [b_ids b_labels b_frags b_times batch_new app].
  pose proof (make_fragments_nodup (map e_cols (entries pools fs)) (map e_id (entries pools fs))
    (map (fun e => qt_set (e_pool e) (e_ts e)) (entries pools fs)) [] (NoDup_nil _)) as K.
  destruct (make_fragments _ _ _ _) as [f ok]. cbn [fst] in K. destruct ok; cbn [snd]; [|discriminate].
  intros E. apply some_inj in E. subst f. exact K.
Qed.

(* ------------------------------------------------------------------ filings *)
Lemma filings_nth l : forall r fs g, In g (filings r l fs) ->
  exists i, nth_error l i = Some (g_sample g) /\ nth_error fs i = Some (g_filed g) /\ g_marker g = last_signal r (firstn i l).
Proof.
  induction l as [|s l IH]; intros r fs g H; [destruct H|]. destruct fs as [|f fs]; [destruct H|]. cbn [filings] in H. destruct H as [<-|H].
  - exists 0%nat. auto.
  - apply IH in H as (i & H1 & H2 & H3). exists (S i). cbn [nth_error firstn]. split; [exact H1|]. split; [exact H2|]. exact H3.
Qed.
Lemma filings_samples l : forall r fs, List.length fs = List.length l -> map g_sample (filings r l fs) = l.
Proof.
  induction l as [|s l IH]; intros r [|f fs] H; try discriminate; [reflexivity|]. cbn [filings map g_sample]. f_equal. apply IH. cbn in H. congruence.
Qed.
Lemma filings_filed l : forall r fs, List.length fs = List.length l -> map g_filed (filings r l fs) = fs.
Proof.
  induction l as [|s l IH]; intros r [|f fs] H; try discriminate; [reflexivity|]. cbn [filings map g_filed]. f_equal. apply IH. cbn in H. congruence.
Qed.
Lemma filings_combine l : forall r fs, List.length fs = List.length l ->
  combine l (map f_min fs) = map (fun g => (g_sample g, f_min (g_filed g))) (filings r l fs).
Proof.
  induction l as [|s l IH]; intros r [|f fs] H; try discriminate; [reflexivity|]. cbn [filings map combine g_sample g_filed]. f_equal. apply IH. cbn in H. congruence.
Qed.
Lemma fold_fmin_lt l : forall m, m < two64 -> (forall x, In x l -> x < two64) -> fold_left fmin l m < two64.
Proof.
  induction l as [|x l IH]; intros m Hm H; cbn [fold_left]; [exact Hm|]. apply IH; [|intros; apply H; right; auto].
  specialize (H x (or_introl eq_refl)). destruct (m =? 0); lia.
Qed.

(* ------------------------------------------------------------------ life of a store *)
Section Life.
Context (I : tr_impl) (inv : nat -> ti_state I -> Prop) (L : tr_stable I inv).
Notation store := (store I).

Definition shard_of (col : N) : N := col / shard_width.
Record Inv (b : nat) (st : store) (ps : list past) : Prop := {
  I_tr : inv b (st_tr st);
  I_frames : st_frames st = run_flushes (map p_flush ps);
  I_flush : Forall flush_ok (map p_flush ps);
  I_samples : forall x, In x ps -> fl_samples (p_flush x) = map (fun g => (g_sample g, f_min (g_filed g))) (p_filings x);
  I_filed : forall x g, In x ps -> In g (p_filings x) -> sample_ok I (g_marker g) (g_sample g) (st_tr st) (g_filed g) /\ f_min (g_filed g) < two64;
  I_bits : forall k v p, In p (tx_view (sh_tx (st_shards st) k) v) <->
     exists x g col, In x ps /\ In k (p_shards x) /\ In g (p_filings x) /\ In col (f_cols (g_filed g)) /\ k = shard_of col /\
       In v (views_of g) /\ p = pos (smp_id (g_sample g)) col;
  I_sorted : forall k v, ssorted (tx_view (sh_tx (st_shards st) k) v);
  I_done : forall x, In x ps -> p_shards x <> [] -> written (p_flush x) = fl_order (p_flush x);
  I_open : forall k, In k (sh_open (st_shards st)) -> k < 2^44
}.

Lemma new_store_inv b s : inv b s -> Inv b (new_store I s) [].
Proof.
  intros H. split; try (cbn; tauto).
  - constructor.
  - intros k v p. split; [intros []|intros (x & g & c & [] & _)].
  - intros k v. constructor.
Qed.

Lemma shard_lt c : c < two64 -> shard_of c < 2^44.
Proof. intros H. unfold shard_of. apply N.div_lt_upper_bound; [discriminate|]. exact H. Qed.

Lemma combine_app_samples {A B} (f : A -> B) l1 l2 : map f (l1 ++ l2) = map f l1 ++ map f l2. Proof. apply map_app. Qed.

Lemma run_flushes_snoc fls fl : run_flushes (fls ++ [fl]) = append_steps (run_flushes fls) (written fl).
Proof. unfold run_flushes. rewrite flat_map_app. cbn [flat_map]. rewrite app_nil_r. apply append_steps_app. Qed.

Lemma save_inv b st ps l ch : Inv (cost l + b) st ps -> event_ok I st (ESave l ch) ->
  Inv b (fst (save I st l ch)) (ps ++ [past_of I st l ch]) /\
  extends I (st_tr st) (st_tr (fst (save I st l ch))) /\
  (forall k, In k (sh_open (st_shards st)) \/ In k (p_shards (past_of I st l ch)) -> In k (sh_open (st_shards (fst (save I st l ch))))) /\
  (snd (save I st l ch) = true -> written (p_flush (past_of I st l ch)) = fl_order (p_flush (past_of I st l ch)) /\
     forall g col, In g (p_filings (past_of I st l ch)) -> In col (f_cols (g_filed g)) -> In (shard_of col) (p_shards (past_of I st l ch))).
Proof.
  intros [It If Ifl Is Ifi Ib Iso Id Io] [CO TS].
  unfold past_of. unfold choices_ok in CO. unfold save. unfold st_tr in *.
  destruct (process_samples (ti_translate I) (st_ctx st) l) as [c fs] eqn:EP. cbn [snd] in CO |- *.
  destruct (process_samples_laws I inv L l b (st_ctx st) c fs It EP) as (Hi & X & _ & LEN & OKs).
  set (gs := filings (ctx_signal I (st_ctx st)) l fs) in *.
  assert (GOK : forall g, In g gs -> sample_ok I (g_marker g) (g_sample g) (c_tr c) (g_filed g) /\ f_min (g_filed g) < two64).
  { intros g Hg. pose proof Hg as Hg0. apply filings_nth in Hg as (i & H1 & H2 & H3). pose proof (OKs i _ _ H1 H2) as O. rewrite <- H3 in O. split; [exact O|].
    destruct O as (_ & O & _). rewrite fold_time in O. apply pair_inj in O as [O _]. rewrite O. cbn [fst]. apply fold_fmin_lt; [reflexivity|].
    intros x Hx. apply in_map_iff in Hx as ([t1 t2] & <- & Hx). apply (TS (g_sample g) t1 t2); [|exact Hx]. eapply nth_error_In, H1. }
  assert (FG : map g_filed gs = fs) by (apply filings_filed, LEN).
  assert (FM : forall f, In f fs -> f_min f < two64).
  { intros f Hf. rewrite <- FG in Hf. apply in_map_iff in Hf as (g & <- & Hg). apply (GOK g Hg). }
  assert (CM : combine l (map f_min fs) = map (fun g => (g_sample g, f_min (g_filed g))) gs) by (apply filings_combine, LEN).
  destruct CO as (CP & CQ & CV & CS).
  destruct (build_spec (ch_pools ch) fs CP FM) as (frags & EB & SB & BB). rewrite EB in CS |- *.
  assert (TS2 : forall p, In p (combine l (map f_min fs)) -> snd p < two64).
  { intros p Hp. rewrite CM in Hp. apply in_map_iff in Hp as (g & <- & Hg). apply (GOK g Hg). }
  destruct (groups_exact (ch_pool ch) (combine l (map f_min fs)) CQ TS2) as (m & EM & NDm & Gm). rewrite EM in CV |- *.
  specialize (CV m eq_refl). destruct (CS frags eq_refl) as [CS1 CS2].
  set (fl := Flush (combine l (map f_min fs)) (ch_pool ch) (ch_views ch) (ch_views_done ch)).
  assert (FOK : flush_ok fl). { split; [exact CQ|]. split; [exact TS2|]. exists m. auto. }
  assert (EFR : append_steps (st_frames st) (firstn (ch_views_done ch) (ch_views ch)) = run_flushes (map p_flush ps ++ [fl])).
  { rewrite run_flushes_snoc, <- If. reflexivity. }
  assert (BG : forall k v p, In p (frag_get frags k v) <-> exists g col, In g gs /\ In col (f_cols (g_filed g)) /\ k = shard_of col /\
     In v (views_of g) /\ p = pos (smp_id (g_sample g)) col).
  { intros k v p. rewrite BB. split.
    - intros (f & col & Hf & Hc & Hk & Hv & Hp). rewrite <- FG in Hf. apply in_map_iff in Hf as (g & <- & Hg). exists g, col.
      destruct (GOK g Hg) as ((E & _) & _). rewrite <- E. auto.
    - intros (g & col & Hg & Hc & Hk & Hv & Hp). exists (g_filed g), col. destruct (GOK g Hg) as ((E & _) & _). rewrite E.
      split; [rewrite <- FG; apply in_map, Hg|]. auto. }
  assert (GENINV : forall sh cm,
     (forall k v p, In p (tx_view (sh_tx sh k) v) <-> In p (tx_view (sh_tx (st_shards st) k) v) \/ (In k cm /\ In p (frag_get frags k v))) ->
     (forall k v, ssorted (tx_view (sh_tx sh k) v)) -> (cm <> [] -> written fl = fl_order fl) -> (forall k, In k (sh_open sh) -> k < 2^44) ->
     Inv b (Store c (append_steps (st_frames st) (firstn (ch_views_done ch) (ch_views ch))) sh) (ps ++ [Past gs fl cm])).
  { intros sh cm B1 B2 B3 B4. split; cbn [st_tr st_ctx st_frames st_shards].
    - exact Hi.
    - rewrite EFR, map_app. reflexivity.
    - rewrite map_app. apply Forall_app. split; [exact Ifl|]. constructor; [exact FOK|constructor].
    - intros x Hx. apply in_app_iff in Hx as [Hx|[<-|[]]]; [apply Is, Hx|]. exact CM.
    - intros x g Hx Hg. apply in_app_iff in Hx as [Hx|[<-|[]]]; [|apply GOK, Hg].
      destruct (Ifi x g Hx Hg) as [A1 A2]. split; [|exact A2]. eapply sample_ok_ext; eauto.
    - intros k v p. rewrite B1, Ib, BG. split.
      + intros [(x & g & col & Hx & H)|[Hk (g & col & Hg & H)]].
        * exists x, g, col. split; [apply in_app_iff; auto|exact H].
        * exists (Past gs fl cm), g, col. split; [apply in_app_iff; right; left; reflexivity|]. cbn [p_shards p_filings]. auto.
      + intros (x & g & col & Hx & Hk & Hg & H). apply in_app_iff in Hx as [Hx|[<-|[]]].
        * left. exists x, g, col. auto.
        * right. split; [exact Hk|]. exists g, col. auto.
    - exact B2.
    - intros x Hx Hne. apply in_app_iff in Hx as [Hx|[<-|[]]]; [apply Id; auto|]. apply B3, Hne.
    - exact B4. }
  assert (WR : Nat.ltb (ch_views_done ch) (List.length (ch_views ch)) = false -> written fl = fl_order fl).
  { intros H. apply Nat.ltb_ge in H. unfold written, fl. cbn [fl_done fl_order]. apply firstn_all2, H. }
  destruct (Nat.ltb (ch_views_done ch) (List.length (ch_views ch))) eqn:ELT; cbn [fst snd st_ctx st_shards p_shards p_flush p_filings].
  - split; [|split; [exact X|split; [|discriminate]]].
    + apply GENINV; [|exact Iso|congruence|exact Io]. intros k v p. cbn [In]. tauto.
    + intros k [H|[]]; exact H.
  - destruct (update_shards frags (st_shards st) (ch_shards ch) (ch_commits ch)) as [sh ok] eqn:EU. cbn [fst snd st_ctx st_shards].
    destruct (update_shards_spec frags (ch_shards ch) (st_shards st) (ch_commits ch) sh ok) as (B & S' & O1 & O2 & F); [|exact Iso|exact EU|].
    { intros k vs Hk v Hne. destruct (CS2 k vs Hk) as (mm & A & P). destruct (frag_get_key frags k v Hne) as (mm' & A' & Hin).
      rewrite A in A'. apply some_inj in A'. subst mm'. revert Hin. apply Permutation_in, P. }
    split; [|split; [exact X|split; [exact O1|]]].
    + apply GENINV; [exact B|exact S'|intros _; apply WR; reflexivity|].
      intros k Hk. apply O2 in Hk as [Hk|Hk]; [apply Io, Hk|]. apply (Permutation_in _ (Permutation_sym CS1)) in Hk.
      destruct (build_keys _ _ _ EB k Hk) as (f & col & Hf & Hc & ->). rewrite <- FG in Hf. apply in_map_iff in Hf as (g & <- & Hg).
      destruct (GOK g Hg) as ((_ & _ & _ & C & _) & _). apply C in Hc as (lb & _ & Fd). apply (tl_bound _ _ L _ _ _ _ Hi) in Fd.
      apply shard_lt, Fd.
    + intros ->. split; [apply WR; reflexivity|]. intros g col Hg Hc. rewrite (F eq_refl).
      apply (Permutation_in _ CS1).
      assert (NE : frag_get frags (shard_of col) (view_Y (int64_of_u64 (f_min (g_filed g)))) <> []).
      { assert (Q : In (pos (smp_id (g_sample g)) col) (frag_get frags (shard_of col) (view_Y (int64_of_u64 (f_min (g_filed g)))))).
        { apply BG. exists g, col. split; [exact Hg|]. split; [exact Hc|]. split; [reflexivity|]. split; [left; reflexivity|reflexivity]. }
        intros C. rewrite C in Q. destruct Q. }
      destruct (frag_get_key _ _ _ NE) as (mm & A & _). apply (aget_in _ N_eqb_reflect) in A. apply in_map_iff. exists (shard_of col, mm). auto.
Qed.

Lemma translate_all_laws keys : forall b s, inv (List.length keys + b) s -> inv b (translate_all I s keys) /\ extends I s (translate_all I s keys).
Proof.
  induction keys as [|k keys IH]; intros b s H; cbn [List.length Nat.add] in H.
  - split; [exact H|apply extends_refl].
  - unfold translate_all. cbn [fold_left]. destruct (ti_translate I s k) as [s1 n] eqn:E. cbn [fst]. fold (translate_all I s1 keys).
    destruct (tl_step _ _ L _ _ _ _ _ H E) as (H1 & _). destruct (IH _ _ H1) as [H2 X2]. split; [exact H2|].
    eapply extends_trans; [|exact X2]. eapply tr_step_ext; eauto.
Qed.
Lemma restart_inv b st ps keys : Inv (S (List.length keys) + b) st ps ->
  Inv b (restart I st keys) ps /\ extends I (st_tr st) (st_tr (restart I st keys)).
Proof.
  intros [It If Ifl Is Ifi Ib Iso Id Io].
  assert (It' : inv (List.length keys + S b) (st_tr st)) by (revert It; apply (inv_le I inv L); lia).
  destruct (translate_all_laws keys (S b) (st_tr st) It') as [H1 X1]. destruct (tl_reopen _ _ L _ _ H1) as [H2 F2].
  assert (X : extends I (st_tr st) (st_tr (restart I st keys))).
  { intros k n Hk. unfold restart, st_tr, new_ctx. cbn [st_ctx c_tr]. rewrite F2. apply X1, Hk. }
  split; [|exact X]. split; unfold restart; cbn [st_tr st_ctx st_frames st_shards new_ctx c_tr sh_new sh_disk sh_open].
  - exact H2.
  - exact If.
  - exact Ifl.
  - exact Is.
  - intros x g Hx Hg. destruct (Ifi x g Hx Hg) as [A1 A2]. split; [|exact A2]. eapply (sample_ok_ext I inv); [exact H2|exact X|exact A1].
  - exact Ib.
  - exact Iso.
  - exact Id.
  - intros k [].
Qed.

Lemma step_inv b st ps e : Inv (event_cost e + b) st ps -> event_ok I st e ->
  Inv b (step I st e) (ps ++ match e with ESave l ch => [past_of I st l ch] | ERestart _ => [] end) /\
  extends I (st_tr st) (st_tr (step I st e)).
Proof.
  intros H OK. destruct e as [l ch|keys]; cbn [event_cost] in H; cbn [step].
  - destruct (save_inv b st ps l ch H OK) as (A & B & _). auto.
  - rewrite app_nil_r. apply restart_inv, H.
Qed.
Lemma events_cost_cons e es : events_cost (e :: es) = (event_cost e + events_cost es)%nat. Proof. reflexivity. Qed.
Lemma run_inv es : forall b st ps, Inv (events_cost es + b) st ps -> possible I st es ->
  Inv b (run I st es) (ps ++ trace I st es) /\ extends I (st_tr st) (st_tr (run I st es)).
Proof.
  induction es as [|e es IH]; intros b st ps H OK.
  - cbn [trace run fold_left]. rewrite app_nil_r. split; [exact H|apply extends_refl].
  - rewrite events_cost_cons, <- Nat.add_assoc in H. destruct OK as [OK1 OK2]. destruct (step_inv _ _ _ _ H OK1) as [H1 X1].
    destruct (IH _ _ _ H1 OK2) as [H2 X2]. cbn [trace]. rewrite app_assoc. split; [exact H2|].
    eapply extends_trans; eauto.
Qed.
Lemma run_app st a b : run I st (a ++ b) = run I (run I st a) b. Proof. apply fold_left_app. Qed.
Lemma trace_app a : forall st b, trace I st (a ++ b) = trace I st a ++ trace I (run I st a) b.
Proof. induction a as [|e a IH]; intros st b; [reflexivity|]. cbn [trace app run fold_left]. rewrite IH, app_assoc. reflexivity. Qed.
Lemma possible_app a : forall st b, possible I st (a ++ b) <-> possible I st a /\ possible I (run I st a) b.
Proof. induction a as [|e a IH]; intros st b; cbn [possible app run fold_left]; [tauto|]. rewrite IH. tauto. Qed.
Lemma events_cost_app a b : events_cost (a ++ b) = (events_cost a + events_cost b)%nat.
Proof. unfold events_cost. rewrite map_app, list_sum_app. reflexivity. Qed.

(** From an empty store. *)
Lemma life b s0 es : inv (events_cost es + b) s0 -> possible I (new_store I s0) es ->
  Inv b (run I (new_store I s0) es) (trace I (new_store I s0) es).
Proof. intros H OK. apply (run_inv es b _ [] (new_store_inv _ _ H) OK). Qed.

Definition is_restart (e : event) : bool := match e with ERestart _ => true | _ => false end.
Lemma open_kept es : forall b st ps k, Inv (events_cost es + b) st ps -> possible I st es -> existsb is_restart es = false ->
  In k (sh_open (st_shards st)) -> In k (sh_open (st_shards (run I st es))).
Proof.
  induction es as [|e es IH]; intros b st ps k H OK NR Hk; [exact Hk|]. rewrite events_cost_cons, <- Nat.add_assoc in H.
  destruct OK as [OK1 OK2]. destruct e as [l ch|keys]; [|discriminate]. cbn [existsb is_restart orb] in NR.
  destruct (save_inv _ _ _ _ _ H OK1) as (H1 & _ & O & _). eapply IH; eauto.
Qed.

(** Samples given to saves are those of the flushes. *)
Lemma trace_samples es : forall b st ps, Inv (events_cost es + b) st ps -> possible I st es ->
  all_samples (map p_flush (trace I st es)) = given es.
Proof.
  induction es as [|e es IH]; intros b st ps H OK; [reflexivity|]. rewrite events_cost_cons, <- Nat.add_assoc in H. destruct OK as [OK1 OK2].
  destruct (step_inv _ _ _ _ H OK1) as [H1 _]. specialize (IH _ _ _ H1 OK2).
  cbn [trace]. rewrite map_app. unfold all_samples in *. rewrite flat_map_app. unfold given in *. cbn [flat_map]. rewrite IH. f_equal.
  destruct e as [l ch|keys]; [|reflexivity]. cbn [map flat_map]. rewrite app_nil_r.
  unfold past_of. cbn [p_flush fl_samples].
  destruct (process_samples (ti_translate I) (st_ctx st) l) as [c fs] eqn:EP. cbn [snd].
  assert (It : inv (cost l + (events_cost es + b)) (c_tr (st_ctx st))) by apply H.
  destruct (process_samples_laws I inv L l _ (st_ctx st) c fs It EP) as (_ & _ & _ & LEN & _).
  clear - LEN. revert fs LEN. induction l as [|s l IHl]; intros [|f fs] LEN; try discriminate; [reflexivity|]. cbn. f_equal. apply IHl. cbn in LEN. congruence.
Qed.
End Life.
