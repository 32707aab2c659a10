(** C23-C28: the index of sample/column bits, one database per shard (internal/shards). *)
From Verif.Model Require Import Base View Batch Rows Shards.
From Verif.Spec Require Import Sets.
From Verif.Proofs Require Import BaseFacts RowsFacts ShardsFacts.
Open Scope N_scope.

(** Specification vocabulary.  [carries s view id col]: in the index contents, sample [id] has column
    [col] in [view]. *)
Definition carries (s : shards) (view : string) (id col : N) : Prop :=
  In (id * 2^20 + col mod 2^20) (tx_view (sh_tx s (col / 2^20)) view).
(** Sample [id] has, in some one consulted view, all requested columns of shard [k]. *)
Definition matches_shard (s : shards) (views : list string) (cols : nset) (k id : N) : Prop :=
  exists v, In v views /\ forall c, In c cols -> c / 2^20 = k -> carries s v id c.
(** What a caller expects of a look-up. *)
Definition matches (s : shards) (views : list string) (cols : nset) (id : N) : Prop :=
  forall c, In c cols -> matches_shard s views cols (c / 2^20) id.
(** A look-up of [cols] with the shards visited in some order, and the set of ids it answers. *)
Definition lookup (s : shards) (views : list string) (cols : nset) (order : list (N * list N)) : option nset := rows_loop s views order None.
Definition visits (order : list (N * list N)) (cols : nset) : Prop := Permutation (group_columns cols) order.

Lemma group_in cols order k l : visits order cols -> In (k, l) order <-> l = filter (fun c => c / shard_width =? k) cols /\ l <> [].
Proof.
  intros P. rewrite <- group_columns_spec. split; apply Permutation_in; [apply Permutation_sym, P|exact P].
Qed.
Lemma group_of cols order c : visits order cols -> In c cols -> In (c / shard_width, filter (fun x => x / shard_width =? c / shard_width) cols) order.
Proof.
  intros P I. apply (group_in cols order _ _ P). split; [reflexivity|]. intros C.
  assert (J : In c (filter (fun x => x / shard_width =? c / shard_width) cols)) by (apply filter_In; split; [exact I|apply N.eqb_refl]).
  rewrite C in J. destruct J.
Qed.
Lemma group_match s views cols k l : l = filter (fun c => c / shard_width =? k) cols -> l <> [] ->
  forall id, In id (shard_match s views k l) <-> matches_shard s views cols k id.
Proof.
  intros -> NE id. destruct (shard_match_spec s views k _ NE) as [_ H]. rewrite H. unfold matches_shard, carries.
  change (2^20) with shard_width. split; intros (v & I & Q); exists v; (split; [exact I|]).
  - intros c Hc E. rewrite E. apply Q. apply filter_In. split; [exact Hc|apply N.eqb_eq, E].
  - intros c Hc. apply filter_In in Hc as [Hc E]. apply N.eqb_eq in E. specialize (Q c Hc E). rewrite E in Q. exact Q.
Qed.
Lemma nonempty_iff (l : list N) : l <> [] <-> exists x, In x l.
Proof. destruct l as [|a l]; split; [congruence|intros (x & [])|intros _; exists a; left; reflexivity|discriminate]. Qed.

(** What a look-up really answers: every shard must be open, and shards in which nothing matches are
    ignored as long as some shard matches. *)
Theorem C24_lookup_exact : forall s views cols order, visits order cols ->
  forall id, res_in id (lookup s views cols order) <->
    (forall c, In c cols -> In (c / 2^20) (sh_open s)) /\
    (exists c, In c cols /\ exists id', matches_shard s views cols (c / 2^20) id') /\
    (forall c, In c cols -> (exists id', matches_shard s views cols (c / 2^20) id') -> matches_shard s views cols (c / 2^20) id).
Proof.
  intros s views cols order P id. destruct (rows_loop_spec s views order None I) as [_ H]. unfold lookup. rewrite H.
  change (2^20) with shard_width. split.
  - intros (H1 & H2 & _ & H4). split; [|split].
    + intros c Hc. apply is_open_spec. apply (H1 _ (group_of _ _ c P Hc)).
    + destruct (H2 eq_refl) as ([k l] & I & NE). cbn [fst snd] in NE. apply (group_in _ _ _ _ P) in I as [E NEl].
      apply nonempty_iff in NEl as (c & Hc). subst l. apply filter_In in Hc as Hc'. destruct Hc' as [Hc1 Hc2]. apply N.eqb_eq in Hc2.
      exists c. split; [exact Hc1|]. rewrite Hc2. apply nonempty_iff in NE as (id' & Hid). exists id'.
      apply (group_match s views cols k _ eq_refl); [|exact Hid]. intros C. rewrite C in Hc. destruct Hc.
    + intros c Hc (id' & Hid). pose proof (group_of _ _ c P Hc) as G. apply (group_in _ _ _ _ P) in G as G'. destruct G' as [_ NEl].
      specialize (H4 _ G). cbn [fst snd] in H4. apply (group_match s views cols _ _ eq_refl NEl). apply H4. apply nonempty_iff.
      exists id'. apply (group_match s views cols _ _ eq_refl NEl). exact Hid.
  - intros (H1 & (c & Hc & id' & Hid) & H3). split; [|split; [|split; [discriminate|]]].
    + intros [k l] I. cbn [fst]. apply (group_in _ _ _ _ P) in I as [-> NE]. apply nonempty_iff in NE as (c' & Hc').
      apply filter_In in Hc' as [Hc' E]. apply N.eqb_eq in E. apply is_open_spec. rewrite <- E. auto.
    + intros _. pose proof (group_of _ _ c P Hc) as G. exists (c / shard_width, filter (fun x => x / shard_width =? c / shard_width) cols).
      split; [exact G|]. cbn [fst snd]. apply (group_in _ _ _ _ P) in G as [_ NE]. apply nonempty_iff. exists id'.
      apply (group_match s views cols _ _ eq_refl NE). exact Hid.
    + intros [k l] I NE. cbn [fst snd] in *. apply (group_in _ _ _ _ P) in I as [-> NEl]. apply (group_match s views cols _ _ eq_refl NEl).
      apply nonempty_iff in NEl as NEl'. destruct NEl' as (c' & Hc'). apply filter_In in Hc' as [Hc' E]. apply N.eqb_eq in E. rewrite <- E.
      apply H3; [exact Hc'|]. apply nonempty_iff in NE as (i & Hi). exists i. rewrite E. apply (group_match s views cols _ _ eq_refl NEl). exact Hi.
Qed.

(** C23: all requested columns in one open shard. *)
Theorem C23_single_shard_lookup_exact : forall s views cols order k, visits order cols -> cols <> [] ->
  (forall c, In c cols -> c / 2^20 = k) -> In k (sh_open s) ->
  forall id, res_in id (lookup s views cols order) <-> exists v, In v views /\ forall c, In c cols -> carries s v id c.
Proof.
  intros s views cols order k P NE One Op id. rewrite (C24_lookup_exact _ _ _ _ P). apply nonempty_iff in NE as (c0 & H0).
  assert (M : forall i, matches_shard s views cols k i <-> exists v, In v views /\ forall c, In c cols -> carries s v i c).
  { intros i. unfold matches_shard. split; intros (v & I & H); exists v; split; auto. }
  rewrite <- M. split.
  - intros (_ & (c & Hc & i & Hi) & H). specialize (H c Hc). rewrite (One c Hc) in *. apply H. eauto.
  - intros H. split; [intros c Hc; rewrite (One c Hc); exact Op|]. split; [exists c0; split; [exact H0|]; rewrite (One c0 H0); eauto|].
    intros c Hc _. rewrite (One c Hc). exact H.
Qed.

(** C24: across shards the answer is the conjunction when every shard concerned has some match ... *)
Theorem C24_lookup_across_shards_partial : forall s views cols order, visits order cols -> cols <> [] ->
  (forall c, In c cols -> In (c / 2^20) (sh_open s)) ->
  (forall c, In c cols -> exists id', matches_shard s views cols (c / 2^20) id') ->
  forall id, res_in id (lookup s views cols order) <-> matches s views cols id.
Proof.
  intros s views cols order P NE Op Some_ id. rewrite (C24_lookup_exact _ _ _ _ P). apply nonempty_iff in NE as (c0 & H0). unfold matches. split.
  - intros (_ & _ & H) c Hc. apply H; auto.
  - intros H. split; [exact Op|]. split; [exists c0; split; auto|]. intros c Hc _. auto.
Qed.
(** ... and always contains the conjunction, when all shards are open; *)
Theorem C24_lookup_complete : forall s views cols order, visits order cols -> cols <> [] ->
  (forall c, In c cols -> In (c / 2^20) (sh_open s)) ->
  forall id, matches s views cols id -> res_in id (lookup s views cols order).
Proof.
  intros s views cols order P NE Op id H. rewrite (C24_lookup_exact _ _ _ _ P). apply nonempty_iff in NE as (c0 & H0).
  split; [exact Op|]. split; [exists c0; split; [exact H0|exists id; apply H, H0]|]. intros c Hc _. auto.
Qed.
(** ... but it may answer samples that carry only part of the requested columns: a shard where nothing
    matches is skipped (shards.go:146).  Columns 5 and 2^20 are requested; sample 7 has only column 5. *)
Definition two_shards : shards :=
  let s := sh_new [] in
  let s := fst (sh_update true s 0 (fun t => (tx_add_roaring "std_2024" [pos 7 5] t, true))) in
  fst (sh_update true s 1 (fun t => (tx_add_roaring "std_2024" [pos 8 1048577] t, true))).
Theorem C24_lookup_across_shards_refuted :
  exists s views cols order id, visits order cols /\ (forall c, In c cols -> In (c / 2^20) (sh_open s)) /\
    res_in id (lookup s views cols order) /\ ~ matches s views cols id.
Proof.
  exists two_shards, ["std_2024"], [5; 1048576], (group_columns [5; 1048576]), 7. split; [apply Permutation_refl|].
  split; [intros c [<-|[<-|[]]]; vm_compute; auto|]. split; [vm_compute; auto|].
  intros H. destruct (H 1048576) as (v & [<-|[]] & Q); [right; left; reflexivity|].
  specialize (Q 1048576 (or_intror (or_introl eq_refl)) eq_refl). vm_compute in Q. destruct Q as [Q|[]]. discriminate.
Qed.

(** C25: the order in which the shards are visited does not matter. *)
Theorem C25_lookup_order_irrelevant : forall s views cols o1 o2, visits o1 cols -> visits o2 cols ->
  (forall id, res_in id (lookup s views cols o1) <-> res_in id (lookup s views cols o2)) /\
  (forall b1 b2, lookup s views cols o1 = Some b1 -> lookup s views cols o2 = Some b2 -> b1 = b2).
Proof.
  intros s views cols o1 o2 P1 P2.
  assert (Q : forall id, res_in id (lookup s views cols o1) <-> res_in id (lookup s views cols o2)).
  { intros id. rewrite (C24_lookup_exact _ _ _ _ P1), (C24_lookup_exact _ _ _ _ P2). tauto. }
  split; [exact Q|]. intros b1 b2 E1 E2.
  destruct (rows_loop_spec s views o1 None I) as [S1 _]. destruct (rows_loop_spec s views o2 None I) as [S2 _].
  unfold lookup in *. rewrite E1, E2 in *. apply ssorted_ext; [exact S1|exact S2|exact Q].
Qed.

(** C26: a restart.  Nothing is open after it, so every look-up answers nothing until the shards are
    touched again (nothing reopens them for reading). *)
Theorem C26_lookup_after_restart_is_empty_refuted :
  (forall s views cols order id, visits order cols -> cols <> [] -> ~ res_in id (lookup (sh_new (sh_disk s)) views cols order)) /\
  exists s views cols order id, visits order cols /\ cols <> [] /\ res_in id (lookup s views cols order).
Proof.
  split.
  - intros s views cols order id P NE H. apply (C24_lookup_exact _ _ _ _ P) in H as (H & _). apply nonempty_iff in NE as (c & Hc).
    exact (H c Hc).
  - exists two_shards, ["std_2024"], [5], (group_columns [5]), 7. split; [apply Permutation_refl|]. split; [discriminate|]. vm_compute. auto.
Qed.
(** The contents themselves survive: once each shard has been touched the answers are the old ones. *)
Theorem C26_lookup_after_reopening_partial : forall s views cols order touched, visits order cols ->
  (forall c, In c cols -> In (c / 2^20) (sh_open s)) ->
  (forall c, In c cols -> In (c / 2^20) touched) ->
  forall id, res_in id (lookup (fold_left sh_view touched (sh_new (sh_disk s))) views cols order) <->
             res_in id (lookup s views cols order).
Proof.
  intros s views cols order touched P Op T id.
  set (s' := fold_left sh_view touched (sh_new (sh_disk s))).
  assert (G : forall l s0, sh_disk (fold_left sh_view l s0) = sh_disk s0 /\ forall k, In k l \/ In k (sh_open s0) -> In k (sh_open (fold_left sh_view l s0))).
  { induction l as [|k l IH]; intros s0; cbn [fold_left In]; [split; [reflexivity|tauto]|]. destruct (IH (sh_view s0 k)) as [A B].
    unfold sh_view in *. split; [rewrite A; apply sh_get_disk|]. intros j Hj. apply B. rewrite sh_get_open. intuition congruence. }
  destruct (G touched (sh_new (sh_disk s))) as [D O]. fold s' in D, O. cbn [sh_new sh_disk] in D.
  assert (T' : forall k, sh_tx s' k = sh_tx s k) by (intros k; unfold sh_tx; rewrite D; reflexivity).
  assert (M : forall k i, matches_shard s' views cols k i <-> matches_shard s views cols k i).
  { intros k i. unfold matches_shard, carries. split; intros (v & I & H); exists v; (split; [exact I|]); intros c Hc E; specialize (H c Hc E); rewrite T' in *; exact H. }
  rewrite !(C24_lookup_exact _ _ _ _ P). split.
  - intros (_ & (c & Hc & i & Hi) & H). split; [exact Op|]. split; [exists c; split; [exact Hc|exists i; apply M, Hi]|].
    intros c' Hc' (j & Hj). apply M, H; [exact Hc'|]. exists j. apply M, Hj.
  - intros (_ & (c & Hc & i & Hi) & H). split; [intros c' Hc'; apply O; left; apply T, Hc'|]. split; [exists c; split; [exact Hc|exists i; apply M, Hi]|].
    intros c' Hc' (j & Hj). apply M, H; [exact Hc'|]. exists j. apply M, Hj.
Qed.

(** C27: an update is all or nothing and touches one shard.  The callback is any sequence of additions
    that stops with an error after [n] of them, or runs to the end; the commit succeeds or fails. *)
Definition additions (l : list (string * nset)) : tx -> tx := fold_left (fun t p => tx_add_roaring (fst p) (snd p) t) l.
Definition failing_after (n : nat) (l : list (string * nset)) : tx -> tx * bool :=
  fun t => (additions (firstn n l) t, Nat.leb (List.length l) n).
Definition bits (s : shards) (k : N) (view : string) (p : N) : Prop := In p (tx_view (sh_tx s k) view).

Lemma additions_spec l : forall t v p, In p (tx_view (additions l t) v) <-> In p (tx_view t v) \/ exists b, In (v, b) l /\ In p b.
Proof.
  induction l as [|[w b] l IH]; intros t v p; unfold additions in *; cbn [fold_left].
  - split; [auto|intros [H|(b & [] & _)]; exact H].
  - rewrite IH, tx_add_roaring_view. cbn [fst snd In]. destruct (String.eqb_spec v w) as [->|NE].
    + rewrite in_sunion. split.
      * intros [[H|H]|(b' & I & H)]; [auto|right; exists b; auto|right; exists b'; auto].
      * intros [H|(b' & [E|I] & H)]; [auto| |right; exists b'; auto]. apply pair_inj in E as [_ ->]. auto.
    + split; [intros [H|(b' & I & H)]; [auto|right; exists b'; auto]|].
      intros [H|(b' & [E|I] & H)]; [auto|apply pair_inj in E as [E _]; congruence|right; exists b'; auto].
Qed.
Theorem C27_update_all_or_nothing : forall commit_ok s k n l s' ok,
  sh_update commit_ok s k (failing_after n l) = (s', ok) ->
  (ok = false <-> (n < List.length l)%nat \/ commit_ok = false) /\
  (forall j v p, bits s' j v p <-> bits s j v p \/ (ok = true /\ j = k /\ exists b, In (v, b) l /\ In p b)).
Proof.
  intros cm s k n l s' ok E. pose proof (sh_update_tx cm s k (failing_after n l)) as T. rewrite E in T. cbn [fst snd] in T.
  assert (O : ok = (Nat.leb (List.length l) n && cm)%bool).
  { revert E. unfold sh_update, failing_after. destruct (Nat.leb (List.length l) n && cm)%bool; intros H; apply pair_inj in H as [_ <-]; reflexivity. }
  split.
  - rewrite O. rewrite Bool.andb_false_iff, Nat.leb_gt. tauto.
  - intros j v p. unfold bits. rewrite T. destruct ok.
    + symmetry in O. apply Bool.andb_true_iff in O as [O _]. apply Nat.leb_le in O.
      destruct (N.eqb_spec j k) as [->|NE].
      * cbn [failing_after fst]. rewrite firstn_all2 by exact O. rewrite additions_spec. intuition.
      * intuition congruence.
    + intuition discriminate.
Qed.
(** For an arbitrary callback: nothing changes unless it and the commit succeed, and then exactly its
    result is visible; other shards never change. *)
Theorem C27_update_arbitrary_callback : forall commit_ok s k f s' ok,
  sh_update commit_ok s k f = (s', ok) ->
  (forall j, j <> k -> sh_tx s' j = sh_tx s j) /\
  (ok = false -> sh_tx s' k = sh_tx s k) /\
  (ok = true -> sh_tx s' k = fst (f (sh_tx s k)) /\ snd (f (sh_tx s k)) = true).
Proof.
  intros cm s k f s' ok E. pose proof (sh_update_tx cm s k f) as T. rewrite E in T. cbn [fst snd] in T. split; [|split].
  - intros j NE. rewrite T. destruct ok; [|reflexivity]. destruct (N.eqb_spec j k); [congruence|reflexivity].
  - intros ->. apply T.
  - intros ->. rewrite T, N.eqb_refl. split; [reflexivity|].
    revert E. unfold sh_update. rewrite sh_get_tx. destruct (f (sh_tx s k)) as [t b]. destruct b; [reflexivity|]. cbn. intros H. apply pair_inj in H as [_ H]. discriminate.
Qed.
Example C27_example : snd (sh_update true two_shards 1 (failing_after 1 [("std_2024", [3]); ("std_202402", [4])])) = false /\
  snd (sh_update true two_shards 1 (failing_after 2 [("std_2024", [3]); ("std_202402", [4])])) = true.
Proof. vm_compute. auto. Qed.

(** C28 (columns): the columns of a sample in a view, whatever the order the open shards are visited. *)
Theorem C28_row_exact : forall s view id order, Permutation (sh_open s) order -> id < 2^44 - 1 ->
  (forall k, In k (sh_open s) -> k < 2^44) -> (forall k, StronglySorted N.lt (tx_view (sh_tx s k) view)) ->
  lists_exactly (row_columns (sh_row s view id order)) (fun c => In (c / 2^20) (sh_open s) /\ carries s view id c).
Proof.
  intros s view id order P Hid Hk Hs. destruct (sh_row_spec s view id order Hid) as [A B]; [|exact Hs|].
  - intros k I. apply Hk. revert I. apply Permutation_in, Permutation_sym, P.
  - split; [exact A|]. intros c. rewrite B. change (2^20) with shard_width. unfold carries, has. change (2^20) with shard_width.
    split; intros [H1 H2]; (split; [|exact H2]); revert H1; apply Permutation_in; [apply Permutation_sym, P|exact P].
Qed.
Example C28_example : row_columns (sh_row two_shards "std_2024" 8 [0; 1]) = [1048577]. Proof. reflexivity. Qed.
Example C23_example : exists b, lookup two_shards ["std_2023"; "std_2024"] [5] (group_columns [5]) = Some b /\ b = [7].
Proof. eexists. split; reflexivity. Qed.
