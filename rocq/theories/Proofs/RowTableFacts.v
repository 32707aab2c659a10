(** Facts about shifted rows (Model/RowTable.v). *)
From Coq Require Import ZArith.
From Verif.Model Require Import Base View Rows RowTable.
From Verif.Proofs Require Import BaseFacts RowsFacts.
Open Scope N_scope.

Lemma bitmap_shift_filter b : bitmap_shift b = filter (fun v => v <? two64) (map (fun v => v + 1) b).
Proof.
  induction b as [|v b IH]; [reflexivity|]. unfold bitmap_shift in *. cbn [flat_map map filter]. rewrite IH.
  destruct (v + 1 <? two64); reflexivity.
Qed.
Lemma filter_map_filter (l : list N) (n : N) :
  filter (fun v => v <? two64) (map (fun v => v + n) (filter (fun v => v <? two64) l)) = filter (fun v => v <? two64) (map (fun v => v + n) l).
Proof.
  induction l as [|v l IH]; [reflexivity|]. cbn [filter map]. destruct (v <? two64) eqn:E; cbn [map filter]; [rewrite IH; reflexivity|].
  apply N.ltb_ge in E. assert (F : v + n <? two64 = false) by (apply N.ltb_ge; lia). rewrite F. exact IH.
Qed.
Lemma shift_once_columns r : row_columns (map seg_shift r) = filter (fun v => v <? two64) (map (fun v => v + 1) (row_columns r)).
Proof.
  unfold row_columns. induction r as [|s r IH]; [reflexivity|]. cbn [map flat_map]. rewrite map_app, filter_app, <- IH.
  f_equal. cbn [seg_shift seg_of g_data]. apply bitmap_shift_filter.
Qed.
Lemma shift_loop_columns n : forall r, (forall v, In v (row_columns r) -> v < two64) ->
  row_columns (shift_loop n r) = filter (fun v => v <? two64) (map (fun v => v + N.of_nat n) (row_columns r)).
Proof.
  induction n as [|n IH]; intros r B.
  - cbn [shift_loop]. change (N.of_nat 0) with 0. generalize (row_columns r), B. clear. intros l. induction l as [|v l IH]; intros B; [reflexivity|].
    cbn [map filter]. rewrite N.add_0_r. assert (E : v <? two64 = true) by (apply N.ltb_lt, B; left; auto). rewrite E. f_equal. apply IH. intros; apply B; right; auto.
  - cbn [shift_loop]. rewrite IH.
    + rewrite shift_once_columns, filter_map_filter, map_map. f_equal. apply map_ext. intros v. lia.
    + intros v. rewrite shift_once_columns, filter_In, N.ltb_lt. intros [_ H]; exact H.
Qed.
Lemma ssorted_filter (f : N -> bool) l : ssorted l -> ssorted (filter f l).
Proof.
  induction 1 as [|x l S IH F]; [constructor|]. cbn [filter]. destruct (f x); [|exact IH]. constructor; [exact IH|].
  apply Forall_forall. intros y I. apply filter_In in I as [I _]. rewrite Forall_forall in F. auto.
Qed.
Lemma ssorted_shift n l : ssorted l -> ssorted (map (fun v => v + n) l).
Proof.
  induction 1 as [|x l S IH F]; [constructor|]. cbn [map]. constructor; [exact IH|].
  apply Forall_forall. intros y I. apply in_map_iff in I as (z & <- & I). rewrite Forall_forall in F. specialize (F z I). lia.
Qed.
(** The stored counts are right, wherever the columns lie. *)
Definition counted (r : row) : Prop := forall s, In s r -> g_n s = scard (g_data s).
Lemma counted_count r : counted r -> row_count r = N.of_nat (List.length (row_columns r)).
Proof.
  intros C. unfold row_count. assert (G : forall r n, counted r -> fold_left (fun n s => n + g_n s) r n = n + N.of_nat (List.length (row_columns r))).
  { clear. induction r as [|s r IH]; intros n C; [cbn; lia|]. cbn [fold_left]. rewrite IH by (intros t I; apply C; right; exact I).
    rewrite (C s) by (left; auto). unfold row_columns, scard. cbn [flat_map]. rewrite app_length. lia. }
  rewrite (G r 0 C). lia.
Qed.
Lemma shift_loop_counted n : forall r, counted r -> counted (shift_loop n r).
Proof.
  induction n as [|n IH]; intros r C; [exact C|]. cbn [shift_loop]. apply IH. intros s I. apply in_map_iff in I as (t & <- & _). reflexivity.
Qed.
Lemma wf_counted r : row_wf r -> counted r.
Proof. intros W s I. apply (row_wf_in _ _ W I). Qed.
Lemma shift_once_wf r : row_wf r -> (forall v, In v (row_columns r) -> (v + 1) / shard_width = v / shard_width) -> row_wf (map seg_shift r).
Proof.
  intros W H. induction r as [|s r IH]; [apply row_wf_nil|]. cbn [map]. apply row_wf_cons.
  - pose proof (row_wf_hd _ _ W) as (S & K & _). split; [|split; [|reflexivity]]; cbn [seg_shift seg_of g_data g_shard]; rewrite bitmap_shift_filter.
    + apply ssorted_filter, ssorted_shift, S.
    + intros x I. apply filter_In in I as [I _]. apply in_map_iff in I as (v & <- & I). rewrite H by (apply in_cols_cons; auto). auto.
  - apply IH; [eapply row_wf_tl; eauto|]. intros v I. apply H, in_cols_cons. auto.
  - intros x I. apply in_map_iff in I as (t & <- & I). cbn. eapply row_wf_lt; eauto.
Qed.
Lemma div_between a n m : m <= n -> (a + n) / shard_width = a / shard_width -> (a + m) / shard_width = a / shard_width.
Proof.
  intros L E. assert (N0 : shard_width <> 0) by discriminate.
  pose proof (N.div_le_mono a (a + m) shard_width N0 ltac:(lia)). pose proof (N.div_le_mono (a + m) (a + n) shard_width N0 ltac:(lia)). lia.
Qed.
Lemma shift_loop_wf n : forall r, row_wf r -> (forall v, In v (row_columns r) -> (v + N.of_nat n) / shard_width = v / shard_width) -> row_wf (shift_loop n r).
Proof.
  induction n as [|n IH]; intros r W H; [exact W|]. cbn [shift_loop]. apply IH.
  - apply shift_once_wf; [exact W|]. intros v I. apply (div_between v (N.of_nat (S n)) 1); [lia|]. apply H, I.
  - intros v. rewrite shift_once_columns, filter_In. intros [I _]. apply in_map_iff in I as (u & <- & I).
    specialize (H u I). replace (u + 1 + N.of_nat n) with (u + N.of_nat (S n)) by lia. rewrite H.
    symmetry. apply (div_between u (N.of_nat (S n)) 1); [lia|exact H].
Qed.

Lemma set_changes_in_spec k i r : row_wf r -> i / shard_width = k -> set_changes_in k i r = negb (smem i (row_columns r)).
Proof.
  intros W Hk. induction r as [|s r IH]; [reflexivity|]. cbn [set_changes_in].
  pose proof (row_wf_hd _ _ W) as (_ & K & _).
  assert (L : In i (row_columns r) -> g_shard s < k).
  { intros H. apply cols_shard in H as (t & I & _ & E); [|eapply row_wf_tl; eauto]. rewrite <- Hk, <- E. eapply row_wf_lt; eauto. }
  destruct (N.leb_spec k (g_shard s)) as [Le|Gt].
  - destruct (N.eqb_spec (g_shard s) k) as [E|E].
    + f_equal. destruct (smem i (g_data s)) eqn:Em; symmetry.
      * apply in_smem. apply in_cols_cons. left. apply in_smem, Em.
      * apply smem_false. rewrite in_cols_cons. intros [H|H]; [apply smem_false in Em; auto|]. specialize (L H). lia.
    + symmetry. apply negb_true_iff, smem_false. rewrite in_cols_cons. intros [H|H]; [specialize (K i H); lia|specialize (L H); lia].
  - rewrite IH by (eapply row_wf_tl; eauto). f_equal. destruct (smem i (row_columns r)) eqn:Em; symmetry.
    + apply in_smem. apply in_cols_cons. right. apply in_smem, Em.
    + apply smem_false. rewrite in_cols_cons. intros [H|H]; [specialize (K i H); lia|apply smem_false in Em; auto].
Qed.
Lemma row_shift_spec n r r' : row_shift n r = Some r' -> (0 <= n)%Z /\ r' = shift_loop (Z.to_nat n) r.
Proof.
  unfold row_shift. destruct (Z.ltb_spec n 0); [discriminate|]. intros E. apply some_inj in E. auto.
Qed.
