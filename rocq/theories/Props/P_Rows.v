(** C56, C57: rows of columns are finite sets (internal/rows/row.go). *)
From Coq Require Import ZArith.
From Verif.Model Require Import Base View Rows RowTable.
From Verif.Spec Require Import Sets.
From Verif.Proofs Require Import BaseFacts RowsFacts RowTableFacts.
Open Scope N_scope.

(** The rows the package can produce: built from columns or bitmaps and combined by its operations.
    Every theorem below is about such rows, whatever operations produced them. *)
Inductive built : row -> Prop :=
| b_new cols : built (new_row cols)
| b_bitmap b r : ssorted b -> (forall x, In x b -> x < two64 - shard_width) -> new_row_from_bitmap b = Some r -> built r
| b_set i r : built r -> built (row_set i r)
| b_merge r o : built r -> built o -> built (row_merge r o)
| b_intersect r o : built r -> built o -> built (row_intersect r o)
| b_xor r o : built r -> built o -> built (row_xor r o)
| b_union r os out : built r -> (forall o, In o os -> built o) -> row_union r os = Some out -> built out
| b_difference r os : built r -> (forall o, In o os -> built o) -> built (row_difference r os)
| b_shift n r out : built r -> (forall x, In x (row_columns r) -> (x + Z.to_N n) / 2^20 = x / 2^20) -> row_shift n r = Some out -> built out.

Lemma built_wf r : built r -> row_wf r.
Proof.
  induction 1 as [cols|b r S B E|i r _ IH|r o _ IH1 _ IH2|r o _ IH1 _ IH2|r o _ IH1 _ IH2|r os out _ IH Hos IHos E|r os _ IH Hos IHos|n r out _ IH H E].
  - apply new_row_spec.
  - destruct (new_row_from_bitmap_spec b S B) as (r' & E' & W & _). rewrite E in E'. apply some_inj in E'. subst. exact W.
  - apply row_set_spec, IH.
  - apply row_merge_spec; auto.
  - apply row_intersect_spec; auto.
  - apply row_xor_spec; auto.
  - destruct (row_union_spec r os IH) as (o' & E' & W & _); [apply Forall_forall; auto|].
    rewrite E in E'. apply some_inj in E'. subst. exact W.
  - apply row_difference_spec; [exact IH|apply Forall_forall; auto].
  - apply row_shift_spec in E as [Hn ->]. apply shift_loop_wf; [exact IH|]. intros v I. change shard_width with (2^20).
    rewrite <- (H v I). do 2 f_equal. lia.
Qed.

(** C56 *)
Theorem C56_row_intersect_is_set_intersection r o : built r -> built o ->
  lists_exactly (row_columns (row_intersect r o)) (fun x => In x (row_columns r) /\ In x (row_columns o)) /\
  row_intersection_count r o = N.of_nat (List.length (row_columns (row_intersect r o))).
Proof.
  intros Br Bo. pose proof (built_wf _ Br) as Wr. pose proof (built_wf _ Bo) as Wo.
  destruct (row_intersect_spec r o Wr Wo) as [W C]. split; [split; [apply columns_sorted, W|exact C]|].
  rewrite row_intersection_count_spec by auto. unfold scard. do 2 f_equal.
  apply ssorted_ext; [apply ssorted_sinter, columns_sorted, Wr|apply columns_sorted, W|]. intros x. rewrite in_sinter, C. tauto.
Qed.
Theorem C56_row_union_is_set_union r os : built r -> (forall o, In o os -> built o) ->
  exists out, row_union r os = Some out /\
   lists_exactly (row_columns out) (fun x => In x (row_columns r) \/ exists o, In o os /\ In x (row_columns o)).
Proof.
  intros Br Bo. destruct (row_union_spec r os (built_wf _ Br)) as (out & E & W & C).
  { apply Forall_forall. intros o Ho. apply built_wf; auto. }
  exists out. split; [exact E|]. split; [apply columns_sorted, W|exact C].
Qed.
Theorem C56_row_difference_is_set_difference r os : built r -> (forall o, In o os -> built o) ->
  lists_exactly (row_columns (row_difference r os)) (fun x => In x (row_columns r) /\ forall o, In o os -> ~ In x (row_columns o)).
Proof.
  intros Br Bo. destruct (row_difference_spec r os (built_wf _ Br)) as [W C].
  { apply Forall_forall. intros o Ho. apply built_wf; auto. }
  split; [apply columns_sorted, W|]. intros x. rewrite C. split; intros [H1 H2]; (split; [exact H1|]).
  - intros o I H. apply H2. eauto.
  - intros (o & I & H). exact (H2 o I H).
Qed.
Theorem C56_row_xor_is_symmetric_difference r o : built r -> built o ->
  lists_exactly (row_columns (row_xor r o)) (fun x => (In x (row_columns r) /\ ~ In x (row_columns o)) \/ (In x (row_columns o) /\ ~ In x (row_columns r))).
Proof.
  intros Br Bo. destruct (row_xor_spec r o (built_wf _ Br) (built_wf _ Bo)) as [W C]. split; [apply columns_sorted, W|exact C].
Qed.
Theorem C56_row_merge_is_set_union r o : built r -> built o ->
  lists_exactly (row_columns (row_merge r o)) (fun x => In x (row_columns r) \/ In x (row_columns o)).
Proof.
  intros Br Bo. destruct (row_merge_spec r o (built_wf _ Br) (built_wf _ Bo)) as [W C]. split; [apply columns_sorted, W|exact C].
Qed.
Theorem C56_row_count_is_cardinality r : built r -> row_count r = N.of_nat (List.length (row_columns r)).
Proof. intros B. apply row_count_spec, built_wf, B. Qed.

(** C57 *)
Theorem C57_row_from_columns cols : lists_exactly (row_columns (new_row cols)) (fun x => In x cols).
Proof. destruct (new_row_spec cols) as [W C]. split; [apply columns_sorted, W|exact C]. Qed.
Theorem C57_row_from_bitmap b : ssorted b -> (forall x, In x b -> x < two64 - shard_width) ->
  exists r, new_row_from_bitmap b = Some r /\ row_columns r = b.
Proof. intros S H. destruct (new_row_from_bitmap_spec b S H) as (r & E & _ & C). eauto. Qed.
(** The bound is needed: a column of the last shard makes the conversion run for ever
    ((2^44 * ShardWidth) wraps to 0), whatever number of iterations is allowed. *)
Theorem C57_row_from_bitmap_last_shard_refuted : forall iterations, from_bitmap iterations [two64 - 1] 0 = None.
Proof. exact from_bitmap_top_diverges. Qed.
Theorem C57_row_set_adds_one_column r i : built r -> lists_exactly (row_columns (row_set i r)) (fun x => x = i \/ In x (row_columns r)).
Proof. intros B. destruct (row_set_spec i r (built_wf _ B)) as [W C]. split; [apply columns_sorted, W|exact C]. Qed.
Theorem C57_set_tells_whether_the_column_was_new r i : built r -> (set_changes i r = true <-> ~ In i (row_columns r)).
Proof.
  intros B. unfold set_changes. rewrite set_changes_in_spec by (auto using built_wf). rewrite negb_true_iff. apply smem_false.
Qed.
Theorem C57_row_observations_agree r : built r ->
  StronglySorted N.lt (row_columns r) /\
  (forall x, row_includes x r = true <-> In x (row_columns r)) /\
  row_shard_columns r = map (fun x => x mod 2^20) (row_columns r) /\
  (row_is_empty r = true <-> row_columns r = []) /\
  (row_any r = true <-> row_columns r <> []) /\
  (forall k, match row_segment k r with
     | Some s => forall x, In x (g_data s) <-> In x (row_columns r) /\ x / 2^20 = k
     | None => forall x, In x (row_columns r) -> x / 2^20 <> k end).
Proof.
  intros B. pose proof (built_wf _ B) as W. split; [apply columns_sorted, W|]. split; [intros x; apply row_includes_spec, W|].
  split; [apply row_shard_columns_spec|]. split; [apply row_is_empty_spec, W|]. split.
  - rewrite row_any_spec. split; [intros (x & H) E; rewrite E in H; destruct H|].
    destruct (row_columns r) as [|x l]; [congruence|]. exists x. left. reflexivity.
  - intros k. pose proof (row_segment_spec k r W) as H. destruct (row_segment k r) as [s|]; [apply H|exact H].
Qed.

(** Concrete rows over several shards meeting the hypotheses. *)
Definition ex_r := new_row [5; 3; 1048576; 7; 5; 4194309].
Definition ex_o := new_row [3; 1048577; 1048576; 2097152; 9].
Example ex_r_built : built ex_r /\ built ex_o. Proof. split; constructor. Qed.
Example ex_r_columns : row_columns ex_r = [3; 5; 7; 1048576; 4194309]. Proof. reflexivity. Qed.
Example ex_inter : row_columns (row_intersect ex_r ex_o) = [3; 1048576]. Proof. reflexivity. Qed.
Example ex_union : option_map row_columns (row_union ex_r [ex_o; ex_r]) = Some [3; 5; 7; 9; 1048576; 1048577; 2097152; 4194309].
Proof. reflexivity. Qed.
Example ex_diff : row_columns (row_difference ex_r [ex_o]) = [5; 7; 4194309]. Proof. reflexivity. Qed.
Example ex_xor_built : built (row_xor ex_r (row_difference ex_r [ex_o])).
Proof. constructor; [constructor|]. constructor; [constructor|]. intros o [<-|[]]. constructor. Qed.
Example ex_bitmap : option_map row_columns (new_row_from_bitmap [1; 1048576; 3145728]) = Some [1; 1048576; 3145728].
Proof. reflexivity. Qed.
