(** C22: a batch builds exactly the right bitmaps. *)
From Verif.Model Require Import Base Calendar View Batch.
From Verif.Proofs Require Import BaseFacts CalendarFacts ViewFacts BatchFacts.
From Verif.Props Require Import P_Time.
Open Scope N_scope.

(** Entries as handed to Add: the time is a signed 64 bit count of nanoseconds, the recycled
    QuantizedTime has arbitrary content.  [frag_get f shard view] is the bitmap of (shard, view). *)
Theorem C22_batch_exact : forall (es : list entry),
  (forall e, In e es -> String.length (e_pool e) = 10%nat /\ (-2^63 <= e_ts e < 2^63)%Z) ->
  exists frags, batch_build (fill es batch_new) = (batch_new, Some frags) /\
    forall shard view,
      StronglySorted N.lt (frag_get frags shard view) /\
      forall p, In p (frag_get frags shard view) <->
        exists e cols col, In e es /\ e_cols e = Some cols /\ In col cols /\ col / 1048576 = shard /\
          In view (std_views (e_ts e)) /\ p = pos (e_id e) col.
Proof.
  intros es H.
  assert (Hok : Forall entry_ok es).
  { apply Forall_forall. intros e He. destruct (H e He) as [H1 H2]. split; [exact H1|]. apply year4_int64. exact H2. }
  destruct (make_fragments_spec es [] Hok) as (f & E & S & Hf); [intros s v; constructor|].
  exists f. split.
  - unfold batch_build. rewrite fill_eq. cbn [b_ids b_labels b_frags b_times batch_new app]. rewrite E. reflexivity.
  - intros shard view. split; [apply S|]. intros p. rewrite Hf. change shard_width with 1048576.
    split; [intros [[]|(e & cols & col & Q)]; exists e, cols, col; intuition|intros (e & cols & col & Q); right; exists e, cols, col; intuition].
Qed.
Print Assumptions C22_batch_exact.

(** In terms of samples and columns (ids below 2^44, where positions do not wrap): the bit of (id, col)
    is set in the bitmap of (shard of col, view) iff some added sample with that id carries col and is
    filed under the view. *)
Theorem C22_batch_bit_iff_recorded : forall (es : list entry) frags b id col view,
  (forall e, In e es -> String.length (e_pool e) = 10%nat /\ (-2^63 <= e_ts e < 2^63)%Z /\ e_id e < 2 ^ 44) ->
  id < 2 ^ 44 -> batch_build (fill es batch_new) = (b, Some frags) ->
  (In (pos id col) (frag_get frags (col / 1048576) view) <->
   exists e cols, In e es /\ e_id e = id /\ e_cols e = Some cols /\ In col cols /\ In view (std_views (e_ts e))).
Proof.
  intros es frags b id col view H Hid E.
  destruct (C22_batch_exact es) as (f & E' & Hf); [intros e He; destruct (H e He) as (? & ? & _); auto|].
  rewrite E in E'. apply pair_inj in E' as [_ E']. apply some_inj in E'. subst f.
  destruct (Hf (col / 1048576) view) as [_ Hb]. rewrite Hb. split.
  - intros (e & cols & col' & He & Hc & Hin & Hs & Hv & Hp). exists e, cols.
    destruct (H e He) as (_ & _ & Hlt).
    destruct (C16_position_injective_in_shard id (e_id e) col col' Hid Hlt (eq_sym Hs) Hp) as [-> ->]. auto.
  - intros (e & cols & He & Hi & Hc & Hin & Hv). exists e, cols, col. rewrite Hi. auto 10.
Qed.
Print Assumptions C22_batch_bit_iff_recorded.

Example C22_nonvacuous :
  let es := [Entry 0 0 (Some [1; 1048577]) zero_qt; Entry 1 0 None zero_qt; Entry 2 3600000000000 (Some [1]) "xxxxxxxxxx"] in
  exists f, batch_build (fill es batch_new) = (batch_new, Some f) /\
    frag_get f 0 "std_1970" = [1; 2097153] /\ frag_get f 1 "std_1970010100" = [1] /\
    frag_get f 0 "std_1970010101" = [2097153] /\ frag_get f 0 "std_1971" = [].
Proof. eexists. split; [vm_compute; reflexivity|]. repeat split; vm_compute; reflexivity. Qed.
