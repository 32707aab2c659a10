(** The segments of a combined row are labelled with shards of its operands. *)
From Verif.Model Require Import Base View Rows Bsi.
From Verif.Proofs Require Import BaseFacts RowsFacts BsiFacts BuilderFacts.
Open Scope N_scope.

Section Labs.
Variable P : N -> Prop.
Definition labs (r : row) : Prop := Forall (fun g => P (g_shard g)) r.
Lemma labs_nil : labs []. Proof. constructor. Qed.
Lemma labs_in r g : labs r -> In g r -> P (g_shard g).
Proof. intros H. unfold labs in H. rewrite Forall_forall in H. apply H. Qed.
Lemma seg_set_shard g i : g_shard (seg_set g i) = g_shard g. Proof. unfold seg_set. destruct (smem i (g_data g)); reflexivity. Qed.
Lemma seg_merge_shard d : forall g, g_shard (fold_left seg_set d g) = g_shard g.
Proof. induction d as [|i d IH]; intros g; [reflexivity|]. cbn [fold_left]. rewrite IH. apply seg_set_shard. Qed.
Lemma labs_set_in k i r : P k -> labs r -> labs (row_set_in k i r).
Proof.
  intros Hk. induction r as [|g r IH]; intros H; cbn [row_set_in]; [constructor; [rewrite seg_set_shard; exact Hk|constructor]|]. inversion H; subst. destruct (k <=? g_shard g).
  - destruct (g_shard g =? k); constructor; rewrite ?seg_set_shard; auto.
  - constructor; [assumption|apply IH; assumption].
Qed.
Lemma merge_iter_in r : forall o x y a, In (x, y) (merge_iter r o) -> x = Some a \/ y = Some a -> In a r \/ In a o.
Proof.
  induction r as [|s r IH].
  - induction o as [|t o IHo]; intros x y a; [intros []|]. cbn [merge_iter]. intros [E|H] Ha.
    + apply pair_inj in E. destruct E as [<- <-]. destruct Ha as [Ha|Ha]; [discriminate|]. apply some_inj in Ha. subst. right. left. reflexivity.
    + destruct (IHo _ _ _ H Ha) as [[]|K]. right. right. exact K.
  - induction o as [|t o IHo]; intros x y a; cbn [merge_iter].
    + intros [E|H] Ha.
      * apply pair_inj in E. destruct E as [<- <-]. destruct Ha as [Ha|Ha]; [|discriminate]. apply some_inj in Ha. subst. left. left. reflexivity.
      * destruct (IH _ _ _ _ H Ha) as [K|[]]. left. right. exact K.
    + destruct (g_shard s <? g_shard t); [|destruct (g_shard t <? g_shard s)].
      * intros [E|H] Ha.
        -- apply pair_inj in E. destruct E as [<- <-]. destruct Ha as [Ha|Ha]; [|discriminate]. apply some_inj in Ha. subst. left. left. reflexivity.
        -- destruct (IH _ _ _ _ H Ha) as [K|K]; [left; right; exact K|right; exact K].
      * intros [E|H] Ha.
        -- apply pair_inj in E. destruct E as [<- <-]. destruct Ha as [Ha|Ha]; [|discriminate]. apply some_inj in Ha. subst. right. left. reflexivity.
        -- destruct (IHo _ _ _ H Ha) as [K|K]; [left; exact K|right; right; exact K].
      * intros [E|H] Ha.
        -- apply pair_inj in E. destruct E as [<- <-]. destruct Ha as [Ha|Ha]; apply some_inj in Ha; subst; [left; left; reflexivity|right; left; reflexivity].
        -- destruct (IH _ _ _ _ H Ha) as [K|K]; [left; right; exact K|right; right; exact K].
Qed.
Lemma labs_merge_gen (f : option segment * option segment -> row) r o : labs r -> labs o ->
  (forall x y g, In g (f (x, y)) -> exists a, (x = Some a \/ y = Some a) /\ g_shard g = g_shard a) -> labs (flat_map f (merge_iter r o)).
Proof.
  intros Hr Ho Hf. apply Forall_forall. intros g Hg. apply in_flat_map in Hg. destruct Hg as ([x y] & Hp & Hg). destruct (Hf _ _ _ Hg) as (a & Ha & ->).
  destruct (merge_iter_in _ _ _ _ _ Hp Ha) as [K|K]; [exact (labs_in _ _ Hr K)|exact (labs_in _ _ Ho K)].
Qed.
Lemma labs_intersect r o : labs r -> labs o -> labs (row_intersect r o).
Proof. intros Hr Ho. apply labs_merge_gen; [exact Hr|exact Ho|]. intros [a|] [b|] g Hg; try destruct Hg as []. destruct H. exists a. auto. destruct H. Qed.
Lemma labs_xor r o : labs r -> labs o -> labs (row_xor r o).
Proof.
  intros Hr Ho. apply labs_merge_gen; [exact Hr|exact Ho|]. intros [a|] [b|] g Hg; cbn in Hg; try contradiction; destruct Hg as [<-|[]]; [exists a|exists a|exists b]; auto.
Qed.
Lemma labs_merge r o : labs r -> labs o -> labs (row_merge r o).
Proof.
  intros Hr Ho. unfold row_merge. apply Forall_forall. intros g Hg. apply in_map_iff in Hg. destruct Hg as (g0 & <- & Hg). cbn [seg_invalidate g_shard]. revert Hg.
  apply labs_in. apply labs_merge_gen; [exact Hr|exact Ho|].
  intros [a|] [b|] g Hg; cbn in Hg; try contradiction; destruct Hg as [<-|[]]; [exists a|exists a|exists b]; split; auto. apply seg_merge_shard.
Qed.
Lemma labs_difference r os : labs r -> labs (row_difference r os).
Proof.
  intros Hr. unfold row_difference. apply Forall_forall. intros g Hg. apply in_map_iff in Hg. destruct Hg as (g0 & <- & Hg). destruct (aget _ _ _); exact (labs_in _ _ Hr Hg).
Qed.
Lemma labs_union_loop fuel : forall lists out, Forall labs lists -> union_loop fuel lists = Some out -> labs out.
Proof.
  induction fuel as [|fuel IH]; intros lists out H E; destruct lists as [|l0 ls]; cbn [union_loop] in E; try discriminate; try (apply some_inj in E; subst; constructor).
  set (lists := l0 :: ls) in *. set (k := heads_min lists _) in E. destruct (union_loop fuel (next_segs k lists)) as [r|] eqn:Er; [|discriminate]. apply some_inj in E. subst out.
  apply Forall_app. split.
  - assert (forall s, In s (to_process k lists) -> P (g_shard s)) as Hp.
    { intros s Hs. apply to_process_in in Hs. destruct Hs as (_ & t & Ht). rewrite Forall_forall in H. apply (labs_in (s :: t)); [apply H, Ht|left; reflexivity]. }
    destruct (to_process k lists) as [|s [|s2 t]]; [constructor| |]; (constructor; [cbn [seg_of g_shard]; apply Hp; left; reflexivity|constructor]).
  - apply (IH _ _) in Er; [exact Er|]. apply Forall_forall. intros l' Hl. apply next_segs_in in Hl. rewrite Forall_forall in H. 
    destruct Hl as (_ & l & Hin & Hm). specialize (H _ Hin). destruct l as [|s t]; [destruct Hm|]. destruct (g_shard s =? k); subst l'; [inversion H; assumption|exact H].
Qed.
Lemma labs_union r os out : labs r -> Forall labs os -> row_union r os = Some out -> labs out.
Proof.
  intros Hr Ho E. unfold row_union in E. eapply labs_union_loop; [|exact E]. apply Forall_forall. intros l Hl. apply in_flat_map in Hl. destruct Hl as (l0 & H0 & Hl).
  assert (labs l0) as H1. { destruct H0 as [<-|H0]; [exact Hr|]. rewrite Forall_forall in Ho. apply Ho, H0. }
  destruct l0; [destruct Hl|]. destruct Hl as [<-|[]]. exact H1.
Qed.
End Labs.
Definition u64_shard (k : N) : Prop := k < max_u64.
Lemma u64_shard_of c : c < two64 -> u64_shard (c / shard_width).
Proof. intros H. unfold u64_shard, max_u64. apply N.div_lt_upper_bound; [discriminate|]. eapply N.lt_le_trans; [exact H|]. discriminate. Qed.
Lemma labs_new cols : Forall (fun c => c < two64) cols -> labs u64_shard (new_row cols).
Proof.
  intros H. unfold new_row. assert (forall r, labs u64_shard r -> labs u64_shard (fold_left (fun r i => row_set i r) cols r)) as K; [|apply K; constructor].
  induction H as [|c cols Hc H IH]; intros r Hr; [exact Hr|]. cbn [fold_left]. apply IH. apply labs_set_in; [apply u64_shard_of, Hc|exact Hr].
Qed.
Lemma lrow_labs r : row_wf r -> labs u64_shard r -> lrow 0 max_u64 r.
Proof. intros W L. split; [exact W|]. eapply Forall_impl; [|exact L]. intros g Hg. unfold u64_shard in Hg. split; [apply N.le_0_l|exact Hg]. Qed.
Lemma labs_lrow r : lrow 0 max_u64 r -> labs u64_shard r.
Proof. intros [_ L]. eapply Forall_impl; [|exact L]. intros g Hg. exact (proj2 Hg). Qed.
