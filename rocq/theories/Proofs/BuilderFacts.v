(** Facts about the row builder and the bit-slice builder. *)
From Verif.Model Require Import Base View Rows Bsi.
From Verif.Spec Require Import BitSlices.
From Verif.Proofs Require Import BaseFacts RowsFacts BsiFacts.
Open Scope N_scope.

(** *** Masks *)
Lemma all_u16_in v : In v all_u16 <-> v < 65536.
Proof.
  unfold all_u16. rewrite in_map_iff. split.
  - intros (n & <- & Hn). apply in_seq in Hn. lia.
  - intros H. exists (N.to_nat v). split; [apply N2Nat.id|]. apply in_seq. lia.
Qed.
Lemma seq_sorted n : forall a, ssorted (map N.of_nat (seq a n)).
Proof.
  induction n as [|n IH]; intros a; cbn [seq map]; [constructor|]. constructor; [apply IH|]. apply Forall_forall. intros x Hx. apply in_map_iff in Hx. destruct Hx as (m & <- & Hm). apply in_seq in Hm. lia.
Qed.
Lemma all_u16_sorted : ssorted all_u16. Proof. apply seq_sorted. Qed.
Global Opaque all_u16.
Lemma mask_vals_in m v : In v (mask_vals m) <-> v < 65536 /\ N.testbit (mask_word m (v / 64)) (v mod 64) = true.
Proof. unfold mask_vals. rewrite filter_In, all_u16_in. reflexivity. Qed.
Lemma mask_vals_sorted m : ssorted (mask_vals m).
Proof. apply ssorted_filter, all_u16_sorted. Qed.
Lemma mask_vals_nil : mask_vals [] = [].
Proof. apply ssorted_ext; [apply mask_vals_sorted|constructor|]. intros x. rewrite mask_vals_in. change (mask_word [] (x / 64)) with 0. rewrite N.bits_0. cbn [In]. intuition discriminate. Qed.
Lemma mask_vals_set m v : v < 65536 -> mask_vals (mask_set m v) = sadd v (mask_vals m).
Proof.
  intros Hv. apply ssorted_ext; [apply mask_vals_sorted|apply ssorted_sadd, mask_vals_sorted|]. intros x. rewrite in_sadd, !mask_vals_in. unfold mask_set, mask_word.
  rewrite (aget_aset N.eqb N_eqb_reflect). destruct (N.eqb_spec (x / 64) (v / 64)) as [E|E].
  - rewrite N.lor_spec, N.pow2_bits_eqb, orb_true_iff. rewrite <- E. destruct (N.eqb_spec (v mod 64) (x mod 64)) as [E2|E2].
    + assert (x = v) as -> by (rewrite (N.div_mod x 64), (N.div_mod v 64) by discriminate; congruence). split; [left; reflexivity|]. intros _. split; [exact Hv|right; reflexivity].
    + split.
      * intros [A [B|B]]; [right; split; assumption|discriminate].
      * intros [->|[A B]]; [congruence|]. split; [exact A|left; exact B].
  - split; [intros [A B]; right; split; assumption|]. intros [->|K]; [congruence|exact K].
Qed.
Lemma mask_fold a : forall m, Forall (fun v => v < 65536) a -> ssorted (mask_vals m) -> forall x, In x (mask_vals (fold_left mask_set a m)) <-> In x a \/ In x (mask_vals m).
Proof.
  induction a as [|v a IH]; intros m Ha Hm x; cbn [fold_left]; [cbn; tauto|]. inversion Ha; subst. rewrite IH by (try assumption; apply mask_vals_sorted). rewrite mask_vals_set, in_sadd by assumption. cbn. intuition.
Qed.
Lemma mask_fold_sorted a : Forall (fun v => v < 65536) a -> ssorted a -> mask_vals (fold_left mask_set a []) = a.
Proof.
  intros Ha Sa. apply ssorted_ext; [apply mask_vals_sorted|exact Sa|]. intros x. rewrite mask_fold; [|exact Ha|apply mask_vals_sorted]. rewrite mask_vals_nil. cbn. tauto.
Qed.
Lemma ldiff_one x : N.ldiff 1 x = if N.testbit x 0 then 0 else 1.
Proof. destruct x as [|[p|p|]]; reflexivity. Qed.
Lemma mod_mod_64 v : (v mod 65536) mod 64 = v mod 64.
Proof. change 65536 with (64 * 1024). rewrite N.mod_mul_r by discriminate. rewrite N.mul_comm, N.mod_add by discriminate. apply N.mod_mod. discriminate. Qed.
Lemma mask_count m v : scard (sadd (v mod 65536) (mask_vals m)) = scard (mask_vals m) + N.ldiff 1 (N.shiftr (mask_word m (v mod 65536 / 64)) (v mod 64)).
Proof.
  rewrite ldiff_one, N.shiftr_spec' , N.add_0_l. assert (v mod 65536 < 65536) as Hlt by (apply N.mod_lt; discriminate).
  destruct (N.testbit (mask_word m (v mod 65536 / 64)) (v mod 64)) eqn:E.
  - assert (In (v mod 65536) (mask_vals m)) as H by (apply mask_vals_in; split; [exact Hlt|rewrite mod_mod_64; exact E]).
    rewrite N.add_0_r. f_equal. apply ssorted_ext; [apply ssorted_sadd, mask_vals_sorted|apply mask_vals_sorted|]. intros x. rewrite in_sadd. intuition congruence.
  - apply ssorted_len_sadd; [apply mask_vals_sorted|]. intros H. apply mask_vals_in in H. rewrite mod_mod_64 in H. destruct H as [_ H]. congruence.
Qed.

(** *** Bitmaps of containers *)
Definition con_wf (c : container) : Prop := ssorted (c_vals c) /\ Forall (fun v => v < 65536) (c_vals c) /\ c_n c = scard (c_vals c).
Definition bm_wf (b : bitmap) : Prop := StronglySorted (fun x y : N * container => fst x < fst y) b /\ Forall (fun kc => con_wf (snd kc)) b.
Lemma bm_get_put k c b : forall k', bm_get k' (bm_put k c b) = if k =? k' then Some c else bm_get k' b.
Proof.
  induction b as [|[k0 c0] b IH]; intros k'; [reflexivity|]. cbn [bm_put]. destruct (N.ltb_spec k k0); [reflexivity|]. destruct (N.eqb_spec k k0) as [->|Hne].
  - cbn [bm_get]. destruct (k0 =? k'); reflexivity.
  - cbn [bm_get]. rewrite IH. destruct (N.eqb_spec k0 k') as [->|]; [|reflexivity]. destruct (N.eqb_spec k k'); [congruence|reflexivity].
Qed.
Lemma bm_put_keys k c b x : In x (bm_put k c b) -> x = (k, c) \/ In x b.
Proof.
  induction b as [|[k0 c0] b IH]; cbn [bm_put]; [intros [<-|[]]; left; reflexivity|]. destruct (k <? k0); [intros [<-|H]; auto|]. destruct (k =? k0).
  - intros [<-|H]; [left; reflexivity|right; right; exact H].
  - intros [<-|H]; [right; left; reflexivity|]. destruct (IH H) as [->|K]; [left; reflexivity|right; right; exact K].
Qed.
Lemma bm_put_wf k c b : con_wf c -> bm_wf b -> bm_wf (bm_put k c b).
Proof.
  intros Hc [S F]. split.
  - clear F. induction S as [|[k0 c0] b S IH F]; cbn [bm_put]; [constructor; constructor|]. destruct (N.ltb_spec k k0) as [H|H].
    + constructor; [constructor; assumption|]. constructor; [exact H|]. eapply Forall_impl; [|exact F]. cbn. intros a. lia.
    + destruct (N.eqb_spec k k0) as [->|Hne]; [constructor; assumption|]. constructor; [exact IH|]. apply Forall_forall. intros x Hx. apply bm_put_keys in Hx. destruct Hx as [->|Hx]; [cbn; lia|].
      rewrite Forall_forall in F. apply F, Hx.
  - apply Forall_forall. intros x Hx. apply bm_put_keys in Hx. destruct Hx as [->|Hx]; [exact Hc|]. rewrite Forall_forall in F. apply F, Hx.
Qed.
Lemma bm_get_in k c b : bm_get k b = Some c -> In (k, c) b.
Proof. induction b as [|[k0 c0] b IH]; cbn [bm_get]; [discriminate|]. destruct (N.eqb_spec k0 k) as [->|]; [intros E; apply some_inj in E; subst; left; reflexivity|intros H; right; auto]. Qed.
Lemma bm_in_get k c b : bm_wf b -> In (k, c) b -> bm_get k b = Some c.
Proof.
  intros [S _]. induction S as [|[k0 c0] b S IH F]; [intros []|]. cbn [bm_get]. intros [E|H].
  - apply pair_inj in E. destruct E as [-> ->]. rewrite N.eqb_refl. reflexivity.
  - destruct (N.eqb_spec k0 k) as [->|]; [|exact (IH H)]. rewrite Forall_forall in F. specialize (F _ H). cbn in F. lia.
Qed.
Lemma low_high k lo : lo < 65536 -> (k * 65536 + lo) / 65536 = k /\ (k * 65536 + lo) mod 65536 = lo.
Proof.
  intros H. rewrite N.add_comm. split; [rewrite N.div_add by discriminate; rewrite N.div_small by exact H; reflexivity|].
  rewrite N.mod_add by discriminate. apply N.mod_small, H.
Qed.
Lemma bm_columns_in b x : bm_wf b -> In x (bm_columns b) <-> exists c, bm_get (x / 65536) b = Some c /\ In (x mod 65536) (c_vals c).
Proof.
  intros W. unfold bm_columns. rewrite in_flat_map. split.
  - intros ([k c] & Hk & Hx). cbn [fst snd] in Hx. apply in_map_iff in Hx. destruct Hx as (lo & <- & Hlo).
    assert (lo < 65536) as Hl. { destruct W as [_ F]. rewrite Forall_forall in F. destruct (F _ Hk) as (_ & G & _). rewrite Forall_forall in G. apply G, Hlo. }
    destruct (low_high k lo Hl) as [-> ->]. exists c. split; [apply bm_in_get; assumption|exact Hlo].
  - intros (c & Hg & Hx). exists (x / 65536, c). split; [apply bm_get_in, Hg|]. cbn [fst snd]. apply in_map_iff. exists (x mod 65536). split; [|exact Hx].
    rewrite N.mul_comm. symmetry. apply N.div_mod. discriminate.
Qed.
Lemma bm_columns_sorted b : bm_wf b -> ssorted (bm_columns b).
Proof.
  intros [S F]. induction S as [|[k c] b S IH Fk]; [constructor|]. inversion F as [|? ? (Sc & Lc & _) Fb]; subst. cbn [snd] in Sc, Lc. unfold bm_columns. cbn [flat_map fst snd]. fold (bm_columns b).
  apply ssorted_app.
  - clear -Sc. induction Sc as [|x l Sc IH F]; [constructor|]. cbn. constructor; [exact IH|]. apply Forall_forall. intros y Hy. apply in_map_iff in Hy. destruct Hy as (z & <- & Hz). rewrite Forall_forall in F. specialize (F _ Hz). lia.
  - apply IH, Fb.
  - intros x y Hx Hy. apply in_map_iff in Hx. destruct Hx as (lo & <- & Hlo). unfold bm_columns in Hy. apply in_flat_map in Hy. destruct Hy as ([k' c'] & Hk & Hy). cbn [fst snd] in Hy. apply in_map_iff in Hy. destruct Hy as (lo' & <- & Hlo').
    rewrite Forall_forall in Fk, Lc. specialize (Fk _ Hk). specialize (Lc _ Hlo). cbn [fst] in Fk.
    assert ((k + 1) * 65536 <= k' * 65536) by (apply N.mul_le_mono_r; lia). lia.
Qed.

(** *** The row builder *)
Definition bm_of (b : row_builder) : bitmap := match rb_bm b with Some m => m | None => [] end.
Definition cur (b : row_builder) : list N := match rb_mask b with Some m => mask_vals m | None => rb_array b end.
Record binv (b : row_builder) (S : N -> Prop) : Prop := {
  v_bm : bm_wf (bm_of b);
  v_mask : match rb_mask b with
           | Some m => rb_array b = [] /\ rb_n b = scard (mask_vals m)
           | None => ssorted (rb_array b) /\ Forall (fun v => v < 65536) (rb_array b)
           end;
  v_in : forall c, S c <-> In c (bm_columns (bm_of b)) \/ (c / 65536 = rb_key b /\ In (c mod 65536) (cur b))
}.
Lemma put_facts b c : bm_wf (bm_of b) -> con_wf c -> exists bm', rb_put b c = Some bm' /\ bm_wf bm' /\
  forall x, In x (bm_columns bm') <-> In x (bm_columns (bm_of b)) \/ (x / 65536 = rb_key b /\ In (x mod 65536) (c_vals c)).
Proof.
  intros W Wc. unfold rb_put. fold (bm_of b). set (c' := match bm_get (rb_key b) (bm_of b) with Some old => container_union c old | None => c end).
  assert (con_wf c' /\ forall v, In v (c_vals c') <-> In v (c_vals c) \/ exists old, bm_get (rb_key b) (bm_of b) = Some old /\ In v (c_vals old)) as [Wc' Hc'].
  { unfold c'. destruct (bm_get (rb_key b) (bm_of b)) as [old|] eqn:E.
    - assert (con_wf old) as (So & Lo & _). { destruct W as [_ F]. rewrite Forall_forall in F. apply (F (rb_key b, old)). apply bm_get_in, E. }
      destruct Wc as (Sc & Lc & _). split.
      + unfold container_union. split; [apply ssorted_sunion, So|]. split; [|reflexivity]. cbn [c_vals]. apply Forall_forall. intros v Hv. apply in_sunion in Hv. rewrite Forall_forall in Lo, Lc. destruct Hv; auto.
      + intros v. cbn. rewrite in_sunion. split; [intros [H|H]; [right; eauto|left; exact H]|]. intros [H|(o & Eo & H)]; [right; exact H|]. apply some_inj in Eo. subst o. left. exact H.
    - split; [exact Wc|]. intros v. split; [left; assumption|]. intros [H|(o & Eo & _)]; [exact H|discriminate]. }
  eexists. split; [reflexivity|]. split; [apply bm_put_wf; assumption|]. intros x. rewrite !bm_columns_in by (try apply bm_put_wf; assumption). rewrite bm_get_put.
  destruct (N.eqb_spec (rb_key b) (x / 65536)) as [E|E].
  - split.
    + intros (c1 & E1 & H). apply some_inj in E1. subst c1. apply Hc' in H. rewrite <- E. destruct H as [H|H]; [right; split; [reflexivity|exact H]|left; exact H].
    + intros H. exists c'. split; [reflexivity|]. apply Hc'. rewrite E in *. destruct H as [H|[_ H]]; [right; exact H|left; exact H].
  - split; [intros H; left; exact H|]. intros [H|[H _]]; [exact H|congruence].
Qed.
Definition flushed (b : row_builder) : Prop := rb_mask b = None /\ rb_array b = [].
Lemma flush_facts b S : binv b S -> binv (flush_key b) S /\ flushed (flush_key b) /\ rb_key (flush_key b) = rb_key b.
Proof.
  intros [W M Hi]. unfold flush_key. destruct (rb_mask b) as [m|] eqn:Em.
  - destruct M as [Ma Mn]. destruct (put_facts b (container_bitmap m (rb_n b)) W) as (bm' & Eb & Wb & Hb).
    { split; [apply mask_vals_sorted|]. split; [apply Forall_forall; intros v Hv; apply mask_vals_in in Hv; tauto|exact Mn]. }
    rewrite Eb, Ma. split; [|split; [split; reflexivity|reflexivity]]. split; unfold bm_of, cur in *; cbn [rb_bm rb_mask rb_array rb_key]; [exact Wb|split; constructor|].
    intros c. rewrite Hb, Hi, Em. cbn [c_vals container_bitmap In]. tauto.
  - destruct M as [Sa La]. destruct (rb_array b) as [|v a] eqn:Ea.
    + split; [|split; [split; assumption|reflexivity]]. split; [exact W|rewrite Em, Ea; split; constructor|exact Hi].
    + destruct (put_facts b (container_array (v :: a)) W) as (bm' & Eb & Wb & Hb); [split; [exact Sa|split; [exact La|reflexivity]]|]. rewrite Eb.
      split; [|split; [split; reflexivity|reflexivity]]. split; unfold bm_of, cur in *; cbn [rb_bm rb_mask rb_array rb_key]; [exact Wb|split; constructor|].
      intros c. rewrite Hb, Hi, Em, Ea. cbn [c_vals container_array]. cbn [In]. tauto.
Qed.
Definition fits (b : row_builder) (v : N) : Prop := rb_mask b = None -> rb_key b = v / 65536 -> Forall (fun x => x < v mod 65536) (rb_array b).
Definition rekey (b0 : row_builder) (vkey : N) : row_builder := if rb_key b0 =? vkey then b0 else let f := flush_key b0 in RB (rb_bm f) (rb_mask f) (rb_array f) vkey (rb_n f).
Lemma rekey_facts b0 S v : binv b0 S -> fits b0 v -> binv (rekey b0 (v / 65536)) S /\ rb_key (rekey b0 (v / 65536)) = v / 65536 /\ (rb_mask (rekey b0 (v / 65536)) = None -> Forall (fun x => x < v mod 65536) (rb_array (rekey b0 (v / 65536)))).
Proof.
  intros H Hf. unfold rekey. destruct (N.eqb_spec (rb_key b0) (v / 65536)) as [E|E].
  - split; [exact H|]. split; [exact E|]. intros Em. exact (Hf Em E).
  - destruct (flush_facts b0 S H) as ([W M Hi] & [Fm Fa] & Fk). cbv zeta. rewrite Fm, Fa in *. cbn [rb_key rb_mask rb_array]. split; [|split; [reflexivity|constructor]].
    split; unfold bm_of, cur in *; cbn [rb_bm rb_mask rb_array rb_key]; [exact W|split; constructor|]. intros c. rewrite Hi, Fm, Fa. cbn. tauto.
Qed.
Lemma sorted_snoc a v : ssorted a -> Forall (fun x => x < v) a -> ssorted (a ++ [v]).
Proof. intros Sa Fa. apply ssorted_app; [exact Sa|repeat constructor|]. intros x y Hx [<-|[]]. rewrite Forall_forall in Fa. apply Fa, Hx. Qed.
Lemma add_facts b0 S v : binv b0 S -> fits b0 v -> binv (rb_add b0 v) (fun c => S c \/ c = v) /\ forall v', (v / 65536 = v' / 65536 -> v < v') -> fits (rb_add b0 v) v'.
Proof.
  intros H Hf. destruct (rekey_facts b0 S v H Hf) as ([W M Hi] & Ek & Hlt). unfold rb_add. fold (rekey b0 (v / 65536)). set (b := rekey b0 (v / 65536)) in *. cbv zeta.
  assert (v mod 65536 < 65536) as Hlo by (apply N.mod_lt; discriminate).
  assert (forall c, c = v <-> c / 65536 = rb_key b /\ c mod 65536 = v mod 65536) as Hv.
  { intros c. rewrite Ek. split; [intros ->; split; reflexivity|]. intros [A B]. rewrite (N.div_mod c 65536), (N.div_mod v 65536) by discriminate. congruence. }
  destruct (rb_mask b) as [m|] eqn:Em.
  - destruct M as [Ma Mn]. split.
    + split; unfold bm_of, cur in *; cbn [rb_bm rb_mask rb_array rb_key rb_n]; [exact W| |].
      * split; [exact Ma|]. rewrite mask_vals_set by exact Hlo. rewrite mask_count, Mn. reflexivity.
      * intros c. rewrite Hv, Hi, Em. rewrite mask_vals_set, in_sadd by exact Hlo. tauto.
    + intros v' _ Hm. discriminate.
  - destruct M as [Sa La]. specialize (Hlt eq_refl). pose proof (sorted_snoc _ _ Sa Hlt) as Ss.
    assert (Forall (fun x => x < 65536) (rb_array b ++ [v mod 65536])) as Ls by (apply Forall_app; split; [exact La|constructor; [exact Hlo|constructor]]).
    destruct (array_max_size <=? scard (rb_array b ++ [v mod 65536])).
    + split.
      * split; unfold bm_of, cur in *; cbn [rb_bm rb_mask rb_array rb_key rb_n]; [exact W|split; [reflexivity|rewrite mask_fold_sorted by assumption; reflexivity]|].
        intros c. rewrite Hv, Hi, Em, mask_fold_sorted by assumption. rewrite in_app_iff. cbn [In]. intuition congruence.
      * intros v' _ Hm. discriminate.
    + split.
      * split; unfold bm_of, cur in *; cbn [rb_bm rb_mask rb_array rb_key rb_n]; [exact W|split; assumption|].
        intros c. rewrite Hv, Hi, Em, in_app_iff. cbn [In]. intuition congruence.
      * intros v' Hl _ Hk'. cbn [rb_key rb_array] in *. rewrite Ek in Hk'. specialize (Hl Hk'). assert (v mod 65536 < v' mod 65536) as Hll.
        { rewrite (N.div_mod v 65536), (N.div_mod v' 65536), Hk' in Hl by discriminate. lia. }
        apply Forall_app. split; [eapply Forall_impl; [|exact Hlt]; cbn; intros a; lia|constructor; [exact Hll|constructor]].
Qed.
Lemma adds_facts l : forall b S, binv b S -> match l with [] => True | v :: _ => fits b v end -> runs_ascending l -> binv (fold_left rb_add l b) (fun c => S c \/ In c l).
Proof.
  induction l as [|v l IH]; intros b S H Hf Hr; cbn [fold_left].
  - destruct H as [W M Hi]. split; [exact W|exact M|]. intros c. cbn [In]. rewrite <- Hi. tauto.
  - destruct (add_facts b S v H Hf) as [H1 F1]. assert (binv (fold_left rb_add l (rb_add b v)) (fun c => (S c \/ c = v) \/ In c l)) as [W M Hi].
    { apply IH; [exact H1| |destruct l; [exact Logic.I|apply Hr]]. destruct l as [|v' l]; [exact Logic.I|]. apply F1. destruct Hr as [Hr _]. exact Hr. }
    split; [exact W|exact M|]. intros c. rewrite <- Hi. cbn [In]. intuition.
Qed.
(** A builder with nothing in it: a new one, or one after Build. *)
Definition idle (b : row_builder) : Prop := rb_bm b = None /\ rb_mask b = None /\ rb_array b = [].
Lemma idle_inv b : idle b -> binv b (fun _ => False).
Proof. intros (A & B & C). split; unfold bm_of, cur; rewrite ?A, ?B, ?C; [split; constructor|split; constructor|]. cbn. tauto. Qed.
Lemma idle_fits b v : idle b -> fits b v.
Proof. intros (_ & _ & C) _ _. rewrite C. constructor. Qed.

(** *** Counts *)
Lemma div_shard x : x / 65536 / 16 = x / shard_width.
Proof. rewrite N.div_div by discriminate. reflexivity. Qed.
Lemma shard_count_spec m k : bm_wf m -> shard_count m k = scard (filter (fun x => x / shard_width =? k) (bm_columns m)).
Proof.
  intros [_ F]. unfold bm_columns. induction m as [|[q c] m IH]; [reflexivity|]. inversion F as [|? ? (Sc & Lc & Nc) Fm]; subst. cbn [snd] in *. cbn [shard_count fold_right flat_map fst snd]. fold (shard_count m k).
  rewrite filter_app. unfold scard in *. rewrite app_length, Nat2N.inj_add, <- IH by exact Fm.
  assert (filter (fun x => x / shard_width =? k) (map (fun lo => q * 65536 + lo) (c_vals c)) = if q / 16 =? k then map (fun lo => q * 65536 + lo) (c_vals c) else []) as ->.
  { clear -Lc. induction Lc as [|lo l Hlo Lc IH]; [destruct (q / 16 =? k); reflexivity|]. cbn [map filter]. rewrite IH. rewrite <- div_shard. destruct (low_high q lo Hlo) as [-> _]. destruct (q / 16 =? k); reflexivity. }
  destruct (q / 16 =? k); [|reflexivity]. rewrite map_length, Nc. reflexivity.
Qed.
Lemma recount_id m r : bm_wf m -> row_wf r -> row_columns r = bm_columns m -> recount m r = r.
Proof.
  intros Wm Wr E. unfold recount. assert (forall g, In g r -> Seg (g_shard g) (g_data g) (shard_count m (g_shard g)) = g) as H.
  { intros g Hg. rewrite shard_count_spec by exact Wm. rewrite <- E. destruct (row_wf_in _ _ Wr Hg) as (Sg & Dg & Ng). destruct g as [k d n]. cbn [g_shard g_data g_n] in *. f_equal. rewrite Ng. f_equal.
    apply ssorted_ext; [apply ssorted_filter, columns_sorted, Wr|exact Sg|]. intros x. rewrite filter_In, N.eqb_eq. split.
    - intros [Hx Hk]. destruct (cols_shard r x Wr Hx) as (s & Hs & Hd & Hk'). assert (s = Seg k d n) as ->; [|exact Hd].
      rewrite Hk in Hk'. clear -Wr Hs Hg Hk'. destruct Wr as [S _]. induction S as [|a l S IH F]; [destruct Hs|]. rewrite Forall_forall in F. destruct Hs as [<-|Hs], Hg as [Eg|Hg].
      + exact Eg.
      + specialize (F _ Hg). unfold seg_lt in F. cbn in F. lia.
      + subst a. specialize (F _ Hs). unfold seg_lt in F. cbn in F. lia.
      + exact (IH Hg Hs).
    - intros Hx. split; [apply in_cols; exists (Seg k d n); split; assumption|apply Dg, Hx]. }
  clear -H. induction r as [|g r IH]; [reflexivity|]. cbn [map]. rewrite H by (left; reflexivity). f_equal. apply IH. intros; apply H; right; assumption.
Qed.
(** The segments of a row made from a bitmap are not empty. *)
Lemma from_bitmap_nonempty b : forall fuel k r, from_bitmap fuel b k = Some r -> Forall (fun g => exists c, In c b /\ g_shard g = c / shard_width) r.
Proof.
  induction fuel as [|fuel IH]; intros k r E; cbn [from_bitmap] in E; destruct (min_at ((k * shard_width) mod two64) b) as [col|] eqn:Em; try discriminate; try (apply some_inj in E; subst; constructor).
  cbv zeta in E. destruct (from_bitmap fuel b (col / shard_width + 1)) as [r'|] eqn:Er; [|discriminate]. apply some_inj in E. subst r. constructor; [|exact (IH _ _ Er)].
  exists col. split; [|reflexivity]. unfold min_at in Em. apply find_some in Em. tauto.
Qed.
Lemma build_facts b S : binv b S -> (forall c, S c -> c < two64 - shard_width) ->
  exists r, fst (rb_build b) = Some r /\ lrow 0 max_u64 r /\ (forall c, In c (row_columns r) <-> S c) /\ idle (snd (rb_build b)).
Proof.
  intros H Hb. destruct (flush_facts b S H) as ([W M Hi] & [Fm Fa] & _). unfold rb_build. cbv zeta. cbn [fst snd].
  assert (forall c, S c <-> In c (bm_columns (bm_of (flush_key b)))) as Hs. { intros c. rewrite Hi. unfold cur. rewrite Fm, Fa. cbn. tauto. }
  assert (idle (RB None (rb_mask (flush_key b)) (rb_array (flush_key b)) (rb_key (flush_key b)) (rb_n (flush_key b)))) as Hid by (split; [reflexivity|split; assumption]).
  unfold bm_of in *. destruct (rb_bm (flush_key b)) as [m|].
  - destruct (new_row_from_bitmap_spec (bm_columns m) (bm_columns_sorted _ W)) as (r & Er & Wr & Cr). { intros x Hx. apply Hb, Hs, Hx. }
    rewrite Er. cbn [option_map]. rewrite (recount_id m r W Wr Cr). exists r. split; [reflexivity|]. split; [split; [exact Wr|]|].
    + eapply Forall_impl; [|exact (from_bitmap_nonempty _ _ _ _ Er)]. intros g (c & Hc & ->). split; [apply N.le_0_l|]. apply Hs, Hb in Hc.
      assert (c / shard_width <= c) as K by (apply N.div_le_upper_bound; [discriminate|]; rewrite <- (N.mul_1_l c) at 1; apply N.mul_le_mono_r; discriminate).
      unfold max_u64. change (two64 - shard_width) with 18446744073708503040 in Hc. change (two64 - 1) with 18446744073709551615. lia.
    + split; [|exact Hid]. intros c. rewrite Cr. symmetry. apply Hs.
  - exists []. split; [reflexivity|]. split; [apply lrow_nil|]. split; [|exact Hid]. intros c. rewrite Hs. reflexivity.
Qed.
Lemma row_builder_spec b l : idle b -> runs_ascending l -> (forall c, In c l -> c < two64 - shard_width) ->
  exists r, fst (rb_build (fold_left rb_add l b)) = Some r /\ lrow 0 max_u64 r /\ (forall c, In c (row_columns r) <-> In c l) /\ idle (snd (rb_build (fold_left rb_add l b))).
Proof.
  intros Hid Hr Hb. assert (binv (fold_left rb_add l b) (fun c => False \/ In c l)) as H.
  { apply adds_facts; [apply idle_inv, Hid|destruct l; [exact Logic.I|apply idle_fits, Hid]|exact Hr]. }
  destruct (build_facts _ _ H) as (r & A & B & C & D); [intros c [[]|Hc]; auto|]. exists r. split; [exact A|]. split; [exact B|]. split; [|exact D]. intros c. rewrite C. tauto.
Qed.
Lemma sorted_runs l : StronglySorted N.lt l -> runs_ascending l.
Proof. induction 1 as [|a l S IH F]; [exact Logic.I|]. cbn [runs_ascending]. destruct l as [|b l]; [exact Logic.I|]. split; [|exact IH]. inversion F; subst. intros _. assumption. Qed.

(** *** The bit-slice builder *)
Lemma nth_add_bit i col : forall b j, nth j (add_bit i col b) rb_empty = if (j =? i)%nat then rb_add (nth i b rb_empty) col else nth j b rb_empty.
Proof.
  induction i as [|i IH]; intros b j.
  - destruct b as [|r t]; destruct j as [|[|j]]; reflexivity.
  - destruct b as [|r t]; destruct j as [|j]; cbn [add_bit nth Nat.eqb]; try reflexivity; rewrite IH; destruct (j =? i)%nat; try reflexivity; destruct i; destruct j; reflexivity.
Qed.
Lemma length_add_bit i col : forall b, List.length (add_bit i col b) = Nat.max (List.length b) (S i).
Proof. induction i as [|i IH]; intros [|r t]; cbn [add_bit List.length]; rewrite ?IH; cbn [List.length]; lia. Qed.
Lemma pos_ctz_spec p : N.testbit (Npos p) (pos_ctz p) = true /\ forall i, i < pos_ctz p -> N.testbit (Npos p) i = false.
Proof.
  induction p as [p IH|p IH|]; cbn [pos_ctz].
  - split; [reflexivity|intros; lia].
  - destruct IH as [A B]. change (Npos (xO p)) with (2 * Npos p). split.
    + rewrite N.add_1_l, N.testbit_even_succ by lia. exact A.
    + intros i Hi. destruct (N.eq_dec i 0) as [->|Hz]; [apply N.testbit_even_0|]. replace i with (N.succ (N.pred i)) by lia. rewrite N.testbit_even_succ by lia. apply B. lia.
  - split; [reflexivity|intros; lia].
Qed.
Lemma insert_loop_spec fuel : forall col val b, (forall i, i < 64 - N.of_nat fuel -> N.testbit val i = false) -> (forall i, 64 <= i -> N.testbit val i = false) -> (fuel <= 64)%nat -> (List.length b <= 64)%nat ->
  (List.length (insert_loop fuel col val b) <= 64)%nat /\
  (forall j, nth j (insert_loop fuel col val b) rb_empty = if N.testbit val (N.of_nat j) then rb_add (nth j b rb_empty) col else nth j b rb_empty).
Proof.
  induction fuel as [|fuel IH]; intros col val b Hl Hh Hf Hb; cbn [insert_loop]; destruct (N.eqb_spec val 0) as [->|Hz].
  1,3: split; [exact Hb|]; intros j; rewrite N.bits_0; reflexivity.
  - exfalso. apply Hz. apply N.bits_inj_0. intros i. destruct (N.lt_ge_cases i 64); [apply Hl; cbn; lia|apply Hh; assumption].
  - cbv zeta. destruct val as [|p]; [congruence|]. cbn [ctz]. destruct (pos_ctz_spec p) as [Hc Hc']. set (i := pos_ctz p) in *.
    assert (i < 64) as Hi. { destruct (N.lt_ge_cases i 64) as [|K]; [assumption|]. rewrite Hh in Hc by exact K. discriminate. }
    assert (64 - N.of_nat (S fuel) <= i) as Hi'. { destruct (N.le_gt_cases (64 - N.of_nat (S fuel)) i) as [|K]; [assumption|]. rewrite Hl in Hc by exact K. discriminate. }
    assert (forall j, N.testbit (N.ldiff (Npos p) (2 ^ i)) j = N.testbit (Npos p) j && negb (i =? j)) as Hd by (intros j; rewrite N.ldiff_spec, N.pow2_bits_eqb; reflexivity).
    destruct (IH col (N.ldiff (Npos p) (2 ^ i)) (add_bit (N.to_nat i) col b)) as [A B].
    + intros j Hj. rewrite Hd. destruct (N.eqb_spec i j) as [->|Hne]; [apply andb_false_r|]. destruct (N.lt_ge_cases j i) as [K|K]; [rewrite Hc' by exact K; reflexivity|]. lia.
    + intros j Hj. rewrite Hd, Hh by exact Hj. reflexivity.
    + lia.
    + rewrite length_add_bit. lia.
    + split; [exact A|]. intros j. rewrite B, Hd, nth_add_bit. destruct (N.eqb_spec i (N.of_nat j)) as [E|E].
      * rewrite <- E, Hc. cbn [andb negb]. destruct (Nat.eqb_spec j (N.to_nat i)); [|lia]. subst j. reflexivity.
      * destruct (Nat.eqb_spec j (N.to_nat i)); [lia|]. rewrite andb_true_r. reflexivity.
Qed.
Definition bit_cols (pairs : list (N * N)) (j : nat) : list N := map fst (filter (fun p => N.testbit (snd p) (N.of_nat j)) pairs).
Lemma bits_above_64 v i : v < two64 -> 64 <= i -> N.testbit v i = false.
Proof.
  intros Hv Hi. destruct (N.eq_dec v 0) as [->|Hz]; [apply N.bits_0|]. apply N.bits_above_log2. apply N.log2_lt_pow2; [lia|]. eapply N.lt_le_trans; [exact Hv|]. unfold two64. apply N.pow_le_mono_r; [discriminate|exact Hi].
Qed.
Lemma insert_spec b c v : v < two64 -> (List.length b <= 64)%nat ->
  (List.length (bsi_insert b (c, v)) <= 64)%nat /\
  forall j, nth j (bsi_insert b (c, v)) rb_empty = if N.testbit v (N.of_nat j) then rb_add (nth j b rb_empty) c else nth j b rb_empty.
Proof.
  intros Hv Hb. unfold bsi_insert. cbn [fst snd]. apply insert_loop_spec; [intros i Hi; exfalso; revert Hi; apply N.nlt_0_r|intros i; apply bits_above_64, Hv|apply le_n|exact Hb].
Qed.
Lemma fold_cons {A B} (f : A -> B -> A) p l b : fold_left f (p :: l) b = fold_left f l (f b p).
Proof. reflexivity. Qed.
Lemma bit_cols_cons c v pairs j : bit_cols ((c, v) :: pairs) j = if N.testbit v (N.of_nat j) then c :: bit_cols pairs j else bit_cols pairs j.
Proof. unfold bit_cols. cbn [filter snd]. destruct (N.testbit v (N.of_nat j)); reflexivity. Qed.
Lemma inserts_step c v pairs b j : nth j (bsi_insert b (c, v)) rb_empty = (if N.testbit v (N.of_nat j) then rb_add (nth j b rb_empty) c else nth j b rb_empty) ->
  fold_left rb_add (bit_cols pairs j) (nth j (bsi_insert b (c, v)) rb_empty) = fold_left rb_add (bit_cols ((c, v) :: pairs) j) (nth j b rb_empty).
Proof. intros ->. rewrite bit_cols_cons. destruct (N.testbit v (N.of_nat j)); [symmetry; apply fold_cons|reflexivity]. Qed.
Lemma inserts_spec pairs : forall b, Forall (fun p => snd p < two64) pairs -> (List.length b <= 64)%nat ->
  (List.length (fold_left bsi_insert pairs b) <= 64)%nat /\
  forall j, nth j (fold_left bsi_insert pairs b) rb_empty = fold_left rb_add (bit_cols pairs j) (nth j b rb_empty).
Proof.
  induction pairs as [|[c v] pairs IH]; intros b Hp Hb; [split; [exact Hb|reflexivity]|]. rewrite fold_cons. apply Forall_inv in Hp as Hv. apply Forall_inv_tail in Hp. cbn [snd] in Hv.
  destruct (insert_spec b c v Hv Hb) as [A1 B1].
  destruct (IH _ Hp A1) as [A' B']. split; [exact A'|]. intros j. rewrite B'. apply inserts_step. apply B1.
Qed.
Lemma value_bits p : forall c v, (forall j, has p j c = N.testbit v (N.of_nat j)) -> value_at p c = v.
Proof.
  induction p as [|a p IH]; intros c v H.
  - symmetry. apply N.bits_inj_0. intros i. rewrite <- (N2Nat.id i), <- H. destruct (N.to_nat i); reflexivity.
  - cbn [value_at]. rewrite (IH c (N.div2 v)).
    + pose proof (H 0%nat) as H0. rewrite has_cons_0 in H0. rewrite H0. change (N.of_nat 0) with 0. rewrite N.bit0_odd. rewrite (N.div2_odd v) at 3. destruct (N.odd v); cbn [N.b2n]; lia.
    + intros j. pose proof (H (S j)) as Hj. rewrite Nat2N.inj_succ in Hj. rewrite N.div2_spec, N.shiftr_spec', N.add_1_r. exact Hj.
Qed.
Lemma all_some_map {A B} (f : A -> option B) (l : list A) : (forall a, In a l -> exists b, f a = Some b) -> exists r, all_some (map f l) = Some r /\ Forall2 (fun a b => f a = Some b) l r.
Proof.
  induction l as [|a l IH]; intros H; [exists []; split; [reflexivity|constructor]|]. destruct (H a (or_introl eq_refl)) as (b & E). destruct IH as (r & Er & Fr); [intros; apply H; right; assumption|].
  exists (b :: r). cbn [map all_some]. rewrite E, Er. split; [reflexivity|constructor; assumption].
Qed.
Lemma forall2_nth {A B} (P : A -> B -> Prop) l r : Forall2 P l r -> forall j b0, (j < List.length r)%nat -> forall a0, P (nth j l a0) (nth j r b0).
Proof. induction 1 as [|a b l r H F IH]; intros j b0 Hj a0; [cbn in Hj; lia|]. destruct j as [|j]; [exact H|]. cbn. apply IH. cbn in Hj. lia. Qed.
Lemma bit_cols_sorted pairs j : StronglySorted N.lt (map fst pairs) -> StronglySorted N.lt (bit_cols pairs j).
Proof.
  unfold bit_cols. induction pairs as [|[c v] pairs IH]; intros S; [constructor|]. cbn [map fst] in S. apply StronglySorted_inv in S. destruct S as [S F]. cbn [filter snd]. destruct (N.testbit v (N.of_nat j)); [|apply IH, S].
  cbn [map fst]. constructor; [apply IH, S|]. apply Forall_forall. intros x Hx. apply in_map_iff in Hx. destruct Hx as (q & <- & Hq). apply filter_In in Hq. rewrite Forall_forall in F. apply F. apply in_map. tauto.
Qed.
Lemma bit_cols_in pairs j c : In c (bit_cols pairs j) <-> exists v, In (c, v) pairs /\ N.testbit v (N.of_nat j) = true.
Proof.
  unfold bit_cols. rewrite in_map_iff. split.
  - intros ([c' v] & <- & H). apply filter_In in H. exists v. exact H.
  - intros (v & H). exists (c, v). split; [reflexivity|]. apply filter_In. exact H.
Qed.
Lemma bsi_builder_spec pairs : StronglySorted N.lt (map fst pairs) -> Forall (fun p => fst p < two64 - shard_width /\ snd p < two64) pairs ->
  exists rows, bsi_build (fold_left bsi_insert pairs []) = Some rows /\ (List.length rows <= 64)%nat /\ Forall (lrow 0 max_u64) rows /\
    forall j c, has (planes rows) j c = true <-> exists v, In (c, v) pairs /\ N.testbit v (N.of_nat j) = true.
Proof.
  intros S H. destruct (inserts_spec pairs []) as [Hlen Hn]; [eapply Forall_impl; [|exact H]; cbn; tauto|cbn; lia|]. set (b := fold_left bsi_insert pairs []) in *.
  assert (forall j, nth j b rb_empty = fold_left rb_add (bit_cols pairs j) rb_empty) as Hn' by (intros j; rewrite Hn; destruct j; reflexivity). clear Hn.
  assert (forall j, exists r, fst (rb_build (nth j b rb_empty)) = Some r /\ lrow 0 max_u64 r /\ forall c, In c (row_columns r) <-> In c (bit_cols pairs j)) as Hr.
  { intros j. rewrite Hn'. destruct (row_builder_spec rb_empty (bit_cols pairs j)) as (r & A & B & C & _).
    - split; [reflexivity|split; reflexivity].
    - apply sorted_runs, bit_cols_sorted, S.
    - intros c Hc. apply bit_cols_in in Hc. destruct Hc as (v & Hv & _). rewrite Forall_forall in H. apply (H (c, v) Hv).
    - exists r. auto. }
  destruct (all_some_map (fun r => fst (rb_build r)) b) as (rows & E & F).
  { intros a Ha. destruct (In_nth b a rb_empty Ha) as (j & _ & <-). destruct (Hr j) as (r & A & _). exists r. exact A. }
  assert (List.length rows = List.length b) as El by (clear -F; induction F; cbn [List.length]; lia).
  assert (forall j, (j < List.length rows)%nat -> fst (rb_build (nth j b rb_empty)) = Some (nth j rows [])) as Hj.
  { intros j Hj. exact (forall2_nth _ _ _ F j [] Hj rb_empty). }
  exists rows. split; [exact E|]. split; [lia|].
  assert (forall j, lrow 0 max_u64 (nth j rows []) /\ forall c, In c (row_columns (nth j rows [])) <-> In c (bit_cols pairs j)) as Hrows.
  { intros j. destruct (Hr j) as (r & A & B & C). destruct (Nat.lt_ge_cases j (List.length rows)) as [K|K].
    - rewrite Hj in A by exact K. apply some_inj in A. subst r. auto.
    - rewrite (nth_overflow rows) by exact K. split; [apply lrow_nil|]. rewrite nth_overflow in A by lia. unfold rb_build, rb_empty, flush_key in A. cbn in A. apply some_inj in A. subst r. exact C. }
  split; [apply lrow_of_nth; intros j; apply Hrows|]. intros j c. rewrite has_planes. rewrite (proj2 (Hrows j)). apply bit_cols_in.
Qed.
Lemma bsi_builder_values pairs rows : StronglySorted N.lt (map fst pairs) -> (forall j c, has (planes rows) j c = true <-> exists v, In (c, v) pairs /\ N.testbit v (N.of_nat j) = true) ->
  (forall c v, In (c, v) pairs -> value_at (planes rows) c = v) /\ (forall c, ~ In c (map fst pairs) -> value_at (planes rows) c = 0).
Proof.
  intros S H. split.
  - intros c v Hin. apply value_bits. intros j. apply eq_true_iff_eq. rewrite H. split; [|intros E; eauto]. intros (v' & Hin' & E). replace v with v'; [exact E|].
    apply ssorted_nodup in S. clear -S Hin Hin'. induction pairs as [|[a b] l IH]; [destruct Hin|]. cbn in S. inversion S; subst. destruct Hin as [E1|Hin], Hin' as [E2|Hin'].
    + congruence.
    + exfalso. apply H1. apply pair_inj in E1. destruct E1 as [-> _]. change c with (fst (c, v')). apply in_map, Hin'.
    + exfalso. apply H1. apply pair_inj in E2. destruct E2 as [-> _]. change c with (fst (c, v)). apply in_map, Hin.
    + apply IH; assumption.
  - intros c Hc. apply value_zero. intros j. apply not_true_is_false. rewrite H. intros (v & Hin & _). apply Hc. change c with (fst (c, v)). apply in_map, Hin.
Qed.
