From Verif.Model Require Import Base View Rows.
From Verif.Proofs Require Import BaseFacts.
Open Scope N_scope.

Definition seg_wf (s : segment) : Prop :=
  ssorted (g_data s) /\ (forall x, In x (g_data s) -> x / shard_width = g_shard s) /\ g_n s = scard (g_data s).
Definition seg_lt (a b : segment) : Prop := g_shard a < g_shard b.
Definition row_wf (r : row) : Prop := StronglySorted seg_lt r /\ Forall seg_wf r.

Lemma in_cols x r : In x (row_columns r) <-> exists s, In s r /\ In x (g_data s).
Proof. unfold row_columns. apply in_flat_map. Qed.
Lemma in_cols_cons x s r : In x (row_columns (s :: r)) <-> In x (g_data s) \/ In x (row_columns r).
Proof. unfold row_columns. cbn [flat_map]. apply in_app_iff. Qed.
Lemma in_cols_app x a b : In x (row_columns (a ++ b)) <-> In x (row_columns a) \/ In x (row_columns b).
Proof. unfold row_columns. rewrite flat_map_app. apply in_app_iff. Qed.
Lemma row_wf_nil : row_wf []. Proof. split; constructor. Qed.
Lemma row_wf_tl s r : row_wf (s :: r) -> row_wf r.
Proof. intros [H1 H2]. inversion H1; inversion H2; subst. split; auto. Qed.
Lemma row_wf_hd s r : row_wf (s :: r) -> seg_wf s.
Proof. intros [_ H]. inversion H; auto. Qed.
Lemma row_wf_cons s r : seg_wf s -> row_wf r -> (forall x, In x r -> g_shard s < g_shard x) -> row_wf (s :: r).
Proof. intros Hs [H1 H2] H. split; constructor; auto. apply Forall_forall. exact H. Qed.
Lemma row_wf_lt s r t : row_wf (s :: r) -> In t r -> g_shard s < g_shard t.
Proof. intros [H _] I. inversion H; subst. rewrite Forall_forall in H3. apply H3, I. Qed.
Lemma row_wf_in s r : row_wf r -> In s r -> seg_wf s.
Proof. intros [_ H] I. rewrite Forall_forall in H. auto. Qed.
(** A column of a well formed row lies in a segment of its shard. *)
Lemma cols_shard r x : row_wf r -> In x (row_columns r) -> exists s, In s r /\ In x (g_data s) /\ g_shard s = x / shard_width.
Proof.
  intros W H. apply in_cols in H as (s & I & H). exists s. split; [exact I|]. split; [exact H|].
  symmetry. apply (row_wf_in _ _ W I). exact H.
Qed.
Lemma not_in_later s r x : row_wf (s :: r) -> In x (g_data s) -> ~ In x (row_columns r).
Proof.
  intros W H C. apply cols_shard in C as (t & I & _ & E); [|eapply row_wf_tl; eauto].
  pose proof (row_wf_lt _ _ _ W I). pose proof (proj1 (proj2 (row_wf_hd _ _ W)) x H). lia.
Qed.

Lemma ssorted_app a b : ssorted a -> ssorted b -> (forall x y, In x a -> In y b -> x < y) -> ssorted (a ++ b).
Proof.
  intros Ha Hb H. induction Ha as [|x a Ha IH F]; cbn; [exact Hb|]. constructor.
  - apply IH. intros; apply H; cbn; auto.
  - apply Forall_app. split; [exact F|]. apply Forall_forall. intros y Hy. apply H; cbn; auto.
Qed.
Lemma div_lt_lt x y : x / shard_width < y / shard_width -> x < y.
Proof.
  intros H. apply N.lt_nge. intros C. apply (N.div_le_mono _ _ shard_width) in C; [|unfold shard_width; lia]. lia.
Qed.
Lemma columns_sorted r : row_wf r -> ssorted (row_columns r).
Proof.
  induction r as [|s r IH]; intros W; [constructor|]. unfold row_columns. cbn [flat_map]. apply ssorted_app.
  - apply (row_wf_hd _ _ W).
  - apply IH. eapply row_wf_tl; eauto.
  - intros x y Hx Hy. apply cols_shard in Hy as (t & I & _ & E); [|eapply row_wf_tl; eauto].
    apply div_lt_lt. rewrite <- E. rewrite (proj1 (proj2 (row_wf_hd _ _ W)) x Hx). eapply row_wf_lt; eauto.
Qed.
Lemma row_count_gen r : forall n, Forall seg_wf r -> fold_left (fun n s => n + g_n s) r n = n + scard (row_columns r).
Proof.
  induction r as [|s r IH]; intros n H; cbn [fold_left]; [unfold scard; cbn; lia|].
  inversion H; subst. rewrite IH by auto. destruct H2 as (_ & _ & ->). unfold row_columns, scard. cbn [flat_map].
  rewrite app_length. lia.
Qed.
Lemma row_count_spec r : row_wf r -> row_count r = scard (row_columns r).
Proof. intros [_ H]. unfold row_count. rewrite row_count_gen; auto. Qed.

(* ------------------------------------------------------------------ set bit *)
Lemma ssorted_len_sadd x s : ssorted s -> ~ In x s -> scard (sadd x s) = scard s + 1.
Proof.
  intros _ H. unfold scard. induction s as [|y s IH]; [reflexivity|]. cbn [sadd].
  destruct (N.ltb_spec x y); [cbn; lia|]. destruct (N.eqb_spec x y) as [->|NE]; [exfalso; apply H; left; auto|].
  cbn [List.length]. rewrite !Nat2N.inj_succ, IH; [lia|]. intros C. apply H. right. exact C.
Qed.
Lemma seg_set_wf s i : seg_wf s -> i / shard_width = g_shard s -> seg_wf (seg_set s i) /\ g_shard (seg_set s i) = g_shard s.
Proof.
  intros (H1 & H2 & H3) Hi. unfold seg_set. destruct (smem i (g_data s)) eqn:E; [split; [split; auto|reflexivity]|].
  apply smem_false in E. cbn. split; [|reflexivity]. split; [apply ssorted_sadd, H1|]. cbn. split.
  - intros x Hx. apply in_sadd in Hx as [->|Hx]; auto.
  - rewrite H3. symmetry. apply ssorted_len_sadd; auto.
Qed.
Lemma seg_set_in s i x : In x (g_data (seg_set s i)) <-> x = i \/ In x (g_data s).
Proof.
  unfold seg_set. destruct (smem i (g_data s)) eqn:E; [apply in_smem in E|cbn; apply in_sadd].
  split; [auto|intros [->|H]; auto].
Qed.
Lemma seg_new_wf k : seg_wf (Seg k [] 0).
Proof. split; [constructor|]. split; [intros x []|reflexivity]. Qed.
Lemma row_set_in_spec r : forall k i, row_wf r -> i / shard_width = k ->
  row_wf (row_set_in k i r) /\ (forall x, In x (row_columns (row_set_in k i r)) <-> x = i \/ In x (row_columns r)) /\
  (forall t, In t (row_set_in k i r) -> g_shard t = k \/ exists t', In t' r /\ g_shard t' = g_shard t).
Proof.
  induction r as [|s r IH]; intros k i W Hi; cbn [row_set_in].
  - destruct (seg_set_wf (Seg k [] 0) i (seg_new_wf k) Hi) as [W1 W2]. split; [|split].
    + apply row_wf_cons; [exact W1|apply row_wf_nil|intros x []].
    + intros x. rewrite in_cols_cons, seg_set_in. cbn. tauto.
    + intros t [<-|[]]. left. rewrite W2. reflexivity.
  - destruct (N.leb_spec k (g_shard s)) as [Hle|Hgt].
    + destruct (N.eqb_spec (g_shard s) k) as [E|NE].
      * destruct (seg_set_wf s i (row_wf_hd _ _ W) (eq_trans Hi (eq_sym E))) as [W1 W2]. split; [|split].
        -- apply row_wf_cons; [exact W1|eapply row_wf_tl; eauto|]. intros t Ht. rewrite W2. eapply row_wf_lt; eauto.
        -- intros x. rewrite !in_cols_cons, seg_set_in. tauto.
        -- intros t [<-|Ht]; [left; congruence|right; exists t; split; [right; exact Ht|reflexivity]].
      * destruct (seg_set_wf (Seg k [] 0) i (seg_new_wf k) Hi) as [W1 W2]. cbn [g_shard] in W2. split; [|split].
        -- apply row_wf_cons; [exact W1|exact W|]. intros t [<-|Ht]; [lia|]. pose proof (row_wf_lt _ _ _ W Ht). lia.
        -- intros x. rewrite in_cols_cons, seg_set_in. cbn [g_data In]. tauto.
        -- intros t [<-|Ht]; [left; exact W2|right; exists t; auto].
    + destruct (IH k i (row_wf_tl _ _ W) Hi) as (W1 & C1 & S1). split; [|split].
      * apply row_wf_cons; [eapply row_wf_hd; eauto|exact W1|]. intros t Ht. apply S1 in Ht as [->|(t' & I & <-)]; [exact Hgt|].
        eapply row_wf_lt; eauto.
      * intros x. rewrite !in_cols_cons, C1. tauto.
      * intros t [<-|Ht]; [right; exists s; split; [left; reflexivity|reflexivity]|].
        apply S1 in Ht as [H|(t' & I & H)]; [left; exact H|right; exists t'; split; [right; exact I|exact H]].
Qed.
Lemma row_set_spec i r : row_wf r -> row_wf (row_set i r) /\ forall x, In x (row_columns (row_set i r)) <-> x = i \/ In x (row_columns r).
Proof. intros W. destruct (row_set_in_spec r (i / shard_width) i W eq_refl) as (A & B & _). auto. Qed.
Lemma new_row_spec cols : row_wf (new_row cols) /\ forall x, In x (row_columns (new_row cols)) <-> In x cols.
Proof.
  assert (G : forall r, row_wf r -> row_wf (fold_left (fun r i => row_set i r) cols r) /\
    forall x, In x (row_columns (fold_left (fun r i => row_set i r) cols r)) <-> In x cols \/ In x (row_columns r)).
  { induction cols as [|i cols IH]; intros r W; cbn [fold_left In]; [split; [exact W|intros; tauto]|].
    destruct (row_set_spec i r W) as [W1 C1]. destruct (IH _ W1) as [W2 C2]. split; [exact W2|].
    intros x. rewrite C2, C1. intuition congruence. }
  destruct (G [] row_wf_nil) as [A B]. split; [exact A|]. intros x. unfold new_row. rewrite B. cbn. tauto.
Qed.

(* ------------------------------------------------------------------ merging two rows *)
Section Merge.
  Variable g : option segment * option segment -> list segment.
  Variable F : Prop -> Prop -> Prop.
  Hypothesis F_ext : forall P P' Q Q', (P <-> P') -> (Q <-> Q') -> (F P Q <-> F P' Q').
  Hypothesis F_none : ~ F False False.
  Definition one (k : N) (l : list segment) : Prop := match l with [] => True | [s] => seg_wf s /\ g_shard s = k | _ => False end.
  Hypothesis g_both : forall a b, seg_wf a -> seg_wf b -> g_shard a = g_shard b -> one (g_shard a) (g (Some a, Some b)) /\
    forall x, In x (row_columns (g (Some a, Some b))) <-> F (In x (g_data a)) (In x (g_data b)).
  Hypothesis g_left : forall a, seg_wf a -> one (g_shard a) (g (Some a, None)) /\
    forall x, (In x (row_columns (g (Some a, None))) <-> F (In x (g_data a)) False) /\ (In x (row_columns (g (Some a, None))) <-> F False (In x (g_data a))).
  Hypothesis g_right : forall a, seg_wf a -> one (g_shard a) (g (None, Some a)) /\
    forall x, In x (row_columns (g (None, Some a))) <-> F False (In x (g_data a)).

  Lemma one_app k l r : one k l -> row_wf r -> (forall t, In t r -> k < g_shard t) -> row_wf (l ++ r).
  Proof.
    intros O W H. destruct l as [|s [|? ?]]; cbn; [exact W| |destruct O]. destruct O as [O1 O2].
    apply row_wf_cons; auto. intros t Ht. rewrite O2. auto.
  Qed.
  Lemma one_shard k l t : one k l -> In t l -> g_shard t = k.
  Proof. intros O I. destruct l as [|s [|? ?]]; [destruct I| |destruct O]. destruct I as [<-|[]]. apply O. Qed.
  Lemma one_cols k l x : one k l -> In x (row_columns l) -> x / shard_width = k.
  Proof.
    intros O H. apply in_cols in H as (s & I & H). rewrite <- (one_shard _ _ _ O I).
    destruct l as [|s' [|? ?]]; [destruct I| |destruct O]. destruct I as [<-|[]]. apply O. exact H.
  Qed.

  Definition above (k : N) (r : row) : Prop := forall t, In t r -> k < g_shard t.
  Definition above_all (k : N) (r o out : row) : Prop := above k r -> above k o -> above k out.

  Lemma above_not_in k r x : row_wf r -> above k r -> x / shard_width = k -> ~ In x (row_columns r).
  Proof. intros W A E C. apply cols_shard in C as (t & I & _ & E'); auto. specialize (A t I). lia. Qed.

  (** One step: a block of shard k in front of a result for the remaining rows, all above k. *)
  Lemma merge_step k blk r o r0 o0 out :
    row_wf r -> row_wf o -> above k r -> above k o ->
    one k blk ->
    row_wf out -> (forall x, In x (row_columns out) <-> F (In x (row_columns r)) (In x (row_columns o))) ->
    (forall k', above_all k' r o out) ->
    (forall x, In x (row_columns blk) <-> F (In x r0) (In x o0)) ->
    (forall x, In x r0 -> x / shard_width = k) -> (forall x, In x o0 -> x / shard_width = k) ->
    row_wf (blk ++ out) /\
    (forall x, In x (row_columns (blk ++ out)) <-> F (In x r0 \/ In x (row_columns r)) (In x o0 \/ In x (row_columns o))) .
  Proof.
    intros Wr Wo Ar Ao O Wout C A B Hr Ho. split.
    - eapply one_app; eauto. apply (A k); auto.
    - intros x. rewrite in_cols_app. destruct (N.eq_dec (x / shard_width) k) as [E|NE].
      + pose proof (above_not_in _ _ _ Wr Ar E) as N1. pose proof (above_not_in _ _ _ Wo Ao E) as N2.
        assert (N3 : ~ In x (row_columns out)).
        { rewrite C. intros H. apply F_none. revert H. apply F_ext; tauto. }
        transitivity (F (In x r0) (In x o0)); [rewrite B; tauto|]. apply F_ext; tauto.
      + assert (N0 : ~ In x (row_columns blk)) by (intros H; apply NE; eapply one_cols; eauto).
        transitivity (F (In x (row_columns r)) (In x (row_columns o))); [rewrite <- C; tauto|].
        apply F_ext; split; auto; intros [H|H]; auto; [apply Hr in H|apply Ho in H]; congruence.
  Qed.

  Lemma merge_generic : forall r o, row_wf r -> row_wf o ->
    row_wf (flat_map g (merge_iter r o)) /\
    (forall x, In x (row_columns (flat_map g (merge_iter r o))) <-> F (In x (row_columns r)) (In x (row_columns o))) /\
    (forall k, above_all k r o (flat_map g (merge_iter r o))).
  Proof.
    assert (AB : forall k r o blk out kb, one kb blk -> (above k r -> above k o -> k < kb) -> above_all k r o out -> above_all k r o (blk ++ out)).
    { intros k r o blk out kb O Hk A Ar Ao t Ht. apply in_app_iff in Ht as [Ht|Ht]; [|apply A; auto].
      rewrite (one_shard _ _ _ O Ht). auto. }
    induction r as [|s0 t0 IHr].
    - induction o as [|s1 t1 IHo]; intros Wr Wo.
      + cbn. split; [apply row_wf_nil|]. split; [|intros k _ _ t []]. intros x. split; [intros []|intros H; apply F_none; exact H].
      + cbn [merge_iter flat_map]. destruct (IHo Wr (row_wf_tl _ _ Wo)) as (W & C & A).
        destruct (g_right s1 (row_wf_hd _ _ Wo)) as [O B].
        assert (Q : row_wf (g (None, Some s1) ++ flat_map g (merge_iter [] t1)) /\
          forall x, In x (row_columns (g (None, Some s1) ++ flat_map g (merge_iter [] t1))) <->
           F (In x [] \/ In x (row_columns [])) (In x (g_data s1) \/ In x (row_columns t1))).
        { apply (merge_step (g_shard s1)); auto; try exact row_wf_nil.
          - eapply row_wf_tl; eauto.
          - intros t [].
          - intros t Ht; eapply row_wf_lt; eauto.
          - intros x [].
          - intros x Hx; apply (row_wf_hd _ _ Wo); exact Hx. }
        destruct Q as [Q1 Q2]. split; [exact Q1|]. split.
        * intros x. rewrite Q2. apply F_ext; rewrite ?in_cols_cons; cbn; tauto.
        * intros k. eapply AB; eauto; [intros _ Ao; apply Ao; left; reflexivity|].
          intros Ar Ao. apply (A k Ar). intros t Ht; apply Ao; right; exact Ht.
    - induction o as [|s1 t1 IHo]; intros Wr Wo.
      + cbn [merge_iter flat_map]. destruct (IHr [] (row_wf_tl _ _ Wr) Wo) as (W & C & A).
        destruct (g_left s0 (row_wf_hd _ _ Wr)) as [O B].
        assert (Q : row_wf (g (Some s0, None) ++ flat_map g (merge_iter t0 [])) /\
          forall x, In x (row_columns (g (Some s0, None) ++ flat_map g (merge_iter t0 []))) <->
           F (In x (g_data s0) \/ In x (row_columns t0)) (In x [] \/ In x (row_columns []))).
        { apply (merge_step (g_shard s0)); auto; try exact row_wf_nil.
          - eapply row_wf_tl; eauto.
          - intros t Ht; eapply row_wf_lt; eauto.
          - intros t [].
          - intros x. apply B.
          - intros x Hx; apply (row_wf_hd _ _ Wr); exact Hx.
          - intros x []. }
        destruct Q as [Q1 Q2]. split; [exact Q1|]. split.
        * intros x. rewrite Q2. apply F_ext; rewrite ?in_cols_cons; cbn; tauto.
        * intros k. eapply AB; eauto; [intros Ar _; apply Ar; left; reflexivity|].
          intros Ar Ao. apply (A k); [|exact Ao]. intros t Ht; apply Ar; right; exact Ht.
      + destruct (N.ltb_spec (g_shard s0) (g_shard s1)) as [L|L]; [|destruct (N.ltb_spec (g_shard s1) (g_shard s0)) as [L'|L']].
        * assert (E : merge_iter (s0 :: t0) (s1 :: t1) = (Some s0, None) :: merge_iter t0 (s1 :: t1)).
          { cbn [merge_iter]. destruct (N.ltb_spec (g_shard s0) (g_shard s1)); [reflexivity|lia]. }
          rewrite E. cbn [flat_map]. destruct (IHr (s1 :: t1) (row_wf_tl _ _ Wr) Wo) as (W & C & A).
          destruct (g_left s0 (row_wf_hd _ _ Wr)) as [O B].
          assert (Q : row_wf (g (Some s0, None) ++ flat_map g (merge_iter t0 (s1 :: t1))) /\
            forall x, In x (row_columns (g (Some s0, None) ++ flat_map g (merge_iter t0 (s1 :: t1)))) <->
             F (In x (g_data s0) \/ In x (row_columns t0)) (In x [] \/ In x (row_columns (s1 :: t1)))).
          { apply (merge_step (g_shard s0)); auto.
            - eapply row_wf_tl; eauto.
            - intros t Ht; eapply row_wf_lt; eauto.
            - intros t [<-|Ht]; [exact L|]. pose proof (row_wf_lt _ _ _ Wo Ht). lia.
            - intros x. apply B.
            - intros x Hx; apply (row_wf_hd _ _ Wr); exact Hx.
            - intros x []. }
          destruct Q as [Q1 Q2]. split; [exact Q1|]. split.
          -- intros x. rewrite Q2. apply F_ext; rewrite ?in_cols_cons; cbn; tauto.
          -- intros k. eapply AB; eauto; [intros Ar _; apply Ar; left; reflexivity|].
             intros Ar Ao. apply (A k); [|exact Ao]. intros t Ht; apply Ar; right; exact Ht.
        * assert (E : merge_iter (s0 :: t0) (s1 :: t1) = (Some s1, None) :: merge_iter (s0 :: t0) t1).
          { cbn [merge_iter]. destruct (N.ltb_spec (g_shard s0) (g_shard s1)); [lia|].
            destruct (N.ltb_spec (g_shard s1) (g_shard s0)); [reflexivity|lia]. }
          rewrite E. cbn [flat_map]. destruct (IHo Wr (row_wf_tl _ _ Wo)) as (W & C & A).
          destruct (g_left s1 (row_wf_hd _ _ Wo)) as [O B].
          assert (Q : row_wf (g (Some s1, None) ++ flat_map g (merge_iter (s0 :: t0) t1)) /\
            forall x, In x (row_columns (g (Some s1, None) ++ flat_map g (merge_iter (s0 :: t0) t1))) <->
             F (In x [] \/ In x (row_columns (s0 :: t0))) (In x (g_data s1) \/ In x (row_columns t1))).
          { apply (merge_step (g_shard s1)); auto.
            - eapply row_wf_tl; eauto.
            - intros t [<-|Ht]; [exact L'|]. pose proof (row_wf_lt _ _ _ Wr Ht). lia.
            - intros t Ht; eapply row_wf_lt; eauto.
            - intros x. apply B.
            - intros x [].
            - intros x Hx; apply (row_wf_hd _ _ Wo); exact Hx. }
          destruct Q as [Q1 Q2]. split; [exact Q1|]. split.
          -- intros x. rewrite Q2. apply F_ext; rewrite ?in_cols_cons; cbn; tauto.
          -- intros k. eapply AB; eauto; [intros _ Ao; apply Ao; left; reflexivity|].
             intros Ar Ao. apply (A k); [exact Ar|]. intros t Ht; apply Ao; right; exact Ht.
        * assert (EQ : g_shard s0 = g_shard s1) by lia.
          assert (E : merge_iter (s0 :: t0) (s1 :: t1) = (Some s0, Some s1) :: merge_iter t0 t1).
          { cbn [merge_iter]. destruct (N.ltb_spec (g_shard s0) (g_shard s1)); [lia|].
            destruct (N.ltb_spec (g_shard s1) (g_shard s0)); [lia|reflexivity]. }
          rewrite E. cbn [flat_map]. destruct (IHr t1 (row_wf_tl _ _ Wr) (row_wf_tl _ _ Wo)) as (W & C & A).
          destruct (g_both s0 s1 (row_wf_hd _ _ Wr) (row_wf_hd _ _ Wo) EQ) as [O B].
          assert (Q : row_wf (g (Some s0, Some s1) ++ flat_map g (merge_iter t0 t1)) /\
            forall x, In x (row_columns (g (Some s0, Some s1) ++ flat_map g (merge_iter t0 t1))) <->
             F (In x (g_data s0) \/ In x (row_columns t0)) (In x (g_data s1) \/ In x (row_columns t1))).
          { apply (merge_step (g_shard s0)); auto.
            - eapply row_wf_tl; eauto.
            - eapply row_wf_tl; eauto.
            - intros t Ht; eapply row_wf_lt; eauto.
            - intros t Ht. rewrite EQ. eapply row_wf_lt; eauto.
            - intros x Hx; apply (row_wf_hd _ _ Wr); exact Hx.
            - intros x Hx; rewrite EQ; apply (row_wf_hd _ _ Wo); exact Hx. }
          destruct Q as [Q1 Q2]. split; [exact Q1|]. split.
          -- intros x. rewrite Q2. apply F_ext; rewrite ?in_cols_cons; cbn; tauto.
          -- intros k. eapply AB; eauto; [intros Ar _; apply Ar; left; reflexivity|].
             intros Ar Ao. apply (A k); intros t Ht; [apply Ar|apply Ao]; right; exact Ht.
  Qed.
End Merge.

Lemma seg_of_wf k d : ssorted d -> (forall x, In x d -> x / shard_width = k) -> seg_wf (seg_of k d) /\ g_shard (seg_of k d) = k.
Proof. intros H1 H2. split; [split; [exact H1|split; [exact H2|reflexivity]]|reflexivity]. Qed.
Lemma cols_one s x : In x (row_columns [s]) <-> In x (g_data s).
Proof. rewrite in_cols_cons. cbn. tauto. Qed.

Lemma row_intersect_spec r o : row_wf r -> row_wf o ->
  row_wf (row_intersect r o) /\ forall x, In x (row_columns (row_intersect r o)) <-> In x (row_columns r) /\ In x (row_columns o).
Proof.
  intros Wr Wo. unfold row_intersect.
  destruct (merge_generic (fun p => match p with | (Some a, Some b) => [seg_of (g_shard a) (sinter (g_data a) (g_data b))] | _ => [] end)
    (fun P Q => P /\ Q)) with (r := r) (o := o) as (A & B & _); auto; try tauto.
  - intros a b (Sa & Ha & _) (Sb & Hb & _) E. split.
    + cbn. apply seg_of_wf; [apply ssorted_sinter, Sa|]. intros x Hx. apply in_sinter in Hx as [Hx _]. auto.
    + intros x. rewrite cols_one. cbn. apply in_sinter.
  - intros a _. split; [exact I|]. intros x. cbn. tauto.
  - intros a _. split; [exact I|]. intros x. cbn. tauto.
Qed.
Lemma row_xor_spec r o : row_wf r -> row_wf o ->
  row_wf (row_xor r o) /\ forall x, In x (row_columns (row_xor r o)) <->
   (In x (row_columns r) /\ ~ In x (row_columns o)) \/ (In x (row_columns o) /\ ~ In x (row_columns r)).
Proof.
  intros Wr Wo. unfold row_xor.
  destruct (merge_generic (fun p => match p with
    | (Some a, None) => [a] | (None, Some b) => [b]
    | (Some a, Some b) => [seg_of (g_shard a) (sxor (g_data a) (g_data b))]
    | (None, None) => [] end) (fun P Q => (P /\ ~ Q) \/ (Q /\ ~ P))) with (r := r) (o := o) as (A & B & _); auto; try tauto.
  - intros a b (Sa & Ha & _) (Sb & Hb & _) E. split.
    + cbn. apply seg_of_wf; [apply ssorted_sxor, Sa|]. intros x Hx. apply in_sxor in Hx as [[Hx _]|[Hx _]]; auto. rewrite E. auto.
    + intros x. rewrite cols_one. cbn. apply in_sxor.
  - intros a Wa. split; [split; auto|]. intros x. rewrite cols_one. tauto.
  - intros a Wa. split; [split; auto|]. intros x. rewrite cols_one. tauto.
Qed.

Lemma seg_merge_spec a b : seg_wf a -> seg_wf b -> g_shard a = g_shard b ->
  seg_wf (seg_merge a b) /\ g_shard (seg_merge a b) = g_shard a /\ forall x, In x (g_data (seg_merge a b)) <-> In x (g_data a) \/ In x (g_data b).
Proof.
  intros Wa (_ & Hb & _) E. unfold seg_merge.
  assert (Hb' : forall x, In x (g_data b) -> x / shard_width = g_shard a) by (intros x Hx; rewrite E; auto).
  clear E Hb. revert a Wa Hb'. generalize (g_data b) as l. clear b.
  induction l as [|i l IH]; intros a Wa H; cbn [fold_left]; [split; [exact Wa|split; [reflexivity|intros x; cbn; tauto]]|].
  destruct (seg_set_wf a i Wa) as [W1 S1]; [apply H; left; reflexivity|].
  destruct (IH (seg_set a i) W1) as (W2 & S2 & M2); [intros x Hx; rewrite S1; apply H; right; exact Hx|].
  split; [exact W2|]. split; [congruence|]. intros x. rewrite M2, seg_set_in. cbn [In]. intuition congruence.
Qed.
Lemma seg_invalidate_wf s : seg_wf s -> seg_invalidate s = s.
Proof. intros (_ & _ & H). destruct s. unfold seg_invalidate. cbn in *. congruence. Qed.
Lemma row_merge_spec r o : row_wf r -> row_wf o ->
  row_wf (row_merge r o) /\ forall x, In x (row_columns (row_merge r o)) <-> In x (row_columns r) \/ In x (row_columns o).
Proof.
  intros Wr Wo. unfold row_merge.
  destruct (merge_generic (fun p => match p with
    | (Some a, Some b) => [seg_merge a b] | (Some a, None) => [a] | (None, Some b) => [b]
    | (None, None) => [] end) (fun P Q => P \/ Q)) with (r := r) (o := o) as (A & B & _); auto; try tauto.
  - intros a b Wa Wb E. destruct (seg_merge_spec a b Wa Wb E) as (W & S & M). split; [split; auto|].
    intros x. rewrite cols_one. apply M.
  - intros a Wa. split; [split; auto|]. intros x. rewrite cols_one. tauto.
  - intros a Wa. split; [split; auto|]. intros x. rewrite cols_one. tauto.
  - rewrite (map_ext_in _ (fun s => s)), map_id; [auto|]. intros s Hs. apply seg_invalidate_wf. eapply row_wf_in; eauto.
Qed.

(* ------------------------------------------------------------------ union *)
Definition in_any (x : N) (lists : list row) : Prop := exists l, In l lists /\ In x (row_columns l).
Definition live (lists : list row) : Prop := forall l, In l lists -> l <> [] /\ row_wf l.
Definition total (lists : list row) : nat := list_sum (map (@List.length segment) lists).

Lemma heads_min_spec lists : forall d, let m := heads_min lists d in
  m <= d /\ (forall s t, In (s :: t) lists -> m <= g_shard s) /\ (m = d \/ exists s t, In (s :: t) lists /\ g_shard s = m).
Proof.
  unfold heads_min. induction lists as [|l lists IH]; intros d; cbn [fold_left In].
  - split; [lia|]. split; [intros s t []|left; reflexivity].
  - set (d' := match l with s :: _ => if g_shard s <? d then g_shard s else d | [] => d end).
    destruct (IH d') as (A & B & C).
    assert (D : d' <= d) by (subst d'; destruct l as [|s l]; [lia|]; destruct (N.ltb_spec (g_shard s) d); lia).
    assert (D' : forall s t, l = s :: t -> d' <= g_shard s).
    { intros s t ->. subst d'. destruct (N.ltb_spec (g_shard s) d); lia. }
    assert (D'' : d' = d \/ exists s t, l = s :: t /\ g_shard s = d').
    { subst d'. destruct l as [|s l]; [left; reflexivity|]. destruct (N.ltb_spec (g_shard s) d); [right; eauto|left; reflexivity]. }
    split; [lia|]. split.
    + intros s t [E|I]; [specialize (D' s t E); lia|eauto].
    + destruct C as [C|(s & t & I & C)]; [|right; exists s, t; auto].
      destruct D'' as [E|(s & t & E & E')]; [left; congruence|right; exists s, t; split; [left; auto|congruence]].
Qed.

Lemma to_process_in k lists s : In s (to_process k lists) <-> g_shard s = k /\ exists t, In (s :: t) lists.
Proof.
  unfold to_process. rewrite in_flat_map. split.
  - intros (l & I & H). destruct l as [|s' t]; [destruct H|]. destruct (N.eqb_spec (g_shard s') k) as [E|NE]; [|destruct H].
    destruct H as [<-|[]]. split; [exact E|exists t; exact I].
  - intros (E & t & I). exists (s :: t). split; [exact I|]. rewrite (proj2 (N.eqb_eq _ _) E). left. reflexivity.
Qed.
Lemma next_segs_in k lists l' : In l' (next_segs k lists) <->
  l' <> [] /\ exists l, In l lists /\ match l with s :: t => if g_shard s =? k then l' = t else l' = l | [] => False end.
Proof.
  unfold next_segs. rewrite in_flat_map. split.
  - intros (l & I & H). destruct l as [|s t]; [destruct H|]. destruct (g_shard s =? k) eqn:E.
    + destruct t as [|s' t]; [destruct H|]. destruct H as [<-|[]]. split; [discriminate|]. exists (s :: s' :: t). rewrite E. auto.
    + destruct H as [<-|[]]. split; [discriminate|]. exists (s :: t). rewrite E. auto.
  - intros (NE & l & I & H). exists l. split; [exact I|]. destruct l as [|s t]; [destruct H|].
    destruct (g_shard s =? k); subst; [destruct t; [congruence|left; reflexivity]|left; reflexivity].
Qed.
Lemma total_cons l lists : total (l :: lists) = (List.length l + total lists)%nat.
Proof. reflexivity. Qed.
Lemma total_app a b : total (a ++ b) = (total a + total b)%nat.
Proof. unfold total. rewrite map_app. apply list_sum_app. Qed.
Lemma next_segs_cons k l lists : next_segs k (l :: lists) = next_segs k [l] ++ next_segs k lists.
Proof. unfold next_segs. cbn [flat_map]. rewrite app_nil_r. reflexivity. Qed.
Lemma next_one_le k l : (total (next_segs k [l]) <= List.length l)%nat.
Proof.
  unfold next_segs. cbn [flat_map]. rewrite app_nil_r. destruct l as [|s t]; [exact (le_n 0)|].
  destruct (g_shard s =? k); [destruct t|]; rewrite ?total_cons; change (total []) with 0%nat; cbn [List.length]; lia.
Qed.
Lemma next_one_lt k s t : g_shard s = k -> (total (next_segs k [s :: t]) < List.length (s :: t))%nat.
Proof.
  intros E. unfold next_segs. cbn [flat_map]. rewrite app_nil_r, (proj2 (N.eqb_eq _ _) E).
  destruct t; rewrite ?total_cons; change (total []) with 0%nat; cbn [List.length]; lia.
Qed.
Lemma next_segs_total_le k lists : (total (next_segs k lists) <= total lists)%nat.
Proof.
  induction lists as [|l lists IH]; [exact (le_n 0)|].
  rewrite next_segs_cons, total_app, total_cons. pose proof (next_one_le k l). lia.
Qed.
Lemma next_segs_total k lists s t : In (s :: t) lists -> g_shard s = k -> (total (next_segs k lists) < total lists)%nat.
Proof.
  intros I E. induction lists as [|l lists IH]; [destruct I|]. rewrite next_segs_cons, total_app, total_cons. destruct I as [->|I].
  - apply Nat.add_lt_le_mono; [apply next_one_lt; exact E|apply next_segs_total_le].
  - specialize (IH I). pose proof (next_one_le k l). lia.
Qed.
Lemma fold_sunion_spec ss : forall d, ssorted d ->
  ssorted (fold_left (fun d o => sunion d (g_data o)) ss d) /\
  forall x, In x (fold_left (fun d o => sunion d (g_data o)) ss d) <-> In x d \/ exists s, In s ss /\ In x (g_data s).
Proof.
  induction ss as [|s ss IH]; intros d Hd; cbn [fold_left].
  - split; [exact Hd|]. intros x. split; [auto|intros [H|(s & [] & _)]; exact H].
  - destruct (IH (sunion d (g_data s)) (ssorted_sunion _ _ Hd)) as [A B]. split; [exact A|]. intros x. rewrite B, in_sunion.
    split.
    + intros [[H|H]|(s' & I & H)]; [left; exact H|right; exists s; split; [left; reflexivity|exact H]|right; exists s'; split; [right; exact I|exact H]].
    + intros [H|(s' & [->|I] & H)]; [left; left; exact H|left; right; exact H|right; exists s'; auto].
Qed.
Lemma union_loop_spec : forall fuel lists, live lists -> (total lists <= fuel)%nat ->
  exists out, union_loop fuel lists = Some out /\ row_wf out /\
    (forall x, In x (row_columns out) <-> in_any x lists) /\
    (forall k, (forall l, In l lists -> above k l) -> above k out).
Proof.
  induction fuel as [|fuel IH]; intros lists L T.
  - destruct lists as [|l lists].
    + exists []. split; [reflexivity|]. split; [apply row_wf_nil|]. split; [|intros k _ t []]. intros x. split; [intros []|intros (l & [] & _)].
    + destruct (L l (or_introl eq_refl)) as [NE _]. unfold total in T. cbn in T. destruct l; [congruence|cbn in T; lia].
  - destruct lists as [|l lists].
    + exists []. split; [reflexivity|]. split; [apply row_wf_nil|]. split; [|intros k _ t []]. intros x. split; [intros []|intros (l & [] & _)].
    + destruct (L l (or_introl eq_refl)) as [NE _].
      assert (El : exists s0 t0, l = s0 :: t0) by (destruct l; [congruence|eauto]). destruct El as (s0 & t0 & El).
      cbn [union_loop]. remember (l :: lists) as ls eqn:Els.
      assert (Ef : match l with s :: _ => g_shard s | [] => 0 end = g_shard s0) by (rewrite El; reflexivity). rewrite Ef. clear Ef.
      destruct (heads_min_spec ls (g_shard s0)) as (M1 & M2 & M3). set (k := heads_min ls (g_shard s0)) in *.
      assert (ATT : exists s t, In (s :: t) ls /\ g_shard s = k).
      { destruct M3 as [M3|M3]; [|exact M3]. exists s0, t0. split; [subst; left; reflexivity|congruence]. }
      assert (AB : forall l, In l (next_segs k ls) -> above k l /\ row_wf l).
      { intros l' Hl'. apply next_segs_in in Hl' as (_ & l1 & I & H). destruct l1 as [|s t]; [destruct H|].
        destruct (L _ I) as [_ W]. pose proof (M2 s t I) as Hm. destruct (N.eqb_spec (g_shard s) k) as [E|NEk]; subst l'.
        - split; [|eapply row_wf_tl; eauto]. intros u Hu. rewrite <- E. eapply row_wf_lt; eauto.
        - split; [|exact W]. intros u [<-|Hu]; [lia|]. pose proof (row_wf_lt _ _ _ W Hu). lia. }
      destruct (IH (next_segs k ls)) as (out & -> & W & C & A).
      { intros l' Hl'. split; [apply next_segs_in in Hl'; tauto|apply AB, Hl']. }
      { destruct ATT as (s & t & I & E). pose proof (next_segs_total k ls s t I E). lia. }
      set (blk := match to_process k ls with [] => [] | [s] => [s]
                  | s :: (_ :: _) as t => [seg_of (g_shard s) (fold_left (fun d o => sunion d (g_data o)) t (g_data s))] end).
      assert (SEG : forall s, In s (to_process k ls) -> seg_wf s /\ g_shard s = k).
      { intros s Hs. apply to_process_in in Hs as (E & t & I). split; [|exact E]. destruct (L _ I) as [_ W']. eapply row_wf_hd; eauto. }
      assert (B : one k blk /\ forall x, In x (row_columns blk) <-> exists s, In s (to_process k ls) /\ In x (g_data s)).
      { subst blk. destruct (to_process k ls) as [|s [|s' t]] eqn:E.
        - split; [exact I|]. intros x. split; [intros []|intros (s & [] & _)].
        - split; [apply SEG; left; reflexivity|]. intros x. rewrite cols_one. split; [intros H; exists s; split; [left; reflexivity|exact H]|].
          intros (s' & [<-|[]] & H). exact H.
        - destruct (SEG s (or_introl eq_refl)) as [(Ss & Hs & _) Es].
          destruct (fold_sunion_spec (s' :: t) (g_data s) Ss) as [F1 F2]. split.
          + cbn [one]. rewrite <- Es. apply seg_of_wf; [exact F1|]. intros x Hx. apply F2 in Hx as [Hx|(u & I & Hx)]; [apply Hs, Hx|].
            destruct (SEG u (or_intror I)) as [(_ & Hu & _) Eu]. rewrite Hu by exact Hx. congruence.
          + intros x. rewrite cols_one. cbn [seg_of g_data]. rewrite F2. split.
            * intros [H|(u & I & H)]; [exists s; split; [left; reflexivity|exact H]|exists u; split; [right; exact I|exact H]].
            * intros (u & [<-|I] & H); [left; exact H|right; exists u; auto]. }
      destruct B as [O B]. exists (blk ++ out). split; [reflexivity|]. split; [|split].
      * apply one_app with (k := k); auto. apply A. intros l' Hl'. apply AB, Hl'.
      * intros x. rewrite in_cols_app, B, C. split.
        -- intros [(s & I & H)|(l' & I & H)].
           ++ apply to_process_in in I as (E & t & I). exists (s :: t). split; [exact I|]. rewrite in_cols_cons. auto.
           ++ apply next_segs_in in I as (_ & l1 & I & E). exists l1. split; [exact I|]. destruct l1 as [|s t]; [destruct E|].
              destruct (g_shard s =? k); subst l'; [rewrite in_cols_cons; auto|exact H].
        -- intros (l1 & I & H). destruct l1 as [|s t]; [destruct H|]. destruct (N.eqb_spec (g_shard s) k) as [E|NEk].
           ++ apply in_cols_cons in H as [H|H]; [left; exists s; split; [apply to_process_in; eauto|exact H]|].
              right. exists t. split; [|exact H]. apply next_segs_in. split; [intros ->; destruct H|].
              exists (s :: t). split; [exact I|]. rewrite (proj2 (N.eqb_eq _ _) E). reflexivity.
           ++ right. exists (s :: t). split; [|exact H]. apply next_segs_in. split; [discriminate|].
              exists (s :: t). split; [exact I|]. rewrite (proj2 (N.eqb_neq _ _) NEk). reflexivity.
      * intros j Hj u Hu. apply in_app_iff in Hu as [Hu|Hu].
        -- rewrite (one_shard _ _ _ O Hu). destruct ATT as (s & t & I & <-). apply (Hj _ I). left. reflexivity.
        -- revert u Hu. apply A. intros l' Hl' u Hu. apply next_segs_in in Hl' as (_ & l1 & I & E). apply (Hj l1 I).
           destruct l1 as [|s t]; [destruct E|]. destruct (g_shard s =? k); subst l'; [right; exact Hu|exact Hu].
Qed.
Lemma row_union_spec r others : row_wf r -> Forall row_wf others ->
  exists out, row_union r others = Some out /\ row_wf out /\
   forall x, In x (row_columns out) <-> In x (row_columns r) \/ exists o, In o others /\ In x (row_columns o).
Proof.
  intros Wr Wo. unfold row_union. set (ls := flat_map (fun l : row => match l with [] => [] | _ => [l] end) (r :: others)).
  assert (IN : forall l, In l ls <-> l <> [] /\ (l = r \/ In l others)).
  { intros l. unfold ls. rewrite in_flat_map. split.
    - intros (l' & I & H). destruct l' as [|s t]; [destruct H|]. destruct H as [<-|[]]. split; [discriminate|].
      destruct I as [->|I]; auto.
    - intros (NE & H). exists l. split; [destruct H as [->|H]; [left; reflexivity|right; exact H]|].
      destruct l; [congruence|left; reflexivity]. }
  destruct (union_loop_spec (total ls) ls) as (out & E & W & C & _).
  - intros l Hl. apply IN in Hl as (NE & [->|I]); split; auto. rewrite Forall_forall in Wo. auto.
  - lia.
  - exists out. split; [exact E|]. split; [exact W|]. intros x. rewrite C. unfold in_any. split.
    + intros (l & I & H). apply IN in I as (_ & [->|I]); [left; exact H|right; exists l; auto].
    + intros [H|(o & I & H)]; [exists r|exists o]; (split; [|exact H]); apply IN; split; auto; intros ->; destruct H.
Qed.

(* ------------------------------------------------------------------ difference *)
Lemma diff_map_gen l : forall m k,
  aget N.eqb k (fold_left (fun m s => aset N.eqb (g_shard s)
     (match aget N.eqb (g_shard s) m with Some l => l | None => [] end ++ [s]) m) l m) =
  match aget N.eqb k m, filter (fun s => g_shard s =? k) l with
  | None, [] => None
  | Some a, ss => Some (a ++ ss)
  | None, ss => Some ss
  end.
Proof.
  induction l as [|s l IH]; intros m k; cbn [fold_left filter].
  - destruct (aget N.eqb k m); [rewrite app_nil_r|]; reflexivity.
  - rewrite IH. destruct (N.eqb_spec (g_shard s) k) as [->|NE].
    + rewrite (aget_aset_eq _ N_eqb_reflect). destruct (aget N.eqb k m) as [a|]; cbn; [rewrite <- app_assoc|]; reflexivity.
    + rewrite (aget_aset_ne _ N_eqb_reflect) by congruence. reflexivity.
Qed.
Lemma fold_sdiff_spec ss : forall d, ssorted d ->
  ssorted (fold_left (fun d o => sdiff d (g_data o)) ss d) /\
  forall x, In x (fold_left (fun d o => sdiff d (g_data o)) ss d) <-> In x d /\ forall s, In s ss -> ~ In x (g_data s).
Proof.
  induction ss as [|s ss IH]; intros d Hd; cbn [fold_left].
  - split; [exact Hd|]. intros x. split; [intros H; split; [exact H|intros s []]|tauto].
  - destruct (IH (sdiff d (g_data s)) (ssorted_sdiff _ _ Hd)) as [A B]. split; [exact A|]. intros x. rewrite B, in_sdiff.
    split.
    + intros [[H1 H2] H3]. split; [exact H1|]. intros u [<-|Hu]; auto.
    + intros [H1 H2]. split; [split; [exact H1|apply H2; left; reflexivity]|]. intros u Hu. apply H2. right. exact Hu.
Qed.
Lemma row_difference_spec r others : row_wf r -> Forall row_wf others ->
  row_wf (row_difference r others) /\ forall x, In x (row_columns (row_difference r others)) <->
    In x (row_columns r) /\ ~ exists o, In o others /\ In x (row_columns o).
Proof.
  intros Wr Wo. unfold row_difference. set (f := fun s => match aget N.eqb (g_shard s) (diff_map others) with
    | Some dest => seg_of (g_shard s) (fold_left (fun d o => sdiff d (g_data o)) dest (g_data s)) | None => s end).
  assert (F : forall s, seg_wf s -> seg_wf (f s) /\ g_shard (f s) = g_shard s /\
    forall x, In x (g_data (f s)) <-> In x (g_data s) /\ ~ exists o, In o others /\ In x (row_columns o)).
  { intros s Ws. unfold f, diff_map. rewrite diff_map_gen. cbn [aget]. destruct Ws as (S1 & S2 & S3).
    assert (K : forall x, In x (g_data s) -> ((exists o, In o others /\ In x (row_columns o)) <->
       exists u, In u (filter (fun s0 => g_shard s0 =? g_shard s) (List.concat others)) /\ In x (g_data u))).
    { intros x Hx. split.
      - intros (o & I & H). rewrite Forall_forall in Wo. apply cols_shard in H as (u & Iu & H & E); [|auto].
        exists u. split; [|exact H]. apply filter_In. split; [apply in_concat; eauto|]. apply N.eqb_eq. rewrite E. auto.
      - intros (u & Iu & H). apply filter_In in Iu as [Iu _]. apply in_concat in Iu as (o & I & Iu).
        exists o. split; [exact I|]. apply in_cols. eauto. }
    destruct (filter (fun s0 => g_shard s0 =? g_shard s) (List.concat others)) as [|u us] eqn:E.
    - split; [split; auto|]. split; [reflexivity|]. intros x. split; [|tauto]. intros H. split; [exact H|]. rewrite K by exact H.
      intros (u & [] & _).
    - destruct (fold_sdiff_spec (u :: us) (g_data s) S1) as [D1 D2]. destruct (seg_of_wf (g_shard s) _ D1) as [Q1 Q2].
      { intros x Hx. apply S2. apply D2 in Hx. tauto. }
      split; [exact Q1|]. split; [exact Q2|]. intros x. cbn [seg_of g_data]. rewrite D2. split.
      + intros [H1 H2]. split; [exact H1|]. rewrite K by exact H1. intros (v & I & H). exact (H2 v I H).
      + intros [H1 H2]. split; [exact H1|]. intros v I H. apply H2. rewrite K by exact H1. eauto. }
  change (map _ r) with (map f r). clearbody f. induction r as [|s r IH]; cbn [map].
  - split; [apply row_wf_nil|]. intros x. cbn. tauto.
  - destruct (IH (row_wf_tl _ _ Wr)) as [IW IC]. destruct (F s (row_wf_hd _ _ Wr)) as (F1 & F2 & F3). split.
    + apply row_wf_cons; auto. intros t Ht. apply in_map_iff in Ht as (t' & <- & I).
      destruct (F t' (row_wf_in _ _ (row_wf_tl _ _ Wr) I)) as (_ & -> & _). rewrite F2. eapply row_wf_lt; eauto.
    + intros x. rewrite !in_cols_cons, F3, IC. tauto.
Qed.

(* ------------------------------------------------------------------ observations *)
Lemma row_any_spec r : row_any r = true <-> exists x, In x (row_columns r).
Proof.
  unfold row_any. rewrite existsb_exists. split.
  - intros (s & I & H). destruct (g_data s) as [|x d] eqn:E; [discriminate|]. exists x. apply in_cols. exists s. rewrite E. split; [exact I|left; reflexivity].
  - intros (x & H). apply in_cols in H as (s & I & H). exists s. split; [exact I|]. destruct (g_data s); [destruct H|reflexivity].
Qed.
Lemma row_is_empty_spec r : row_wf r -> row_is_empty r = true <-> row_columns r = [].
Proof.
  intros [_ W]. unfold row_is_empty. induction r as [|s r IH]; [cbn; tauto|]. inversion W; subst. cbn [forallb].
  unfold row_columns. cbn [flat_map]. rewrite Bool.andb_true_iff, (IH H2), N.eqb_eq. destruct H1 as (_ & _ & ->).
  unfold scard. destruct (g_data s); cbn; [tauto|]. split; [lia|discriminate].
Qed.
Lemma row_includes_spec col r : row_wf r -> row_includes col r = true <-> In col (row_columns r).
Proof.
  induction r as [|s r IH]; intros W; cbn [row_includes]; [split; [discriminate|intros []]|].
  rewrite in_cols_cons. destruct (N.eqb_spec (g_shard s) (col / shard_width)) as [E|NE].
  - rewrite in_smem. split; [auto|]. intros [H|H]; [exact H|]. exfalso.
    apply cols_shard in H as (t & I & _ & E'); [|eapply row_wf_tl; eauto]. pose proof (row_wf_lt _ _ _ W I). lia.
  - rewrite (IH (row_wf_tl _ _ W)). split; [auto|]. intros [H|H]; [|exact H].
    apply (row_wf_hd _ _ W) in H. congruence.
Qed.
Lemma land_mask v : N.land (shard_width - 1) v = v mod shard_width.
Proof. rewrite N.land_comm. change (shard_width - 1) with (N.ones 20). rewrite N.land_ones. reflexivity. Qed.
Lemma row_shard_columns_spec r : row_shard_columns r = map (fun v => v mod shard_width) (row_columns r).
Proof.
  unfold row_shard_columns, row_columns. induction r as [|s r IH]; [reflexivity|]. cbn [flat_map]. rewrite map_app, IH.
  f_equal. apply map_ext. intros v. apply land_mask.
Qed.
Lemma row_segment_spec k r : row_wf r ->
  match row_segment k r with
  | Some s => In s r /\ g_shard s = k /\ forall x, In x (g_data s) <-> In x (row_columns r) /\ x / shard_width = k
  | None => forall x, In x (row_columns r) -> x / shard_width <> k
  end.
Proof.
  induction r as [|s r IH]; intros W; cbn [row_segment]; [intros x []|].
  assert (LATER : forall x, In x (row_columns r) -> g_shard s < x / shard_width).
  { intros x H. apply cols_shard in H as (t & I & _ & <-); [|eapply row_wf_tl; eauto]. eapply row_wf_lt; eauto. }
  pose proof (proj1 (proj2 (row_wf_hd _ _ W))) as HS.
  destruct (N.leb_spec k (g_shard s)) as [L|L].
  - destruct (N.eqb_spec (g_shard s) k) as [E|NE].
    + split; [left; reflexivity|]. split; [exact E|]. intros x. rewrite in_cols_cons. split.
      * intros H. split; [auto|]. rewrite <- E. auto.
      * intros [[H|H] E']; [exact H|]. specialize (LATER x H). lia.
    + intros x H. apply in_cols_cons in H as [H|H]; [rewrite (HS x H); exact NE|]. specialize (LATER x H). lia.
  - specialize (IH (row_wf_tl _ _ W)). destruct (row_segment k r) as [t|].
    + destruct IH as (I & E & H). split; [right; exact I|]. split; [exact E|]. intros x. rewrite H, in_cols_cons. split; [tauto|].
      intros [[H'|H'] E']; [|auto]. rewrite (HS x H') in E'. lia.
    + intros x H. apply in_cols_cons in H as [H|H]; [rewrite (HS x H); lia|auto].
Qed.

Lemma scard_sinter_split a b : scard (sinter a b) = scard (filter (fun x => smem x b) a).
Proof. reflexivity. Qed.
Lemma row_intersection_count_spec r o : row_wf r -> row_wf o ->
  row_intersection_count r o = scard (sinter (row_columns r) (row_columns o)).
Proof.
  intros Wr Wo. destruct (row_intersect_spec r o Wr Wo) as [W C].
  assert (E : sinter (row_columns r) (row_columns o) = row_columns (row_intersect r o)).
  { apply ssorted_ext; [apply ssorted_sinter, columns_sorted, Wr|apply columns_sorted, W|].
    intros x. rewrite in_sinter, C. tauto. }
  rewrite E. unfold row_intersection_count, row_intersect. clear.
  assert (G : forall l n, fold_left (fun n p => match p with
    | (Some a, Some b) => n + scard (sinter (g_data a) (g_data b)) | _ => n end) l n =
    n + scard (row_columns (flat_map (fun p => match p with
    | (Some a, Some b) => [seg_of (g_shard a) (sinter (g_data a) (g_data b))] | _ => [] end) l))).
  { induction l as [|p l IH]; intros n; cbn [fold_left flat_map]; [unfold scard; cbn; lia|].
    rewrite IH. destruct p as [[a|] [b|]]; cbn [app]; try reflexivity.
    unfold row_columns, scard. cbn [flat_map g_data seg_of]. rewrite app_length. lia. }
  rewrite G. lia.
Qed.

(* ------------------------------------------------------------------ clearing a column *)
Lemma scard_remove x s : ssorted s -> In x s -> scard (sdiff s [x]) = scard s - 1.
Proof.
  intros Hs Hx. assert (E : scard (sdiff s [x]) + 1 = scard s); [|lia].
  replace s with (sadd x (sdiff s [x])) at 2.
  - symmetry. apply ssorted_len_sadd; [apply ssorted_sdiff, Hs|]. rewrite in_sdiff. cbn. tauto.
  - apply ssorted_ext; [apply ssorted_sadd, ssorted_sdiff, Hs|exact Hs|]. intros y. rewrite in_sadd, in_sdiff. cbn [In].
    destruct (N.eq_dec x y); subst; intuition congruence.
Qed.
Lemma seg_clear_spec s i : seg_wf s -> seg_wf (seg_clear s i) /\ g_shard (seg_clear s i) = g_shard s /\
  forall x, In x (g_data (seg_clear s i)) <-> In x (g_data s) /\ x <> i.
Proof.
  intros (H1 & H2 & H3). unfold seg_clear. destruct (smem i (g_data s)) eqn:E.
  - apply in_smem in E. cbn. split; [|split; [reflexivity|]].
    + split; [apply ssorted_sdiff, H1|]. cbn. split; [intros x Hx; apply in_sdiff in Hx as [Hx _]; auto|].
      rewrite H3. symmetry. apply scard_remove; auto.
    + intros x. rewrite in_sdiff. cbn. intuition congruence.
  - apply smem_false in E. split; [split; auto|]. split; [reflexivity|]. intros x. split; [|tauto]. intros H. split; [exact H|congruence].
Qed.

(* ------------------------------------------------------------------ rows from bitmaps *)
Lemma min_at_spec x b : ssorted b -> match min_at x b with
  | Some v => In v b /\ x <= v /\ forall y, In y b -> x <= y -> v <= y
  | None => forall y, In y b -> y < x end.
Proof.
  intros S. unfold min_at. induction S as [|v b S IH F]; cbn [List.find]; [intros y []|].
  destruct (N.leb_spec x v) as [L|L].
  - split; [left; reflexivity|]. split; [exact L|]. rewrite Forall_forall in F. intros y [<-|Hy] _; [lia|]. apply N.lt_le_incl, F, Hy.
  - destruct (List.find (fun w => x <=? w) b) as [w|].
    + destruct IH as (A & B & C). split; [right; exact A|]. split; [exact B|]. intros y [<-|Hy] L'; [lia|auto].
    + intros y [<-|Hy]; auto.
Qed.
Lemma in_offset_range a z b x : In x (offset_range a z b) <-> In x b /\ a <= x < z.
Proof. unfold offset_range. rewrite filter_In, Bool.andb_true_iff, N.leb_le, N.ltb_lt. tauto. Qed.
Lemma from_bitmap_spec b : ssorted b -> (forall x, In x b -> x / shard_width < two64 / shard_width - 1) ->
  forall fuel n, n <= two64 / shard_width - 1 -> (List.length (filter (fun v => (n * shard_width <=? v)%N) b) <= fuel)%nat ->
  exists r, from_bitmap fuel b n = Some r /\ row_wf r /\
   (forall x, In x (row_columns r) <-> In x b /\ n * shard_width <= x) /\ (forall t, In t r -> n <= g_shard t).
Proof.
  intros S HB. assert (SW : two64 / shard_width = 2^44) by reflexivity. rewrite SW in *.
  assert (P : shard_width = 2^20) by reflexivity. assert (P64 : two64 = 2^64) by reflexivity.
  assert (NW : forall n, n <= 2^44 - 1 -> (n * shard_width) mod two64 = n * shard_width).
  { intros n Hn. apply N.mod_small. rewrite P, P64. change (2^44) with 17592186044416 in Hn.
    change (2^20) with 1048576. change (2^64) with 18446744073709551616. lia. }
  assert (BASE : forall fuel n, n <= 2^44 - 1 -> min_at (n * shard_width) b = None ->
     exists r, from_bitmap fuel b n = Some r /\ row_wf r /\
      (forall x, In x (row_columns r) <-> In x b /\ n * shard_width <= x) /\ (forall t, In t r -> n <= g_shard t)).
  { intros fuel n Hn E. exists []. split; [destruct fuel; cbn [from_bitmap]; rewrite (NW n Hn), E; reflexivity|].
    split; [apply row_wf_nil|]. split; [|intros t []]. pose proof (min_at_spec (n * shard_width) b S) as M. rewrite E in M.
    intros x. split; [intros []|]. intros [H1 H2]. specialize (M x H1). lia. }
  induction fuel as [|fuel IH]; intros n Hn HL.
  - destruct (min_at (n * shard_width) b) as [v|] eqn:E; [|apply BASE; auto]. exfalso.
    pose proof (min_at_spec (n * shard_width) b S) as M. rewrite E in M. destruct M as (M1 & M2 & _).
    assert (I : In v (filter (fun v => (n * shard_width <=? v)%N) b)) by (apply filter_In; split; [exact M1|apply N.leb_le, M2]).
    destruct (filter (fun v => (n * shard_width <=? v)%N) b); [destruct I|cbn in HL; lia].
  - destruct (min_at (n * shard_width) b) as [v|] eqn:E; [|apply BASE; auto].
    pose proof (min_at_spec (n * shard_width) b S) as M. rewrite E in M. destruct M as (M1 & M2 & M3).
    pose proof (HB v M1) as Hk. set (k := v / shard_width) in *.
    assert (SW0 : shard_width <> 0) by (rewrite P; discriminate).
    assert (nk : n <= k) by (apply N.div_le_lower_bound; lia).
    assert (kv : k * shard_width <= v) by (pose proof (N.mul_div_le v shard_width SW0); fold k in H; lia).
    assert (vk : v < (k + 1) * shard_width).
    { pose proof (N.mul_succ_div_gt v shard_width SW0) as H. fold k in H. lia. }
    destruct (IH (k + 1)) as (r & Er & W & C & A).
    { lia. }
    { apply Nat.lt_succ_r. eapply Nat.lt_le_trans; [|exact HL]. 
      assert (G : forall l, In v l -> (List.length (filter (fun w => ((k + 1) * shard_width <=? w)%N) l) < List.length (filter (fun w => (n * shard_width <=? w)%N) l))%nat).
      { assert (GE : forall l, (List.length (filter (fun w => ((k + 1) * shard_width <=? w)%N) l) <= List.length (filter (fun w => (n * shard_width <=? w)%N) l))%nat).
        { induction l as [|w l IHl]; [exact (le_n 0)|]. cbn [filter].
          destruct (N.leb_spec ((k + 1) * shard_width) w); destruct (N.leb_spec (n * shard_width) w); cbn [List.length]; try lia.
        }
        induction l as [|w l IHl]; [intros []|]. intros [->|I]; cbn [filter].
        - specialize (GE l). destruct (N.leb_spec ((k + 1) * shard_width) v); [lia|]. destruct (N.leb_spec (n * shard_width) v); cbn [List.length]; lia.
        - specialize (IHl I). destruct (N.leb_spec ((k + 1) * shard_width) w); destruct (N.leb_spec (n * shard_width) w); cbn [List.length]; try lia.
      }
      apply G, M1. }
    exists (seg_of k (offset_range (k * shard_width) ((k + 1) * shard_width) b) :: r). split; [|split; [|split]].
    + cbn [from_bitmap]. rewrite (NW n Hn), E. fold k. rewrite Er, NW by lia. reflexivity.
    + apply row_wf_cons; [|exact W|intros t Ht; apply A in Ht; cbn [seg_of g_shard]; lia].
      apply seg_of_wf; [apply ssorted_filter, S|]. intros x Hx. apply in_offset_range in Hx as (_ & H1 & H2).
      symmetry. apply (N.div_unique x shard_width k (x - k * shard_width)); lia.
    + intros x. rewrite in_cols_cons, C. cbn [seg_of g_data]. rewrite in_offset_range. split.
      * intros [(H1 & H2 & H3)|(H1 & H2)]; (split; [exact H1|]).
        -- apply N.le_trans with (k * shard_width); [apply N.mul_le_mono_r, nk|exact H2].
        -- apply N.le_trans with ((k + 1) * shard_width); [apply N.mul_le_mono_r; lia|exact H2].
      * intros [H1 H2]. specialize (M3 x H1 H2). destruct (N.lt_ge_cases x ((k + 1) * shard_width)); [left|right; auto].
        split; [exact H1|]. lia.
    + intros t [<-|Ht]; [cbn; exact nk|]. apply A in Ht. lia.
Qed.
Lemma new_row_from_bitmap_spec b : ssorted b -> (forall x, In x b -> x < two64 - shard_width) ->
  exists r, new_row_from_bitmap b = Some r /\ row_wf r /\ row_columns r = b.
Proof.
  intros S HB. destruct (from_bitmap_spec b S) with (fuel := List.length b) (n := 0) as (r & E & W & C & _).
  - intros x Hx. specialize (HB x Hx). apply N.div_lt_upper_bound; [discriminate|].
    change (shard_width * (two64 / shard_width - 1)) with (two64 - shard_width). exact HB.
  - apply N.le_0_l.
  - generalize b. intros l. induction l as [|x l IH]; [exact (le_n 0)|]. cbn [filter]. change (0 * shard_width) with 0 in *.
    destruct (0 <=? x); cbn [List.length]; lia.
  - exists r. split; [exact E|]. split; [exact W|]. apply ssorted_ext; [apply columns_sorted, W|exact S|].
    intros x. rewrite C. split; [tauto|]. intros H. split; [exact H|]. apply N.le_0_l.
Qed.
(** A column of the last shard makes the loop start over for ever. *)
Lemma from_bitmap_top_diverges : forall fuel, from_bitmap fuel [two64 - 1] 0 = None.
Proof.
  assert (G : forall fuel, from_bitmap fuel [two64 - 1] 0 = None /\ from_bitmap fuel [two64 - 1] ((two64 - 1) / shard_width + 1) = None).
  { induction fuel as [|fuel [_ IH]]; [split; reflexivity|].
    assert (M0 : min_at ((0 * shard_width) mod two64) [two64 - 1] = Some (two64 - 1)) by reflexivity.
    assert (M1 : min_at ((((two64 - 1) / shard_width + 1) * shard_width) mod two64) [two64 - 1] = Some (two64 - 1)) by reflexivity.
    split; cbn [from_bitmap]; [rewrite M0|rewrite M1]; cbv zeta; rewrite IH; reflexivity. }
  intros fuel. apply G.
Qed.
