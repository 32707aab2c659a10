From Verif.Model Require Import Base Calendar View Batch.
From Verif.Proofs Require Import BaseFacts CalendarFacts ViewFacts.
Open Scope N_scope.

Lemma frag_get_add f s v p s' v' x :
  In x (frag_get (frag_add f s v p) s' v') <-> In x (frag_get f s' v') \/ (s' = s /\ v' = v /\ x = p).
Proof.
  unfold frag_get, frag_add. rewrite (aget_aset N.eqb N_eqb_reflect).
  destruct (N.eqb_spec s' s) as [->|NE].
  - rewrite (aget_aset String.eqb string_eqb_reflect). destruct (String.eqb_spec v' v) as [->|NV].
    + rewrite in_sadd. destruct (aget N.eqb s f) as [m|].
      * destruct (aget String.eqb v m); cbn; intuition.
      * cbn; intuition.
    + destruct (aget N.eqb s f) as [m|]; cbn; intuition.
  - intuition.
Qed.
Definition frag_sorted (f : fragments) : Prop := forall s v, ssorted (frag_get f s v).
Lemma frag_add_sorted f s v p : frag_sorted f -> frag_sorted (frag_add f s v p).
Proof.
  intros H s' v'. unfold frag_get, frag_add. rewrite (aget_aset N.eqb N_eqb_reflect).
  destruct (N.eqb_spec s' s) as [->|NE]; [|apply (H s' v')].
  rewrite (aget_aset String.eqb string_eqb_reflect). specialize (H s v'). unfold frag_get in H.
  destruct (String.eqb_spec v' v) as [->|NV].
  - apply ssorted_sadd. destruct (aget N.eqb s f); [|constructor]. exact H.
  - destruct (aget N.eqb s f); [exact H|constructor].
Qed.

Lemma fold_views views : forall f s p s' v' x,
  In x (frag_get (fold_left (fun f v => frag_add f s v p) views f) s' v') <->
  In x (frag_get f s' v') \/ (s' = s /\ In v' views /\ x = p).
Proof.
  induction views as [|v views IH]; intros f s p s' v' x; cbn [fold_left In]; [intuition|].
  rewrite IH, frag_get_add. intuition (subst; auto).
Qed.
Lemma fold_views_sorted views s p : forall f, frag_sorted f -> frag_sorted (fold_left (fun f v => frag_add f s v p) views f).
Proof. induction views as [|v views IH]; intros f H; cbn; auto. apply IH, frag_add_sorted, H. Qed.

Lemma add_cols_gen id views cols : forall sh f s v x,
  let r := fold_left (fun '(shard, f) col =>
    let shard := if negb (col / shard_width =? shard) then col / shard_width else shard in
    (shard, fold_left (fun f v => frag_add f shard v (pos id col)) views f)) cols (sh, f) in
  (In x (frag_get (snd r) s v) <->
   In x (frag_get f s v) \/ exists col, In col cols /\ s = col / shard_width /\ In v views /\ x = pos id col).
Proof.
  induction cols as [|c cols IH]; intros sh f s v x; cbn [fold_left].
  - cbn. split; [auto|intros [H|(c & [] & _)]; exact H].
  - assert (E : (if negb (c / shard_width =? sh) then c / shard_width else sh) = c / shard_width).
    { destruct (N.eqb_spec (c / shard_width) sh); cbn; congruence. }
    cbv zeta in *. rewrite E, IH, fold_views. split.
    + intros [[H|(H1 & H2 & H3)]|(col & Hc & H)]; [auto| |].
      * right. exists c. cbn. auto.
      * right. exists col. cbn. intuition.
    + intros [H|(col & [<-|Hc] & H)]; [auto| |].
      * left. right. intuition.
      * right. exists col. auto.
Qed.
Lemma add_cols_spec id views cols f s v x :
  In x (frag_get (add_cols id views cols f) s v) <->
  In x (frag_get f s v) \/ exists col, In col cols /\ s = col / shard_width /\ In v views /\ x = pos id col.
Proof. apply add_cols_gen. Qed.
Lemma add_cols_sorted id views cols f : frag_sorted f -> frag_sorted (add_cols id views cols f).
Proof.
  unfold add_cols. generalize (two64 - 1) as sh. revert f. induction cols as [|c cols IH]; intros f sh H; cbn [fold_left]; [exact H|].
  cbv zeta. apply IH. apply fold_views_sorted, H.
Qed.

(** One accepted sample: its id, filing time, columns. *)
Record entry := Entry { e_id : N; e_ts : Z; e_cols : option nset; e_pool : quantized_time }.
Definition fill (l : list entry) (b : batch) : batch :=
  fold_left (fun b e => batch_add (e_pool e) b (e_id e) (e_ts e) (e_cols e)) l b.
Lemma fill_eq l : forall b, fill l b = Batch (b_ids b ++ map e_id l) (b_labels b ++ map e_cols l) (b_frags b)
                                   (b_times b ++ map (fun e => qt_set (e_pool e) (e_ts e)) l).
Proof.
  induction l as [|e l IH]; intros b; cbn [fill fold_left map].
  - rewrite !app_nil_r. destruct b; reflexivity.
  - fold (fill l). change (fold_left (fun b0 e0 => batch_add (e_pool e0) b0 (e_id e0) (e_ts e0) (e_cols e0)) l) with (fill l).
    rewrite IH. unfold batch_add. cbn [b_ids b_labels b_frags b_times]. rewrite <- !app_assoc. reflexivity.
Qed.
Definition entry_ok (e : entry) : Prop := String.length (e_pool e) = 10%nat /\ year4 (e_ts e).

Lemma make_cons id ids o labels t times f vs : views_buf batch_quantum t = Some vs ->
  make_fragments (id :: ids) (o :: labels) (t :: times) f =
  make_fragments ids labels times (match o with Some cols => add_cols id vs cols f | None => f end).
Proof. intros H. cbn [make_fragments]. rewrite H. destruct o; reflexivity. Qed.

Section MakeFragments.
Variable (qt : entry -> quantized_time) (vs : entry -> list string) (ok : entry -> Prop).
Hypothesis qt_vs : forall e, ok e -> views_buf batch_quantum (qt e) = Some (vs e).
Lemma make_fragments_gen l : forall f, Forall ok l -> frag_sorted f ->
  exists f', make_fragments (map e_id l) (map e_cols l) (map qt l) f = (f', true) /\
  frag_sorted f' /\
  forall s v x, In x (frag_get f' s v) <-> In x (frag_get f s v) \/
    exists e cols col, In e l /\ e_cols e = Some cols /\ In col cols /\ s = col / shard_width /\
      In v (vs e) /\ x = pos (e_id e) col.
Proof.
  induction l as [|e l IH]; intros f Hok Hs; cbn [map].
  - cbn [make_fragments]. exists f. split; [reflexivity|]. split; [exact Hs|]. intros s v x. split; [auto|intros [H|(e & _ & _ & [] & _)]; exact H].
  - inversion Hok as [|? ? Hp Hok']; subst. pose proof (qt_vs e Hp) as FV. rewrite (make_cons _ _ _ _ _ _ _ _ FV). clear FV.
    destruct (e_cols e) as [cols|] eqn:EC.
    +      destruct (IH _ Hok' (add_cols_sorted (e_id e) (vs e) cols f Hs)) as (f' & E & S' & H). exists f'. split; [exact E|].
      split; [exact S'|]. intros s v x. rewrite H, add_cols_spec. split.
      * intros [[Hx|(col & Hc & H1 & H2 & H3)]|(e' & c' & col & He & H0)]; [auto| |].
        -- right. exists e, cols, col. cbn [In]. intuition.
        -- right. exists e', c', col. cbn [In]. intuition.
      * intros [Hx|(e' & c' & col & [<-|He] & H0 & H1 & H2 & H3 & H4)]; [auto| |].
        -- left. right. exists col. rewrite EC in H0. apply some_inj in H0. subst c'. auto.
        -- right. exists e', c', col. auto 10.
    + destruct (IH _ Hok' Hs) as (f' & E & S' & H). exists f'. split; [exact E|]. split; [exact S'|].
      intros s v x. rewrite H. split.
      * intros [Hx|(e' & c' & col & He & H0)]; [auto|]. right. exists e', c', col. cbn [In]. intuition.
      * intros [Hx|(e' & c' & col & [<-|He] & H0 & H1)]; [auto| |]; [congruence|].
        right. exists e', c', col. auto.
Qed.
End MakeFragments.

Lemma make_fragments_spec l f : Forall entry_ok l -> frag_sorted f ->
  exists f', make_fragments (map e_id l) (map e_cols l) (map (fun e => qt_set (e_pool e) (e_ts e)) l) f = (f', true) /\
  frag_sorted f' /\
  forall s v x, In x (frag_get f' s v) <-> In x (frag_get f s v) \/
    exists e cols col, In e l /\ e_cols e = Some cols /\ In col cols /\ s = col / shard_width /\
      In v (std_views (e_ts e)) /\ x = pos (e_id e) col.
Proof.
  apply (make_fragments_gen (fun e => qt_set (e_pool e) (e_ts e)) (fun e => std_views (e_ts e)) entry_ok).
  intros e [Hp Hy]. cbv beta. rewrite <- (filing_views_eq _ _ Hp Hy). unfold filing_views. reflexivity.
Qed.
