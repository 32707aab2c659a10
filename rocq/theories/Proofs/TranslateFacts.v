From Verif.Model Require Import Base KV Slice Sequence Translate.
From Verif.Proofs Require Import BaseFacts LabelsFacts SequenceFacts.

(* ------------------------------------------------------------------ slices *)
Lemma substring_0_all s : substring 0 (String.length s) s = s.
Proof. induction s; simpl; congruence. Qed.
Lemma substring_0_append_le n a b :
  (n <= String.length a)%nat -> substring 0 n (append a b) = substring 0 n a.
Proof.
  revert n; induction a as [|c a IH]; intros n H; simpl in *.
  - assert (n = 0)%nat as -> by lia. destruct b; reflexivity.
  - destruct n; simpl; auto. rewrite IH by lia. reflexivity.
Qed.
Lemma substring_0_append_all a b n :
  (n = String.length a)%nat -> substring 0 n (append a b) = a.
Proof. intros ->. rewrite substring_0_append_le by lia. apply substring_0_all. Qed.
Lemma length_substring_0 n s : (n <= String.length s)%nat -> String.length (substring 0 n s) = n.
Proof.
  revert n; induction s as [|c s IH]; intros n H; simpl in *; destruct n; simpl; auto; try lia.
  rewrite IH; lia.
Qed.
Lemma substring_0_0 s : substring 0 0 s = "".
Proof. destruct s; reflexivity. Qed.
Lemma substring_substring_0 n m s :
  (n <= m)%nat -> (m <= String.length s)%nat -> substring 0 n (substring 0 m s) = substring 0 n s.
Proof.
  revert n m; induction s as [|c s IH]; intros n m H Hm.
  - simpl in Hm. assert (m = 0 /\ n = 0)%nat as [-> ->] by lia. reflexivity.
  - destruct m as [|m]; [assert (n = 0)%nat as -> by lia; reflexivity|].
    destruct n as [|n]; [reflexivity|]. cbn [substring]. simpl in Hm. rewrite IH by lia. reflexivity.
Qed.

Lemma length_substring_tail k s :
  (k <= String.length s)%nat -> String.length (substring k (String.length s) s) = (String.length s - k)%nat.
Proof.
  intros H. 
  assert (G : forall s k m, (k <= String.length s)%nat -> (String.length s - k <= m)%nat ->
    String.length (substring k m s) = (String.length s - k)%nat); [|apply G; lia].
  clear. induction s as [|c s IH]; intros k m H Hm; simpl in *.
  - assert (k = 0)%nat as -> by lia. destruct m; reflexivity.
  - destruct k as [|k]; simpl.
    + destruct m as [|m]; simpl; [lia|]. rewrite IH by lia. lia.
    + rewrite IH by lia. lia.
Qed.

Lemma length_overwrite arr off b :
  (off + String.length b <= String.length arr)%nat ->
  String.length (overwrite arr off b) = String.length arr.
Proof.
  intros H. unfold overwrite. rewrite !length_append, length_substring_0, length_substring_tail; lia.
Qed.
Lemma overwrite_prefix arr off b n :
  (n <= off)%nat -> (off + String.length b <= String.length arr)%nat ->
  substring 0 n (overwrite arr off b) = substring 0 n arr.
Proof.
  intros Hn H. unfold overwrite. rewrite substring_0_append_le.
  - apply substring_substring_0; lia.
  - rewrite length_substring_0; lia.
Qed.
Lemma overwrite_read arr off b :
  (off + String.length b <= String.length arr)%nat ->
  substring 0 (off + String.length b) (overwrite arr off b) = append (substring 0 off arr) b.
Proof.
  intros H. unfold overwrite. rewrite <- append_assoc. apply substring_0_append_all.
  rewrite length_append, length_substring_0; lia.
Qed.

Lemma nth_set_nth {A} n m (x d : A) l :
  (n < List.length l)%nat -> nth m (set_nth n x l) d = if Nat.eqb m n then x else nth m l d.
Proof.
  revert n m; induction l as [|y l IH]; intros n m H; simpl in *; [lia|].
  destruct n, m; simpl; auto. apply IH. lia.
Qed.
Lemma length_set_nth {A} n (x : A) l : List.length (set_nth n x l) = List.length l.
Proof. revert n; induction l; intros [|n]; simpl; auto. Qed.
Lemma length_zeros n : String.length (zeros n) = n.
Proof. induction n; simpl; auto. Qed.

(** A slice that fits its array. *)
Definition slice_ok (h : heap) (s : slice) : Prop :=
  (s_arr s < List.length h)%nat /\ (s_len s <= s_cap s)%nat /\
  String.length (nth (s_arr s) h "") = s_cap s.

Lemma sappend_read grow h s b h' s' :
  slice_ok h s -> sappend grow h s b = (h', s') -> sread h' s' = append (sread h s) b.
Proof.
  unfold sappend, slice_ok, sread. intros (H1 & H2 & H3).
  destruct (Nat.leb_spec (s_len s + String.length b) (s_cap s)); intros E; injection E as <- <-;
    cbn [s_arr s_len s_cap].
  - rewrite nth_set_nth by auto. rewrite Nat.eqb_refl. apply overwrite_read. lia.
  - rewrite app_nth2, Nat.sub_diag by lia. cbn [nth]. rewrite <- append_assoc.
    apply substring_0_append_all. rewrite length_append, length_substring_0; lia.
Qed.
Lemma sappend_ok grow h s b h' s' :
  (forall n, n <= grow n)%nat -> slice_ok h s -> sappend grow h s b = (h', s') -> slice_ok h' s'.
Proof.
  unfold sappend, slice_ok. intros Hg (H1 & H2 & H3).
  destruct (Nat.leb_spec (s_len s + String.length b) (s_cap s)); intros E; injection E as <- <-;
    cbn [s_arr s_len s_cap].
  - rewrite length_set_nth, nth_set_nth, Nat.eqb_refl by auto. rewrite length_overwrite; lia.
  - rewrite app_length. simpl. rewrite app_nth2, Nat.sub_diag by lia. cbn [nth].
    rewrite !length_append, length_zeros. unfold sread. rewrite length_substring_0 by lia.
    specialize (Hg (s_len s + String.length b)%nat). lia.
Qed.
Lemma sappend_preserves grow h s b h' s' x :
  slice_ok h s -> slice_ok h x -> (s_arr x <> s_arr s \/ (s_len x <= s_len s)%nat) ->
  sappend grow h s b = (h', s') -> sread h' x = sread h x /\ slice_ok h' x.
Proof.
  unfold sappend, slice_ok, sread. intros (H1 & H2 & H3) (X1 & X2 & X3) Hx.
  destruct (Nat.leb_spec (s_len s + String.length b) (s_cap s)) as [Hc|Hc]; intros E; injection E as <- <-.
  - rewrite length_set_nth, nth_set_nth by auto.
    destruct (Nat.eqb_spec (s_arr x) (s_arr s)) as [Ea|Na].
    + destruct Hx as [Hx|Hx]; [contradiction|]. rewrite length_overwrite by lia.
      rewrite Ea in *. split; [apply overwrite_prefix; lia|]. repeat split; lia.
    + auto.
  - rewrite app_nth1 by auto. rewrite app_length. repeat split; auto; lia.
Qed.

(* ------------------------------------------------------------------ well formed translators *)
Definition tr_wf (t : translator) : Prop :=
  slice_ok (t_heap t) (t_keys t) /\ slice_ok (t_heap t) (t_ids t) /\ slice_ok (t_heap t) (t_seqkey t) /\
  (s_arr (t_ids t) <> s_arr (t_keys t) \/ (s_len (t_ids t) <= s_len (t_keys t))%nat) /\
  (s_arr (t_seqkey t) <> s_arr (t_keys t) \/ (s_len (t_seqkey t) <= s_len (t_keys t))%nat).

Lemma tr_find_spec grow t d key t' r :
  tr_wf t -> tr_find grow t d key = (t', r) ->
  tr_wf t' /\ keys_prefix t' = keys_prefix t /\ ids_prefix t' = ids_prefix t /\ seq_key t' = seq_key t /\
  t_keys t' = t_keys t /\ t_ids t' = t_ids t /\ t_seqkey t' = t_seqkey t /\ t_seq t' = t_seq t /\
  r = match kvget (append (keys_prefix t) key) d with Some v => Some (be_val v) | None => None end.
Proof.
  unfold tr_find. intros (K & I & S & HI & HS).
  destruct (sappend grow (t_heap t) (t_keys t) key) as [h' s] eqn:E.
  intros [= <- <-].
  destruct (sappend_preserves _ _ _ _ _ _ _ K K (or_intror (Nat.le_refl _)) E) as [K1 K2].
  destruct (sappend_preserves _ _ _ _ _ _ _ K I HI E) as [I1 I2].
  destruct (sappend_preserves _ _ _ _ _ _ _ K S HS E) as [S1 S2].
  unfold tr_wf, keys_prefix, ids_prefix, seq_key; cbn [t_heap t_keys t_ids t_seqkey t_seq].
  rewrite (sappend_read _ _ _ _ _ _ K E). tauto.
Qed.

(** With no spare capacity the three prefixes are what the source says. *)
Lemma tr_new_exact grow p fail d d' t :
  (forall n, n <= grow n)%nat ->
  tr_new grow fail (prefix_heap (TrConfig grow p (String.length p)))
         (prefix_slice (TrConfig grow p (String.length p))) d = (d', Some t) ->
  tr_wf t /\ keys_prefix t = append p "keys" /\ ids_prefix t = append p "ids" /\ seq_key t = append p "seq" /\
  get_sequence fail (append p "seq") translate_bandwidth d = (d', Some (t_seq t)).
Proof.
  intros Hg. unfold tr_new, prefix_heap, prefix_slice. cbn [c_grow c_prefix c_cap].
  rewrite Nat.sub_diag. cbn [zeros]. rewrite append_nil_r.
  set (P := Slice 0 (String.length p) (String.length p)).
  assert (OK0 : slice_ok [p] P) by (unfold slice_ok, P; simpl; lia).
  assert (R0 : sread [p] P = p) by (unfold sread, P; simpl; apply substring_0_all).
  destruct (sappend grow [p] P "seq") as [h1 sk] eqn:E1.
  pose proof (sappend_read _ _ _ _ _ _ OK0 E1) as R1. rewrite R0 in R1.
  pose proof (sappend_ok _ _ _ _ _ _ Hg OK0 E1) as O1.
  destruct (sappend_preserves _ _ _ _ _ _ _ OK0 OK0 (or_intror (Nat.le_refl _)) E1) as [R01 OK01].
  rewrite R0 in R01. rewrite R1.
  destruct (get_sequence fail (append p "seq") translate_bandwidth d) as [d1 [q|]] eqn:G; [|discriminate].
  destruct (sappend grow h1 P "keys") as [h2 ks] eqn:E2.
  pose proof (sappend_read _ _ _ _ _ _ OK01 E2) as R2. rewrite R01 in R2.
  pose proof (sappend_ok _ _ _ _ _ _ Hg OK01 E2) as O2.
  destruct (sappend_preserves _ _ _ _ _ _ _ OK01 OK01 (or_intror (Nat.le_refl _)) E2) as [R02 OK02].
  rewrite R01 in R02.
  assert (Hsk : s_arr sk = 1%nat /\ List.length h1 = 2%nat).
  { revert E1. unfold sappend, P; cbn [s_len s_cap s_arr].
    destruct (Nat.leb_spec (String.length p + String.length "seq") (String.length p)) as [Hle|];
      [simpl in Hle; lia|]. intros E1. injection E1 as <- <-. auto. }
  destruct Hsk as [Hsk Hl1].
  assert (Hks : s_arr ks = 2%nat /\ List.length h2 = 3%nat).
  { revert E2. unfold sappend, P; cbn [s_len s_cap s_arr].
    destruct (Nat.leb_spec (String.length p + String.length "keys") (String.length p)) as [Hle|];
      [simpl in Hle; lia|]. intros E2. injection E2 as <- <-.
    rewrite app_length, Hl1. auto. }
  destruct Hks as [Hks Hl2].
  assert (Hsk2 : sread h2 sk = sread h1 sk /\ slice_ok h2 sk).
  { apply (sappend_preserves _ _ _ _ _ _ sk OK01 O1) in E2; [exact E2|]. left. rewrite Hsk. discriminate. }
  destruct (sappend grow h2 P "ids") as [h3 is] eqn:E3.
  pose proof (sappend_read _ _ _ _ _ _ OK02 E3) as R3. rewrite R02 in R3.
  pose proof (sappend_ok _ _ _ _ _ _ Hg OK02 E3) as O3.
  assert (His : s_arr is = 3%nat).
  { revert E3. unfold sappend, P; cbn [s_len s_cap s_arr].
    destruct (Nat.leb_spec (String.length p + String.length "ids") (String.length p)) as [Hle|];
      [simpl in Hle; lia|]. intros E3. injection E3 as <- <-.
    cbn [s_arr]. exact Hl2. }
  assert (Hsk3 : sread h3 sk = sread h2 sk /\ slice_ok h3 sk).
  { apply (sappend_preserves _ _ _ _ _ _ sk OK02 (proj2 Hsk2)) in E3; [exact E3|].
    left. rewrite Hsk. discriminate. }
  assert (Hks3 : sread h3 ks = sread h2 ks /\ slice_ok h3 ks).
  { apply (sappend_preserves _ _ _ _ _ _ ks OK02 O2) in E3; [exact E3|].
    left. rewrite Hks. discriminate. }
  intros [= <- <-]. unfold tr_wf, keys_prefix, ids_prefix, seq_key; cbn [t_heap t_keys t_ids t_seqkey t_seq].
  rewrite (proj1 Hks3), (proj1 Hsk3), (proj1 Hsk2), R1, R2, R3.
  rewrite His, Hks, Hsk. intuition (try discriminate; auto).
Qed.

(* ------------------------------------------------------------------ the store invariant *)
Section Exact.
  Variable p : string.
  Notation KK k := (append (append p "keys") k).
  Notation KI n := (append (append p "ids") (u64be n)).
  Notation KS := (append p "seq").

  Lemma KK_inj a b : KK a = KK b -> a = b.
  Proof. apply append_inj_l. Qed.
  Lemma KI_inj a b : a < two64 -> b < two64 -> KI a = KI b -> a = b.
  Proof. intros Ha Hb H. apply append_inj_l in H. apply u64be_inj; auto. Qed.
  Lemma KK_KI a n : KK a <> KI n.
  Proof. rewrite !append_assoc. intros H. apply append_inj_l in H. discriminate. Qed.
  Lemma KK_KS a : KK a <> KS.
  Proof. rewrite append_assoc. intros H. apply append_inj_l in H. discriminate. Qed.
  Lemma KI_KS n : KI n <> KS.
  Proof. rewrite append_assoc. intros H. apply append_inj_l in H. discriminate. Qed.

  (** [assoc d k n]: the store relates label [k] to id [n]. *)
  Definition assoc (d : kv) (k : string) (n : N) : Prop :=
    n < two64 /\ kvget (KK k) d = Some (u64be n).

  Definition db_inv (d : kv) (lo : N) : Prop :=
    (forall k v, kvget (KK k) d = Some v -> exists n, v = u64be n /\ n < lo /\ kvget (KI n) d = Some k) /\
    (forall n k, n < two64 -> kvget (KI n) d = Some k -> n < lo /\ kvget (KK k) d = Some (u64be n)).

  Lemma db_inv_mono d lo lo' : lo <= lo' -> db_inv d lo -> db_inv d lo'.
  Proof.
    intros H [A B]; split; intros.
    - destruct (A _ _ H0) as (n & ? & ? & ?). exists n; repeat split; auto; lia.
    - destruct (B _ _ H0 H1). split; auto; lia.
  Qed.

  Lemma assoc_fun d k n m : assoc d k n -> assoc d k m -> n = m.
  Proof. intros [A1 A2] [B1 B2]. rewrite A2 in B2. apply some_inj in B2. apply u64be_inj in B2; auto. Qed.
  Lemma assoc_inj d lo k k' n : lo <= two64 -> db_inv d lo -> assoc d k n -> assoc d k' n -> k = k'.
  Proof.
    intros Hlo [A B] [A1 A2] [B1 B2]. destruct (A _ _ A2) as (m & Em & Hm & Im).
    destruct (A _ _ B2) as (m' & Em' & Hm' & Im').
    apply u64be_inj in Em, Em'; try lia. subst. congruence.
  Qed.
  Lemma assoc_back d lo k n : lo <= two64 -> db_inv d lo -> (assoc d k n <-> n < two64 /\ kvget (KI n) d = Some k).
  Proof.
    intros Hlo [A B]. unfold assoc. split; intros [H1 H2]; split; auto.
    - destruct (A _ _ H2) as (m & Em & Hm & Im). apply u64be_inj in Em; try lia. congruence.
    - apply B in H2; auto. tauto.
  Qed.

  (** Writes elsewhere do not disturb the invariant. *)
  Lemma db_inv_frame d lo k v :
    (forall a, k <> KK a) -> (forall n, k <> KI n) -> db_inv d lo -> db_inv (kvset k v d) lo.
  Proof.
    intros H1 H2 [A B]; split; intros.
    - rewrite kvget_set_ne in H by (intro; subst; eapply H1; eauto).
      destruct (A _ _ H) as (n & ? & ? & ?). exists n; repeat split; auto.
      rewrite kvget_set_ne by (intro; subst; eapply H2; eauto). auto.
    - rewrite kvget_set_ne in H0 by (intro; subst; eapply H2; eauto).
      destruct (B _ _ H H0). split; auto. rewrite kvget_set_ne by (intro; subst; eapply H1; eauto). auto.
  Qed.
  Lemma assoc_frame d k v a n : (forall a, k <> KK a) -> (assoc (kvset k v d) a n <-> assoc d a n).
  Proof.
    intros H1. unfold assoc. rewrite kvget_set_ne; [tauto|]. intro; subst; eapply H1; eauto.
  Qed.

  (** A fresh pair. *)
  Lemma db_inv_add d lo k n :
    lo <= n -> n < two64 -> kvget (KK k) d = None -> db_inv d lo ->
    db_inv (kvset (KI n) k (kvset (KK k) (u64be n) d)) (n + 1).
  Proof.
    intros Hlo Hn Hk [A B]; split.
    - intros k' v H. rewrite kvget_set_ne in H by apply KK_KI.
      rewrite kvget_set in H. destruct (String.eqb_spec (KK k') (KK k)) as [E|NE].
      + apply KK_inj in E; subst k'. apply some_inj in H. subst v. exists n. repeat split; [lia|].
        apply kvget_set_eq.
      + destruct (A _ _ H) as (m & -> & Hm & Im). exists m. repeat split; [lia|].
        rewrite kvget_set_ne; [rewrite kvget_set_ne; auto|].
        * apply not_eq_sym, KK_KI.
        * intros E. apply KI_inj in E; lia.
    - intros m k' Hm H. rewrite kvget_set in H. destruct (String.eqb_spec (KI m) (KI n)) as [E|NE].
      + apply KI_inj in E; auto; subst m. injection H as <-. split; [lia|].
        rewrite kvget_set_ne by apply KK_KI. apply kvget_set_eq.
      + rewrite kvget_set_ne in H by (apply not_eq_sym, KK_KI).
        destruct (B _ _ Hm H) as [Hm' Hk']. split; [lia|].
        rewrite kvget_set_ne by apply KK_KI. rewrite kvget_set_ne; auto.
        intros E. rewrite E in Hk'. congruence.
  Qed.

  Variable grow : nat -> nat.
  Hypothesis grow_ok : forall n, (n <= grow n)%nat.
  Notation cfg := (TrConfig grow p (String.length p)).
  Notation bw := translate_bandwidth.

  Definition proc_ok (t : translator) : Prop :=
    tr_wf t /\ keys_prefix t = append p "keys" /\ ids_prefix t = append p "ids" /\ seq_key t = append p "seq".

  Definition ts_inv (s : tr_state) (lo hi : N) : Prop :=
    db_inv (ts_db s) lo /\
    match ts_proc s with
    | Some t => proc_ok t /\ seq_inv KS (ts_db s) (t_seq t) lo hi
    | None => seq_closed_inv KS (ts_db s) lo hi
    end.

  Lemma update_lease_db f d q d' q' ok : update_lease f KS bw d q = (d', q', ok) ->
    d' = d \/ exists v, d' = kvset KS v d.
  Proof.
    unfold update_lease. destruct f; intros E; injection E as <- <- <-; eauto.
  Qed.
  Lemma seq_next_db f d q d' q' r : seq_next f KS bw d q = (d', q', r) ->
    d' = d \/ exists v, d' = kvset KS v d.
  Proof.
    unfold seq_next. destruct (q_leased q <=? q_next q).
    - destruct (update_lease f KS bw d q) as [[d1 q1] ok] eqn:E. apply update_lease_db in E.
      destruct ok; intros H; injection H as <- <- <-; auto.
    - intros H; injection H as <- <- <-; auto.
  Qed.
  Lemma get_sequence_db f d d' r : get_sequence f KS bw d = (d', r) -> d' = d \/ exists v, d' = kvset KS v d.
  Proof.
    unfold get_sequence. destruct (update_lease f KS bw d (Seq 0 0)) as [[d1 q1] ok] eqn:E.
    apply update_lease_db in E. destruct ok; intros H; injection H as <- <-; auto.
  Qed.
  Lemma seq_release_db f d q d' q' ok : seq_release f KS d q = (d', q', ok) -> d' = d \/ exists v, d' = kvset KS v d.
  Proof.
    unfold seq_release. destruct (kvget KS d); [|intros H; injection H as <- <- <-; auto].
    destruct f; [intros H; injection H as <- <- <-; auto|].
    destruct (be_val s =? q_leased q); intros H; injection H as <- <- <-; eauto.
  Qed.

  Lemma seqwrite_frame d d' lo : (d' = d \/ exists v, d' = kvset KS v d) ->
    (db_inv d lo -> db_inv d' lo) /\ (forall k n, assoc d' k n <-> assoc d k n) /\
    (forall k, kvget (KK k) d' = kvget (KK k) d).
  Proof.
    intros [->|[v ->]]; [tauto|]. split; [|split].
    - apply db_inv_frame; intros; apply not_eq_sym; [apply KK_KS|apply KI_KS].
    - intros; apply assoc_frame. intros; apply not_eq_sym, KK_KS.
    - intros. apply kvget_set_ne. apply KK_KS.
  Qed.

  Lemma foreign_not k : String.prefix p k = false ->
    (forall a, k <> KK a) /\ (forall n, k <> KI n) /\ k <> KS.
  Proof.
    intros H. assert (G : forall x, k <> append p x).
    { intros x ->. assert (String.prefix p (append p x) = true) by (apply prefix_append; eauto). congruence. }
    repeat split; intros; rewrite ?append_assoc; apply G.
  Qed.

  Definition out_ok (o : tr_op) (r : tr_out) (s s' : tr_state) : Prop :=
    match r with
    | OKey k n => (exists f, o = TKey k f) /\ assoc (ts_db s') k n
    | OFind k (Some n) => o = TFind k /\ assoc (ts_db s) k n
    | OFind k None => o = TFind k /\ forall n, ~ assoc (ts_db s) k n
    | OBack n r => o = TId n /\ forall k, r = Some k <-> kvget (KI n) (ts_db s) = Some k
    | _ => True
    end.

  Lemma bw_pos : 0 < bw. Proof. reflexivity. Qed.

  Lemma tr_step_inv s o s' r lo hi :
    ts_inv s lo hi -> lo <= two64 -> hi + bw < two64 -> tr_step cfg s o = (s', r) ->
    exists lo', lo <= lo' /\ lo' <= two64 /\ ts_inv s' lo' (hi + bw) /\
      (forall k n, assoc (ts_db s) k n -> assoc (ts_db s') k n) /\
      (forall k n, assoc (ts_db s') k n -> assoc (ts_db s) k n \/ exists f, o = TKey k f) /\
      out_ok o r s s'.
  Proof.
    intros [Hdb Hp] Hlo Hhi E.
    assert (Hm : ts_inv s lo (hi + bw)).
    { split; auto. destruct (ts_proc s); [destruct Hp; split; auto|];
      eauto using seq_inv_mono, seq_closed_mono, N.le_add_r. }
    assert (Triv : s' = s -> r = OErr -> exists lo', lo <= lo' /\ lo' <= two64 /\ ts_inv s' lo' (hi + bw) /\
      (forall k n, assoc (ts_db s) k n -> assoc (ts_db s') k n) /\
      (forall k n, assoc (ts_db s') k n -> assoc (ts_db s) k n \/ exists f, o = TKey k f) /\
      out_ok o r s s').
    { intros -> ->. exists lo. unfold out_ok. intuition (auto; lia). }
    destruct s as [d pr]. cbn [ts_db ts_proc] in *.
    destruct o as [f|k f|k|n|f| |k v].
    - (* open *)
      destruct pr as [t|]; [cbn in E; injection E as <- <-; auto|].
      unfold tr_step in E. cbn [ts_db ts_proc c_grow] in E.
      destruct (tr_new grow f (prefix_heap cfg) (prefix_slice cfg) d) as [d' ot] eqn:G.
      injection E as <- <-.
      assert (HG : get_sequence f KS bw d = (d', match ot with Some t => Some (t_seq t) | None => None end)).
      { destruct ot as [t|]; [eapply tr_new_exact in G; eauto; tauto|].
        revert G. unfold tr_new, prefix_heap, prefix_slice. cbn [c_grow c_prefix c_cap].
        rewrite Nat.sub_diag. cbn [zeros]. rewrite append_nil_r.
        set (P := Slice 0 (String.length p) (String.length p)).
        assert (OK0 : slice_ok [p] P) by (unfold slice_ok, P; simpl; lia).
        assert (R0 : sread [p] P = p) by (unfold sread, P; simpl; apply substring_0_all).
        destruct (sappend grow [p] P "seq") as [h1 sk] eqn:E1.
        rewrite (sappend_read _ _ _ _ _ _ OK0 E1), R0.
        destruct (get_sequence f KS bw d) as [d1 [q|]].
        - destruct (sappend grow h1 P "keys") as [h2 ks]. destruct (sappend grow h2 P "ids"). discriminate.
        - intros [= <-]. reflexivity. }
      pose proof (get_sequence_db _ _ _ _ HG) as HD.
      destruct (seqwrite_frame d d' lo HD) as (F1 & F2 & F3).
      pose proof (get_sequence_inv _ _ _ _ _ _ _ _ Hp Hhi HG) as HS.
      exists lo. split; [lia|]. split; [auto|]. split; [|split; [|split]]; cbn [ts_db].
      + split; cbn [ts_db ts_proc]; auto. destruct ot as [t|]; auto.
        split; auto. apply tr_new_exact in G; auto. unfold proc_ok. tauto.
      + intros; apply F2; auto.
      + intros; left; apply F2; auto.
      + exact I.
    - (* key *)
      destruct pr as [t|]; [|cbn in E; injection E as <- <-; auto].
      destruct Hp as [Hok Hseq]. pose proof Hok as (Hwf & HK & HI & HS).
      unfold tr_step in E. cbn [ts_db ts_proc] in E. unfold translate_key in E.
      rewrite HK, HI, HS in E.
      destruct (kvget (KK k) d) as [v|] eqn:Ek.
      + destruct (proj1 Hdb _ _ Ek) as (n & -> & Hn & Hi).
        assert (Ha : assoc d k n) by (split; [lia|auto]).
        rewrite be_val_u64be in E by lia.
        assert (Hgen : r = OKey k n \/ r = OErr).
        { destruct f; injection E as <- <-; auto. }
        assert (Hst : ts_db s' = d /\ (ts_proc s' = Some t \/ ts_proc s' = None)).
        { destruct f; injection E as <- <-; auto. }
        destruct Hst as [Hd' Hp']. destruct s' as [d'' p'']; cbn [ts_db ts_proc] in *. subst d''.
        exists lo. split; [lia|]. split; [auto|]. split; [|split; [|split]]; auto.
        * split; auto. cbn [ts_db ts_proc]. destruct Hp' as [->| ->]; [apply Hm|].
          eapply seq_closed_of_inv; apply Hm.
        * destruct Hgen as [->| ->]; simpl; eauto.
      + destruct (seq_next (match f with FSeq => true | _ => false end) KS bw d (t_seq t)) as [[d1 q] on] eqn:G.
        pose proof (seq_next_db _ _ _ _ _ _ G) as HD.
        destruct (seqwrite_frame d d1 lo HD) as (F1 & F2 & F3).
        pose proof (seq_next_inv _ _ _ _ _ _ _ _ _ _ bw_pos Hseq Hhi G) as HQ.
        destruct on as [n|].
        * destruct HQ as [Hn HQ].
          assert (Hn64 : n + 1 <= two64).
          { destruct HQ as (_ & ? & ? & ? & ?). lia. }
          assert (Hnone : kvget (KK k) d1 = None) by (rewrite F3; auto).
          set (d2 := kvset (KI n) k (kvset (KK k) (u64be n) d1)) in *.
          assert (Hdb2 : db_inv d2 (n + 1)) by (apply (db_inv_add d1 lo); auto; lia).
          assert (Hassoc2 : forall a m, assoc d2 a m <-> assoc d a m \/ (a = k /\ m = n)).
          { intros a m. unfold d2. unfold assoc. rewrite kvget_set_ne by apply KK_KI.
            rewrite kvget_set. destruct (String.eqb_spec (KK a) (KK k)) as [Ea|Na].
            - apply KK_inj in Ea; subst a. rewrite Ek. split.
              + intros [Hm1 Hm2]. apply some_inj in Hm2. right. split; [reflexivity|].
                symmetry. apply u64be_inj; auto; lia.
              + intros [[_ HX]|[_ ->]]; [discriminate|]. split; auto; lia.
            - rewrite F3. split; [auto|]. intros [HX|[-> _]]; [auto|congruence]. }
          assert (Hseq2 : forall q, seq_inv KS d1 q (n+1) (hi + bw) -> seq_inv KS d2 q (n + 1) (hi + bw)).
          { intros q'. unfold seq_inv, d2.
            rewrite !stored_set_ne by (first [apply KI_KS | apply KK_KS]).
            rewrite kvget_set_ne by (apply not_eq_sym, KI_KS).
            rewrite kvget_set_ne by (apply not_eq_sym, KK_KS). auto. }
          destruct f; injection E as <- <-.
          -- exists (n + 1). split; [lia|]. split; [auto|]. split; [|split; [|split]]; cbn [ts_db].
             ++ split; cbn [ts_db ts_proc]; [solve [auto]|split; [exact Hok|cbn [t_seq]; auto]].
             ++ intros; apply Hassoc2; auto.
             ++ intros a m Ham. apply Hassoc2 in Ham as [?|[-> _]]; eauto.
             ++ simpl. split; eauto. apply Hassoc2; auto.
          -- exists (n + 1). split; [lia|]. split; [auto|]. split; [|split; [|split]]; cbn [ts_db].
             ++ split; cbn [ts_db ts_proc]; [solve [auto]|split; [exact Hok|cbn [t_seq]; auto]].
             ++ intros; apply Hassoc2; auto.
             ++ intros a m Ham. apply Hassoc2 in Ham as [?|[-> _]]; eauto.
             ++ simpl. split; eauto. apply Hassoc2; auto.
          -- exists (n + 1). split; [lia|]. split; [auto|]. split; [|split; [|split]]; cbn [ts_db].
             ++ split; cbn [ts_db ts_proc]; [eapply db_inv_mono; [|apply F1; exact Hdb]; lia|].
                split; [exact Hok|]. cbn [t_seq]. auto.
             ++ intros; apply F2; auto.
             ++ intros; left; apply F2; auto.
             ++ exact I.
          -- exists (n + 1). split; [lia|]. split; [auto|]. split; [|split; [|split]]; cbn [ts_db].
             ++ split; cbn [ts_db ts_proc]; auto. eapply seq_closed_of_inv. apply Hseq2. exact HQ.
             ++ intros; apply Hassoc2; auto.
             ++ intros a m Ham. apply Hassoc2 in Ham as [?|[-> _]]; eauto.
             ++ exact I.
        * injection E as <- <-.
          exists lo. split; [lia|]. split; [auto|]. split; [|split; [|split]]; cbn [ts_db].
          -- split; cbn [ts_db ts_proc]; [solve [auto]|split; [exact Hok|cbn [t_seq]; auto]].
          -- intros; apply F2; auto.
          -- intros; left; apply F2; auto.
          -- exact I.
    - (* find *)
      destruct pr as [t|]; [|cbn in E; injection E as <- <-; auto].
      destruct Hp as [Hok Hseq]. pose proof Hok as (Hwf & HK & HI & HS).
      unfold tr_step in E. cbn [ts_db ts_proc c_grow] in E.
      destruct (tr_find grow t d k) as [t' rr] eqn:G. injection E as <- <-.
      apply tr_find_spec in G; auto. destruct G as (W & GK & GI & GS & _ & _ & _ & GQ & ->).
      exists lo. split; [lia|]. split; [auto|]. split; [|split; [|split]]; cbn [ts_db]; auto.
      + split; cbn [ts_db ts_proc]; auto. unfold proc_ok. rewrite GK, GI, GS, GQ. split; [tauto|].
        apply Hm.
      + rewrite HK. simpl. destruct (kvget (KK k) d) as [v|] eqn:Ek.
        * destruct (proj1 Hdb _ _ Ek) as (n & -> & Hn & Hi). rewrite be_val_u64be by lia.
          repeat split; auto. lia.
        * split; auto. intros n [_ Hn]. congruence.
    - (* id *)
      destruct pr as [t|]; [|cbn in E; injection E as <- <-; auto].
      destruct Hp as [Hok Hseq]. pose proof Hok as (Hwf & HK & HI & HS).
      cbn in E. injection E as <- <-.
      exists lo. split; [lia|]. split; [auto|]. split; [|split; [|split]]; cbn [ts_db]; auto.
      simpl. split; auto. unfold translate_id. rewrite HI. tauto.
    - (* close *)
      destruct pr as [t|]; [|cbn in E; injection E as <- <-; auto].
      destruct Hp as [Hok Hseq]. pose proof Hok as (Hwf & HK & HI & HS).
      unfold tr_step in E. cbn [ts_db ts_proc c_grow] in E. rewrite HS in E.
      destruct (seq_release f KS d (t_seq t)) as [[d1 q] okk] eqn:G. injection E as <- <-.
      pose proof (seq_release_db _ _ _ _ _ _ G) as HD.
      destruct (seqwrite_frame d d1 lo HD) as (F1 & F2 & F3).
      pose proof (seq_release_inv _ _ _ _ _ _ _ _ _ (seq_inv_mono _ _ _ _ _ _ (N.le_add_r hi bw) Hseq) Hhi G) as HQ.
      exists lo. split; [lia|]. split; [auto|]. split; [|split; [|split]]; cbn [ts_db].
      + split; cbn [ts_db ts_proc]; [solve [auto]|split; [exact Hok|exact HQ]].
      + intros; apply F2; auto.
      + intros; left; apply F2; auto.
      + exact I.
    - (* crash *)
      cbn in E. injection E as <- <-.
      exists lo. split; [lia|]. split; [auto|]. split; [|split; [|split]]; cbn [ts_db]; auto.
      + split; cbn [ts_db ts_proc]; auto. destruct pr as [t|]; [|apply Hm].
        eapply seq_closed_of_inv. apply Hm.
      + exact I.
    - (* other *)
      cbn [tr_step ts_db ts_proc c_prefix] in E. 
      destruct (String.prefix p k) eqn:Epk.
      + injection E as <- <-. 
        exists lo. split; [lia|]. split; [auto|]. split; [|split; [|split]]; cbn [ts_db]; auto. exact I.
      + injection E as <- <-. destruct (foreign_not _ Epk) as (N1 & N2 & N3).
        exists lo. split; [lia|]. split; [auto|]. split; [|split; [|split]]; cbn [ts_db].
        * split; cbn [ts_db ts_proc]; [apply db_inv_frame; auto|].
          destruct pr as [t|].
          -- destruct Hm as [_ [? Hs]]. split; auto. unfold seq_inv in *.
             rewrite kvget_set_ne by congruence. rewrite !stored_set_ne by congruence. exact Hs.
          -- destruct Hm as [_ Hs]. unfold seq_closed_inv in *. rewrite !stored_set_ne by congruence. exact Hs.
        * intros; apply assoc_frame; auto.
        * intros a m Ham; left; apply assoc_frame in Ham; auto.
        * exact I.
  Qed.

  Lemma tr_run_inv ops : forall s lo hi s' outs,
    ts_inv s lo hi -> lo <= two64 ->
    hi + N.of_nat (List.length ops) * bw < two64 ->
    tr_run cfg s ops = (s', outs) ->
    exists lo', lo' <= two64 /\ ts_inv s' lo' (hi + N.of_nat (List.length ops) * bw) /\
      (forall k n, assoc (ts_db s) k n -> assoc (ts_db s') k n) /\
      (forall k n, assoc (ts_db s') k n -> assoc (ts_db s) k n \/ exists f, In (TKey k f) ops) /\
      (forall k n, In (OKey k n) outs -> assoc (ts_db s') k n) /\
      (forall k n, In (OFind k (Some n)) outs -> assoc (ts_db s') k n) /\
      (forall n k, n < two64 -> In (OBack n (Some k)) outs -> assoc (ts_db s') k n).
  Proof.
    induction ops as [|o ops IH]; intros s lo hi s' outs Hinv Hlo Hb E; cbn [tr_run] in E.
    - injection E as <- <-. exists lo. cbn [List.length N.of_nat]. rewrite N.mul_0_l, N.add_0_r.
      split; [exact Hlo|]. split; [exact Hinv|]. simpl. intuition.
    - cbn [List.length] in *. rewrite Nat2N.inj_succ, N.mul_succ_l in Hb.
      destruct (tr_step cfg s o) as [s1 r] eqn:E1.
      destruct (tr_run cfg s1 ops) as [s2 l2] eqn:E2. injection E as <- <-.
      destruct (tr_step_inv _ _ _ _ _ _ Hinv Hlo ltac:(lia) E1) as (lo1 & L1 & L2 & I1 & M1 & B1 & O1).
      destruct (IH _ _ _ _ _ I1 L2 ltac:(lia) E2) as (lo2 & L3 & I2 & M2 & B2 & K2 & F2 & T2).
      exists lo2. split; [auto|]. rewrite Nat2N.inj_succ, N.mul_succ_l.
      replace (hi + (N.of_nat (List.length ops) * bw + bw)) with (hi + bw + N.of_nat (List.length ops) * bw) by lia.
      split; [auto|]. split; [eauto|]. split; [|split; [|split]].
      + intros k n H. apply B2 in H as [H|[f H]]; [|right; exists f; now right].
        apply B1 in H as [H|[f ->]]; auto. right; exists f; now left.
      + intros k n [->|H]; [apply M2, O1|auto].
      + intros k n [->|H]; [apply M2, M1, O1|auto].
      + intros n k Hn [->|H]; [|auto]. apply M2, M1. destruct O1 as [_ O1].
        eapply assoc_back; [|exact (proj1 Hinv)|]; [exact Hlo|]. split; auto. apply O1. reflexivity.
  Qed.

  (** A store with none of the translator's keys in it. *)
  Definition fresh_db (d : kv) : Prop := forall x, kvget (append p x) d = None.

  Lemma fresh_inv d : fresh_db d -> ts_inv (TrState d None) 0 0.
  Proof.
    intros H. split; cbn [ts_db ts_proc].
    - split; intros; rewrite append_assoc, H in *; discriminate.
    - unfold seq_closed_inv, stored. rewrite H. lia.
  Qed.

  Lemma run_from_fresh d ops s' outs :
    fresh_db d -> N.of_nat (List.length ops) < 2 ^ 52 ->
    tr_run cfg (TrState d None) ops = (s', outs) ->
    exists lo hi, lo <= two64 /\ hi < two64 /\ ts_inv s' lo hi /\
      (forall k n, assoc (ts_db s') k n -> exists f, In (TKey k f) ops) /\
      (forall k n, In (OKey k n) outs -> assoc (ts_db s') k n) /\
      (forall k n, In (OFind k (Some n)) outs -> assoc (ts_db s') k n) /\
      (forall n k, n < two64 -> In (OBack n (Some k)) outs -> assoc (ts_db s') k n).
  Proof.
    intros Hd Hl E.
    assert (Hb : 0 + N.of_nat (List.length ops) * bw < two64).
    { change two64 with (2 ^ 52 * bw). rewrite N.add_0_l.
      apply N.mul_lt_mono_pos_r; [reflexivity|exact Hl]. }
    destruct (tr_run_inv ops _ 0 0 _ _ (fresh_inv d Hd) ltac:(unfold two64; lia) Hb E)
      as (lo & L & I & M & B & K & F & T).
    exists lo, (0 + N.of_nat (List.length ops) * bw).
    split; [exact L|]. split; [exact Hb|]. split; [exact I|]. split; [|auto].
    intros k n H. apply B in H as [[_ H]|H]; auto. cbn [ts_db] in H.
    rewrite append_assoc, Hd in H. discriminate.
  Qed.

  Lemma ids_stable_and_distinct d ops s' outs k1 n1 k2 n2 :
    fresh_db d -> N.of_nat (List.length ops) < 2 ^ 52 ->
    tr_run cfg (TrState d None) ops = (s', outs) ->
    In (OKey k1 n1) outs \/ In (OFind k1 (Some n1)) outs ->
    In (OKey k2 n2) outs \/ In (OFind k2 (Some n2)) outs ->
    (k1 = k2 <-> n1 = n2).
  Proof.
    intros Hd Hl E H1 H2.
    destruct (run_from_fresh _ _ _ _ Hd Hl E) as (lo & hi & L & _ & I & _ & K & F & _).
    assert (A1 : assoc (ts_db s') k1 n1) by (destruct H1; auto).
    assert (A2 : assoc (ts_db s') k2 n2) by (destruct H2; auto).
    split; intros ->; [eapply assoc_fun; eauto|eapply assoc_inj; eauto; apply I].
  Qed.

  Lemma id_back d ops s' outs t k n :
    fresh_db d -> N.of_nat (List.length ops) < 2 ^ 52 ->
    tr_run cfg (TrState d None) ops = (s', outs) -> ts_proc s' = Some t ->
    In (OKey k n) outs -> translate_id t (ts_db s') n = Some k.
  Proof.
    intros Hd Hl E Hp H1.
    destruct (run_from_fresh _ _ _ _ Hd Hl E) as (lo & hi & L & _ & [I P] & _ & K & F & _).
    rewrite Hp in P. destruct P as [(W & HK & HI & HS) _].
    unfold translate_id. rewrite HI. apply K in H1. eapply assoc_back in H1; eauto. tauto.
  Qed.

  Lemma id_back_iff_find d ops s' outs t k n :
    fresh_db d -> N.of_nat (List.length ops) < 2 ^ 52 ->
    tr_run cfg (TrState d None) ops = (s', outs) -> ts_proc s' = Some t -> n < two64 ->
    (translate_id t (ts_db s') n = Some k <-> snd (tr_find grow t (ts_db s') k) = Some n).
  Proof.
    intros Hd Hl E Hp Hn.
    destruct (run_from_fresh _ _ _ _ Hd Hl E) as (lo & hi & L & _ & [I P] & _ & _).
    rewrite Hp in P. destruct P as [(W & HK & HI & HS) _].
    destruct (tr_find grow t (ts_db s') k) as [t' r] eqn:G. apply tr_find_spec in G; auto.
    destruct G as (_ & _ & _ & _ & _ & _ & _ & _ & ->). cbn [snd].
    unfold translate_id. rewrite HI, HK.
    assert (X := assoc_back (ts_db s') lo k n L I). unfold assoc in X.
    destruct (kvget (append (append p "keys") k) (ts_db s')) as [v|] eqn:Ev.
    - destruct (proj1 I _ _ Ev) as (m & -> & Hm & Im). rewrite be_val_u64be by lia.
      split.
      + intros Hk. destruct (proj2 X (conj Hn Hk)) as [_ Y]. apply some_inj in Y.
        apply u64be_inj in Y; try lia. congruence.
      + intros [= <-]. exact Im.
    - split; [|discriminate]. intros Hk. destruct (proj2 X (conj Hn Hk)) as [_ Y]. discriminate.
  Qed.

  Lemma find_iff_translated d ops s' outs t k :
    fresh_db d -> N.of_nat (List.length ops) < 2 ^ 52 ->
    tr_run cfg (TrState d None) ops = (s', outs) -> ts_proc s' = Some t ->
    (forall n, In (OKey k n) outs -> snd (tr_find grow t (ts_db s') k) = Some n) /\
    (forall n, snd (tr_find grow t (ts_db s') k) = Some n -> exists f, In (TKey k f) ops).
  Proof.
    intros Hd Hl E Hp.
    destruct (run_from_fresh _ _ _ _ Hd Hl E) as (lo & hi & L & _ & [I P] & Bk & K & F & _).
    rewrite Hp in P. destruct P as [(W & HK & HI & HS) _].
    destruct (tr_find grow t (ts_db s') k) as [t' r] eqn:G. apply tr_find_spec in G; auto.
    destruct G as (_ & _ & _ & _ & _ & _ & _ & _ & ->). cbn [snd]. rewrite HK.
    split; intros n H.
    - apply K in H. destruct H as [Hn H]. rewrite H. f_equal. apply be_val_u64be; auto.
    - destruct (kvget (append (append p "keys") k) (ts_db s')) as [v|] eqn:Ev; [|discriminate].
      destruct (proj1 I _ _ Ev) as (m & -> & Hm & Im). apply (Bk k m). split; [lia|auto].
  Qed.
End Exact.

(* ------------------------------------------------------------------ Find has no effect *)
Definition sim (t1 t2 : translator) : Prop :=
  tr_wf t1 /\ tr_wf t2 /\ keys_prefix t1 = keys_prefix t2 /\ ids_prefix t1 = ids_prefix t2 /\
  seq_key t1 = seq_key t2 /\ t_seq t1 = t_seq t2.
Definition ssim (s1 s2 : tr_state) : Prop :=
  ts_db s1 = ts_db s2 /\
  match ts_proc s1, ts_proc s2 with
  | Some t1, Some t2 => sim t1 t2
  | None, None => True
  | _, _ => False
  end.

Section Find.
  Variable c : tr_config.
  Hypothesis new_wf : forall f d d' t, tr_new (c_grow c) f (prefix_heap c) (prefix_slice c) d = (d', Some t) -> tr_wf t.

  Lemma ssim_step s1 s2 o : ssim s1 s2 ->
    snd (tr_step c s1 o) = snd (tr_step c s2 o) /\ ssim (fst (tr_step c s1 o)) (fst (tr_step c s2 o)).
  Proof.
    destruct s1 as [d1 p1], s2 as [d2 p2]. unfold ssim; cbn [ts_db ts_proc].
    intros [-> H].
    destruct p1 as [t1|], p2 as [t2|]; try contradiction.
    - destruct H as (W1 & W2 & HK & HI & HS & HQ).
      destruct o as [f|k f|k|n|f| |k v]; unfold tr_step; cbn [ts_db ts_proc];
        try (cbn [fst snd ts_db ts_proc]; split; [reflexivity|]; split; [reflexivity|];
             first [exact I | unfold sim; tauto]).
      + unfold translate_key. rewrite HK, HI, HS, HQ.
        destruct (kvget (append (keys_prefix t2) k) d2) as [v|].
        * destruct f; cbn [fst snd ts_db ts_proc]; repeat split; auto; apply W1 || apply W2.
        * destruct (seq_next _ _ _ _ _) as [[d q] [n|]]; [destruct f|]; cbn [fst snd ts_db ts_proc];
            repeat split; auto; try apply W1; try apply W2.
      + destruct (tr_find (c_grow c) t1 d2 k) as [t1' r1] eqn:G1.
        destruct (tr_find (c_grow c) t2 d2 k) as [t2' r2] eqn:G2.
        apply tr_find_spec in G1, G2; auto.
        destruct G1 as (? & ? & ? & ? & ? & ? & ? & ? & ->), G2 as (? & ? & ? & ? & ? & ? & ? & ? & ->).
        cbn [fst snd ts_db ts_proc]. rewrite HK. split; auto. split; auto. unfold sim. split; auto. split; auto.
        repeat split; congruence.
      + cbn [fst snd ts_db ts_proc]. unfold translate_id. rewrite HI. repeat split; auto; apply W1 || apply W2.
      + rewrite HS, HQ. destruct (seq_release _ _ _ _) as [[d q] b]. cbn [fst snd ts_db ts_proc].
        repeat split; auto; apply W1 || apply W2.
    - destruct o as [f|k f|k|n|f| |k v]; unfold tr_step; cbn [ts_db ts_proc]; auto.
      destruct (tr_new (c_grow c) f (prefix_heap c) (prefix_slice c) d2) as [d [t|]] eqn:G;
        cbn [fst snd ts_db ts_proc]; auto.
      apply new_wf in G. repeat split; auto; apply G.
  Qed.

  Lemma ssim_run ops : forall s1 s2, ssim s1 s2 ->
    snd (tr_run c s1 ops) = snd (tr_run c s2 ops) /\ ssim (fst (tr_run c s1 ops)) (fst (tr_run c s2 ops)).
  Proof.
    induction ops as [|o ops IH]; intros s1 s2 H; cbn [tr_run]; auto.
    destruct (ssim_step s1 s2 o H) as [Ho Hs].
    destruct (tr_step c s1 o) as [s1' r1], (tr_step c s2 o) as [s2' r2]. cbn [fst snd] in *.
    specialize (IH _ _ Hs). destruct (tr_run c s1' ops), (tr_run c s2' ops). cbn [fst snd] in *.
    destruct IH. subst. auto.
  Qed.

  Definition s_wf (s : tr_state) : Prop := match ts_proc s with Some t => tr_wf t | None => True end.
  Lemma s_wf_refl s : s_wf s -> ssim s s.
  Proof.
    unfold s_wf, ssim, sim. destruct (ts_proc s); tauto.
  Qed.
  Lemma s_wf_run ops s : s_wf s -> s_wf (fst (tr_run c s ops)).
  Proof.
    intros H. destruct (ssim_run ops s s (s_wf_refl _ H)) as [_ H2].
    unfold s_wf, ssim in *. destruct (ts_proc (fst (tr_run c s ops))); auto. apply H2.
  Qed.

  Lemma tr_run_app ops1 : forall ops2 s,
    tr_run c s (ops1 ++ ops2) =
    (let '(s1, o1) := tr_run c s ops1 in let '(s2, o2) := tr_run c s1 ops2 in (s2, o1 ++ o2)).
  Proof.
    induction ops1 as [|o ops1 IH]; intros ops2 s; cbn [tr_run app].
    - destruct (tr_run c s ops2); reflexivity.
    - destruct (tr_step c s o) as [s1 r]. rewrite IH.
      destruct (tr_run c s1 ops1) as [s2 l]. destruct (tr_run c s2 ops2). reflexivity.
  Qed.
  Lemma tr_run_length ops : forall s, List.length (snd (tr_run c s ops)) = List.length ops.
  Proof.
    induction ops as [|o ops IH]; intros s; cbn [tr_run]; auto.
    destruct (tr_step c s o) as [s1 r]. specialize (IH s1).
    destruct (tr_run c s1 ops). cbn [snd List.length] in *. congruence.
  Qed.

  Lemma find_no_effect d ops1 ops2 k :
    exists o1 o2 r,
      List.length o1 = List.length ops1 /\
      snd (tr_run c (TrState d None) (ops1 ++ ops2)) = o1 ++ o2 /\
      snd (tr_run c (TrState d None) (ops1 ++ TFind k :: ops2)) = o1 ++ r :: o2 /\
      ts_db (fst (tr_run c (TrState d None) (ops1 ++ TFind k :: ops2))) =
      ts_db (fst (tr_run c (TrState d None) (ops1 ++ ops2))).
  Proof.
    rewrite !tr_run_app.
    pose proof (tr_run_length ops1 (TrState d None)) as HL.
    pose proof (s_wf_run ops1 (TrState d None) I) as HW.
    destruct (tr_run c (TrState d None) ops1) as [s1 o1]. cbn [fst snd] in *.
    cbn [tr_run].
    assert (HS : ssim (fst (tr_step c s1 (TFind k))) s1).
    { unfold s_wf in HW. destruct s1 as [dd [t|]]; cbn [ts_proc] in HW; unfold tr_step; cbn [ts_db ts_proc].
      - destruct (tr_find (c_grow c) t dd k) as [t' r] eqn:G. apply tr_find_spec in G; auto.
        unfold ssim, sim; cbn [fst ts_db ts_proc]. tauto.
      - unfold ssim; cbn; auto. }
    destruct (tr_step c s1 (TFind k)) as [s1' r]. cbn [fst] in HS.
    destruct (ssim_run ops2 _ _ HS) as [Ho Hs].
    destruct (tr_run c s1' ops2) as [sa oa]. destruct (tr_run c s1 ops2) as [sb ob]. cbn [fst snd] in *.
    subst. exists o1, ob, r. repeat split; auto. apply Hs.
  Qed.
End Find.

(* ------------------------------------------------------------------ the production wiring *)
Section Production.
  Variable grow : nat -> nat.
  Notation cfg := (production_config grow).

  (** Closed computation of New with prefix "5" and capacity 8: the three slices share one array. *)
  Definition prod_tr (q : sequence) : translator :=
    Tr ["5idss" ++ String zero (String zero (String zero ""))]%string (Slice 0 5 8) (Slice 0 4 8) (Slice 0 4 8) q.

  Lemma prod_new f d : tr_new grow f (prefix_heap cfg) (prefix_slice cfg) d =
    match get_sequence f "5seq" translate_bandwidth d with
    | (d', Some q) => (d', Some (prod_tr q))
    | (d', None) => (d', None)
    end.
  Proof. unfold tr_new, prefix_heap, prefix_slice, production_config, prod_tr, sappend. reflexivity. Qed.
  Lemma prod_keys q : keys_prefix (prod_tr q) = "5idss". Proof. reflexivity. Qed.
  Lemma prod_ids q : ids_prefix (prod_tr q) = "5ids". Proof. reflexivity. Qed.
  Lemma prod_seq q : seq_key (prod_tr q) = "5ids". Proof. reflexivity. Qed.
  Lemma prod_tr_eta q q' :
    Tr (t_heap (prod_tr q)) (t_keys (prod_tr q)) (t_ids (prod_tr q)) (t_seqkey (prod_tr q)) q' = prod_tr q'.
  Proof. reflexivity. Qed.

  Notation KK k := (append "5idss" k).
  Notation KI n := (append "5ids" (u64be n)).
  Notation bw := translate_bandwidth.

  Lemma prod_KI_KK n k : n < 2 ^ 56 -> KI n <> KK k.
  Proof.
    intros Hn H. change (append "5idss" k) with (append "5ids" (String "s" k)) in H.
    apply append_inj_l in H.
    assert (Hb : be_val_acc 0 (u64be n) = n) by (apply be_val_u64be; unfold two64; lia).
    rewrite H in Hb. cbn [be_val_acc] in Hb.
    assert (G : forall s acc, acc * 256 ^ N.of_nat (String.length s) <= be_val_acc acc s).
    { clear. induction s as [|c s IH]; intros acc; cbn [be_val_acc String.length].
      - simpl. lia.
      - rewrite Nat2N.inj_succ, N.pow_succ_r'. specialize (IH (acc * 256 + N_of_ascii c)). nia. }
    assert (HL : String.length k = 7%nat).
    { pose proof (u64be_length n) as L. rewrite H in L. simpl in L. lia. }
    specialize (G k (0 * 256 + N_of_ascii "s")). rewrite Hb, HL in G.
    change (N_of_ascii "s") with 115 in G. change (N.of_nat 7) with 7 in G.
    change (256 ^ 7) with (2 ^ 56) in G. lia.
  Qed.
  Lemma prod_KI_seq n : KI n <> "5ids".
  Proof. intros H. change "5ids" with (append "5ids" "") in H at 2. apply append_inj_l in H.
         pose proof (u64be_length n) as L. rewrite H in L. discriminate. Qed.
  Lemma prod_KI_inj a b : a < two64 -> b < two64 -> KI a = KI b -> a = b.
  Proof. intros ? ? H. apply append_inj_l in H. apply u64be_inj in H; auto. Qed.

  (** State after [n] labels were translated in one fresh process. *)
  Definition prod_inv (done : list string) (s : tr_state) (n : N) : Prop :=
    exists q, ts_proc s = Some (prod_tr q) /\ q_next q = n /\ q_leased q = bw /\
      kvget "5ids" (ts_db s) = None /\
      (forall k, ~ In k done -> kvget (KK k) (ts_db s) = None).

  Lemma prod_step done s n k :
    prod_inv done s n -> n < bw -> ~ In k done ->
    exists s', tr_step cfg s (TKey k FNone) = (s', OKey k n) /\ prod_inv (k :: done) s' (n + 1).
  Proof.
    intros (q & Hp & Hn & Hl & Hs & Hk) Hlt Hin.
    destruct s as [d pr]; cbn [ts_db ts_proc] in *; subst pr.
    unfold tr_step, translate_key; cbn [ts_db ts_proc].
    rewrite prod_keys, prod_ids, prod_seq, (Hk k Hin).
    unfold seq_next. cbn [prod_tr t_seq]. rewrite Hn, Hl.
    destruct (N.leb_spec bw n); [lia|].
    assert (Hsm : (n + 1) mod two64 = n + 1) by (apply N.mod_small; change bw with 4096 in *; change two64 with (2^64); lia).
    rewrite Hsm. eexists. split; [reflexivity|].
    exists (Seq (n + 1) bw). cbn [ts_db ts_proc q_next q_leased]. repeat split.
    - rewrite kvget_set_ne by (apply not_eq_sym, prod_KI_seq).
      rewrite kvget_set_ne; auto. discriminate.
    - intros k' Hk'. simpl in Hk'.
      rewrite kvget_set_ne by (apply not_eq_sym, prod_KI_KK; change bw with 4096 in *; lia).
      rewrite kvget_set_ne; [apply Hk; tauto|]. intros E. apply append_inj_l in E. subst; tauto.
  Qed.

  Lemma prod_run ls : forall done s n,
    prod_inv done s n -> n + N.of_nat (List.length ls) <= bw -> NoDup ls -> (forall k, In k ls -> ~ In k done) ->
    exists done' s' outs, tr_run cfg s (map (fun k => TKey k FNone) ls) = (s', outs) /\
      prod_inv done' s' (n + N.of_nat (List.length ls)) /\ (forall k, In k done' <-> In k ls \/ In k done).
  Proof.
    induction ls as [|k ls IH]; intros done s n Hinv Hb Hnd Hdis; cbn [map tr_run].
    - exists done, s, []. simpl. rewrite N.add_0_r. intuition.
    - cbn [List.length] in Hb. rewrite Nat2N.inj_succ in Hb. inversion Hnd; subst.
      destruct (prod_step _ _ _ k Hinv ltac:(lia) (Hdis k (or_introl eq_refl))) as (s1 & E1 & I1).
      rewrite E1.
      destruct (IH (k :: done) s1 (n + 1) I1 ltac:(lia) H2) as (done' & s2 & outs & E2 & I2 & D2).
      { intros k' Hk' [->|Hd]; auto. apply (Hdis k'); simpl; auto. }
      rewrite E2. exists done', s2, (OKey k n :: outs). split; [auto|].
      cbn [List.length]. rewrite Nat2N.inj_succ.
      replace (n + N.succ (N.of_nat (List.length ls))) with (n + 1 + N.of_nat (List.length ls)) by lia.
      split; [auto|]. intros k'. rewrite D2. simpl. intuition.
  Qed.

  Lemma prod_collision k1 ls k2 :
    NoDup (k1 :: ls ++ [k2]) -> N.of_nat (List.length ls) = bw - 1 ->
    exists outs, snd (tr_run cfg (TrState [] None)
        (TOpen false :: TKey k1 FNone :: map (fun k => TKey k FNone) ls ++ [TKey k2 FNone]))
      = ONone :: OKey k1 0 :: outs ++ [OKey k2 0].
  Proof.
    intros Hnd Hlen.
    cbn [tr_run]. 
    assert (E0 : exists s0, tr_step cfg (TrState [] None) (TOpen false) = (s0, ONone) /\ prod_inv [] s0 0).
    { unfold tr_step; cbn [ts_db ts_proc c_grow production_config].
      rewrite prod_new. unfold get_sequence, update_lease. cbn [kvget aget].
      eexists. split; [reflexivity|].
      exists (Seq 0 bw). cbn [ts_db ts_proc q_next q_leased]. 
      assert (Hb : (0 + bw) mod two64 = bw) by reflexivity. rewrite Hb.
      repeat split. }
    destruct E0 as (s0 & -> & I0).
    inversion Hnd as [|? ? Hk1 Hnd']; subst.
    assert (Hls : NoDup ls /\ ~ In k2 ls).
    { apply NoDup_remove in Hnd'. rewrite app_nil_r in Hnd'. tauto. }
    destruct Hls as [Hls Hk2].
    destruct (prod_step _ _ _ k1 I0 ltac:(reflexivity) ltac:(simpl; tauto)) as (s1 & -> & I1).
    rewrite (tr_run_app cfg).
    destruct (prod_run ls _ _ _ I1 ltac:(rewrite Hlen; change bw with 4096; lia) Hls) as (done & s2 & outs & -> & I2 & D2).
    { intros k Hk [<-|[]]. apply Hk1, in_or_app; auto. }
    rewrite Hlen in I2. replace (0 + 1 + (bw - 1)) with bw in I2 by reflexivity.
    destruct I2 as (q & Hp & Hn & Hl & Hs & Hfresh).
    cbn [tr_run]. 
    assert (E2 : exists s3, tr_step cfg s2 (TKey k2 FNone) = (s3, OKey k2 0)).
    { destruct s2 as [d pr]; cbn [ts_db ts_proc] in *; subst pr.
      unfold tr_step, translate_key; cbn [ts_db ts_proc].
      rewrite prod_keys, prod_ids, prod_seq, Hfresh.
      2:{ rewrite D2. simpl. intros [H|[->|[]]]; auto. apply Hk1, in_or_app; simpl; auto. }
      unfold seq_next, update_lease. cbn [prod_tr t_seq]. rewrite Hn, Hl, Hs.
      destruct (N.leb_spec bw bw); [|lia]. cbn [q_next q_leased]. eexists; reflexivity. }
    destruct E2 as (s3 & ->). cbn [snd]. eexists; reflexivity.
  Qed.
End Production.
