From Verif.Model Require Import Base KV Sequence.
From Verif.Proofs Require Import BaseFacts.

Lemma kvget_set k k' v d : kvget k (kvset k' v d) = if String.eqb k k' then Some v else kvget k d.
Proof. apply aget_aset. apply String.eqb_spec. Qed.
Lemma kvget_set_eq k v d : kvget k (kvset k v d) = Some v.
Proof. rewrite kvget_set, String.eqb_refl. reflexivity. Qed.
Lemma kvget_set_ne k k' v d : k <> k' -> kvget k (kvset k' v d) = kvget k d.
Proof. intros H. rewrite kvget_set. apply String.eqb_neq in H. now rewrite H. Qed.

Definition stored (key : string) (d : kv) : N :=
  match kvget key d with None => 0 | Some v => be_val v end.

(** Generic facts about a sequence whose key is [key] and that has been opened:
    [lo] = every id handed out so far is < lo, [hi] bounds the stored counter. *)
Definition seq_inv (key : string) (d : kv) (q : sequence) (lo hi : N) : Prop :=
  kvget key d = Some (u64be (stored key d)) /\
  q_leased q = stored key d /\ lo <= q_next q /\ q_next q <= q_leased q /\ stored key d <= hi.
Definition seq_closed_inv (key : string) (d : kv) (lo hi : N) : Prop :=
  lo <= stored key d /\ stored key d <= hi.

Lemma seq_closed_of_inv key d q lo hi : seq_inv key d q lo hi -> seq_closed_inv key d lo hi.
Proof. unfold seq_inv, seq_closed_inv. lia. Qed.

Lemma stored_set key d n : n < two64 -> stored key (kvset key (u64be n) d) = n.
Proof. intros H. unfold stored. rewrite kvget_set_eq. apply be_val_u64be; auto. Qed.
Lemma stored_set_ne key k d v : k <> key -> stored key (kvset k v d) = stored key d.
Proof. intros H. unfold stored. rewrite kvget_set_ne by congruence. reflexivity. Qed.

Lemma get_sequence_inv f key bw d d' r lo hi :
  seq_closed_inv key d lo hi -> hi + bw < two64 ->
  get_sequence f key bw d = (d', r) ->
  match r with
  | Some q => seq_inv key d' q lo (hi + bw)
  | None => seq_closed_inv key d' lo (hi + bw)
  end.
Proof.
  unfold get_sequence, update_lease. intros [H1 H2] Hb.
  destruct f; intros E; injection E as <- <-.
  - unfold seq_closed_inv. lia.
  - fold (stored key d). rewrite N.mod_small by lia.
    unfold seq_inv. rewrite stored_set by lia. rewrite kvget_set_eq. cbn [q_next q_leased].
    repeat split; lia.
Qed.

Lemma seq_next_inv f key bw d q d' q' r lo hi :
  0 < bw -> seq_inv key d q lo hi -> hi + bw < two64 ->
  seq_next f key bw d q = (d', q', r) ->
  match r with
  | Some n => lo <= n /\ seq_inv key d' q' (n + 1) (hi + bw)
  | None => seq_inv key d' q' lo (hi + bw)
  end.
Proof.
  unfold seq_next, update_lease. intros Hbw (H0 & H1 & H2 & H3 & H4) Hb.
  destruct (N.leb_spec (q_leased q) (q_next q)) as [Hge|Hlt].
  - destruct f; intros E; injection E as <- <- <-.
    + fold (stored key d).
      unfold seq_inv. cbn [q_next q_leased]. repeat split; try assumption; lia.
    + fold (stored key d). rewrite (N.mod_small (stored key d + bw)) by lia.
      cbn [q_next q_leased]. split; [lia|]. rewrite N.mod_small by lia.
      unfold seq_inv. rewrite stored_set by lia. rewrite kvget_set_eq. cbn [q_next q_leased].
      repeat split; lia.
  - intros E; injection E as <- <- <-. rewrite N.mod_small by lia.
    split; [lia|]. unfold seq_inv. cbn [q_next q_leased]. repeat split; try assumption; lia.
Qed.

Lemma seq_release_inv f key d q d' q' b lo hi :
  seq_inv key d q lo hi -> hi < two64 ->
  seq_release f key d q = (d', q', b) -> seq_inv key d' q' lo hi.
Proof.
  unfold seq_release. intros (H0 & H1 & H2 & H3 & H4) Hb. rewrite H0.
  rewrite be_val_u64be by lia. rewrite H1, N.eqb_refl.
  destruct f; intros E; injection E as <- <- <-; [unfold seq_inv; repeat split; assumption|].
  unfold seq_inv. rewrite stored_set by lia. rewrite kvget_set_eq. cbn [q_next q_leased].
  repeat split; lia.
Qed.

(* ------------------------------------------------------------------ the sample sequence *)
Definition ss_inv (s : seq_state) (lo hi : N) : Prop :=
  match ss_proc s with
  | Some q => seq_inv sample_seq_key (ss_db s) q lo hi
  | None => seq_closed_inv sample_seq_key (ss_db s) lo hi
  end.

Lemma seq_inv_mono key d q lo hi hi' : hi <= hi' -> seq_inv key d q lo hi -> seq_inv key d q lo hi'.
Proof. unfold seq_inv. intuition lia. Qed.
Lemma seq_closed_mono key d lo hi hi' : hi <= hi' -> seq_closed_inv key d lo hi -> seq_closed_inv key d lo hi'.
Proof. unfold seq_closed_inv. intuition lia. Qed.
Lemma ss_inv_mono s lo hi hi' : hi <= hi' -> ss_inv s lo hi -> ss_inv s lo hi'.
Proof. unfold ss_inv. destruct (ss_proc s); eauto using seq_inv_mono, seq_closed_mono. Qed.

Lemma sample_bandwidth_pos : 0 < sample_bandwidth.
Proof. reflexivity. Qed.

Lemma seq_step_inv s o s' r lo hi :
  ss_inv s lo hi -> hi + sample_bandwidth < two64 -> seq_step s o = (s', r) ->
  match r with
  | Some n => lo <= n /\ ss_inv s' (n + 1) (hi + sample_bandwidth)
  | None => ss_inv s' lo (hi + sample_bandwidth)
  end.
Proof.
  pose proof sample_bandwidth_pos as Hbw.
  intros Hinv Hb E.
  assert (Hm : ss_inv s lo (hi + sample_bandwidth)) by (eapply ss_inv_mono; [|exact Hinv]; lia).
  destruct s as [d p]; unfold ss_inv in *; cbn [ss_db ss_proc] in *.
  destruct o as [f|f|f| |k v]; destruct p as [q|]; unfold seq_step in E; cbn [ss_db ss_proc] in E;
    try (injection E as <- <-; assumption).
  - destruct (get_sequence f sample_seq_key sample_bandwidth d) as [d' r'] eqn:G.
    injection E as <- <-. cbn [ss_db ss_proc].
    exact (get_sequence_inv _ _ _ _ _ _ _ _ Hinv Hb G).
  - destruct (seq_next f sample_seq_key sample_bandwidth d q) as [[d' q'] r'] eqn:G.
    injection E as <- <-. cbn [ss_db ss_proc].
    exact (seq_next_inv _ _ _ _ _ _ _ _ _ _ Hbw Hinv Hb G).
  - destruct (seq_release f sample_seq_key d q) as [[d' q'] r'] eqn:G.
    injection E as <- <-. cbn [ss_db ss_proc].
    apply (seq_release_inv _ _ _ _ _ _ _ _ _ Hm ltac:(lia) G).
  - injection E as <- <-. cbn [ss_db ss_proc]. eapply seq_closed_of_inv; eauto.
  - injection E as <- <-. cbn [ss_db ss_proc]. 
    destruct (String.eqb_spec k sample_seq_key); [assumption|].
    unfold seq_inv in *. rewrite kvget_set_ne by congruence. rewrite !stored_set_ne by congruence. assumption.
  - injection E as <- <-. cbn [ss_db ss_proc].
    destruct (String.eqb_spec k sample_seq_key); [assumption|].
    unfold seq_closed_inv in *. rewrite !stored_set_ne by congruence. assumption.
Qed.

Lemma seq_run_inv ops : forall s lo hi s' l,
  ss_inv s lo hi ->
  hi + N.of_nat (List.length ops) * sample_bandwidth < two64 ->
  seq_run s ops = (s', l) ->
  StronglySorted N.lt l /\ Forall (fun n => lo <= n) l.
Proof.
  induction ops as [|o ops IH]; intros s lo hi s' l Hinv Hb E; cbn [seq_run] in E.
  - injection E as <- <-. split; constructor.
  - cbn [List.length] in Hb. rewrite Nat2N.inj_succ, N.mul_succ_l in Hb.
    destruct (seq_step s o) as [s1 r] eqn:E1.
    destruct (seq_run s1 ops) as [s2 l2] eqn:E2. injection E as <- <-.
    pose proof (seq_step_inv _ _ _ _ _ _ Hinv ltac:(lia) E1) as H1.
    destruct r as [n|].
    + destruct H1 as [Hn H1]. destruct (IH _ _ _ _ _ H1 ltac:(lia) E2) as [S F].
      split; [constructor; auto; eapply Forall_impl; [|exact F]; simpl; intros; lia|].
      constructor; auto. eapply Forall_impl; [|exact F]; simpl; intros; lia.
    + apply (IH _ _ _ _ _ H1 ltac:(lia) E2).
Qed.

Lemma sample_ids_increase d ops s' l :
  kvget sample_seq_key d = None ->
  N.of_nat (List.length ops) < 2 ^ 44 ->
  seq_run (SeqState d None) ops = (s', l) -> StronglySorted N.lt l.
Proof.
  intros H0 Hlen E.
  refine (proj1 (seq_run_inv ops (SeqState d None) 0 0 s' l _ _ E)).
  - unfold ss_inv, seq_closed_inv, stored. cbn [ss_db ss_proc]. rewrite H0. lia.
  - change sample_bandwidth with (2^20). change two64 with (2 ^ 44 * 2 ^ 20). 
    rewrite N.add_0_l. apply N.mul_lt_mono_pos_r; [reflexivity|exact Hlen].
Qed.
