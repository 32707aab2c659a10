From Verif.Model Require Import Base Labels.
From Verif.Proofs Require Import BaseFacts.

Definition kv_text (k v : string) : string := append k (if nonempty v then append "=" v else "").

Lemma encode_split l1 l2 :
  encode l1 = encode l2 <->
  l_resource l1 = l_resource l2 /\ l_prefix l1 = l_prefix l2 /\
  kv_text (l_key l1) (l_value l1) = kv_text (l_key l2) (l_value l2).
Proof.
  unfold encode, kv_text. split.
  - intros H. apply split_sep in H as [Hr H]; try (apply show_Z_no; reflexivity).
    simpl in H. apply split_sep in H as [Hp H]; try (apply show_Z_no; reflexivity).
    apply show_Z_inj in Hr, Hp. auto.
  - intros (-> & -> & ->). reflexivity.
Qed.

Lemma nonempty_false v : nonempty v = false -> v = "".
Proof. unfold nonempty. destruct (String.eqb_spec v ""); simpl; congruence. Qed.

Lemma kv_text_inj k1 v1 k2 v2 :
  str_mem "=" k1 = false -> str_mem "=" k2 = false ->
  kv_text k1 v1 = kv_text k2 v2 -> k1 = k2 /\ v1 = v2.
Proof.
  unfold kv_text. intros H1 H2.
  destruct (nonempty v1) eqn:E1, (nonempty v2) eqn:E2; rewrite ?append_nil_r; intros H.
  - apply split_sep in H as [-> ->]; auto.
  - exfalso. symmetry in H. eapply split_sep_none; [exact H2|exact H].
  - exfalso. eapply split_sep_none; [exact H1|exact H].
  - apply nonempty_false in E1, E2. subst; auto.
Qed.

Lemma encode_inj_noeq l1 l2 :
  str_mem "=" (l_key l1) = false -> str_mem "=" (l_key l2) = false ->
  encode l1 = encode l2 -> l1 = l2.
Proof.
  intros H1 H2 H. apply encode_split in H as (Hr & Hp & H).
  apply kv_text_inj in H as [Hk Hv]; auto.
  destruct l1, l2; simpl in *; congruence.
Qed.

Lemma encode_inj_novalue l1 l2 :
  l_value l1 = "" -> l_value l2 = "" -> encode l1 = encode l2 -> l1 = l2.
Proof.
  intros H1 H2 H. apply encode_split in H as (Hr & Hp & H). unfold kv_text in H.
  rewrite H1, H2 in H. simpl in H. rewrite !append_nil_r in H.
  destruct l1, l2; simpl in *; congruence.
Qed.

Lemma prefix_append p s : String.prefix p s = true <-> exists t, s = append p t.
Proof.
  revert s; induction p as [|c p IH]; intros s; simpl.
  - split; [eauto|]. destruct s; auto.
  - destruct s as [|d s]; [split; [discriminate|intros [t Ht]; discriminate]|].
    cbn [String.prefix]. destruct (ascii_dec c d) as [->|Nc].
    + split; [intros H; apply IH in H|intros H; apply IH];
        destruct H as [t Ht]; exists t; congruence.
    + split; [discriminate|]. intros [t Ht]. congruence.
Qed.

Lemma sample_key_inj r1 i1 r2 i2 : sample_key r1 i1 = sample_key r2 i2 -> r1 = r2 /\ i1 = i2.
Proof.
  unfold sample_key. intros H. apply split_sep in H as [Hr H]; try (apply show_Z_no; reflexivity).
  apply show_Z_inj in Hr. apply show_N_inj in H. auto.
Qed.

Lemma sample_prefix_spec r r' id :
  String.prefix (sample_prefix r) (sample_key r' id) = true <-> r = r'.
Proof.
  unfold sample_prefix, sample_key. rewrite prefix_append. split.
  - intros [t H]. rewrite append_assoc in H. simpl in H.
    apply split_sep in H as [Hr _]; try (apply show_Z_no; reflexivity).
    apply show_Z_inj in Hr. auto.
  - intros ->. exists (show_N id). rewrite append_assoc. reflexivity.
Qed.
