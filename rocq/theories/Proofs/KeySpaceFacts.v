From Verif.Model Require Import Base KV Slice Sequence Translate KeySpace.
From Verif.Proofs Require Import BaseFacts LabelsFacts SequenceFacts TranslateFacts.

Definition id_below (b : N) (e : db_entry) : Prop := match e with EId n => n < b | _ => True end.

Lemma set_key_inj s1 v1 s2 v2 :
  append (set_prefix s1) (append view_prefix v1) = append (set_prefix s2) (append view_prefix v2) ->
  s1 = s2 /\ v1 = v2.
Proof.
  destruct s1, s2; simpl; intros H; try discriminate; injection H; auto.
Qed.

Lemma keyspace_disjoint e1 e2 :
  id_below two64 e1 -> id_below two64 e2 ->
  entry_key "5keys" "5ids" "5seq" e1 = entry_key "5keys" "5ids" "5seq" e2 -> e1 = e2.
Proof.
  destruct e1 as [l1|n1| | |v1|s1 v1], e2 as [l2|n2| | |v2|s2 v2]; cbn [entry_key id_below];
    intros H1 H2 H; try reflexivity;
    try (apply set_key_inj in H as [-> ->]; reflexivity);
    try (destruct s1; discriminate H); try (destruct s2; discriminate H);
    try discriminate H.
  - apply append_inj_l in H. congruence.
  - f_equal. apply append_inj_l in H. apply u64be_inj in H; auto.
  - apply append_inj_l in H. congruence.
Qed.

Lemma keyspace_disjoint_production e1 e2 :
  id_below (2 ^ 56) e1 -> id_below (2 ^ 56) e2 ->
  entry_key "5idss" "5ids" "5ids" e1 = entry_key "5idss" "5ids" "5ids" e2 -> e1 = e2.
Proof.
  destruct e1 as [l1|n1| | |v1|s1 v1], e2 as [l2|n2| | |v2|s2 v2]; cbn [entry_key id_below];
    intros H1 H2 H; try reflexivity;
    try (apply set_key_inj in H as [-> ->]; reflexivity);
    try (destruct s1; discriminate H); try (destruct s2; discriminate H);
    try discriminate H.
  - apply append_inj_l in H. congruence.
  - exfalso. symmetry in H. revert H. apply prod_KI_KK; auto.
  - exfalso. revert H. apply prod_KI_KK; auto.
  - f_equal. apply append_inj_l in H. apply u64be_inj in H; unfold two64; auto; lia.
  - apply append_inj_l in H. congruence.
Qed.
