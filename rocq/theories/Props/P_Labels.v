(** C01, C02, C04: the textual keys of the index. *)
From Verif.Model Require Import Base Labels.
From Verif.Proofs Require Import BaseFacts LabelsFacts.

(** C01 in full is false of the code: a '=' in an attribute key makes two different attributes share
    one encoding (here the string attributes  a="b=c"  and  "a=b"="c"  of the same log record). *)
Theorem C01_label_injective_refuted :
  exists l1 l2 : label,
    l1 <> l2 /\ encode l1 = encode l2 /\
    l_resource l1 = RESOURCE_LOGS /\ l_prefix l1 = PREFIX_ATTRIBUTES /\
    l_value l1 <> "" /\ l_value l2 <> "".
Proof.
  exists (Label 3 7 "a" "b=c"), (Label 3 7 "a=b" "c"). repeat split; discriminate.
Qed.
Print Assumptions C01_label_injective_refuted.

(** The exact extent of the failure: two labels collide only if they agree on resource and prefix and
    their "key=value" text agrees. *)
Theorem C01_label_collision_exactly : forall l1 l2 : label,
  encode l1 = encode l2 <->
  l_resource l1 = l_resource l2 /\ l_prefix l1 = l_prefix l2 /\
  append (l_key l1) (if String.eqb (l_value l1) "" then "" else append "=" (l_value l1)) =
  append (l_key l2) (if String.eqb (l_value l2) "" then "" else append "=" (l_value l2)).
Proof.
  intros l1 l2. pose proof (encode_split l1 l2) as H. unfold kv_text, nonempty in H.
  destruct (String.eqb (l_value l1) ""), (String.eqb (l_value l2) ""); exact H.
Qed.
Print Assumptions C01_label_collision_exactly.

(** C01 with the missing hypothesis: keys do not contain '='. *)
Theorem C01_label_injective_partial : forall l1 l2 : label,
  str_mem "=" (l_key l1) = false -> str_mem "=" (l_key l2) = false ->
  encode l1 = encode l2 -> l1 = l2.
Proof. exact encode_inj_noeq. Qed.
Print Assumptions C01_label_injective_partial.
Example C01_nonvacuous :
  str_mem "=" (l_key (Label 1 7 "service.name" "a=b:c")) = false /\
  encode (Label 1 7 "service.name" "a=b:c") = "1:7:service.name=a=b:c".
Proof. split; reflexivity. Qed.

(** Labels without a value (names, ids, schemas, levels) never collide, whatever bytes they hold. *)
Theorem C01_valueless_labels_injective : forall l1 l2 : label,
  l_value l1 = "" -> l_value l2 = "" -> encode l1 = encode l2 -> l1 = l2.
Proof. exact encode_inj_novalue. Qed.
Print Assumptions C01_valueless_labels_injective.

(** C02. *)
Theorem C02_signal_and_prefix_recoverable : forall l1 l2 : label,
  encode l1 = encode l2 -> l_resource l1 = l_resource l2 /\ l_prefix l1 = l_prefix l2.
Proof. intros l1 l2 H. apply encode_split in H. tauto. Qed.
Print Assumptions C02_signal_and_prefix_recoverable.
Example C02_nonvacuous :
  encode (Label 1 1 ":1:a" "") = encode (Label 1 1 ":1:a" "") /\
  encode (Label 1 1 "2" "") <> encode (Label 1 12 "" "") /\
  encode (Label (-1) 1 "2" "") = "-1:1:2".
Proof. repeat split; discriminate. Qed.

(** C04. *)
Theorem C04_sample_keys_unique : forall r1 i1 r2 i2,
  sample_key r1 i1 = sample_key r2 i2 -> r1 = r2 /\ i1 = i2.
Proof. exact sample_key_inj. Qed.
Print Assumptions C04_sample_keys_unique.

Theorem C04_sample_prefix_exact : forall r r' id,
  String.prefix (sample_prefix r) (sample_key r' id) = true <-> r = r'.
Proof. exact sample_prefix_spec. Qed.
Print Assumptions C04_sample_prefix_exact.
Example C04_nonvacuous :
  String.prefix (sample_prefix 1) (sample_key 1 42) = true /\
  String.prefix (sample_prefix 1) (sample_key 12 42) = false.
Proof. split; reflexivity. Qed.
