From Verif.Model Require Import Base Otlp SelfTrace SelfMetrics Service.
From Verif.Spec Require Import Groups Collections.
From Verif.Proofs Require Import BaseFacts SelfTraceFacts.
Open Scope N_scope.

Section Facts.
  Variable enc : any_tree -> string.
  Variable enc_point : otlp_point_rest -> string.
  (** The conversion of an expressible metric. *)
  Definition converted (m : sdk_metric) : metric :=
    Metric (sm_name m) (sm_desc m) (sm_unit m) (match data_of enc enc_point (sm_data m) with inl d => Some d | inr _ => None end).
  Lemma temporality_known t : (exists t', temporality_of t = Some t') <-> known_temporality t = true.
  Proof. unfold temporality_of, known_temporality. destruct (N.eqb_spec t 2), (N.eqb_spec t 1); cbn; split; intros H; try reflexivity; try discriminate; eauto; destruct H; discriminate. Qed.
  Lemma data_expressible m : if expressible m then exists d, data_of enc enc_point (sm_data m) = inl d
    else data_of enc enc_point (sm_data m) = inr (me_reason (expected_error m)).
  Proof.
    unfold expressible, data_of, expected_error. cbn [me_reason]. destruct (sm_data m); eauto.
    all: destruct (known_temporality temporality) eqn:K; [apply temporality_known in K; destruct K as (t' & ->); eauto|].
    all: destruct (temporality_of temporality) eqn:E; [|reflexivity]; assert (X : known_temporality temporality = true) by (apply temporality_known; eauto); congruence.
  Qed.
  Lemma metrics_of_spec ms out errs : metrics_of enc enc_point ms out errs =
    (out ++ map converted (filter expressible ms), errs ++ map expected_error (filter (fun m => negb (expressible m)) ms)).
  Proof.
    revert out errs. induction ms as [|m ms IH]; intros out errs; [cbn; rewrite !app_nil_r; reflexivity|]. cbn [metrics_of filter].
    assert (D := data_expressible m). destruct (expressible m) eqn:E; cbn [negb].
    - destruct D as (d & D). rewrite D, IH. cbn [map]. rewrite <- app_assoc. cbn [app]. unfold converted at 2. rewrite D. reflexivity.
    - rewrite D, IH. cbn [map]. rewrite <- app_assoc. reflexivity.
  Qed.
  Definition scope_converted (s : sdk_scope_metrics) : scope_group metric :=
    SGroup (ss_schema (sc_scope_of s)) (Some (Scope (ss_name (sc_scope_of s)) (ss_version (sc_scope_of s)) [] "")) (map converted (filter expressible (sc_metrics s))).
  Lemma scope_metrics_spec l out errs : scope_metrics_of enc enc_point l out errs =
    (out ++ map scope_converted l, errs ++ flat_map (fun s => map expected_error (filter (fun m => negb (expressible m)) (sc_metrics s))) l).
  Proof.
    revert out errs. induction l as [|s l IH]; intros out errs; [cbn; rewrite !app_nil_r; reflexivity|]. cbn [scope_metrics_of map flat_map]. rewrite metrics_of_spec. cbn [app]. rewrite IH, <- !app_assoc. reflexivity.
  Qed.
  (** ---- nothing is lost *)
  Hypothesis enc_inj : forall a b, enc a = enc b -> a = b.
  Hypothesis enc_point_inj : forall a b, enc_point a = enc_point b -> a = b.
  Lemma moment_inj a b : sane_moment a -> sane_moment b -> time_unix_nano a = time_unix_nano b -> a = b.
  Proof.
    assert (Z : forall t, sane_time t -> t <> 0%Z -> u64_of t <> 0).
    { intros t H N E. apply N. apply u64_inj; [exact H|split; vm_compute; congruence|exact E]. }
    unfold sane_moment, time_unix_nano. destruct a as [a|], b as [b|]; intros A B E; try reflexivity; try (exfalso; eapply Z; [apply A|apply A|exact E]); try (exfalso; eapply Z; [apply B|apply B|symmetry; exact E]).
    f_equal. apply u64_inj; tauto.
  Qed.
  Lemma exemplars_inj l m : Forall sane_exemplar l -> Forall sane_exemplar m -> map (exemplar_of enc) l = map (exemplar_of enc) m -> l = m.
  Proof.
    apply map_inj_on. intros [a1 a2 a3 a4 a5] [b1 b2 b3 b4 b5] [A1 A2] [B1 B2] E. unfold exemplar_of in E. cbn [ex_attrs ex_time ex_value ex_span ex_trace] in *.
    assert (E1 := f_equal oxe_attrs E). assert (E2 := f_equal oxe_time E). assert (E3 := f_equal oxe_value E). assert (E4 := f_equal oxe_span E). assert (E5 := f_equal oxe_trace E). cbn in E1, E2, E3, E4, E5.
    apply (key_values_inj enc enc_inj) in E1; [|assumption..]. apply moment_inj in E2; [|assumption..]. congruence.
  Qed.
  Lemma as_float_inj a b : f64_of a = f64_of b -> as_float a = as_float b. Proof. unfold as_float. congruence. Qed.
  Lemma as_float_opt a b : option_map f64_of a = option_map f64_of b -> option_map as_float a = option_map as_float b.
  Proof. destruct a, b; cbn; unfold as_float; congruence. Qed.
  Ltac parts E := let E1 := fresh "T" in let E2 := fresh "At" in let E3 := fresh "R" in
    assert (E1 := f_equal p_time E); assert (E2 := f_equal p_attrs E); assert (E3 := f_equal p_rest E); cbn [p_time p_attrs p_rest] in E1, E2, E3; apply enc_point_inj in E3.
  Lemma number_points_inj l m : Forall (fun p => sane_point (dp_attrs p) (dp_start p) (dp_time p) (dp_exemplars p)) l -> Forall (fun p => sane_point (dp_attrs p) (dp_start p) (dp_time p) (dp_exemplars p)) m ->
    map (number_point enc enc_point) l = map (number_point enc enc_point) m -> l = m.
  Proof.
    apply map_inj_on. intros [a1 a2 a3 a4 a5] [b1 b2 b3 b4 b5] (A1 & A2 & A3 & A4) (B1 & B2 & B3 & B4) E. unfold number_point in E. cbn [dp_attrs dp_start dp_time dp_value dp_exemplars] in *. parts E.
    injection R as R1 R2 R3. apply (key_values_inj enc enc_inj) in At; [|assumption..]. apply moment_inj in T; [|assumption..]. apply moment_inj in R1; [|assumption..]. apply exemplars_inj in R3; [|assumption..]. congruence.
  Qed.
  Lemma summary_points_inj l m : Forall (fun p => sane_point (mp_attrs p) (mp_start p) (mp_time p) []) l -> Forall (fun p => sane_point (mp_attrs p) (mp_start p) (mp_time p) []) m ->
    map (summary_point_of enc enc_point) l = map (summary_point_of enc enc_point) m -> l = m.
  Proof.
    apply map_inj_on. intros [a1 a2 a3 a4 a5 a6] [b1 b2 b3 b4 b5 b6] (A1 & A2 & A3 & A4) (B1 & B2 & B3 & B4) E. unfold summary_point_of in E. cbn [mp_attrs mp_start mp_time mp_count mp_sum mp_quantiles] in *. parts E.
    injection R as R1 R2 R3 R4. apply (key_values_inj enc enc_inj) in At; [|assumption..]. apply moment_inj in T; [|assumption..]. apply moment_inj in R1; [|assumption..]. congruence.
  Qed.
  Lemma temporality_inj a b t : temporality_of a = Some t -> temporality_of b = Some t -> a = b.
  Proof. unfold temporality_of. destruct (N.eqb_spec a 2), (N.eqb_spec a 1), (N.eqb_spec b 2), (N.eqb_spec b 1); intros; congruence. Qed.
  Lemma converted_inj a b : expressible a = true -> expressible b = true -> sane_metric a -> sane_metric b -> converted a = converted b -> kept_metric a = kept_metric b.
  Proof.
    intros Xa Xb Sa Sb E. assert (Da := data_expressible a). assert (Db := data_expressible b). rewrite Xa in Da. rewrite Xb in Db. destruct Da as (da & Da), Db as (db & Db).
    unfold converted in E. rewrite Da, Db in E. assert (E1 := f_equal m_name E). assert (E2 := f_equal m_desc E). assert (E3 := f_equal m_unit E). assert (E4 := f_equal m_data E). cbn [m_name m_desc m_unit m_data] in *. apply some_inj in E4. subst db.
    unfold kept_metric. rewrite E1, E2, E3. f_equal. clear E E1 E2 E3 Xa Xb. unfold sane_metric in *. unfold data_of in Da, Db.
    destruct (sm_data a) as [la|ta ma la|ta la|ta la|la|]; try (destruct (temporality_of ta) as [ta'|] eqn:Ta; [|discriminate]); try discriminate; injection Da as <-;
    destruct (sm_data b) as [lb|tb mb lb|tb lb|tb lb|lb|]; try (destruct (temporality_of tb) as [tb'|] eqn:Tb; [|discriminate]); try discriminate; injection Db.
    - intros Q. apply number_points_inj in Q; [congruence|assumption..].
    - intros Q1 Q2 Q3. subst. apply number_points_inj in Q1; [|assumption..]. assert (ta = tb) by (eapply temporality_inj; eassumption). congruence.
    - intros Q1 Q2. subst. assert (ta = tb) by (eapply temporality_inj; eassumption). subst tb. f_equal. symmetry in Q1. refine (map_factor _ _ _ _ _ _ Sa Sb Q1).
      intros [a1 a2 a3 a4 a5 a6 a7 a8 a9 a10] [b1 b2 b3 b4 b5 b6 b7 b8 b9 b10] (A1 & A2 & A3 & A4) (B1 & B2 & B3 & B4) E. unfold hist_point_of in E. cbn [hp_attrs hp_start hp_time hp_count hp_bounds hp_buckets hp_min hp_max hp_sum hp_exemplars] in *. parts E.
      injection R as R1 R2 R3 R4 R5 R6 R7 R8. apply (key_values_inj enc enc_inj) in At; [|assumption..]. apply moment_inj in T; [|assumption..]. apply moment_inj in R1; [|assumption..]. apply exemplars_inj in R8; [|assumption..].
      apply as_float_inj in R3. apply as_float_opt in R6. apply as_float_opt in R7. congruence.
    - intros Q1 Q2. subst. assert (ta = tb) by (eapply temporality_inj; eassumption). subst tb. f_equal. symmetry in Q1. refine (map_factor _ _ _ _ _ _ Sa Sb Q1).
      intros [a1 a2 a3 a4 a5 a6 a7 a8 a9 a10 a11 a12 a13] [b1 b2 b3 b4 b5 b6 b7 b8 b9 b10 b11 b12 b13] (A1 & A2 & A3 & A4) (B1 & B2 & B3 & B4) E. unfold exp_point_of in E. cbn [ep_attrs ep_start ep_time ep_count ep_min ep_max ep_sum ep_scale ep_zero ep_positive ep_negative ep_threshold ep_exemplars] in *. parts E.
      injection R as R1 R2 R3 R4 R5 R6 R7 R8 R9 R10. apply (key_values_inj enc enc_inj) in At; [|assumption..]. apply moment_inj in T; [|assumption..]. apply moment_inj in R1; [|assumption..]. apply exemplars_inj in R10; [|assumption..].
      apply as_float_inj in R3. apply as_float_opt in R8. apply as_float_opt in R9. congruence.
    - intros Q. apply summary_points_inj in Q; [congruence|assumption..].
  Qed.
End Facts.

(** float64 of an integer is exact below 2^53. *)
Lemma f64_inj a b : (Z.abs a < 2 ^ 53)%Z -> (Z.abs b < 2 ^ 53)%Z -> f64_of_int a = f64_of_int b -> a = b.
Proof.
  assert (S : forall z, (Z.abs z < 2 ^ 53)%Z -> z <> 0%Z -> exists e q, e <= 52 /\ 2 ^ 52 <= q < 2 ^ 53 /\ q = Z.to_N (Z.abs z) * 2 ^ (52 - e) /\
      f64_of_int z = (if (z <? 0)%Z then 2 ^ 63 else 0) + (e + 1022) * 2 ^ 52 + q).
  { intros z B N. set (m := Z.to_N (Z.abs z)). assert (M : 0 < m < 2 ^ 53) by (unfold m; change (2 ^ 53)%Z with 9007199254740992%Z in B; change (2 ^ 53) with 9007199254740992; lia).
    assert (Le : N.log2 m <= 52) by (assert (N.log2 m < 53) by (apply N.log2_lt_pow2; lia); lia). destruct (N.log2_spec m) as [L1 L2]; [lia|].
    exists (N.log2 m), (m * 2 ^ (52 - N.log2 m)). split; [exact Le|]. split; [|split; [reflexivity|]].
    - split.
      + replace (2 ^ 52) with (2 ^ N.log2 m * 2 ^ (52 - N.log2 m)) by (rewrite <- N.pow_add_r; f_equal; lia). apply N.mul_le_mono_r, L1.
      + replace (2 ^ 53) with (2 ^ N.succ (N.log2 m) * 2 ^ (52 - N.log2 m)) by (rewrite <- N.pow_add_r; f_equal; lia). apply N.mul_lt_mono_pos_r; [|exact L2]. apply N.neq_0_lt_0, N.pow_nonzero. discriminate.
    - unfold f64_of_int. fold m. destruct (N.eqb_spec m 0); [lia|]. destruct (N.leb_spec (N.log2 m) 52); [reflexivity|lia]. }
  assert (Z0 : forall z, (Z.abs z < 2 ^ 53)%Z -> f64_of_int z = 0 -> z = 0%Z).
  { intros z B E. destruct (Z.eq_dec z 0) as [|N]; [assumption|]. destruct (S z B N) as (e & q & _ & Q & _ & F). rewrite F in E. destruct (z <? 0)%Z; lia. }
  intros A B E. destruct (Z.eq_dec a 0) as [->|Na]; [symmetry; apply Z0; [exact B|]; rewrite <- E; reflexivity|].
  destruct (Z.eq_dec b 0) as [->|Nb]; [apply Z0; [exact A|]; rewrite E; reflexivity|].
  destruct (S a A Na) as (e1 & q1 & L1 & Q1 & D1 & F1). destruct (S b B Nb) as (e2 & q2 & L2 & Q2 & D2 & F2). rewrite F1, F2 in E. clear S Z0 F1 F2.
  change (2 ^ 52) with 4503599627370496 in *. change (2 ^ 53) with 9007199254740992 in *. change (2 ^ 63) with 9223372036854775808 in E.
  assert (e1 = e2 /\ q1 = q2 /\ (a <? 0)%Z = (b <? 0)%Z) as (-> & -> & Hs) by (destruct (a <? 0)%Z, (b <? 0)%Z; lia).
  assert (P : 2 ^ (52 - e2) <> 0) by (apply N.pow_nonzero; discriminate). rewrite D1 in D2. apply N.mul_cancel_r in D2; [|exact P].
  destruct (Z.ltb_spec a 0), (Z.ltb_spec b 0); try discriminate; lia.
Qed.
