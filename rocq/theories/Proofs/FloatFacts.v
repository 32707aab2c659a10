(** Facts on Coq.Floats.SpecFloat with 53 bit mantissas, in whole numbers: a positive double is measured in units of 2^-K. *)
From Coq Require Import Floats.SpecFloat.
From Verif.Model Require Import Base Duration.
Open Scope Z_scope.

Definition K : Z := 4000.
Lemma K_big : 3000 <= K. Proof. unfold K. lia. Qed.
Global Opaque K.

Definition scaled (x : spec_float) : Z := match x with S754_finite s m e => cond_Zopp s (Zpos m * 2 ^ (e + K)) | _ => 0 end.

Lemma pow2_pos n : 0 <= n -> 0 < 2 ^ n. Proof. intros. apply Z.pow_pos_nonneg; lia. Qed.

Lemma iter_pos_nat {A} (f : A -> A) p : forall x, @SpecFloat.iter_pos A f p x = Nat.iter (Pos.to_nat p) f x.
Proof.
  assert (H : forall a b (y : A), Nat.iter (a + b) f y = Nat.iter a f (Nat.iter b f y)).
  { intros a b y. induction a as [|a IHa]; cbn; [reflexivity|]. f_equal. exact IHa. }
  induction p as [p IH|p IH|]; intros x; cbn [SpecFloat.iter_pos].
  - rewrite !IH, Pos2Nat.inj_xI. replace (S (2 * Pos.to_nat p)) with (Pos.to_nat p + (Pos.to_nat p + 1))%nat by lia. rewrite !H. reflexivity.
  - rewrite !IH, Pos2Nat.inj_xO. replace (2 * Pos.to_nat p)%nat with (Pos.to_nat p + Pos.to_nat p)%nat by lia. rewrite !H. reflexivity.
  - reflexivity.
Qed.

Definition shifted (m : Z) (n : nat) : shr_record :=
  match n with
  | O => Build_shr_record m false false
  | S k => Build_shr_record (m / 2 ^ Z.of_nat n) (Z.odd (m / 2 ^ Z.of_nat k)) (negb (m mod 2 ^ Z.of_nat k =? 0))
  end.

Lemma shr_1_step m r s : 0 <= m -> shr_1 (Build_shr_record m r s) = Build_shr_record (m / 2) (Z.odd m) (r || s).
Proof. intros H. rewrite <- Z.div2_div. destruct m as [|[p|p|]|p]; try lia; reflexivity. Qed.

Lemma shifted_step m n : 0 <= m -> shr_1 (shifted m n) = shifted m (S n).
Proof.
  intros H. destruct n as [|n].
  - cbn [shifted]. rewrite shr_1_step by exact H. change (2 ^ Z.of_nat 0) with 1. rewrite Z.div_1_r, Z.mod_1_r. reflexivity.
  - assert (P : 0 < 2 ^ Z.of_nat n) by (apply pow2_pos; lia). assert (P' : 0 < 2 ^ Z.of_nat (S n)) by (apply pow2_pos; lia).
    assert (E : 2 ^ Z.of_nat (S n) = 2 ^ Z.of_nat n * 2) by (rewrite Nat2Z.inj_succ, Z.pow_succ_r by lia; lia).
    unfold shifted at 1. rewrite shr_1_step by (apply Z.div_pos; lia). unfold shifted. f_equal.
    + rewrite Z.div_div by lia. f_equal. rewrite (Nat2Z.inj_succ (S n)), Z.pow_succ_r by lia. lia.
    + rewrite E, (Z.rem_mul_r m (2 ^ Z.of_nat n) 2) by lia.
      assert (B := Z.mod_pos_bound m (2 ^ Z.of_nat n) P). assert (B2 := Z.mod_pos_bound (m / 2 ^ Z.of_nat n) 2 ltac:(lia)).
      rewrite (Zmod_odd (m / 2 ^ Z.of_nat n)) in *. destruct (Z.odd (m / 2 ^ Z.of_nat n)); cbn [orb]; symmetry.
      * apply negb_true_iff, Z.eqb_neq. lia.
      * f_equal. destruct (Z.eqb_spec (m mod 2 ^ Z.of_nat n) 0); [apply Z.eqb_eq|apply Z.eqb_neq]; lia.
Qed.

Lemma shr_iter m n : 0 <= m -> Nat.iter n shr_1 (Build_shr_record m false false) = shifted m n.
Proof. intros H. induction n as [|n IH]; [reflexivity|]. change (Nat.iter (S n) shr_1 (Build_shr_record m false false)) with (shr_1 (Nat.iter n shr_1 (Build_shr_record m false false))). rewrite IH. apply shifted_step, H. Qed.

(** m / 2^n rounded to nearest, ties to even. *)
Definition rne (m : Z) (n : nat) : Z := round_nearest_even (shr_m (shifted m n)) (loc_of_shr_record (shifted m n)).

Lemma rne_near m n : 0 <= m -> Z.abs (2 * (rne m n * 2 ^ Z.of_nat n - m)) <= 2 ^ Z.of_nat n /\ (m mod 2 ^ Z.of_nat n = 0 -> rne m n * 2 ^ Z.of_nat n = m) /\ m / 2 ^ Z.of_nat n <= rne m n <= m / 2 ^ Z.of_nat n + 1.
Proof.
  intros H. destruct n as [|n].
  - unfold rne, shifted, loc_of_shr_record, round_nearest_even, shr_m. change (2 ^ Z.of_nat 0) with 1. rewrite Z.div_1_r. lia.
  - assert (P : 0 < 2 ^ Z.of_nat n) by (apply pow2_pos; lia).
    assert (E : 2 ^ Z.of_nat (S n) = 2 ^ Z.of_nat n * 2) by (rewrite Nat2Z.inj_succ, Z.pow_succ_r by lia; lia).
    unfold rne, shifted, loc_of_shr_record, shr_m. rewrite E.
    assert (R := Z.rem_mul_r m (2 ^ Z.of_nat n) 2 ltac:(lia) ltac:(lia)).
    rewrite Zmod_odd in R.
    assert (D := Z.div_mod m (2 ^ Z.of_nat n * 2) ltac:(lia)).
    assert (B := Z.mod_pos_bound m (2 ^ Z.of_nat n) P).
    set (w := 2 ^ Z.of_nat n) in *. clearbody w.
    set (q := m / (w * 2)) in *. clearbody q. set (r := m mod w) in *. clearbody r.
    destruct (Z.odd (m / w)) eqn:O, (Z.eqb_spec r 0) as [R0|R0]; cbn [negb round_nearest_even]; try (destruct (Z.even q)); repeat split; try nia; intros; nia.
Qed.

Lemma digits2_pos_spec p : 2 ^ (Zpos (digits2_pos p) - 1) <= Zpos p < 2 ^ Zpos (digits2_pos p).
Proof.
  induction p as [p IH|p IH|]; cbn [digits2_pos].
  - assert (X := Pos2Z.inj_xI p). rewrite Pos2Z.inj_succ. replace (Z.succ (Zpos (digits2_pos p)) - 1) with (Z.succ (Zpos (digits2_pos p) - 1)) by lia. rewrite !Z.pow_succ_r by lia. lia.
  - assert (X := Pos2Z.inj_xO p). rewrite Pos2Z.inj_succ. replace (Z.succ (Zpos (digits2_pos p)) - 1) with (Z.succ (Zpos (digits2_pos p) - 1)) by lia. rewrite !Z.pow_succ_r by lia. lia.
  - cbn. lia.
Qed.

Lemma digits_unique p d : 2 ^ (d - 1) <= Zpos p < 2 ^ d -> Zpos (digits2_pos p) = d.
Proof.
  intros [A B]. destruct (digits2_pos_spec p) as [C D].
  assert (0 < d). { destruct (Z.le_gt_cases d 0); [|lia]. destruct (Z.eq_dec d 0) as [->|]; [change (2 ^ 0) with 1 in B; lia|]. rewrite Z.pow_neg_r in B; lia. }
  destruct (Z.lt_trichotomy (Zpos (digits2_pos p)) d) as [L|[L|L]]; [|exact L|].
  - assert (2 ^ Zpos (digits2_pos p) <= 2 ^ (d - 1)) by (apply Z.pow_le_mono_r; lia). lia.
  - assert (2 ^ d <= 2 ^ (Zpos (digits2_pos p) - 1)) by (apply Z.pow_le_mono_r; lia). lia.
Qed.

Lemma shr_fexp_pos m e : 0 < m -> shr_fexp 53 1024 m e loc_Exact =
  (shifted m (Z.to_nat (fexp 53 1024 (Zdigits2 m + e) - e)), e + Z.max 0 (fexp 53 1024 (Zdigits2 m + e) - e)).
Proof.
  intros H. unfold shr_fexp, shr, shr_record_of_loc. destruct (fexp 53 1024 (Zdigits2 m + e) - e) as [|p|p] eqn:E.
  - cbn. f_equal. lia.
  - rewrite iter_pos_nat, shr_iter by lia. f_equal.
  - cbn. f_equal. lia.
Qed.

(** Rounding a positive M * 2^E whose result is a normal number. *)
Lemma round_aux_near s M E d : Zpos (digits2_pos M) = d -> -1021 <= d + E <= 1023 -> -2500 <= E <= 900 ->
  exists m e, binary_round_aux 53 1024 s (Zpos M) E loc_Exact = S754_finite s m e /\ -1074 <= e /\
    let n := Z.max 0 (d - 53) in
    exists q, Zpos m * 2 ^ (e + K) = q * 2 ^ n * 2 ^ (E + K) /\ Z.abs (2 * (q * 2 ^ n - Zpos M)) * 2 ^ 53 <= 2 * Zpos M /\ (Zpos M mod 2 ^ n = 0 -> q * 2 ^ n = Zpos M).
Proof.
  intros HD HE HE2. assert (HK := K_big). destruct (digits2_pos_spec M) as [D1 D2]. rewrite HD in D1, D2.
  unfold binary_round_aux. rewrite shr_fexp_pos by lia. cbn [Zdigits2]. rewrite HD.
  assert (F : fexp 53 1024 (d + E) - E = d - 53) by (unfold fexp, emin; lia). rewrite F. clear F.
  set (n := Z.max 0 (d - 53)). cbv zeta. assert (N : Z.of_nat (Z.to_nat (d - 53)) = n) by lia.
  fold (rne (Zpos M) (Z.to_nat (d - 53))). destruct (rne_near (Zpos M) (Z.to_nat (d - 53)) ltac:(lia)) as (R1 & R2 & R3). rewrite N in R1, R2, R3.
  set (q := rne (Zpos M) (Z.to_nat (d - 53))) in *. clearbody q.
  assert (PN : 0 < 2 ^ n) by (apply pow2_pos; lia).
  assert (Q0 : 0 < q). { enough (1 <= Zpos M / 2 ^ n) by lia. apply Z.div_le_lower_bound; [exact PN|]. rewrite Z.mul_1_r. assert (2 ^ n <= 2 ^ (d - 1)) by (apply Z.pow_le_mono_r; lia). lia. }
  assert (NEAR : Z.abs (2 * (q * 2 ^ n - Zpos M)) * 2 ^ 53 <= 2 * Zpos M).
  { destruct (Z.le_gt_cases d 53) as [L|L].
    - assert (n = 0) by lia. subst n. rewrite H in *. change (2 ^ 0) with 1 in *. rewrite Z.mod_1_r in R2. specialize (R2 eq_refl). replace (q * 1 - Zpos M) with 0 by lia. cbn. lia.
    - assert (EN : n = d - 53) by lia. assert (2 ^ n * 2 ^ 53 = 2 * 2 ^ (d - 1)). { rewrite <- Z.pow_add_r by lia. replace (2 * 2 ^ (d - 1)) with (2 ^ (1 + (d - 1))) by (rewrite Z.pow_add_r by lia; reflexivity). f_equal. lia. }
      assert (Z.abs (2 * (q * 2 ^ n - Zpos M)) * 2 ^ 53 <= 2 ^ n * 2 ^ 53) by (apply Z.mul_le_mono_nonneg_r; [lia|exact R1]). lia. }
  assert (QU : q <= 2 ^ 53).
  { enough (Zpos M / 2 ^ n < 2 ^ 53) by lia. apply Z.div_lt_upper_bound; [exact PN|]. rewrite <- Z.pow_add_r by lia. assert (2 ^ d <= 2 ^ (n + 53)) by (apply Z.pow_le_mono_r; lia). lia. }
  assert (QL : d > 53 -> 2 ^ 52 <= q).
  { intros L. enough (2 ^ 52 <= Zpos M / 2 ^ n) by lia. apply Z.div_le_lower_bound; [exact PN|]. rewrite <- Z.pow_add_r by lia. replace (n + 52) with (d - 1) by lia. exact D1. }
  rewrite shr_fexp_pos by exact Q0. destruct q as [|q|q]; try lia. cbn [Zdigits2]. clear Q0.
  destruct (digits2_pos_spec q) as [C1 C2]. set (dq := Zpos (digits2_pos q)) in *.
  destruct (Z.eq_dec (Zpos q) (2 ^ 53)) as [Q|Q].
  - assert (DQ : dq = 54) by (apply digits_unique; rewrite Q; cbn; lia). rewrite DQ.
    assert (L : d >= 53). { destruct (Z.le_gt_cases 53 d); [lia|]. exfalso. assert (n = 0) by lia. rewrite H0 in *. change (2 ^ 0) with 1 in *. rewrite Z.mod_1_r in R2. specialize (R2 eq_refl). assert (2 ^ d <= 2 ^ 53) by (apply Z.pow_le_mono_r; lia). lia. }
    assert (F : fexp 53 1024 (54 + (E + n)) - (E + n) = 1) by (unfold fexp, emin; lia). rewrite F.
    change (Z.to_nat 1) with 1%nat. change (Z.max 0 1) with 1. cbn [shifted shr_m]. rewrite Q.
    change (2 ^ 53 / 2 ^ Z.of_nat 1) with (Zpos (2 ^ 52)%positive).
    assert (G : (E + n + 1 <=? 1024 - 53) = true) by (apply Z.leb_le; lia). rewrite G.
    exists (2 ^ 52)%positive, (E + n + 1). split; [reflexivity|]. split; [lia|]. exists (Zpos q). rewrite <- Q in *. split; [|split; assumption].
    rewrite Q. replace (2 ^ 53) with (2 ^ 52 * 2) by reflexivity. rewrite Pos2Z.inj_pow.
    replace (E + n + 1 + K) with (1 + n + (E + K)) by lia. rewrite !Z.pow_add_r by lia. change (2 ^ 1) with 2. ring.
  - assert (DQ : dq <= 53). { destruct (Z.le_gt_cases dq 53); [assumption|]. assert (2 ^ 53 <= 2 ^ (dq - 1)) by (apply Z.pow_le_mono_r; lia). lia. }
    assert (F : fexp 53 1024 (dq + (E + n)) - (E + n) <= 0).
    { unfold fexp, emin. destruct (Z.le_gt_cases d 53) as [L|L]; [|lia].
      assert (NZ : n = 0) by lia. clear - NZ DQ HE L R2 D1 D2 C1 C2 HD. rewrite NZ in *. change (2 ^ 0) with 1 in R2. rewrite Z.mod_1_r in R2. specialize (R2 eq_refl).
      assert (Zpos q = Zpos M) by lia. assert (dq = d) by (apply digits_unique; lia). lia. }
    set (k := fexp 53 1024 (dq + (E + n)) - (E + n)) in *. assert (T : Z.to_nat k = 0%nat) by lia. rewrite T. cbn [shifted shr_m].
    replace (Z.max 0 k) with 0 by lia. rewrite Z.add_0_r.
    assert (G : (E + n <=? 1024 - 53) = true) by (apply Z.leb_le; lia). rewrite G.
    exists q, (E + n). split; [reflexivity|].
    split; [|exists (Zpos q); split; [|split; assumption]].
    + destruct (Z.le_gt_cases d 53) as [L|L]; [|lia]. clear - k F HE L HD n DQ C1 C2 D1 D2 R2. unfold fexp, emin in *. subst k. lia.
    + replace (E + n + K) with (n + (E + K)) by lia. rewrite Z.pow_add_r by lia. ring.
Qed.

Lemma pow2_lt_inv a b : 0 <= b -> 2 ^ a < 2 ^ b -> a < b.
Proof. intros H L. destruct (Z.lt_ge_cases a b); [assumption|]. assert (2 ^ b <= 2 ^ a) by (apply Z.pow_le_mono_r; lia). lia. Qed.

Lemma mul_near s1 m1 e1 s2 m2 e2 : -1074 <= e1 -> -1074 <= e2 ->
  let X := Zpos m1 * 2 ^ (e1 + K) in let Y := Zpos m2 * 2 ^ (e2 + K) in
  2 ^ (K - 400) <= X <= 2 ^ (K + 400) -> 2 ^ (K - 400) <= Y <= 2 ^ (K + 400) ->
  exists m e, f64_mul (S754_finite s1 m1 e1) (S754_finite s2 m2 e2) = S754_finite (xorb s1 s2) m e /\ -1074 <= e /\
    Z.abs (Zpos m * 2 ^ (e + K) * 2 ^ K - X * Y) * 2 ^ 53 <= X * Y /\
    (forall V, V < 2 ^ 53 -> X * Y = V * 2 ^ K * 2 ^ K -> Zpos m * 2 ^ (e + K) = V * 2 ^ K).
Proof.
  intros B1 B2 X Y HX HY. assert (HK := K_big). unfold f64_mul, SFmul.
  assert (PK : 0 < 2 ^ K) by (apply pow2_pos; lia).
  assert (XY : X * Y = Zpos (m1 * m2) * 2 ^ (e1 + e2 + 2 * K)).
  { unfold X, Y. replace (e1 + e2 + 2 * K) with (e1 + K + (e2 + K)) by lia. rewrite Pos2Z.inj_mul, (Z.pow_add_r 2 (e1 + K)) by lia. ring. }
  assert (LO : 2 ^ (2 * K - 800) <= X * Y). { replace (2 * K - 800) with (K - 400 + (K - 400)) by lia. rewrite Z.pow_add_r by lia. apply Z.mul_le_mono_nonneg; try lia; apply Z.lt_le_incl, pow2_pos; lia. }
  assert (HI : X * Y <= 2 ^ (2 * K + 800)). { replace (2 * K + 800) with (K + 400 + (K + 400)) by lia. rewrite (Z.pow_add_r 2 (K + 400)) by lia. assert (0 < 2 ^ (K - 400)) by (apply pow2_pos; lia). apply Z.mul_le_mono_nonneg; lia. }
  clearbody X Y. set (P := (m1 * m2)%positive) in *. clearbody P. set (E := e1 + e2) in *. assert (HE : -2148 <= E) by lia. clearbody E.
  destruct (digits2_pos_spec P) as [D1 D2]. set (d := Zpos (digits2_pos P)) in *. assert (D0 : 1 <= d) by lia.
  assert (PE : 0 < 2 ^ (E + 2 * K)) by (apply pow2_pos; lia).
  assert (U : d - 1 + E <= 800).
  { enough (d - 1 + (E + 2 * K) < 2 * K + 801) by lia. apply pow2_lt_inv; [lia|]. rewrite Z.pow_add_r by lia.
    assert (2 ^ (d - 1) * 2 ^ (E + 2 * K) <= X * Y) by (rewrite XY; apply Z.mul_le_mono_nonneg_r; lia).
    assert (2 ^ (2 * K + 800) < 2 ^ (2 * K + 801)) by (apply Z.pow_lt_mono_r; lia). lia. }
  assert (L : -800 < d + E).
  { enough (2 * K - 800 < d + (E + 2 * K)) by lia. apply pow2_lt_inv; [lia|]. rewrite (Z.pow_add_r 2 d) by lia.
    assert (X * Y < 2 ^ d * 2 ^ (E + 2 * K)) by (rewrite XY; apply Z.mul_lt_mono_pos_r; lia). lia. }
  destruct (round_aux_near (xorb s1 s2) P E d eq_refl ltac:(lia) ltac:(lia)) as (m & e & R & Re & q & Z1 & Z2 & Z3). cbv zeta in *.
  exists m, e. split; [exact R|]. split; [exact Re|]. set (n := Z.max 0 (d - 53)) in *.
  assert (EK : 2 ^ (E + 2 * K) = 2 ^ (E + K) * 2 ^ K) by (rewrite <- Z.pow_add_r by lia; f_equal; lia).
  assert (PEK : 0 < 2 ^ (E + K)) by (apply pow2_pos; lia). split.
  - rewrite Z1, XY, EK. replace (q * 2 ^ n * 2 ^ (E + K) * 2 ^ K - Zpos P * (2 ^ (E + K) * 2 ^ K)) with ((q * 2 ^ n - Zpos P) * (2 ^ (E + K) * 2 ^ K)) by ring.
    assert (0 < 2 ^ (E + K) * 2 ^ K) by lia. rewrite Z.abs_mul, (Z.abs_eq (2 ^ (E + K) * 2 ^ K)) by lia.
    rewrite Z.abs_mul in Z2. change (Z.abs 2) with 2 in Z2.
    assert (A : Z.abs (q * 2 ^ n - Zpos P) * 2 ^ 53 <= Zpos P) by lia. apply (Z.mul_le_mono_nonneg_r _ _ (2 ^ (E + K) * 2 ^ K)) in A; lia.
  - intros V HV EV. assert (DV : Zpos P mod 2 ^ n = 0).
    { rewrite XY, EK in EV. assert (EV' : Zpos P * 2 ^ (E + K) = V * 2 ^ K) by (apply (Z.mul_reg_r _ _ (2 ^ K)); lia). clear EV.
      destruct (Z.le_gt_cases 0 E) as [H|H].
      - rewrite Z.pow_add_r in EV' by lia. assert (EV : Zpos P * 2 ^ E = V) by (apply (Z.mul_reg_r _ _ (2 ^ K)); lia).
        assert (0 < 2 ^ E) by (apply pow2_pos; lia). assert (Zpos P * 1 <= Zpos P * 2 ^ E) by (apply Z.mul_le_mono_nonneg_l; lia).
        assert (d - 1 < 53) by (apply pow2_lt_inv; lia). assert (N0 : n = 0) by lia. rewrite N0. apply Z.mod_1_r.
      - replace (2 ^ K) with (2 ^ (- E) * 2 ^ (E + K)) in EV' by (rewrite <- Z.pow_add_r by lia; f_equal; lia).
        assert (EV : Zpos P = V * 2 ^ (- E)) by (apply (Z.mul_reg_r _ _ (2 ^ (E + K))); lia).
        assert (d - 1 < 53 - E). { apply pow2_lt_inv; [lia|]. replace (53 - E) with (53 + - E) by lia. rewrite (Z.pow_add_r 2 53) by lia. assert (0 < 2 ^ (- E)) by (apply pow2_pos; lia). assert (V * 2 ^ (- E) < 2 ^ 53 * 2 ^ (- E)) by (apply Z.mul_lt_mono_pos_r; lia). lia. }
        rewrite EV. replace (- E) with (- E - n + n) by lia. rewrite Z.pow_add_r, Z.mul_assoc by lia. apply Z.mod_mul. apply Z.pow_nonzero; lia. }
    specialize (Z3 DV). apply (Z.mul_reg_r _ _ (2 ^ K)); [lia|]. rewrite Z1, Z3, <- EV, XY, EK. ring.
Qed.

Lemma of_round s p : Zpos p < 2 ^ 500 -> exists m e, binary_round 53 1024 s p 0 = S754_finite s m e /\ -1074 <= e /\
  Z.abs (Zpos m * 2 ^ (e + K) - Zpos p * 2 ^ K) * 2 ^ 53 <= Zpos p * 2 ^ K /\
  (Zpos p < 2 ^ 53 -> Zpos m * 2 ^ (e + K) = Zpos p * 2 ^ K).
Proof.
  intros HP. assert (HK := K_big). destruct (digits2_pos_spec p) as [D1 D2]. set (d := Zpos (digits2_pos p)) in *. assert (D0 : 1 <= d) by lia.
  assert (D3 : d - 1 < 500) by (apply pow2_lt_inv; lia). assert (PK : 0 < 2 ^ K) by (apply pow2_pos; lia).
  unfold binary_round. fold d. rewrite Z.add_0_r.
  assert (F : fexp 53 1024 d = d - 53) by (unfold fexp, emin; lia). rewrite F. clear F. unfold shl_align. rewrite Z.sub_0_r.
  assert (BIG : 53 <= d -> exists m e, binary_round_aux 53 1024 s (Zpos p) 0 loc_Exact = S754_finite s m e /\ -1074 <= e /\
    Z.abs (Zpos m * 2 ^ (e + K) - Zpos p * 2 ^ K) * 2 ^ 53 <= Zpos p * 2 ^ K /\ (Zpos p < 2 ^ 53 -> Zpos m * 2 ^ (e + K) = Zpos p * 2 ^ K)).
  { intros L. destruct (round_aux_near s p 0 d eq_refl ltac:(lia) ltac:(lia)) as (m & e & R & Re & q & Z1 & Z2 & Z3). cbv zeta in *.
    exists m, e. split; [exact R|]. split; [exact Re|]. set (n := Z.max 0 (d - 53)) in *. rewrite Z.add_0_l in Z1. split.
    - rewrite Z1. replace (q * 2 ^ n * 2 ^ K - Zpos p * 2 ^ K) with ((q * 2 ^ n - Zpos p) * 2 ^ K) by ring. rewrite Z.abs_mul, (Z.abs_eq (2 ^ K)) by lia.
      rewrite Z.abs_mul in Z2. change (Z.abs 2) with 2 in Z2. assert (A : Z.abs (q * 2 ^ n - Zpos p) * 2 ^ 53 <= Zpos p) by lia. apply (Z.mul_le_mono_nonneg_r _ _ (2 ^ K)) in A; lia.
    - intros LT. assert (d - 1 < 53) by (apply pow2_lt_inv; lia). assert (N0 : n = 0) by lia. rewrite N0 in *. rewrite Z.mod_1_r in Z3. specialize (Z3 eq_refl). rewrite Z1, <- Z3. change (2 ^ 0) with 1. ring. }
  destruct (d - 53) as [|k|k] eqn:DK; [apply BIG; lia|apply BIG; lia|]. clear BIG.
  assert (SH : Zpos (shift_pos k p) = Zpos p * 2 ^ Zpos k) by (rewrite shift_pos_correct; apply Z.mul_comm).
  set (p' := shift_pos k p) in *.
  assert (D' : Zpos (digits2_pos p') = 53).
  { apply digits_unique. rewrite SH. assert (KD : Zpos k = 53 - d) by lia. rewrite KD. split.
    - replace (53 - 1) with (d - 1 + (53 - d)) by lia. rewrite Z.pow_add_r by lia. apply Z.mul_le_mono_nonneg_r; [apply Z.lt_le_incl, pow2_pos; lia|exact D1].
    - replace 53 with (d + (53 - d)) at 2 by lia. rewrite Z.pow_add_r by lia. apply Z.mul_lt_mono_pos_r; [apply pow2_pos; lia|exact D2]. }
  destruct (round_aux_near s p' (Zneg k) 53 D' ltac:(lia) ltac:(lia)) as (m & e & R & Re & q & Z1 & Z2 & Z3). cbv zeta in *.
  change (Z.max 0 (53 - 53)) with 0 in *. rewrite Z.mod_1_r in Z3. specialize (Z3 eq_refl). rewrite Z3, SH in Z1.
  assert (EX : Zpos m * 2 ^ (e + K) = Zpos p * 2 ^ K). { rewrite Z1. rewrite <- Z.mul_assoc, <- Z.pow_add_r by lia. do 2 f_equal. lia. }
  exists m, e. split; [exact R|]. split; [exact Re|]. rewrite EX. split; [|reflexivity]. rewrite Z.sub_diag. cbn [Z.abs]. lia.
Qed.

Lemma of_Z_pos p : Zpos p < 2 ^ 500 -> exists m e, f64_of_Z (Zpos p) = S754_finite false m e /\ -1074 <= e /\
  Z.abs (Zpos m * 2 ^ (e + K) - Zpos p * 2 ^ K) * 2 ^ 53 <= Zpos p * 2 ^ K /\
  (Zpos p < 2 ^ 53 -> Zpos m * 2 ^ (e + K) = Zpos p * 2 ^ K).
Proof. exact (of_round false p). Qed.
Lemma of_Z_neg p : Zpos p < 2 ^ 500 -> exists m e, f64_of_Z (Zneg p) = S754_finite true m e /\ -1074 <= e /\
  Z.abs (Zpos m * 2 ^ (e + K) - Zpos p * 2 ^ K) * 2 ^ 53 <= Zpos p * 2 ^ K /\
  (Zpos p < 2 ^ 53 -> Zpos m * 2 ^ (e + K) = Zpos p * 2 ^ K).
Proof. exact (of_round true p). Qed.

(** Truncating a positive number. *)
Lemma trunc_signed s m e : -1074 <= e -> f64_trunc (S754_finite s m e) = Some (cond_Zopp s (Zpos m * 2 ^ (e + K) / 2 ^ K)).
Proof.
  intros H. assert (HK := K_big). cbn [f64_trunc]. do 2 f_equal. destruct (Z.leb_spec 0 e) as [L|L].
  - rewrite Z.pow_add_r, Z.mul_assoc, Z.div_mul by (try apply Z.pow_nonzero; lia). reflexivity.
  - replace (2 ^ K) with (2 ^ (- e) * 2 ^ (e + K)) by (rewrite <- Z.pow_add_r by lia; f_equal; lia).
    rewrite Z.div_mul_cancel_r by (apply Z.pow_nonzero; lia). reflexivity.
Qed.
Lemma trunc_scaled m e : -1074 <= e -> f64_trunc (S754_finite false m e) = Some (Zpos m * 2 ^ (e + K) / 2 ^ K).
Proof. exact (trunc_signed false m e). Qed.

(** Rounding what is at most a half gives less than one. *)
Lemma small_trunc s M E : E <= 0 -> Zpos M * 2 <= 2 ^ (- E) -> f64_trunc (binary_round_aux 53 1024 s (Zpos M) E loc_Exact) = Some 0.
Proof.
  intros HE HM. destruct (digits2_pos_spec M) as [D1 D2]. set (d := Zpos (digits2_pos M)) in *. assert (D0 : 1 <= d) by lia.
  assert (DE : d + E <= 0). { enough (d - 1 < - E) by lia. apply pow2_lt_inv; [lia|]. lia. }
  unfold binary_round_aux. rewrite shr_fexp_pos by lia. cbn [Zdigits2]. fold d.
  set (n := fexp 53 1024 (d + E) - E). fold (rne (Zpos M) (Z.to_nat n)).
  destruct (rne_near (Zpos M) (Z.to_nat n) ltac:(lia)) as (_ & R2 & R3).
  assert (NN : Z.of_nat (Z.to_nat n) = Z.max 0 n) by lia. rewrite NN in R2, R3. set (q := rne (Zpos M) (Z.to_nat n)) in *. clearbody q.
  set (w := Z.max 0 n) in *. assert (PW : 0 < 2 ^ w) by (apply pow2_pos; lia).
  assert (Q0 : 0 <= q). { assert (0 <= Zpos M / 2 ^ w) by (apply Z.div_pos; lia). lia. }
  assert (EW : E + w < 0) by (unfold w, n, fexp, emin; lia).
  assert (QB : q < 2 ^ (- (E + w))).
  { destruct (Z.eq_dec w 0) as [W0|W0].
    { rewrite W0 in *. rewrite Z.add_0_r. change (2 ^ 0) with 1 in R2. rewrite Z.mod_1_r in R2. specialize (R2 eq_refl). lia. }
    assert (A : q * 2 ^ w <= Zpos M + 2 ^ w). { assert (B : 2 ^ w * (Zpos M / 2 ^ w) <= Zpos M) by (apply Z.mul_div_le; lia). assert (C : q * 2 ^ w <= (Zpos M / 2 ^ w + 1) * 2 ^ w) by (apply Z.mul_le_mono_nonneg_r; lia). lia. }
    assert (S : 2 ^ (- E) = 2 ^ w * 2 ^ (- (E + w))) by (rewrite <- Z.pow_add_r by lia; f_equal; lia).
    assert (H2 : 2 ^ (- (E + w)) = 2 * 2 ^ (- (E + w) - 1)) by (rewrite <- Z.pow_succ_r by lia; f_equal; lia).
    assert (H3 : 2 <= 2 ^ (- (E + w) - 1)). { change 2 with (2 ^ 1) at 1. apply Z.pow_le_mono_r; [lia|]. unfold w, n, fexp, emin. lia. }
    nia. }
  destruct q as [|q|q]; [|clear Q0|lia].
  { destruct (shr_fexp 53 1024 0 (E + w) loc_Exact) as [r e] eqn:X. assert (Y : shr_m r = 0).
    { unfold shr_fexp, shr in X. destruct (fexp 53 1024 (Zdigits2 0 + (E + w)) - (E + w)) as [|p|p].
      - injection X as <- _. reflexivity.
      - rewrite iter_pos_nat in X. injection X as <- _. unfold shr_record_of_loc. rewrite shr_iter by lia. destruct (Pos.to_nat p); reflexivity.
      - injection X as <- _. reflexivity. }
    rewrite Y. reflexivity. }
  rewrite shr_fexp_pos by lia. cbn [Zdigits2]. set (v := fexp 53 1024 (Zpos (digits2_pos q) + (E + w)) - (E + w)).
  assert (SM : shr_m (shifted (Zpos q) (Z.to_nat v)) = Zpos q / 2 ^ Z.max 0 v).
  { unfold shifted. destruct (Z.to_nat v) as [|j] eqn:J; cbn [shr_m].
    - replace (Z.max 0 v) with 0 by lia. rewrite Z.div_1_r. reflexivity.
    - f_equal. f_equal. lia. }
  rewrite SM. set (z := Z.max 0 v) in *.
  destruct (Zpos q / 2 ^ z) as [|m|m] eqn:QZ; [reflexivity| |].
  2:{ assert (0 <= Zpos q / 2 ^ z) by (apply Z.div_pos; [lia|apply pow2_pos; lia]). lia. }
  assert (ZB : Zpos m * 2 ^ z <= Zpos q) by (rewrite <- QZ, Z.mul_comm; apply Z.mul_div_le, pow2_pos; lia).
  assert (ZE : z < - (E + w)).
  { apply pow2_lt_inv; [lia|]. assert (0 < 2 ^ z) by (apply pow2_pos; lia). nia. }
  assert (G : (E + w + z <=? 1024 - 53) = true) by (apply Z.leb_le; lia). rewrite G. cbn [f64_trunc].
  assert (L : (0 <=? E + w + z) = false) by (apply Z.leb_gt; lia). rewrite L. rewrite Z.div_small; [destruct s; reflexivity|]. split; [lia|].
  replace (2 ^ (- (E + w))) with (2 ^ z * 2 ^ (- (E + w + z))) in QB by (rewrite <- Z.pow_add_r by lia; f_equal; lia).
  assert (PZ : 0 < 2 ^ z) by (apply pow2_pos; lia). nia.
Qed.
