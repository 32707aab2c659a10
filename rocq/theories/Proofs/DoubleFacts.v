(** float64 of an integer is the nearest double. *)
From Verif.Model Require Import Base SelfTrace SelfMetrics.
From Verif.Spec Require Import Doubles.
Open Scope N_scope.

Lemma decode (neg : bool) E q : 1 <= E -> E < 2046 -> 2 ^ 52 <= q <= 2 ^ 53 ->
  let b := (if neg then 2 ^ 63 else 0) + (E - 1) * 2 ^ 52 + q in
  finite b /\ scaled b = (if neg then - Z.of_N (q * 2 ^ (E - 1)) else Z.of_N (q * 2 ^ (E - 1)))%Z /\ N.even b = N.even q.
Proof.
  intros E1 E2 Q b.
  assert (H : exists E' f, 1 <= E' < 2047 /\ f < 2 ^ 52 /\ b = (if neg then 2 ^ 63 else 0) + E' * 2 ^ 52 + f /\ (2 ^ 52 + f) * 2 ^ (E' - 1) = q * 2 ^ (E - 1)).
  { destruct (N.eq_dec q (2 ^ 53)) as [->|N].
    - exists (E + 1), 0. split; [lia|]. split; [lia|]. split; [unfold b; destruct neg; lia|].
      replace (E + 1 - 1) with (1 + (E - 1)) by lia. rewrite N.pow_add_r. change (2 ^ 1) with 2. generalize (2 ^ (E - 1)). intros p. lia.
    - exists E, (q - 2 ^ 52). split; [lia|]. split; [lia|]. split; [unfold b; destruct neg; lia|]. f_equal. lia. }
  destruct H as (E' & f & HE & Hf & Hb & Hv).
  assert (HX : exponent_field b = E').
  { unfold exponent_field. replace (b / 2 ^ 52) with ((if neg then 2 ^ 11 else 0) + E').
    - destruct neg; [rewrite <- N.add_mod_idemp_l by discriminate|]; change (2 ^ 11 mod 2 ^ 11) with 0; rewrite N.add_0_l; apply N.mod_small; lia.
    - apply (N.div_unique _ _ _ f); [exact Hf|]. rewrite Hb. destruct neg; lia. }
  assert (HF : fraction_field b = f).
  { unfold fraction_field. symmetry. apply (N.mod_unique _ _ ((if neg then 2 ^ 11 else 0) + E')); [exact Hf|]. rewrite Hb. destruct neg; lia. }
  split; [split; [rewrite Hb; destruct neg; lia|rewrite HX; lia]|]. split.
  - unfold scaled, magnitude. rewrite HX, HF. destruct (N.eqb_spec E' 0); [lia|]. rewrite Hv.
    destruct (N.ltb_spec b (2 ^ 63)); destruct neg; try reflexivity; lia.
  - unfold b. rewrite N.even_add, N.even_add, N.even_mul. change (N.even (2 ^ 52)) with true. rewrite orb_true_r. destruct neg; cbn [N.even]; change (N.even (2 ^ 63)) with true; cbn [Bool.eqb]; destruct (N.even q); reflexivity.
Qed.

(** The doubles from 2^t on (scaled) are multiples of 2^(t-52). *)
Lemma doubles_sparse b t : finite b -> 52 <= t -> magnitude b < 2 ^ t \/ (2 ^ (t - 52) | magnitude b).
Proof.
  intros F T. unfold magnitude. assert (Hf : fraction_field b < 2 ^ 52) by (apply N.mod_lt; discriminate).
  destruct (N.eqb_spec (exponent_field b) 0).
  - left. eapply N.lt_le_trans; [exact Hf|]. apply N.pow_le_mono_r; [discriminate|exact T].
  - destruct (N.le_gt_cases (t - 52) (exponent_field b - 1)) as [H|H].
    + right. exists ((2 ^ 52 + fraction_field b) * 2 ^ (exponent_field b - 1 - (t - 52))). rewrite <- N.mul_assoc, <- N.pow_add_r. f_equal. f_equal. lia.
    + left. eapply N.lt_le_trans; [apply N.mul_lt_mono_pos_r; [apply N.neq_0_lt_0, N.pow_nonzero; discriminate|]|]; [instantiate (1 := 2 ^ 53); lia|].
      rewrite <- N.pow_add_r. apply N.pow_le_mono_r; [discriminate|lia].
Qed.

Open Scope Z_scope.
(** Among the multiples of [u] and the numbers below [c]*[u] <= [x], [q]*[u] is nearest to [x]. *)
Lemma nearest_multiple x u c q v k : 0 < u -> c * u <= x -> 2 * Z.abs (q * u - x) <= u -> (v < c * u \/ v = k * u) ->
  Z.abs (q * u - x) <= Z.abs (v - x) /\ (Z.abs (q * u - x) = Z.abs (v - x) -> v = q * u \/ 2 * Z.abs (q * u - x) = u).
Proof.
  intros U C Q H.
  assert (M : forall k, Z.abs (q * u - x) <= Z.abs (k * u - x) /\ (Z.abs (q * u - x) = Z.abs (k * u - x) -> k * u = q * u \/ 2 * Z.abs (q * u - x) = u)).
  { intros j. destruct (Z.eq_dec j q) as [->|N]; [split; [lia|auto]|].
    assert (u <= Z.abs (j * u - q * u)). { rewrite <- Z.mul_sub_distr_r, Z.abs_mul, (Z.abs_eq u) by lia. assert (1 <= Z.abs (j - q)) by lia. clear - H0 U. nia. }
    lia. }
  destruct H as [H| ->]; [|apply M]. destruct (M c) as [A _]. lia.
Qed.

Lemma scaled_abs b : Z.abs (scaled b) = Z.of_N (magnitude b).
Proof. unfold scaled. destruct (b <? 2 ^ 63)%N; lia. Qed.

Lemma sparse_signed b t (s : bool) : finite b -> (52 <= t)%N ->
  let v := if s then - scaled b else scaled b in v < 2 ^ 52 * 2 ^ Z.of_N (t - 52) \/ exists k, v = k * 2 ^ Z.of_N (t - 52).
Proof.
  intros F T v. assert (A : Z.abs v = Z.of_N (magnitude b)) by (unfold v; destruct s; rewrite ?Z.abs_opp; apply scaled_abs).
  assert (P : 2 ^ 52 * 2 ^ Z.of_N (t - 52) = Z.of_N (2 ^ t)).
  { rewrite <- Z.pow_add_r by lia. rewrite N2Z.inj_pow. f_equal. lia. }
  rewrite P. destruct (doubles_sparse b t F T) as [H|(k & H)]; [left; lia|]. right.
  assert (E : Z.of_N (magnitude b) = Z.of_N k * 2 ^ Z.of_N (t - 52)). { rewrite H, N2Z.inj_mul, N2Z.inj_pow. reflexivity. }
  generalize dependent (2 ^ Z.of_N (t - 52)). intros u P E. destruct (Z.abs_spec v) as [[_ E']|[_ E']]; [exists (Z.of_N k)|exists (- Z.of_N k)]; lia.
Qed.

Lemma even_mod2 n : (N.even n = true <-> n mod 2 = 0)%N.
Proof. rewrite N.even_spec. split; [intros (k & ->); rewrite N.mul_comm; apply N.mod_mul; discriminate|intros H; exists (n / 2)%N; rewrite (N.div_mod n 2) at 1 by discriminate; lia]. Qed.

Lemma f64_nearest z : Z.abs z <= 2 ^ 64 -> nearest (f64_of_int z) (z * 2 ^ 1074).
Proof.
  intros B. destruct (Z.eq_dec z 0) as [->|Nz].
  { assert (E : f64_of_int 0 = 0%N) by reflexivity. rewrite E. split; [split; reflexivity|]. intros b' F. assert (S : scaled 0 = 0) by reflexivity. rewrite S. split; [lia|]. intros H. left. lia. }
  set (m := Z.to_N (Z.abs z)). assert (Hm : (0 < m)%N) by lia. set (e := N.log2 m). destruct (N.log2_spec m Hm) as [L1 L2]. fold e in L1, L2.
  assert (He : (e <= 64)%N). { apply (N.pow_le_mono_r_iff 2); [lia|]. eapply N.le_trans; [exact L1|]. unfold m. lia. }
  set (neg := z <? 0).
  (* the significand, and how it approximates m *)
  assert (H : exists q, f64_of_int z = ((if neg then 2 ^ 63 else 0) + (e + 1022) * 2 ^ 52 + q)%N /\ (2 ^ 52 <= q <= 2 ^ 53)%N /\
    ((e <= 52)%N /\ q = (m * 2 ^ (52 - e))%N \/
     (52 < e)%N /\ 2 * Z.abs (Z.of_N q * 2 ^ Z.of_N (e - 52) - Z.of_N m) <= 2 ^ Z.of_N (e - 52) /\ (2 * Z.abs (Z.of_N q * 2 ^ Z.of_N (e - 52) - Z.of_N m) = 2 ^ Z.of_N (e - 52) -> N.even q = true))).
  { unfold f64_of_int. fold m. fold e. fold neg. destruct (N.eqb_spec m 0); [lia|]. destruct (N.leb_spec e 52).
    - exists (m * 2 ^ (52 - e))%N. split; [reflexivity|]. split; [|left; auto].
      assert (X : (2 ^ e * 2 ^ (52 - e) = 2 ^ 52)%N) by (rewrite <- N.pow_add_r; f_equal; lia). rewrite N.pow_succ_r' in L2.
      split; [rewrite <- X; apply N.mul_le_mono_r, L1|]. change (2 ^ 53)%N with (2 * 2 ^ 52)%N. rewrite <- X, N.mul_assoc. apply N.mul_le_mono_r. lia.
    - set (s := (e - 52)%N) in *. set (q := (m / 2 ^ s)%N). set (r := (m mod 2 ^ s)%N).
      assert (S : (2 ^ s = 2 * 2 ^ (s - 1))%N). { rewrite <- N.pow_succ_r'. f_equal. lia. }
      assert (D : (m = 2 ^ s * q + r)%N) by (apply N.div_mod, N.pow_nonzero; discriminate).
      assert (R : (r < 2 ^ s)%N) by (apply N.mod_lt, N.pow_nonzero; discriminate).
      assert (X : (2 ^ 52 * 2 ^ s = 2 ^ e)%N) by (rewrite <- N.pow_add_r; f_equal; lia). rewrite N.pow_succ_r' in L2.
      assert (Q : (2 ^ 52 <= q < 2 ^ 53)%N).
      { split; [apply N.div_le_lower_bound; [apply N.pow_nonzero; discriminate|]; lia|]. apply N.div_lt_upper_bound; [apply N.pow_nonzero; discriminate|]. change (2 ^ 53)%N with (2 * 2 ^ 52)%N. lia. }
      assert (ZS : 2 ^ Z.of_N s = Z.of_N (2 ^ s)) by (rewrite N2Z.inj_pow; reflexivity).
      set (h := (2 ^ (s - 1))%N) in *. exists (if (h <? r)%N || ((r =? h)%N && N.odd q) then q + 1 else q)%N. split; [reflexivity|].
      split; [destruct ((h <? r)%N || ((r =? h)%N && N.odd q)); lia|]. right. split; [assumption|].
      rewrite ZS, S. clearbody q r h. clear - D R S. rewrite S in D, R.
      assert (Y : Z.of_N m = Z.of_N q * Z.of_N (2 * h) + Z.of_N r) by lia.
      destruct (N.ltb_spec h r); cbn [orb].
      + rewrite N2Z.inj_add, Z.mul_add_distr_r, Y. split; [lia|]. intros Q. lia.
      + destruct (N.eqb_spec r h); cbn [andb].
        * rewrite <- N.negb_even. destruct (N.even q) eqn:Ev; cbn [negb].
          -- rewrite Y. split; [lia|]. intros _. exact Ev.
          -- rewrite N2Z.inj_add, Z.mul_add_distr_r, Y. split; [lia|]. intros _. rewrite N.even_add, Ev. reflexivity.
        * rewrite Y. split; [lia|]. intros Q. lia. }
  destruct H as (q & Hq & Hr & HX).
  destruct (decode neg (e + 1023) q ltac:(lia) ltac:(lia) Hr) as (F & Sc & Ev). replace (e + 1023 - 1)%N with (e + 1022)%N in * by lia. rewrite <- Hq in *.
  split; [exact F|]. intros b' F'.
  assert (Zm : z = if neg then - Z.of_N m else Z.of_N m) by (unfold neg; destruct (Z.ltb_spec z 0); lia).
  destruct HX as [[e52 ->]|(e52 & Near & Tie)].
  - assert (X : scaled (f64_of_int z) = z * 2 ^ 1074).
    { rewrite Sc. rewrite N2Z.inj_mul, N2Z.inj_mul, !N2Z.inj_pow. change (Z.of_N 2) with 2. rewrite <- Z.mul_assoc, <- Z.pow_add_r by lia. replace (Z.of_N (52 - e) + Z.of_N (e + 1022)) with 1074 by lia. rewrite Zm. generalize (2 ^ 1074). intros p. destruct neg; lia. }
    rewrite X. split; [lia|]. intros H. left. lia.
  - set (u := 2 ^ Z.of_N (e + 1022)). set (x := Z.of_N m * 2 ^ 1074).
    assert (Up : 0 < u) by (apply Z.pow_pos_nonneg; lia).
    assert (P1074 : 2 ^ Z.of_N (e - 52) * 2 ^ 1074 = u) by (unfold u; rewrite <- Z.pow_add_r by lia; f_equal; lia).
    assert (P : 0 < 2 ^ 1074) by (apply Z.pow_pos_nonneg; lia).
    assert (Sv : scaled (f64_of_int z) = if neg then - (Z.of_N q * u) else Z.of_N q * u).
    { rewrite Sc. rewrite N2Z.inj_mul, N2Z.inj_pow. reflexivity. }
    assert (N1 : 2 * Z.abs (Z.of_N q * u - x) = 2 * Z.abs (Z.of_N q * 2 ^ Z.of_N (e - 52) - Z.of_N m) * 2 ^ 1074).
    { unfold x. rewrite <- P1074, Z.mul_assoc, <- Z.mul_sub_distr_r, Z.abs_mul, (Z.abs_eq (2 ^ 1074)) by lia. apply Z.mul_assoc. }
    assert (N2 : 2 * Z.abs (Z.of_N q * u - x) <= u). { rewrite N1, <- P1074. apply Z.mul_le_mono_nonneg_r; [lia|exact Near]. }
    assert (N3 : 2 * Z.abs (Z.of_N q * u - x) = u -> N.even q = true). { rewrite N1, <- P1074. intros H. apply Tie. apply Z.mul_cancel_r in H; [exact H|lia]. }
    assert (C : 2 ^ 52 * u <= x).
    { unfold x. rewrite <- P1074, Z.mul_assoc. apply Z.mul_le_mono_nonneg_r; [lia|]. rewrite <- Z.pow_add_r by lia. replace (52 + Z.of_N (e - 52)) with (Z.of_N e) by lia. change 2 with (Z.of_N 2). rewrite <- N2Z.inj_pow. apply N2Z.inj_le, L1. }
    assert (Xz : z * 2 ^ 1074 = if neg then - x else x). { unfold x. rewrite Zm. destruct neg; lia. }
    destruct (sparse_signed b' (e + 1074) neg F' ltac:(lia)) as [G|(k & G)]; replace (e + 1074 - 52)%N with (e + 1022)%N in G by lia; fold u in G; rewrite Sv, Xz, Ev.
    + destruct (nearest_multiple x u (2 ^ 52) (Z.of_N q) _ 0 Up C N2 (or_introl G)) as [A T]. clear - A T N3. destruct neg; (split; [lia|]); intros H; (destruct T as [T|T]; [lia|left; lia|right; apply N3, T]).
    + destruct (nearest_multiple x u (2 ^ 52) (Z.of_N q) _ k Up C N2 (or_intror G)) as [A T]. clear - A T N3. destruct neg; (split; [lia|]); intros H; (destruct T as [T|T]; [lia|left; lia|right; apply N3, T]).
Qed.
