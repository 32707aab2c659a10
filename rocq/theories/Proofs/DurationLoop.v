(** The loop of ParseDuration and the text of Duration.String. *)
From Coq Require Import Floats.SpecFloat.
From Verif.Model Require Import Base Duration.
From Verif.Spec Require Import Durations.
From Verif.Proofs Require Import BaseFacts FloatFacts DurationFacts.
Open Scope N_scope.

Local Infix "^^" := append (right associativity, at level 60).
Notation k_of t := (List.length (read_digits t)).

(** The nanoseconds read for a term. *)
Definition tv (t : term) : N :=
  number (t_whole t) * t_ns t + (if 0 <? number (read_digits t) then fraction_ns (number (read_digits t)) (t_ns t) (scale10 (k_of t)) else 0).

Lemma pow10_pos n : 0 < 10 ^ n. Proof. apply N.neq_0_lt_0, N.pow_nonzero. lia. Qed.

Lemma frac_facts t : term_ok t -> 0 < number (read_digits t) ->
  (100 * Z.abs (Z.of_N (fraction_ns (number (read_digits t)) (t_ns t) (scale10 (k_of t))) * 10 ^ Z.of_nat (k_of t) - Z.of_N (number (read_digits t)) * Z.of_N (t_ns t)) <= 101 * 10 ^ Z.of_nat (k_of t))%Z /\
  fraction_ns (number (read_digits t)) (t_ns t) (scale10 (k_of t)) <= t_ns t /\
  ((10 ^ N.of_nat (k_of t) | t_ns t) -> fraction_ns (number (read_digits t)) (t_ns t) (scale10 (k_of t)) * 10 ^ N.of_nat (k_of t) = number (read_digits t) * t_ns t).
Proof.
  intros (HW & HF & HN & HU) H0. apply (fraction_any _ (t_unit t)); [exact HU|exact H0| |apply number_bound, kept_digits, HF].
  destruct (kept_split _ HF 0 ltac:(lia)) as (_ & _ & B & _). exact B.
Qed.

(** Short fractions are read to the end. *)
Lemma read_short t : term_ok t -> (List.length (frac_digits t) <= 18)%nat -> read_digits t = frac_digits t.
Proof. intros (_ & HF & _) H. apply (kept_short _ HF 0 0); [cbn; lia|exact H]. Qed.

Lemma tv_exact t : term_ok t -> (List.length (frac_digits t) <= 18)%nat -> fits t -> tv t * 10 ^ 18 = exact_term t.
Proof.
  intros OK HK FT. assert (R := read_short t OK HK). unfold tv, exact_term.
  destruct (N.ltb_spec 0 (number (read_digits t))) as [L|L].
  - destruct (frac_facts t OK L) as (_ & _ & X). rewrite R in *. specialize (X FT).
    assert (E : 10 ^ 18 = 10 ^ N.of_nat (List.length (frac_digits t)) * 10 ^ (18 - N.of_nat (List.length (frac_digits t)))) by (rewrite <- N.pow_add_r; f_equal; lia).
    rewrite !N.mul_add_distr_r. f_equal; [lia|]. rewrite E, N.mul_assoc, X. lia.
  - rewrite R in L. replace (number (frac_digits t)) with 0 by lia. lia.
Qed.

Lemma near_core (w n r f m a b c : Z) : (0 < a -> 0 < b -> 0 < c -> 0 <= m < b -> 0 <= n <= 3600000000000 -> 100 * Z.abs (r * a - f * n) <= 101 * a -> (b = 1 \/ 10 ^ 18 <= a) ->
  100 * Z.abs ((w * n + r) * (a * b * c) - (w * (a * b * c) + (f * b + m) * c) * n) <= 102 * (a * b * c))%Z.
Proof.
  intros Ha Hb Hc Hm Hn HR HB. replace ((w * n + r) * (a * b * c) - (w * (a * b * c) + (f * b + m) * c) * n)%Z with (((r * a - f * n) * b - m * n) * c)%Z by ring.
  rewrite Z.abs_mul, (Z.abs_eq c) by lia. set (g := (r * a - f * n)%Z) in *. clearbody g.
  assert (X : (100 * (m * n) <= a * b)%Z).
  { destruct HB as [->|HB]; [replace m with 0%Z by lia; lia|]. assert (m * n <= b * 3600000000000)%Z by (apply Z.mul_le_mono_nonneg; lia).
    assert (10 ^ 18 * b <= a * b)%Z by (apply Z.mul_le_mono_nonneg_r; lia). change (10 ^ 18)%Z with 1000000000000000000%Z in *. lia. }
  assert (M0 : (0 <= m * n)%Z) by (apply Z.mul_nonneg_nonneg; lia).
  assert (G : (100 * Z.abs (g * b) <= 101 * (a * b))%Z) by (rewrite Z.abs_mul, (Z.abs_eq b) by lia; replace (100 * (Z.abs g * b))%Z with (100 * Z.abs g * b)%Z by ring; replace (101 * (a * b))%Z with (101 * a * b)%Z by ring; apply Z.mul_le_mono_nonneg_r; lia).
  assert (T : (100 * Z.abs (g * b - m * n) <= 102 * (a * b))%Z) by lia.
  replace (102 * (a * b * c))%Z with (102 * (a * b) * c)%Z by ring. rewrite Z.mul_assoc. apply Z.mul_le_mono_nonneg_r; lia.
Qed.

(** In units of 10^-D nanoseconds. *)
Lemma tv_near D t : term_ok t -> (List.length (frac_digits t) <= D)%nat -> (100 * Z.abs (Z.of_N (tv t) * 10 ^ Z.of_nat D - Z.of_N (scaled_term D t)) <= 102 * 10 ^ Z.of_nat D)%Z.
Proof.
  intros OK HK. assert (HF := proj1 (proj2 OK)). assert (UB := unit_ns_bound _ _ (proj2 (proj2 (proj2 OK)))).
  destruct (kept_split _ HF 0 ltac:(lia)) as (q & EQ & B & CUT). fold (read_digits t) in EQ, B, CUT. fold (number (read_digits t)) in B, CUT.
  assert (FA := frac_facts t OK). assert (DQ : Forall (fun d => d < 10) (read_digits t) /\ Forall (fun d => d < 10) q) by (apply Forall_app; rewrite <- EQ; exact HF).
  assert (NF : number (frac_digits t) = number (read_digits t) * 10 ^ N.of_nat (List.length q) + number q) by (rewrite EQ; unfold number at 1; rewrite fold_left_app; apply number_from).
  assert (LF : List.length (frac_digits t) = (k_of t + List.length q)%nat) by (rewrite EQ at 1; apply app_length).
  assert (BQ := number_bound q (proj2 DQ)). assert (BR := number_bound _ (proj1 DQ)).
  unfold tv, scaled_term. set (f := number (read_digits t)) in *. set (k := k_of t) in *. set (j := List.length q) in *. set (m := number q) in *.
  set (n := t_ns t) in *. set (r := fraction_ns f n (scale10 k)) in *. rewrite NF, LF. rewrite LF in HK. set (w := number (t_whole t)).
  assert (CUT' : j = 0%nat \/ (922337203685477580 <= f /\ (18 <= k)%nat)).
  { destruct CUT as [->|C]; [left; reflexivity|right; split; [exact C|]]. destruct (Nat.le_gt_cases 18 k); [assumption|exfalso].
    assert (10 ^ N.of_nat k <= 10 ^ 17) by (apply N.pow_le_mono_r; lia). change (10 ^ 17) with 100000000000000000 in *. lia. }
  clearbody f k j m n r w. clear EQ NF LF DQ CUT HF OK q t.
  set (s := (D - k - j)%nat). assert (ED : D = (k + j + s)%nat) by lia. replace (N.of_nat D - N.of_nat (k + j)) with (N.of_nat s) by lia. clearbody s. subst D.
  set (r' := if 0 <? f then r else 0).
  assert (RN : (100 * Z.abs (Z.of_N r' * 10 ^ Z.of_nat k - Z.of_N f * Z.of_N n) <= 101 * 10 ^ Z.of_nat k)%Z).
  { unfold r'. destruct (N.ltb_spec 0 f) as [L|L]; [apply (FA L)|]. replace f with 0 by lia. change (Z.of_N 0) with 0%Z. rewrite !Z.mul_0_l. cbn [Z.sub Z.abs Z.add Z.opp]. assert (0 < 10 ^ Z.of_nat k)%Z by (apply Z.pow_pos_nonneg; lia). lia. }
  clearbody r'. clear FA r. assert (P := fun x => Z.pow_pos_nonneg 10 (Z.of_nat x) ltac:(lia) ltac:(lia)).
  assert (NP : forall x, Z.of_N (10 ^ N.of_nat x) = (10 ^ Z.of_nat x)%Z) by (intros x; rewrite N2Z.inj_pow, nat_N_Z; reflexivity).
  assert (C := near_core (Z.of_N w) (Z.of_N n) (Z.of_N r') (Z.of_N f) (Z.of_N m) _ _ _ (P k) (P j) (P s) ltac:(split; [lia|rewrite <- NP; lia]) ltac:(lia) RN).
  assert (E3 : (10 ^ Z.of_nat (k + j + s) = 10 ^ Z.of_nat k * 10 ^ Z.of_nat j * 10 ^ Z.of_nat s)%Z) by (rewrite !Nat2Z.inj_add, !Z.pow_add_r by lia; reflexivity).
  assert (X : Z.of_N ((w * 10 ^ N.of_nat (k + j + s) + (f * 10 ^ N.of_nat j + m) * 10 ^ N.of_nat s) * n) = ((Z.of_N w * 10 ^ Z.of_nat (k + j + s) + (Z.of_N f * 10 ^ Z.of_nat j + Z.of_N m) * 10 ^ Z.of_nat s) * Z.of_N n)%Z).
  { rewrite N2Z.inj_mul, N2Z.inj_add, !N2Z.inj_mul, N2Z.inj_add, !N2Z.inj_mul, !NP. reflexivity. }
  rewrite X, N2Z.inj_add, N2Z.inj_mul, E3. apply C.
  destruct CUT' as [->|[_ K18]]; [left; reflexivity|right; apply Z.pow_le_mono_r; lia].
Qed.

Lemma add_term_value d t : term_ok t -> d <= 2 ^ 63 -> (tv t <> 2 ^ 63 \/ d + tv t < 2 ^ 64) ->
  add_term d (number (t_whole t)) (number (read_digits t)) (t_ns t) (scale10 (k_of t)) = if 2 ^ 63 <? d + tv t then None else Some (d + tv t).
Proof.
  intros OK HD HT. assert (HU := proj2 (proj2 (proj2 OK))). assert (UP := unit_ns_pos _ _ HU). assert (UB := unit_ns_bound _ _ HU).
  assert (FB := fun L => proj1 (proj2 (frac_facts t OK L))). unfold add_term, tv in *.
  set (v := number (t_whole t)) in *. set (f := number (read_digits t)) in *. set (n := t_ns t) in *. set (r := fraction_ns f n (scale10 (k_of t))) in *. clearbody r v f n.
  destruct (N.ltb_spec (2 ^ 63 / n) v) as [L|L].
  - assert (G : 2 ^ 63 < v * n). { assert (2 ^ 63 < n * (2 ^ 63 / n + 1)) by (rewrite N.add_1_r; apply N.mul_succ_div_gt; lia). assert (n * (2 ^ 63 / n + 1) <= n * v) by (apply N.mul_le_mono_l; lia). lia. }
    assert (X : (2 ^ 63 <? d + (v * n + (if 0 <? f then r else 0))) = true) by (apply N.ltb_lt; lia). rewrite X. reflexivity.
  - assert (G : v * n <= 2 ^ 63). { assert (n * (2 ^ 63 / n) <= 2 ^ 63) by (apply N.mul_div_le; lia). assert (n * v <= n * (2 ^ 63 / n)) by (apply N.mul_le_mono_l; lia). lia. }
    set (g := v * n) in *. clearbody g. change (2 ^ 64) with 18446744073709551616 in *. change (2 ^ 63) with 9223372036854775808 in *.
    destruct (N.ltb_spec 0 f) as [F|F]; cbv zeta; cbn [andb].
    + specialize (FB F). rewrite (N.mod_small (g + r)) by lia. destruct (N.ltb_spec 9223372036854775808 (g + r)) as [B|B].
      * assert (X : (9223372036854775808 <? d + (g + r)) = true) by (apply N.ltb_lt; lia). rewrite X. reflexivity.
      * rewrite N.mod_small by lia. reflexivity.
    + rewrite !N.add_0_r in *. rewrite N.mod_small by lia. reflexivity.
Qed.

Lemma terms_stop l : Forall term_ok l -> unit_stop (terms_text l).
Proof.
  destruct l as [|t l]; intros H; [exact Logic.I|]. inversion H as [|? ? (HW & HF & HN & HU) ?]; subst. cbn [terms_text fold_right]. unfold term_text, frac_digits in *. rewrite !str_app_assoc.
  destruct (t_whole t) as [|d w].
  - destruct (t_frac t) as [f|]; [reflexivity|]. destruct HN; contradiction.
  - rewrite decimal_cons. inversion HW; subst. destruct (digit_char_ok d ltac:(assumption)) as (A & _). cbn [append unit_stop]. rewrite A. apply orb_true_r.
Qed.

Lemma term_text_len t : term_ok t -> (1 <= String.length (term_text t))%nat.
Proof.
  intros (HW & HF & HN & HU). unfold term_text. rewrite !str_len_app, decimal_len. destruct (take_unit_app _ _ "" HU Logic.I) as (_ & _ & c & u & E & _). rewrite E. cbn. lia.
Qed.

Definition sum_tv (l : list term) : N := fold_right (fun t n => tv t + n) 0 l.

Lemma parse_loop_value l : Forall term_ok l -> Forall (fun t => tv t <> 2 ^ 63) l -> forall fuel d, d <= 2 ^ 63 ->
  (String.length (terms_text l) <= fuel)%nat -> parse_loop fuel d (terms_text l) = if 2 ^ 63 <? d + sum_tv l then None else Some (d + sum_tv l).
Proof.
  induction l as [|t l IH]; intros HO HT fuel d HD HL.
  - cbn [terms_text fold_right sum_tv]. rewrite N.add_0_r. assert (X : (2 ^ 63 <? d) = false) by (apply N.ltb_ge; lia). rewrite X. destruct fuel; reflexivity.
  - inversion HO as [|? ? O1 O2]; subst. inversion HT as [|? ? T1 T2]; subst.
    change (terms_text (t :: l)) with (term_text t ^^ terms_text l) in *. rewrite str_len_app in HL. assert (P := term_text_len t O1).
    destruct fuel as [|fuel]; [lia|].
    assert (NE : exists c s, term_text t ^^ terms_text l = String c s). { destruct (term_text t) as [|c s]; [cbn in P; lia|]. eexists. eexists. reflexivity. }
    cbn [parse_loop]. destruct NE as (c & s & NE). rewrite NE. rewrite <- NE. clear NE.
    rewrite parse_term_read by (try assumption; apply terms_stop; assumption). rewrite add_term_value by (try assumption; left; assumption).
    cbn [sum_tv fold_right]. fold (sum_tv l). rewrite N.add_assoc.
    destruct (N.ltb_spec (2 ^ 63) (d + tv t)) as [B|B].
    + assert (X : (2 ^ 63 <? d + tv t + sum_tv l) = true) by (apply N.ltb_lt; lia). rewrite X. reflexivity.
    + apply IH; try assumption. lia.
Qed.

(** Reading a sign and terms. *)
Definition in_int64 (s : sign) (T : N) : bool := match s with Minus => T <=? 2 ^ 63 | _ => T <? 2 ^ 63 end.

Lemma parse_value s l : l <> [] -> Forall term_ok l -> Forall (fun t => tv t <> 2 ^ 63) l ->
  parse_duration (sign_text s ^^ terms_text l) = if in_int64 s (sum_tv l) then Some (signed s (sum_tv l)) else None.
Proof.
  intros HN HO HT. assert (ST := terms_stop l HO). assert (V := parse_loop_value l HO HT (String.length (terms_text l)) 0 ltac:(lia) (le_n _)). rewrite N.add_0_l in V.
  assert (HEAD : exists c t, terms_text l = String c t /\ Ascii.eqb c "-" = false /\ Ascii.eqb c "+" = false /\ String.eqb (String c t) "0" = false).
  { destruct l as [|t l]; [contradiction|]. inversion HO as [|? ? O1 O2]; subst. change (terms_text (t :: l)) with (term_text t ^^ terms_text l) in *.
    destruct (take_unit_app _ _ "" (proj2 (proj2 (proj2 O1))) Logic.I) as (_ & _ & c0 & u & E & NU).
    assert (LN : (2 <= String.length (term_text t))%nat).
    { destruct O1 as (HW & HF & HNE & HU). unfold term_text, frac_digits in *. rewrite !str_len_app, decimal_len, E. cbn [String.length]. destruct (t_whole t) as [|d w]; [|cbn; lia]. destruct (t_frac t) as [f|]; [cbn; lia|]. destruct HNE; contradiction. }
    destruct (term_text t ^^ terms_text l) as [|c r] eqn:ET; [apply (f_equal String.length) in ET; rewrite str_len_app in ET; cbn in ET; lia|].
    exists c, r. split; [reflexivity|]. cbn [unit_stop] in ST.
    assert (NS : forall x, (Ascii.eqb x "." || is_digit x) = false -> Ascii.eqb c x = false).
    { intros x Hx. apply Ascii.eqb_neq. intros ->. congruence. }
    split; [apply NS; reflexivity|]. split; [apply NS; reflexivity|]. apply String.eqb_neq. intros X. rewrite X in ET. apply (f_equal String.length) in ET. rewrite str_len_app in ET. cbn in ET. lia. }
  destruct HEAD as (c & t & E & N1 & N2 & N0). rewrite E in *. unfold parse_duration.
  assert (FIN : forall neg : bool, (if String.eqb (String c t) "0" then Some 0%Z else if String.eqb (String c t) "" then None else
     match parse_loop (String.length (String c t)) 0 (String c t) with None => None | Some d => if neg then Some (- Z.of_N d)%Z else if 2 ^ 63 - 1 <? d then None else Some (Z.of_N d) end) =
     if (if neg then sum_tv l <=? 2 ^ 63 else sum_tv l <? 2 ^ 63) then Some (if neg then (- Z.of_N (sum_tv l))%Z else Z.of_N (sum_tv l)) else None).
  { intros neg. rewrite N0, V. change (String.eqb (String c t) "") with false. cbv iota. generalize (sum_tv l). intros T. change (2 ^ 63) with 9223372036854775808. change (9223372036854775808 - 1) with 9223372036854775807.
    destruct neg, (N.ltb_spec 9223372036854775808 T), (N.leb_spec T 9223372036854775808), (N.ltb_spec T 9223372036854775808), (N.ltb_spec 9223372036854775807 T); try lia; reflexivity. }
  destruct s; cbn [sign_text append in_int64 signed].
  - change (Ascii.eqb "+" "-") with false. change (Ascii.eqb "+" "+") with true. cbv iota. exact (FIN false).
  - change (Ascii.eqb "-" "-") with true. cbv iota. exact (FIN true).
  - rewrite N1, N2. exact (FIN false).
Qed.

(** ---- Everything read is a duration. *)
Lemma leading_int_split s : forall x v r, leading_int x s = Some (v, r) -> exists l, Forall (fun d => d < 10) l /\ s = decimal l ^^ r.
Proof.
  induction s as [|c s IH]; intros x v r H; cbn [leading_int] in H.
  - injection H as <- <-. exists []. split; [constructor|reflexivity].
  - destruct (is_digit c) eqn:D; [|injection H as <- <-; exists []; split; [constructor|reflexivity]].
    destruct (2 ^ 63 / 10 <? x); [discriminate|]. cbv zeta in H. destruct (2 ^ 63 <? x * 10 + digit_val c); [discriminate|].
    destruct (IH _ _ _ H) as (l & F & E). destruct (is_digit_char c D) as [C L]. exists (digit_val c :: l). split; [constructor; assumption|].
    rewrite decimal_cons, <- C, E. reflexivity.
Qed.
Lemma leading_fraction_split s : forall x sc o v sc' r, leading_fraction x sc o s = (v, sc', r) -> exists l, Forall (fun d => d < 10) l /\ s = decimal l ^^ r.
Proof.
  induction s as [|c s IH]; intros x sc o v sc' r H; cbn [leading_fraction] in H.
  - injection H as <- <- <-. exists []. split; [constructor|reflexivity].
  - destruct (is_digit c) eqn:D; [|injection H as <- <- <-; exists []; split; [constructor|reflexivity]].
    assert (X : exists x1 sc1 o1, leading_fraction x1 sc1 o1 s = (v, sc', r)).
    { destruct o; [eexists _, _, _; exact H|]. destruct ((2 ^ 63 - 1) / 10 <? x); [eexists _, _, _; exact H|]. cbv zeta in H. destruct (2 ^ 63 <? x * 10 + digit_val c); eexists _, _, _; exact H. }
    destruct X as (x1 & sc1 & o1 & X). destruct (IH _ _ _ _ _ _ X) as (l & F & E). destruct (is_digit_char c D) as [C L]. exists (digit_val c :: l). split; [constructor; assumption|].
    rewrite decimal_cons, <- C, E. reflexivity.
Qed.
Lemma take_unit_split s : forall u r, take_unit s = (u, r) -> s = u ^^ r.
Proof.
  induction s as [|c s IH]; intros u r H; cbn [take_unit] in H; [injection H as <- <-; reflexivity|].
  destruct (Ascii.eqb c "." || is_digit c); [injection H as <- <-; reflexivity|]. destruct (take_unit s) as [u' r'] eqn:E. injection H as <- <-. cbn [append]. f_equal. apply IH. reflexivity.
Qed.
Lemma lookup_unit_ns u n : lookup_unit u = Some n -> unit_ns u n.
Proof.
  unfold lookup_unit, unit_map. cbn [aget]. intros H.
  repeat match type of H with (if String.eqb ?a ?b then _ else _) = _ => let E := fresh in destruct (String.eqb_spec a b) as [E|E]; [rewrite E in *; injection H as <-; constructor|] end. discriminate.
Qed.

Lemma parse_term_split d s d' r : parse_term d s = Some (d', r) -> d' <= 2 ^ 63 /\ exists t, term_ok t /\ s = term_text t ^^ r.
Proof.
  unfold parse_term. destruct s as [|c s]; [discriminate|]. destruct (Ascii.eqb c "." || is_digit c) eqn:HC; [|discriminate].
  destruct (leading_int 0 (String c s)) as [[v s1]|] eqn:LI; [|discriminate]. destruct (leading_int_split _ _ _ _ LI) as (w & FW & EW). clear LI.
  set (pre := negb (String.length (String c s) =? String.length s1)%nat).
  assert (PRE : pre = true -> w <> []). { unfold pre. rewrite EW. intros H ->. cbn in H. rewrite Nat.eqb_refl in H. discriminate. }
  set (x := match s1 with String "." t => let '(f, scale, r) := leading_fraction 0 (f64_of_Z 1) false t in (f, scale, r, negb (String.length t =? String.length r)%nat) | _ => (0, f64_of_Z 1, s1, false) end).
  assert (FR : exists f scale s2 post fo, x = (f, scale, s2, post) /\ s1 = (match fo with Some l => "." ^^ decimal l | None => "" end) ^^ s2 /\ Forall (fun d => d < 10) (match fo with Some l => l | None => [] end) /\ (post = true -> match fo with Some l => l | None => [] end <> [])).
  { assert (DOT : (exists t, s1 = String "." t) \/ x = (0, f64_of_Z 1, s1, false)).
    { unfold x. destruct s1 as [|c1 t1]; [right; reflexivity|]. destruct c1 as [b0 b1 b2 b3 b4 b5 b6 b7]. destruct b0, b1, b2, b3, b4, b5, b6, b7; try (right; reflexivity). left. exists t1. reflexivity. }
    destruct DOT as [[t ->]|E].
    - unfold x. destruct (leading_fraction 0 (f64_of_Z 1) false t) as [[f scale] s2] eqn:LF. destruct (leading_fraction_split _ _ _ _ _ _ _ LF) as (l & FL & EL).
      exists f, scale, s2, (negb (String.length t =? String.length s2)%nat), (Some l). split; [reflexivity|]. split; [rewrite EL; reflexivity|]. split; [exact FL|]. intros H ->. rewrite EL in H. cbn in H. rewrite Nat.eqb_refl in H. discriminate.
    - exists 0, (f64_of_Z 1), s1, false, None. split; [exact E|]. split; [reflexivity|]. split; [constructor|discriminate]. }
  destruct FR as (f & scale & s2 & post & fo & -> & ES & FF & HP). destruct (negb pre && negb post) eqn:PP; [discriminate|].
  destruct (take_unit s2) as [u s3] eqn:TU. apply take_unit_split in TU. destruct u as [|cu u]; [discriminate|].
  destruct (lookup_unit (String cu u)) as [n|] eqn:LU; [|discriminate]. apply lookup_unit_ns in LU.
  destruct (2 ^ 63 / n <? v); [discriminate|]. cbv zeta.
  destruct ((0 <? f) && (2 ^ 63 <? (if 0 <? f then (v * n + fraction_ns f n scale) mod 2 ^ 64 else v * n))); [discriminate|].
  match goal with |- (if ?b <? ?a then _ else _) = _ -> _ => destruct (N.ltb_spec b a) as [B|B]; [discriminate|] end.
  intros H. apply some_inj in H. apply pair_inj in H. destruct H as [<- <-]. split; [exact B|].
  exists (Term w fo (String cu u) n). split.
  - split; [exact FW|]. split; [exact FF|]. split; [|exact LU]. unfold frac_digits. cbn [t_whole t_frac]. destruct pre; [left; apply PRE; reflexivity|]. destruct post; [right; apply HP; reflexivity|discriminate].
  - unfold term_text. cbn [t_whole t_frac t_unit]. rewrite !str_app_assoc, <- TU, <- ES. exact EW.
Qed.

Lemma parse_loop_split fuel : forall d s d', d <= 2 ^ 63 -> parse_loop fuel d s = Some d' -> d' <= 2 ^ 63 /\ exists l, Forall term_ok l /\ s = terms_text l.
Proof.
  induction fuel as [|fuel IH]; intros d s d' HD H; cbn [parse_loop] in H.
  - destruct s; [|discriminate]. injection H as <-. split; [exact HD|]. exists []. split; [constructor|reflexivity].
  - destruct s as [|c s]; [injection H as <-; split; [exact HD|]; exists []; split; [constructor|reflexivity]|].
    destruct (parse_term d (String c s)) as [[d1 r]|] eqn:PT; [|discriminate]. destruct (parse_term_split _ _ _ _ PT) as (B & t & OK & E).
    destruct (IH _ _ _ B H) as (B' & l & F & E'). split; [exact B'|]. exists (t :: l). split; [constructor; assumption|]. rewrite E, E'. reflexivity.
Qed.

(** ---- Duration.String. *)
Lemma number_snoc l d : number (l ++ [d]) = 10 * number l + d. Proof. unfold number. rewrite fold_left_app. reflexivity. Qed.

Lemma fmt_digits_text n : forall v tail, v < 10 ^ N.of_nat n -> exists l, Forall (fun d => d < 10) l /\ number l = v /\ (v <> 0 -> l <> []) /\ fmt_digits n v tail = decimal l ^^ tail.
Proof.
  assert (DS : forall l d r, decimal (l ++ [d]) ^^ r = decimal l ^^ String (ascii_of_N (48 + d)) r).
  { intros l d r. induction l as [|a l IH]; [reflexivity|]. cbn [List.app]. rewrite !decimal_cons. cbn [append]. rewrite IH. reflexivity. }
  induction n as [|n IH]; intros v tail H.
  - exists []. cbn in H. split; [constructor|]. split; [cbn; lia|]. split; [lia|reflexivity].
  - cbn [fmt_digits]. destruct (N.eqb_spec v 0) as [->|NZ].
    + exists []. split; [constructor|]. split; [reflexivity|]. split; [contradiction|reflexivity].
    + rewrite Nat2N.inj_succ, N.pow_succ_r' in H. destruct (IH (v / 10) (String (digit_char (v mod 10)) tail)) as (l & F & E & _ & T); [apply N.div_lt_upper_bound; lia|].
      exists (l ++ [v mod 10]). split; [apply Forall_app; split; [exact F|constructor; [apply N.mod_lt; lia|constructor]]|].
      split; [rewrite number_snoc, E; symmetry; apply N.div_mod; lia|]. split; [intros _; destruct l; discriminate|]. rewrite T. symmetry. apply DS.
Qed.

Lemma fmt_int_text v tail : v < 2 ^ 64 -> exists l, Forall (fun d => d < 10) l /\ number l = v /\ l <> [] /\ fmt_int v tail = decimal l ^^ tail.
Proof.
  intros H. unfold fmt_int. destruct (N.eqb_spec v 0) as [->|NZ].
  - exists [0]. split; [constructor; [lia|constructor]|]. split; [reflexivity|]. split; [discriminate|reflexivity].
  - destruct (fmt_digits_text 20 v tail) as (l & F & E & L & T); [apply N.lt_le_trans with (2 ^ 64); [exact H|vm_compute; discriminate]|].
    exists l. split; [exact F|]. split; [exact E|]. split; [apply L, NZ|exact T].
Qed.

Lemma fmt_frac_printing prec : forall v tail, exists l, Forall (fun d => d < 10) l /\ List.length l = prec /\ number l = v mod 10 ^ N.of_nat prec /\
  fmt_frac_loop prec true v tail = (true, v / 10 ^ N.of_nat prec, decimal l ^^ tail).
Proof.
  assert (DS : forall l d r, decimal (l ++ [d]) ^^ r = decimal l ^^ String (ascii_of_N (48 + d)) r).
  { intros l d r. induction l as [|a l IH]; [reflexivity|]. cbn [List.app]. rewrite !decimal_cons. cbn [append]. rewrite IH. reflexivity. }
  induction prec as [|n IH]; intros v tail.
  - exists []. split; [constructor|]. split; [reflexivity|]. split; [rewrite N.mod_1_r; reflexivity|]. cbn [fmt_frac_loop]. rewrite N.div_1_r. reflexivity.
  - cbn [fmt_frac_loop orb]. destruct (IH (v / 10) (String (digit_char (v mod 10)) tail)) as (l & F & L & E & T). exists (l ++ [v mod 10]).
    assert (P := pow10_pos (N.of_nat n)).
    split; [apply Forall_app; split; [exact F|constructor; [apply N.mod_lt; lia|constructor]]|]. split; [rewrite app_length, L; cbn; lia|].
    rewrite Nat2N.inj_succ, N.pow_succ_r'. split; [rewrite number_snoc, E, N.mod_mul_r by lia; lia|]. rewrite T, DS, N.div_div by lia. reflexivity.
Qed.

Lemma fmt_frac_loop_text prec : forall v tail,
  (v mod 10 ^ N.of_nat prec = 0 /\ fmt_frac_loop prec false v tail = (false, v / 10 ^ N.of_nat prec, tail)) \/
  (exists l, Forall (fun d => d < 10) l /\ (List.length l <= prec)%nat /\ l <> [] /\ number l * 10 ^ (N.of_nat prec - N.of_nat (List.length l)) = v mod 10 ^ N.of_nat prec /\
    fmt_frac_loop prec false v tail = (true, v / 10 ^ N.of_nat prec, decimal l ^^ tail)).
Proof.
  assert (DS : forall l d r, decimal (l ++ [d]) ^^ r = decimal l ^^ String (ascii_of_N (48 + d)) r).
  { intros l d r. induction l as [|a l IH]; [reflexivity|]. cbn [List.app]. rewrite !decimal_cons. cbn [append]. rewrite IH. reflexivity. }
  induction prec as [|n IH]; intros v tail.
  - left. split; [apply N.mod_1_r|]. cbn [fmt_frac_loop]. rewrite N.div_1_r. reflexivity.
  - cbn [fmt_frac_loop orb]. assert (P := pow10_pos (N.of_nat n)). rewrite Nat2N.inj_succ, N.pow_succ_r'.
    rewrite <- (N.div_div v 10 (10 ^ N.of_nat n)), (N.mod_mul_r v 10 (10 ^ N.of_nat n)) by lia.
    destruct (N.eqb_spec (v mod 10) 0) as [Z|NZ]; cbn [negb].
    + destruct (IH (v / 10) tail) as [[E T]|(l & F & L & NE & E & T)].
      * left. rewrite T, E, Z. split; [lia|reflexivity].
      * right. exists l. split; [exact F|]. split; [lia|]. split; [exact NE|]. rewrite T, <- E, Z. split; [|reflexivity].
        replace (N.succ (N.of_nat n) - N.of_nat (List.length l)) with (N.succ (N.of_nat n - N.of_nat (List.length l))) by lia. rewrite N.pow_succ_r'. lia.
    + right. destruct (fmt_frac_printing n (v / 10) (String (digit_char (v mod 10)) tail)) as (l & F & L & E & T). exists (l ++ [v mod 10]).
      split; [apply Forall_app; split; [exact F|constructor; [apply N.mod_lt; lia|constructor]]|]. split; [rewrite app_length, L; cbn; lia|]. split; [destruct l; discriminate|].
      rewrite number_snoc, T, DS, app_length, L, E. cbn [List.length]. split; [|reflexivity]. replace (N.succ (N.of_nat n) - N.of_nat (n + 1)) with 0 by lia. rewrite N.pow_0_r. lia.
Qed.

(** The text of one unit with a fraction. *)
Lemma fmt_frac_text prec v tail : exists fo, 
  let l := match fo with Some l => l | None => [] end in
  Forall (fun d => d < 10) l /\ (List.length l <= prec)%nat /\ number l * 10 ^ (N.of_nat prec - N.of_nat (List.length l)) = v mod 10 ^ N.of_nat prec /\
  fmt_frac prec v tail = (v / 10 ^ N.of_nat prec, (match fo with Some l => "." ^^ decimal l | None => "" end) ^^ tail).
Proof.
  unfold fmt_frac. destruct (fmt_frac_loop_text prec v tail) as [[E T]|(l & F & L & NE & E & T)]; rewrite T.
  - exists None. cbv zeta. split; [constructor|]. split; [cbn; lia|]. split; [rewrite E; reflexivity|reflexivity].
  - exists (Some l). cbv zeta. split; [exact F|]. split; [exact L|]. split; [exact E|reflexivity].
Qed.

Lemma fits_bound t : term_ok t -> fits t -> (List.length (frac_digits t) <= 18)%nat.
Proof.
  intros (_ & _ & _ & HU) F. assert (B := unit_ns_bound _ _ HU). assert (P := unit_ns_pos _ _ HU). apply N.divide_pos_le in F; [|exact P].
  destruct (Nat.le_gt_cases (List.length (frac_digits t)) 18) as [L|L]; [exact L|exfalso].
  assert (10 ^ 18 <= 10 ^ N.of_nat (List.length (frac_digits t))) by (apply N.pow_le_mono_r; lia). change (10 ^ 18) with 1000000000000000000 in H. lia.
Qed.

(** A value of whole nanoseconds printed as one term. *)
Lemma one_term prec v un n : unit_ns un n -> n = 10 ^ N.of_nat prec -> (prec <= 18)%nat -> forall tail q x,
  fmt_frac prec v (un ^^ tail) = (q, x) -> forall W, W < 2 ^ 64 ->
  exists t, term_ok t /\ fits t /\ t_ns t = n /\ exact_term t = (W * n + v mod 10 ^ N.of_nat prec) * 10 ^ 18 /\ fmt_int W x = term_text t ^^ tail.
Proof.
  intros HU HN HP tail q x HF W HW. destruct (fmt_frac_text prec v (un ^^ tail)) as (fo & FL & LL & NL & E). cbv zeta in *. rewrite E in HF. apply pair_inj in HF. destruct HF as [_ <-].
  destruct (fmt_int_text W ((match fo with Some l => "." ^^ decimal l | None => "" end) ^^ un ^^ tail) HW) as (l & FI & NI & NE & EI).
  exists (Term l fo un n). unfold term_ok, fits, exact_term, term_text, frac_digits. cbn [t_whole t_frac t_unit t_ns].
  set (fl := match fo with Some l => l | None => [] end) in *.
  assert (DIV : n = 10 ^ (N.of_nat prec - N.of_nat (List.length fl)) * 10 ^ N.of_nat (List.length fl)) by (rewrite HN, <- N.pow_add_r; f_equal; lia).
  split; [split; [exact FI|split; [exact FL|split; [left; exact NE|exact HU]]]|]. split; [eexists; exact DIV|]. split; [reflexivity|]. split.
  - rewrite NI, N.mul_add_distr_r, N.mul_add_distr_r. f_equal; [lia|]. rewrite <- NL.
    replace (10 ^ 18) with (10 ^ (18 - N.of_nat (List.length fl)) * 10 ^ N.of_nat (List.length fl)) by (rewrite <- N.pow_add_r; f_equal; lia).
    rewrite DIV at 1. lia.
  - rewrite EI, !str_app_assoc. reflexivity.
Qed.

Lemma whole_term W un n tail : unit_ns un n -> W < 2 ^ 64 ->
  exists t, term_ok t /\ fits t /\ t_ns t = n /\ exact_term t = W * n * 10 ^ 18 /\ fmt_int W (un ^^ tail) = term_text t ^^ tail.
Proof.
  intros HU HW. destruct (fmt_int_text W (un ^^ tail) HW) as (l & FI & NI & NE & EI). exists (Term l None un n). unfold term_ok, fits, exact_term, term_text, frac_digits. cbn [t_whole t_frac t_unit t_ns List.length].
  split; [split; [exact FI|split; [constructor|split; [left; exact NE|exact HU]]]|]. split; [exists n; change (10 ^ N.of_nat 0) with 1; lia|]. split; [reflexivity|]. split.
  - rewrite NI. change (number []) with 0. lia.
  - rewrite EI, !str_app_assoc. reflexivity.
Qed.

Definition sign_of (d : Z) : sign := if (d <? 0)%Z then Minus else NoSign.

Lemma duration_terms d : (- 2 ^ 63 <= d < 2 ^ 63)%Z -> exists l, l <> [] /\ Forall term_ok l /\ Forall fits l /\ Forall (fun t => exact_term t <> 2 ^ 63 * 10 ^ 18) l /\
  exact_total l = Z.to_N (Z.abs d) * 10 ^ 18 /\ duration_string d = sign_text (sign_of d) ^^ terms_text l.
Proof.
  intros HD. set (u := Z.to_N (Z.abs d)). assert (UB : u <= 2 ^ 63) by (unfold u; change (2 ^ 63) with (Z.to_N (2 ^ 63)); apply Z2N.inj_le; lia).
  enough (H : exists l, l <> [] /\ Forall term_ok l /\ Forall fits l /\ Forall (fun t => exact_term t <> 2 ^ 63 * 10 ^ 18) l /\ exact_total l = u * 10 ^ 18 /\
    (if u <? second then if u =? 0 then "0s" else
        let '(prec, name) := if u <? microsecond then (0%nat, "ns") else if u <? millisecond then (3%nat, micro_sign ^^ "s") else (6%nat, "ms") in
        let '(w, t) := fmt_frac prec u name in fmt_int w t
    else let '(w, t) := fmt_frac 9 u "s" in let t1 := fmt_int (w mod 60) t in let m := w / 60 in
      if 0 <? m then let t2 := fmt_int (m mod 60) (String "m" t1) in let h := m / 60 in if 0 <? h then fmt_int h (String "h" t2) else t2 else t1) = terms_text l).
  { destruct H as (l & H1 & H2 & H3 & H4 & H5 & H6). exists l. repeat (split; [assumption|]). unfold duration_string. fold u. cbv zeta in H6 |- *. rewrite H6. unfold sign_of. destruct (d <? 0)%Z; reflexivity. }
  clearbody u. clear d HD. change (2 ^ 63) with 9223372036854775808 in *.
  assert (SMALL : forall v n, v < 9223372036854775808 -> n = v * 10 ^ 18 -> n <> 9223372036854775808 * 10 ^ 18) by (intros; lia).
  assert (ONE : forall prec un, unit_ns un (10 ^ N.of_nat prec) -> (prec <= 18)%nat -> u < second -> exists l, l <> [] /\ Forall term_ok l /\ Forall fits l /\ Forall (fun t => exact_term t <> 9223372036854775808 * 10 ^ 18) l /\ exact_total l = u * 10 ^ 18 /\
     (let '(w, t) := fmt_frac prec u un in fmt_int w t) = terms_text l).
  { intros prec un HU HP HS. destruct (fmt_frac prec u un) as [q x] eqn:E. assert (EQ : q = u / 10 ^ N.of_nat prec). { destruct (fmt_frac_text prec u un) as (fo & _ & _ & _ & E'). cbv zeta in E'. rewrite E in E'. apply pair_inj in E'. apply E'. }
    assert (P := pow10_pos (N.of_nat prec)). assert (QB : q <= u) by (rewrite EQ; apply N.div_le_upper_bound; [lia|]; nia). unfold second in HS.
    destruct (one_term prec u un _ HU eq_refl HP "" q x ltac:(rewrite str_app_nil; exact E) q ltac:(change (2 ^ 64) with 18446744073709551616; lia)) as (t & O & F & _ & X & T).
    assert (X' : exact_term t = u * 10 ^ 18). { rewrite X, EQ. f_equal. rewrite (N.div_mod u (10 ^ N.of_nat prec)) at 3 by lia. lia. }
    exists [t]. split; [discriminate|]. split; [constructor; [exact O|constructor]|]. split; [constructor; [exact F|constructor]|].
    split; [constructor; [apply (SMALL u); [lia|exact X']|constructor]|]. split; [cbn [exact_total fold_right]; lia|]. exact T. }
  destruct (N.ltb_spec u second) as [S|S].
  - destruct (N.eqb_spec u 0) as [->|NZ].
    + exists [Term [0] None "s" second]. split; [discriminate|]. split; [constructor; [split; [repeat constructor|split; [constructor|split; [left; discriminate|constructor]]]|constructor]|].
      split; [constructor; [|constructor]; exists second; vm_compute; reflexivity|]. split; [constructor; [vm_compute; discriminate|constructor]|]. split; reflexivity.
    + destruct (u <? microsecond); [apply (ONE 0%nat "ns"); [constructor|lia|exact S]|]. destruct (u <? millisecond); [apply (ONE 3%nat (micro_sign ^^ "s")); [constructor|lia|exact S]|apply (ONE 6%nat "ms"); [constructor|lia|exact S]].
  - clear ONE. destruct (fmt_frac 9 u "s") as [w x] eqn:E. assert (EQ : w = u / 10 ^ N.of_nat 9). { destruct (fmt_frac_text 9 u "s") as (fo & _ & _ & _ & E'). cbv zeta in E'. rewrite E in E'. apply pair_inj in E'. apply E'. }
    cbv zeta. change (10 ^ N.of_nat 9) with 1000000000 in EQ. change (2 ^ 64) with 18446744073709551616 in *.
    assert (W60 := N.mod_lt w 60 ltac:(lia)). assert (F9 := N.mod_lt u 1000000000 ltac:(lia)). assert (DU := N.div_mod u 1000000000 ltac:(lia)). rewrite <- EQ in DU. assert (DW := N.div_mod w 60 ltac:(lia)).
    destruct (one_term 9 u "s" 1000000000 ltac:(constructor) ltac:(reflexivity) ltac:(lia) "" w x ltac:(exact E) (w mod 60) ltac:(change (2 ^ 64) with 18446744073709551616; lia)) as (ts & Os & Fs & _ & Xs & Ts).
    rewrite str_app_nil in Ts. rewrite Ts. change (10 ^ N.of_nat 9) with 1000000000 in Xs. set (m := w / 60) in *. clearbody m.
    assert (Ns : exact_term ts <> 9223372036854775808 * 10 ^ 18) by (apply (SMALL (w mod 60 * 1000000000 + u mod 1000000000)); [lia|exact Xs]).
    destruct (N.ltb_spec 0 m) as [M|M].
    2:{ exists [ts]. split; [discriminate|]. split; [constructor; [exact Os|constructor]|]. split; [constructor; [exact Fs|constructor]|]. split; [constructor; [exact Ns|constructor]|]. split; [cbn [exact_total fold_right]; lia|]. cbn [terms_text fold_right]. rewrite str_app_nil. reflexivity. }
    assert (M60 := N.mod_lt m 60 ltac:(lia)). assert (DM := N.div_mod m 60 ltac:(lia)).
    destruct (whole_term (m mod 60) "m" 60000000000 (term_text ts) ltac:(constructor) ltac:(change (2 ^ 64) with 18446744073709551616; lia)) as (tm & Om & Fm & _ & Xm & Tm). cbn [append] in Tm. rewrite Tm. set (h := m / 60) in *. clearbody h.
    assert (Nm : exact_term tm <> 9223372036854775808 * 10 ^ 18) by (apply (SMALL (m mod 60 * 60000000000)); [lia|exact Xm]).
    destruct (N.ltb_spec 0 h) as [H|H].
    2:{ exists [tm; ts]. split; [discriminate|]. split; [constructor; [exact Om|constructor; [exact Os|constructor]]|]. split; [constructor; [exact Fm|constructor; [exact Fs|constructor]]|]. split; [constructor; [exact Nm|constructor; [exact Ns|constructor]]|]. split; [cbn [exact_total fold_right]; lia|]. cbn [terms_text fold_right]. rewrite str_app_nil. reflexivity. }
    destruct (whole_term h "h" 3600000000000 (term_text tm ^^ term_text ts) ltac:(constructor) ltac:(change (2 ^ 64) with 18446744073709551616; lia)) as (th & Oh & Fh & _ & Xh & Th). cbn [append] in Th. rewrite Th.
    assert (Nh : exact_term th <> 9223372036854775808 * 10 ^ 18) by (rewrite Xh; change (10 ^ 18) with 1000000000000000000; lia).
    exists [th; tm; ts]. split; [discriminate|]. split; [constructor; [exact Oh|constructor; [exact Om|constructor; [exact Os|constructor]]]|]. split; [constructor; [exact Fh|constructor; [exact Fm|constructor; [exact Fs|constructor]]]|].
    split; [constructor; [exact Nh|constructor; [exact Nm|constructor; [exact Ns|constructor]]]|]. split; [cbn [exact_total fold_right]; lia|]. cbn [terms_text fold_right]. rewrite str_app_nil. reflexivity.
Qed.
