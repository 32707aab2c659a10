(** C86, C87: durations in query scripts and in rendered metrics. *)
From Coq Require Import Floats.SpecFloat.
From Verif.Model Require Import Base Labels Calendar View Store ScanBuilder Duration.
From Verif.Spec Require Import Gregorian Scripts Durations.
From Verif.Proofs Require Import BaseFacts FloatFacts DurationFacts DurationLoop.
From Verif.Props Require Import P_Script.
Open Scope Z_scope.

Local Infix "^^" := append (right associativity, at level 60).

(** A signed number of nanoseconds fits an int64. *)
Definition representable (d : Z) : Prop := - 2 ^ 63 <= d < 2 ^ 63.

Lemma in_int64_spec s T : in_int64 s T = true <-> representable (signed s T).
Proof.
  unfold representable. change (2 ^ 63) with 9223372036854775808. destruct s; cbn [in_int64 signed].
  - change (2 ^ 63)%N with 9223372036854775808%N. rewrite N.ltb_lt. lia.
  - change (2 ^ 63)%N with 9223372036854775808%N. rewrite N.leb_le. lia.
  - change (2 ^ 63)%N with 9223372036854775808%N. rewrite N.ltb_lt. lia.
Qed.

Lemma sum_exact l : Forall term_ok l -> Forall fits l -> (sum_tv l * 10 ^ 18 = exact_total l)%N.
Proof.
  induction l as [|t l IH]; intros HO HF; [reflexivity|]. inversion HO; inversion HF; subst. cbn [sum_tv exact_total fold_right]. fold (sum_tv l). fold (exact_total l).
  rewrite N.mul_add_distr_r, IH, (tv_exact t) by (try assumption; apply fits_bound; assumption). reflexivity.
Qed.

(** ------ C86: a text of terms whose fractions are whole nanoseconds means exactly the sum of the terms, with its sign;
    it is refused exactly if that does not fit an int64. (No single term may be exactly 2^63 nanoseconds, see below.) *)
Theorem C86_means_the_sum : forall s l T, l <> [] -> Forall term_ok l -> Forall fits l -> Forall (fun t => exact_term t <> 2 ^ 63 * 10 ^ 18)%N l ->
  (exact_total l = T * 10 ^ 18)%N ->
  (representable (signed s T) -> parse_duration (sign_text s ^^ terms_text l) = Some (signed s T)) /\
  (~ representable (signed s T) -> parse_duration (sign_text s ^^ terms_text l) = None).
Proof.
  intros s l T HN HO HF HT HE. assert (ET : sum_tv l = T) by (rewrite <- sum_exact in HE by assumption; apply (N.mul_cancel_r _ _ (10 ^ 18)%N); [discriminate|exact HE]).
  assert (P := parse_value s l HN HO). rewrite ET in P. rewrite P.
  - rewrite <- in_int64_spec. destruct (in_int64 s T); split; intros H; try reflexivity; [exfalso; apply H; reflexivity|discriminate].
  - rewrite Forall_forall in *. intros t Ht E. apply (HT t Ht). rewrite <- (tv_exact t), E by (try apply fits_bound; auto). reflexivity.
Qed.
Print Assumptions C86_means_the_sum.

(** Terms without a fraction always fit. *)
Theorem C86_whole_numbers : forall s l, l <> [] -> Forall term_ok l -> Forall (fun t => t_frac t = None) l ->
  Forall (fun t => number (t_whole t) * t_ns t <> 2 ^ 63)%N l ->
  (representable (signed s (whole_total l)) -> parse_duration (sign_text s ^^ terms_text l) = Some (signed s (whole_total l))) /\
  (~ representable (signed s (whole_total l)) -> parse_duration (sign_text s ^^ terms_text l) = None).
Proof.
  intros s l HN HO HW HT.
  assert (EX : forall t, t_frac t = None -> (exact_term t = number (t_whole t) * t_ns t * 10 ^ 18)%N).
  { intros t E. unfold exact_term, frac_digits. rewrite E. cbn [List.length]. change (number []) with 0%N. lia. }
  apply C86_means_the_sum; try assumption.
  - rewrite Forall_forall in *. intros t Ht. unfold fits, frac_digits. rewrite (HW t Ht). exists (t_ns t). cbn [List.length]. change (10 ^ N.of_nat 0)%N with 1%N. lia.
  - rewrite Forall_forall in *. intros t Ht. rewrite (EX t (HW t Ht)). specialize (HT t Ht). intros E. apply HT. apply (N.mul_cancel_r _ _ (10 ^ 18)%N); [discriminate|exact E].
  - clear HN HO HT s. induction l as [|t l IH]; [reflexivity|]. inversion HW; subst. cbn [exact_total whole_total fold_right]. fold (exact_total l) (whole_total l). rewrite IH, EX by assumption. lia.
Qed.

(** Other fractions, however long: each term is less than 1.02 nanoseconds off. (Go reads eighteen or nineteen significant
    digits and ignores the rest; leading zeros may make the power of ten infinite.) D is any number that is at least
    the number of digits behind a point. *)
Theorem C86_fractions : forall D s l, l <> [] -> Forall term_ok l -> Forall (fun t => (List.length (frac_digits t) <= D)%nat) l ->
  Z.of_N (scaled_total D l) + 2 * 10 ^ Z.of_nat D * Z.of_nat (List.length l) < 2 ^ 63 * 10 ^ Z.of_nat D ->
  exists d, parse_duration (sign_text s ^^ terms_text l) = Some (signed s d) /\
    100 * Z.abs (Z.of_N d * 10 ^ Z.of_nat D - Z.of_N (scaled_total D l)) <= 102 * 10 ^ Z.of_nat D * Z.of_nat (List.length l).
Proof.
  intros D s l HN HO HK HB. exists (sum_tv l). assert (PD : 0 < 10 ^ Z.of_nat D) by (apply Z.pow_pos_nonneg; lia).
  assert (NEAR : 100 * Z.abs (Z.of_N (sum_tv l) * 10 ^ Z.of_nat D - Z.of_N (scaled_total D l)) <= 102 * 10 ^ Z.of_nat D * Z.of_nat (List.length l)).
  { clear HB HN. induction l as [|t l IH]; [cbn; lia|]. inversion HO; inversion HK; subst. specialize (IH ltac:(assumption) ltac:(assumption)).
    assert (X := tv_near D t ltac:(assumption) ltac:(assumption)). cbn [sum_tv scaled_total fold_right List.length]. fold (sum_tv l) (scaled_total D l). rewrite Nat2Z.inj_succ, !N2Z.inj_add.
    generalize dependent (Z.of_N (sum_tv l)). generalize (Z.of_N (scaled_total D l)) (Z.of_nat (List.length l)). generalize dependent (Z.of_N (tv t)). generalize (Z.of_N (scaled_term D t)). generalize dependent (10 ^ Z.of_nat D). clear. intros. lia. }
  split; [|exact NEAR].
  assert (SB : Z.of_N (sum_tv l) < 2 ^ 63).
  { change (2 ^ 63) with 9223372036854775808 in *. revert NEAR HB. generalize (Z.of_N (sum_tv l)) (Z.of_N (scaled_total D l)). assert (LN : 0 <= Z.of_nat (List.length l)) by lia. revert LN PD. generalize (Z.of_nat (List.length l)) (10 ^ Z.of_nat D). clear. intros n p LN PD x y NEAR HB.
    apply (Z.mul_lt_mono_pos_r p); [exact PD|]. assert (0 <= p * n) by (apply Z.mul_nonneg_nonneg; lia). lia. }
  rewrite parse_value; try assumption.
  - assert (R : in_int64 s (sum_tv l) = true). { apply in_int64_spec. unfold representable. destruct s; cbn [signed]; lia. } rewrite R. reflexivity.
  - clear - SB. induction l as [|t l IH]; [constructor|]. cbn [sum_tv fold_right] in SB. fold (sum_tv l) in SB. rewrite N2Z.inj_add in SB. constructor; [intros E; rewrite E in SB; change (Z.of_N (2 ^ 63)) with (2 ^ 63) in SB; lia|apply IH; lia].
Qed.
Print Assumptions C86_fractions.

(** Nothing else is read: whatever is accepted is a sign followed by 0 or by such terms, and it is an int64. *)
Theorem C86_only_durations : forall text d, parse_duration text = Some d ->
  representable d /\ exists s, (text = sign_text s ^^ "0" /\ d = 0) \/ exists l, l <> [] /\ Forall term_ok l /\ text = sign_text s ^^ terms_text l.
Proof.
  intros text d H. unfold parse_duration in H.
  set (x := match text with String c t => if Ascii.eqb c "-" then (true, t) else if Ascii.eqb c "+" then (false, t) else (false, text) | EmptyString => (false, text) end) in H.
  assert (S : exists s, text = sign_text s ^^ snd x /\ (fst x = true <-> s = Minus)).
  { unfold x. destruct text as [|c t]; [exists NoSign; split; [reflexivity|split; discriminate]|]. destruct (Ascii.eqb_spec c "-") as [->|]; [exists Minus; split; [reflexivity|split; reflexivity]|].
    destruct (Ascii.eqb_spec c "+") as [->|]; [exists Plus; split; [reflexivity|split; discriminate]|]. exists NoSign. split; [reflexivity|split; discriminate]. }
  destruct x as [neg t]. cbn [fst snd] in S. destruct S as (s & ET & HS).
  destruct (String.eqb_spec t "0") as [E0|N0]; [apply some_inj in H; subst; split; [split; [discriminate|reflexivity]|]; exists s; left; split; reflexivity|].
  destruct (String.eqb_spec t "") as [E1|N1]; [discriminate|].
  destruct (parse_loop (String.length t) 0 t) as [v|] eqn:PL; [|discriminate]. destruct (parse_loop_split _ _ _ _ (N.le_0_l _) PL) as (B & l & F & E). change (2 ^ 63)%N with 9223372036854775808%N in B.
  split.
  - unfold representable. destruct neg; [apply some_inj in H; subst d; lia|]. change (2 ^ 63 - 1)%N with 9223372036854775807%N in H. destruct (N.ltb_spec 9223372036854775807 v); [discriminate|]. apply some_inj in H. subst d. lia.
  - exists s. right. exists l. split; [intros ->; apply N1; exact E|]. split; [exact F|]. rewrite ET, E. reflexivity.
Qed.
Print Assumptions C86_only_durations.

(** A duration that is printed is read back as it was. *)
Theorem C86_printed_is_read_back : forall d, representable d -> parse_duration (duration_string d) = Some d.
Proof.
  intros d R. destruct (duration_terms d R) as (l & HN & HO & HF & HT & HE & ->).
  assert (SG : signed (sign_of d) (Z.to_N (Z.abs d)) = d) by (unfold sign_of; destruct (Z.ltb_spec d 0); cbn [signed]; lia).
  destruct (C86_means_the_sum (sign_of d) l (Z.to_N (Z.abs d)) HN HO HF HT HE) as [P _]. rewrite SG in P. apply P, R.
Qed.
Print Assumptions C86_printed_is_read_back.

(** An overflow is not always noticed: twice 2^63 nanoseconds (about 584 years) is read as no time at all. *)
Theorem C86_overflow_accepted_refuted :
  parse_duration "9223372036854775808ns9223372036854775808ns" = Some 0 /\ parse_duration "9223372036854775808ns" = None.
Proof. split; vm_compute; reflexivity. Qed.

(** In a script: ago() with such a text asks for exactly that time back from the clock, whatever else the script sets
    before, and whatever it sets later other than another window. *)
Theorem C86_ago_asks_for_that_long : forall s l T resource l1 c l2 wall, l <> [] -> Forall term_ok l -> Forall fits l -> Forall (fun t => exact_term t <> 2 ^ 63 * 10 ^ 18)%N l ->
  (exact_total l = T * 10 ^ 18)%N -> - 2 ^ 63 < signed s T < 2 ^ 63 ->
  (forall c' x', In (c', x') l2 -> ~ sets_window parse_duration x') ->
  time_bounds wall (sc_times (build_scan parse_duration resource (l1 ++ (c, CAgo (sign_text s ^^ terms_text l)) :: l2))) = (ck_ns c - signed s T, ck_ns c).
Proof.
  intros s l T resource l1 c l2 wall HN HO HF HT HE HR HL. destruct (C86_means_the_sum s l T HN HO HF HT HE) as [P _]. specialize (P ltac:(unfold representable; lia)).
  unfold build_scan. rewrite ScanBuilderFacts.run_app. unfold time_bounds. cbn [run fold_left fst snd]. change (fold_left _ l2 ?s) with (run parse_duration s l2). rewrite (run_range _ _ _ HL).
  cbn [exec]. rewrite P. cbn [fst sc_range sc_times range_ts set_times]. rewrite !ScanBuilderFacts.as_time_pb. f_equal. unfold neg64, min_int64. destruct (Z.eqb_spec (signed s T) (- 2 ^ 63)); lia.
Qed.
Print Assumptions C86_ago_asks_for_that_long.

(** latest() of the client library (core.ts:124-126) is ago("15m"), the window a script without a window call gets. *)
Theorem C86_latest_is_fifteen_minutes : forall resource c wall,
  time_bounds wall (sc_times (build_scan parse_duration resource [(c, CAgo "15m")])) = (ck_ns c - 15 * 60 * 1000000000, ck_ns c).
Proof.
  intros resource c wall. change "15m"%string with (sign_text NoSign ^^ terms_text [Term [1; 5]%N None "m" 60000000000]).
  apply (C86_ago_asks_for_that_long NoSign [Term [1; 5]%N None "m" 60000000000] 900000000000 resource [] c [] wall); [discriminate| | | |reflexivity|split; reflexivity|intros ? ? []].
  - constructor; [|constructor]. split; [repeat constructor|split; [constructor|split; [left; discriminate|constructor]]].
  - constructor; [|constructor]. exists 60000000000%N. reflexivity.
  - constructor; [|constructor]. vm_compute. discriminate.
Qed.

(** 1h15m30.918273645s, read; and a third of an hour in nineteen digits (Go's own test). *)
Definition sample_terms : list term :=
  [Term [1]%N None "h" 3600000000000; Term [1; 5]%N None "m" 60000000000; Term [3; 0]%N (Some [9; 1; 8; 2; 7; 3; 6; 4; 5]%N) "s" 1000000000].
Example C86_example :
  sample_terms <> [] /\ Forall term_ok sample_terms /\ Forall fits sample_terms /\ Forall (fun t => exact_term t <> 2 ^ 63 * 10 ^ 18)%N sample_terms /\
  terms_text sample_terms = "1h15m30.918273645s"%string /\ (exact_total sample_terms = 4530918273645 * 10 ^ 18)%N /\
  parse_duration "-1h15m30.918273645s" = Some (-4530918273645) /\ parse_duration "0.3333333333333333333h" = Some 1200000000000 /\
  parse_duration "1.00000000000003h" = Some 3600000000000 /\
  map parse_duration ["1d"; "15"; ""; "h"; ".s"; "1h-5m"; "3000000h"; "0"; "+0"; "1.5 h"]%string = [None; None; None; None; None; None; None; Some 0; Some 0; None] /\
  duration_string 4530918273645 = "1h15m30.918273645s"%string /\ duration_string (-1500000) = "-1.5ms"%string.
Proof.
  split; [discriminate|]. split.
  { repeat (constructor; [split; [repeat constructor|split; [repeat constructor|split; [left; discriminate|constructor]]]|]). constructor. }
  split. { constructor; [exists 3600000000000%N; reflexivity|]. constructor; [exists 60000000000%N; reflexivity|]. constructor; [exists 1%N; reflexivity|constructor]. }
  split. { repeat (constructor; [vm_compute; discriminate|]). constructor. }
  repeat (split; [vm_compute; reflexivity|]). vm_compute. reflexivity.
Qed.

(** ------ C87: rendered values of metrics with a time unit. *)
Section Shown.
  Variable sprint ibytes : spec_float -> string.
  Variable out_of_range : spec_float -> Z.

  (** The time units of the renderer (unit.go). *)
  Inductive shown_unit : string -> Z -> Prop :=
  | SU_h : shown_unit "h" 3600000000000 | SU_m : shown_unit "m" 60000000000 | SU_s : shown_unit "s" 1000000000
  | SU_ms : shown_unit "ms" 1000000 | SU_ns : shown_unit "ns" 1.

  Lemma shown_unit_duration name n v : shown_unit name n -> format_unit sprint ibytes out_of_range v name = unit_duration out_of_range v (Z.to_N n) /\ 1 <= n <= 3600000000000.
  Proof. destruct 1; split; try reflexivity; lia. Qed.

  (** An integer value is shown as exactly that many units, if the number of nanoseconds is below 2^53 (104 days). *)
  Theorem C87_integers_shown_exactly : forall name n v, shown_unit name n -> Z.abs (v * n) < 2 ^ 53 ->
    format_unit sprint ibytes out_of_range (f64_of_Z v) name = duration_string (v * n).
  Proof.
    intros name n v HU HB. destruct (shown_unit_duration name n (f64_of_Z v) HU) as [-> HN]. unfold unit_duration. rewrite Z2N.id by lia. clear HU. f_equal.
    assert (HK := K_big). assert (PK : 0 < 2 ^ K) by (apply pow2_pos; lia).
    destruct n as [|pn|pn]; try lia. destruct (of_Z_pos pn ltac:(apply Z.lt_trans with (2 ^ 53); [lia|vm_compute; reflexivity])) as (my & ey & -> & EY & _ & XY). specialize (XY ltac:(lia)).
    assert (BIG : forall z, 1 <= z < 2 ^ 53 -> 2 ^ (K - 400) <= z * 2 ^ K <= 2 ^ (K + 400)).
    { intros z Hz. split.
      - apply Z.le_trans with (1 * 2 ^ K); [rewrite Z.mul_1_l; apply Z.pow_le_mono_r; lia|apply Z.mul_le_mono_nonneg_r; lia].
      - rewrite (Z.add_comm K), Z.pow_add_r by lia. apply Z.mul_le_mono_nonneg_r; [lia|]. apply Z.le_trans with (2 ^ 53); [lia|vm_compute; discriminate]. }
    assert (RANGE : forall x, Z.abs x < 2 ^ 53 -> ((- 2 ^ 63 <=? x) && (x <? 2 ^ 63))%bool = true) by (intros x Hx; apply andb_true_iff; split; [apply Z.leb_le|apply Z.ltb_lt]; lia).
    assert (GEN : forall s p, Zpos p * Zpos pn < 2 ^ 53 -> (exists m e, binary_round 53 1024 s p 0 = S754_finite s m e /\ -1074 <= e /\ Zpos m * 2 ^ (e + K) = Zpos p * 2 ^ K) ->
      f64_trunc (f64_mul (binary_round 53 1024 s p 0) (S754_finite false my ey)) = Some (cond_Zopp s (Zpos p * Zpos pn))).
    { intros s p HP (mx & ex & -> & EX & XX). assert (Zpos p < 2 ^ 53) by nia.
      destruct (mul_near s mx ex false my ey EX EY ltac:(rewrite XX; apply BIG; lia) ltac:(rewrite XY; apply BIG; lia)) as (m & e & -> & EM & _ & XM). rewrite XX, XY in XM.
      rewrite trunc_signed by exact EM. rewrite (XM (Zpos p * Zpos pn) HP) by ring. rewrite Z.div_mul by lia. rewrite xorb_false_r. reflexivity. }
    unfold to_int64. destruct v as [|p|p].
    - reflexivity.
    - change (f64_of_Z (Zpos p)) with (binary_round 53 1024 false p 0). rewrite GEN.
      + cbn [cond_Zopp]. rewrite RANGE by lia. reflexivity.
      + lia.
      + destruct (of_round false p) as (m & e & A & B & _ & C); [apply Z.lt_trans with (2 ^ 53); [nia|vm_compute; reflexivity]|]. exists m, e. split; [exact A|]. split; [exact B|]. apply C. nia.
    - change (f64_of_Z (Zneg p)) with (binary_round 53 1024 true p 0). rewrite GEN.
      + cbn [cond_Zopp]. rewrite RANGE by lia. reflexivity.
      + lia.
      + destruct (of_round true p) as (m & e & A & B & _ & C); [apply Z.lt_trans with (2 ^ 53); [nia|vm_compute; reflexivity]|]. exists m, e. split; [exact A|]. split; [exact B|]. apply C. nia.
  Qed.

  (** ... so that the text says what was measured: read as a duration it is the value times the unit. *)
  Theorem C87_shown_value_means_the_value : forall name n v, shown_unit name n -> Z.abs (v * n) < 2 ^ 53 ->
    parse_duration (format_unit sprint ibytes out_of_range (f64_of_Z v) name) = Some (v * n).
  Proof. intros name n v HU HB. rewrite (C87_integers_shown_exactly name n v HU HB). apply C86_printed_is_read_back. unfold representable. lia. Qed.

  (** Two integers shown with the same time unit look the same only if they are the same (below 2^53 nanoseconds). *)
  Theorem C87_shown_values_differ : forall name n v w, shown_unit name n -> Z.abs (v * n) < 2 ^ 53 -> Z.abs (w * n) < 2 ^ 53 ->
    format_unit sprint ibytes out_of_range (f64_of_Z v) name = format_unit sprint ibytes out_of_range (f64_of_Z w) name -> v = w.
  Proof.
    intros name n v w HU HV HW E. apply (f_equal parse_duration) in E. rewrite !(C87_shown_value_means_the_value name n) in E by assumption. apply some_inj in E.
    apply (Z.mul_reg_r _ _ n); [|exact E]. destruct HU; lia.
  Qed.

  (** Any double of moderate size (here m * 2^e, with its sign): the time shown is off by less than one nanosecond and one
      part in 2^53. *)
  Theorem C87_any_double_shown_closely : forall name n s m e, shown_unit name n -> Zpos m < 2 ^ 53 -> -300 <= e <= 0 -> Zpos m * n < 2 ^ 62 * 2 ^ (- e) ->
    exists d, 0 <= d /\ format_unit sprint ibytes out_of_range (S754_finite s m e) name = duration_string (if s then - d else d) /\
      Z.abs (d * 2 ^ (- e) - Zpos m * n) * 2 ^ 53 <= Zpos m * n + 2 ^ (- e) * 2 ^ 53.
  Proof.
    intros name n s m e HU HM HE HB. destruct (shown_unit_duration name n (S754_finite s m e) HU) as [-> HN]. unfold unit_duration. rewrite Z2N.id by lia. clear HU.
    assert (HK := K_big). assert (PK : 0 < 2 ^ K) by (apply pow2_pos; lia). assert (PE : 0 < 2 ^ (- e)) by (apply pow2_pos; lia).
    destruct n as [|pn|pn]; try lia. destruct (of_Z_pos pn ltac:(apply Z.lt_trans with (2 ^ 53); [lia|vm_compute; reflexivity])) as (my & ey & -> & EY & _ & XY). specialize (XY ltac:(lia)).
    assert (SX : 2 ^ (K - 400) <= Zpos m * 2 ^ (e + K) <= 2 ^ (K + 400)).
    { assert (0 < 2 ^ (e + K)) by (apply pow2_pos; lia). split.
      - apply Z.le_trans with (1 * 2 ^ (e + K)); [rewrite Z.mul_1_l; apply Z.pow_le_mono_r; lia|apply Z.mul_le_mono_nonneg_r; lia].
      - apply Z.le_trans with (2 ^ 53 * 2 ^ (e + K)); [apply Z.mul_le_mono_nonneg_r; lia|]. rewrite <- Z.pow_add_r by lia. apply Z.pow_le_mono_r; lia. }
    assert (SY : 2 ^ (K - 400) <= Zpos my * 2 ^ (ey + K) <= 2 ^ (K + 400)).
    { rewrite XY. split.
      - apply Z.le_trans with (1 * 2 ^ K); [rewrite Z.mul_1_l; apply Z.pow_le_mono_r; lia|apply Z.mul_le_mono_nonneg_r; lia].
      - rewrite (Z.add_comm K), Z.pow_add_r by lia. apply Z.mul_le_mono_nonneg_r; [lia|]. apply Z.le_trans with (2 ^ 53); [lia|vm_compute; discriminate]. }
    destruct (mul_near s m e false my ey ltac:(lia) EY SX SY) as (mz & ez & -> & EZ & NZ & _). rewrite XY in NZ. rewrite xorb_false_r. unfold to_int64. rewrite trunc_signed by exact EZ.
    assert (ZN : 0 <= Zpos mz * 2 ^ (ez + K)) by (apply Z.mul_nonneg_nonneg; [lia|apply Z.lt_le_incl, pow2_pos; lia]).
    set (Q := Zpos mz * 2 ^ (ez + K)) in *. clearbody Q. assert (EK : 2 ^ K = 2 ^ (e + K) * 2 ^ (- e)) by (rewrite <- Z.pow_add_r by lia; f_equal; lia).
    assert (PEK : 0 < 2 ^ (e + K)) by (apply pow2_pos; lia).
    (* Q 2^-e is near m n 2^K *)
    assert (N1 : Z.abs (Q * 2 ^ (- e) - Zpos m * Zpos pn * 2 ^ K) * 2 ^ 53 <= Zpos m * Zpos pn * 2 ^ K).
    { apply (Z.mul_le_mono_pos_r _ _ (2 ^ (e + K))); [exact PEK|].
      assert (E : (Q * 2 ^ (- e) - Zpos m * Zpos pn * 2 ^ K) * 2 ^ (e + K) = Q * 2 ^ K - Zpos m * 2 ^ (e + K) * (Zpos pn * 2 ^ K)) by (rewrite EK at 2; ring).
      apply (f_equal Z.abs) in E. rewrite Z.abs_mul, (Z.abs_eq (2 ^ (e + K))) in E by lia.
      set (g := Z.abs (Q * 2 ^ (- e) - Zpos m * Zpos pn * 2 ^ K)) in *. replace (g * 2 ^ 53 * 2 ^ (e + K)) with (g * 2 ^ (e + K) * 2 ^ 53) by ring. rewrite E. lia. }
    assert (R0 : 0 <= Q / 2 ^ K) by (apply Z.div_pos; lia). assert (DV := Z.div_mod Q (2 ^ K) ltac:(lia)). assert (MB := Z.mod_pos_bound Q (2 ^ K) PK).
    set (r := Q / 2 ^ K) in *. set (t := Q mod 2 ^ K) in *. clearbody r t.
    assert (N2 : Z.abs (r * 2 ^ (- e) - Zpos m * Zpos pn) * 2 ^ 53 <= Zpos m * Zpos pn + 2 ^ (- e) * 2 ^ 53).
    { apply (Z.mul_le_mono_pos_r _ _ (2 ^ K)); [exact PK|]. set (A := 2 ^ K) in *. set (b := 2 ^ (- e)) in *. set (c := Zpos m * Zpos pn) in *. clearbody A b c. subst Q.
      assert (T : 0 <= t * b <= A * b) by (split; [apply Z.mul_nonneg_nonneg; lia|apply Z.mul_le_mono_nonneg_r; lia]).
      assert (E : (r * b - c) * A = ((A * r + t) * b - c * A) - t * b) by ring. apply (f_equal Z.abs) in E. rewrite Z.abs_mul, (Z.abs_eq A) in E by lia.
      replace (Z.abs (r * b - c) * 2 ^ 53 * A) with (Z.abs (r * b - c) * A * 2 ^ 53) by ring. rewrite E.
      replace ((c + b * 2 ^ 53) * A) with (c * A + A * b * 2 ^ 53) by ring. revert N1 T. generalize ((A * r + t) * b - c * A) (t * b) (A * b) (c * A). clear. intros. lia. }
    exists r. split; [exact R0|]. split; [|exact N2].
    assert (RB : r < 2 ^ 63).
    { destruct (Z.lt_ge_cases r (2 ^ 63)) as [L|L]; [exact L|exfalso]. set (b := 2 ^ (- e)) in *. set (c := Zpos m * Zpos pn) in *. clearbody b c. assert (2 ^ 63 * b <= r * b) by (apply Z.mul_le_mono_nonneg_r; lia). revert H N2 HB PE. generalize (r * b). clear. intros. lia. }
    assert (IN : ((- 2 ^ 63 <=? cond_Zopp s r) && (cond_Zopp s r <? 2 ^ 63))%bool = true) by (apply andb_true_iff; split; [apply Z.leb_le|apply Z.ltb_lt]; destruct s; cbn [cond_Zopp]; lia).
    rewrite IN. destruct s; reflexivity.
  Qed.
End Shown.
Print Assumptions C87_shown_value_means_the_value.
Print Assumptions C87_any_double_shown_closely.

(** 1500 ms; -90 m; 1/4 s (mantissa 2^52, exponent -54); the limit of exactness is real: 9007199254740993 ns lose one. *)
Example C87_example :
  (forall sp ib oor, format_unit sp ib oor (f64_of_Z 1500) "ms" = "1.5s"%string /\ format_unit sp ib oor (f64_of_Z (-90)) "m" = "-1h30m0s"%string /\
    format_unit sp ib oor (S754_finite false 4503599627370496 (-54)) "s" = "250ms"%string /\
    format_unit sp ib oor (f64_of_Z 9007199254740993) "ns" = duration_string 9007199254740992) /\
  Z.abs (1500 * 1000000) < 2 ^ 53 /\ Zpos 4503599627370496 * 1000000000 < 2 ^ 62 * 2 ^ 54.
Proof. split; [intros; repeat split; vm_compute; reflexivity|]. split; vm_compute; reflexivity. Qed.

(** A third of an hour in thirty digits, and a digit behind four hundred zeros. *)
Definition long_terms : list term :=
  [Term [0]%N (Some (repeat 3%N 30)) "h" 3600000000000; Term [] (Some (repeat 0%N 400 ++ [7%N])) "m" 60000000000].
Example C86_fractions_example :
  long_terms <> [] /\ Forall term_ok long_terms /\ Forall (fun t => (List.length (frac_digits t) <= 401)%nat) long_terms /\
  Z.of_N (scaled_total 401 long_terms) + 2 * 10 ^ Z.of_nat 401 * Z.of_nat (List.length long_terms) < 2 ^ 63 * 10 ^ Z.of_nat 401 /\
  parse_duration (terms_text long_terms) = Some 1200000000000.
Proof.
  split; [discriminate|]. split.
  { constructor; [split; [repeat constructor|split; [|split; [left; discriminate|constructor]]]|].
    - apply Forall_forall. intros d H. apply repeat_spec in H. subst d. lia.
    - constructor; [|constructor]. split; [constructor|]. split; [|split; [right; discriminate|constructor]]. apply Forall_app. split; [|repeat constructor].
      apply Forall_forall. intros d H. apply repeat_spec in H. subst d. lia. }
  split; [constructor; [|constructor; [|constructor]]; unfold frac_digits; cbn [t_frac]; rewrite ?app_length, repeat_length; cbn [List.length]; lia|].
  split; vm_compute; reflexivity.
Qed.
