(** Facts on Model/Duration. *)
From Coq Require Import Floats.SpecFloat.
From Verif.Model Require Import Base Duration.
From Verif.Spec Require Import Durations.
From Verif.Proofs Require Import BaseFacts FloatFacts.
Open Scope N_scope.

Local Infix "^^" := append (right associativity, at level 60).

Lemma digit_char_ok d : d < 10 -> is_digit (ascii_of_N (48 + d)) = true /\ digit_val (ascii_of_N (48 + d)) = d /\ Ascii.eqb (ascii_of_N (48 + d)) "." = false.
Proof.
  intros H. unfold is_digit, digit_val. rewrite N_ascii_embedding by lia. repeat split; try lia.
  - apply andb_true_iff; split; apply N.leb_le; lia.
  - apply Ascii.eqb_neq. intros E. apply (f_equal N_of_ascii) in E. rewrite N_ascii_embedding in E by lia. change (N_of_ascii ".") with 46 in E. lia.
Qed.

Lemma is_digit_char c : is_digit c = true -> c = ascii_of_N (48 + digit_val c) /\ digit_val c < 10.
Proof.
  unfold is_digit, digit_val. intros H. apply andb_true_iff in H. destruct H as [A B]. apply N.leb_le in A, B. split; [|lia].
  replace (48 + (N_of_ascii c - 48)) with (N_of_ascii c) by lia. symmetry. apply ascii_N_embedding.
Qed.

Lemma number_from l : forall x, fold_left (fun n d => 10 * n + d) l x = x * 10 ^ N.of_nat (List.length l) + number l.
Proof.
  unfold number. induction l as [|d l IH]; intros x; [cbn; lia|].
  cbn [fold_left List.length]. rewrite IH, (IH (10 * 0 + d)), Nat2N.inj_succ, N.pow_succ_r'. lia.
Qed.
Lemma number_bound l : Forall (fun d => d < 10) l -> number l < 10 ^ N.of_nat (List.length l).
Proof.
  induction l as [|d l IH]; intros H; [cbn; lia|]. inversion H; subst. specialize (IH H3). unfold number. cbn [fold_left]. rewrite number_from.
  cbn [List.length]. rewrite Nat2N.inj_succ, N.pow_succ_r'. nia.
Qed.

(** What follows the digits read. *)
Definition no_digit (s : string) : Prop := match s with String c _ => is_digit c = false | EmptyString => True end.

Lemma decimal_cons d l : decimal (d :: l) = String (ascii_of_N (48 + d)) (decimal l). Proof. reflexivity. Qed.

Lemma leading_int_read l : Forall (fun d => d < 10) l -> forall x r, x <= 2 ^ 63 -> no_digit r ->
  let y := fold_left (fun n d => 10 * n + d) l x in
  leading_int x (decimal l ^^ r) = if 2 ^ 63 <? y then None else Some (y, r).
Proof.
  induction 1 as [|d l Hd Hl IH]; intros x r Hx Hr; cbv zeta.
  - cbn [decimal fold_right append fold_left]. assert (E : (2 ^ 63 <? x) = false) by (apply N.ltb_ge; exact Hx). rewrite E.
    destruct r as [|c r]; [reflexivity|]. cbn [leading_int]. cbn in Hr. rewrite Hr. reflexivity.
  - rewrite decimal_cons. cbn [append leading_int]. destruct (digit_char_ok d Hd) as (A & B & _). rewrite A, B. cbv zeta.
    cbn [fold_left]. replace (x * 10 + d) with (10 * x + d) by lia.
    assert (BIG : 2 ^ 63 < 10 * x + d -> (2 ^ 63 <? fold_left (fun n d => 10 * n + d) l (10 * x + d)) = true).
    { intros G. apply N.ltb_lt. rewrite number_from. assert (1 <= 10 ^ N.of_nat (List.length l)) by (apply N.lt_pred_le; cbn; apply N.neq_0_lt_0, N.pow_nonzero; lia). nia. }
    destruct (N.ltb_spec (2 ^ 63 / 10) x) as [L|L].
    + rewrite BIG; [reflexivity|]. change (2 ^ 63 / 10) with 922337203685477580 in L. change (2 ^ 63) with 9223372036854775808. lia.
    + destruct (N.ltb_spec (2 ^ 63) (10 * x + d)) as [G|G]; [rewrite BIG by exact G; reflexivity|]. apply IH; assumption.
Qed.

(** scale *= 10, [k] times. *)
Definition scale10 (k : nat) : spec_float := Nat.iter k (fun s => f64_mul s (f64_of_Z 10)) (f64_of_Z 1).

(** The digits of a fraction that are read: the others would make the number too large. *)
Fixpoint kept (x : N) (l : list N) : list N :=
  match l with
  | [] => []
  | d :: t => if (2 ^ 63 - 1) / 10 <? x then [] else if 2 ^ 63 <? 10 * x + d then [] else d :: kept (10 * x + d) t
  end.

Lemma leading_fraction_skip l : Forall (fun d => d < 10) l -> forall x sc r, no_digit r -> leading_fraction x sc true (decimal l ^^ r) = (x, sc, r).
Proof.
  induction 1 as [|d l Hd Hl IH]; intros x sc r Hr.
  - cbn [decimal fold_right append]. destruct r as [|c r]; [reflexivity|]. cbn [leading_fraction]. cbn in Hr. rewrite Hr. reflexivity.
  - rewrite decimal_cons. cbn [append leading_fraction]. destruct (digit_char_ok d Hd) as (A & B & _). rewrite A. apply IH, Hr.
Qed.
Lemma leading_fraction_read l : Forall (fun d => d < 10) l -> forall k x r, no_digit r ->
  leading_fraction x (scale10 k) false (decimal l ^^ r) = (fold_left (fun n d => 10 * n + d) (kept x l) x, scale10 (k + List.length (kept x l)), r).
Proof.
  induction 1 as [|d l Hd Hl IH]; intros k x r Hr.
  - cbn [decimal fold_right append kept fold_left List.length]. rewrite Nat.add_0_r. destruct r as [|c r]; [reflexivity|]. cbn [leading_fraction]. cbn in Hr. rewrite Hr. reflexivity.
  - rewrite decimal_cons. cbn [append leading_fraction kept]. destruct (digit_char_ok d Hd) as (A & B & _). rewrite A, B. cbv zeta.
    replace (x * 10 + d) with (10 * x + d) by lia.
    destruct ((2 ^ 63 - 1) / 10 <? x); [rewrite leading_fraction_skip by assumption; cbn [fold_left List.length]; rewrite Nat.add_0_r; reflexivity|].
    destruct (2 ^ 63 <? 10 * x + d); [rewrite leading_fraction_skip by assumption; cbn [fold_left List.length]; rewrite Nat.add_0_r; reflexivity|].
    change (f64_mul (scale10 k) (f64_of_Z 10)) with (scale10 (S k)). rewrite (IH (S k) (10 * x + d) r Hr).
    cbn [List.length fold_left]. replace (S k + List.length (kept (10 * x + d) l))%nat with (k + S (List.length (kept (10 * x + d) l)))%nat by lia. reflexivity.
Qed.

(** What is kept is a beginning of the digits; if some are left out, it is a number of at least 922337203685477580. *)
Lemma kept_split l : Forall (fun d => d < 10) l -> forall x, x <= 2 ^ 63 -> exists q, l = kept x l ++ q /\
  fold_left (fun n d => 10 * n + d) (kept x l) x <= 2 ^ 63 /\ (q = [] \/ 922337203685477580 <= fold_left (fun n d => 10 * n + d) (kept x l) x).
Proof.
  induction 1 as [|d l Hd Hl IH]; intros x Hx; cbn [kept].
  - exists []. split; [reflexivity|]. split; [exact Hx|left; reflexivity].
  - change ((2 ^ 63 - 1) / 10) with 922337203685477580. change (2 ^ 63) with 9223372036854775808 in *.
    destruct (N.ltb_spec 922337203685477580 x) as [L|L].
    { exists (d :: l). split; [reflexivity|]. split; [exact Hx|right; cbn [fold_left]; lia]. }
    destruct (N.ltb_spec 9223372036854775808 (10 * x + d)) as [G|G].
    { exists (d :: l). split; [reflexivity|]. split; [exact Hx|right; cbn [fold_left]; lia]. }
    destruct (IH (10 * x + d) G) as (q & E & B & C). exists q. split; [cbn [List.app]; f_equal; exact E|]. split; [exact B|exact C].
Qed.
Lemma kept_short l : Forall (fun d => d < 10) l -> forall k x, x < 10 ^ N.of_nat k -> (k + List.length l <= 18)%nat -> kept x l = l.
Proof.
  induction 1 as [|d l Hd Hl IH]; intros k x Hx Hk; [reflexivity|]. cbn [kept].
  cbn [List.length] in Hk. assert (HB : 10 ^ N.of_nat (S k) <= 10 ^ 18) by (apply N.pow_le_mono_r; lia). rewrite Nat2N.inj_succ, N.pow_succ_r' in HB. change (10 ^ 18) with 1000000000000000000 in HB.
  assert (E1 : ((2 ^ 63 - 1) / 10 <? x) = false) by (apply N.ltb_ge; change ((2 ^ 63 - 1) / 10) with 922337203685477580; lia).
  assert (E2 : (2 ^ 63 <? 10 * x + d) = false) by (apply N.ltb_ge; change (2 ^ 63) with 9223372036854775808; lia).
  rewrite E1, E2. f_equal. apply (IH (S k)); [rewrite Nat2N.inj_succ, N.pow_succ_r'; lia|lia].
Qed.
Lemma kept_digits l x : Forall (fun d => d < 10) l -> Forall (fun d => d < 10) (kept x l).
Proof.
  intros H. revert x. induction H as [|d l Hd Hl IH]; intros x; cbn [kept]; [constructor|].
  destruct ((2 ^ 63 - 1) / 10 <? x); [constructor|]. destruct (2 ^ 63 <? 10 * x + d); [constructor|]. constructor; [exact Hd|apply IH].
Qed.
(** The digits of a term's fraction that are read. *)
Definition read_digits (t : term) : list N := kept 0 (frac_digits t).

(** A unit stops at a digit, a point or the end. *)
Definition unit_stop (s : string) : Prop := match s with String c _ => Ascii.eqb c "." || is_digit c = true | EmptyString => True end.
Lemma take_unit_app u n r : unit_ns u n -> unit_stop r -> take_unit (u ^^ r) = (u, r) /\ lookup_unit u = Some n /\ (exists c t, u = String c t /\ (Ascii.eqb c "." || is_digit c) = false).
Proof.
  intros H S. assert (T : take_unit r = ("", r)) by (destruct r as [|c r]; [reflexivity|]; cbn [take_unit]; cbn in S; rewrite S; reflexivity).
  destruct H; (split; [|split; [vm_compute; reflexivity|eexists; eexists; split; [reflexivity|vm_compute; reflexivity]]]); cbn [append take_unit];
    repeat match goal with |- context [Ascii.eqb ?a ?b || is_digit ?a] => replace (Ascii.eqb a b || is_digit a) with false by (vm_compute; reflexivity) end; rewrite T; reflexivity.
Qed.

Lemma str_app_assoc a b c : (a ^^ b) ^^ c = a ^^ (b ^^ c).
Proof. induction a as [|x a IH]; [reflexivity|]. cbn. rewrite IH. reflexivity. Qed.
Lemma str_len_app a b : String.length (a ^^ b) = (String.length a + String.length b)%nat.
Proof. induction a as [|x a IH]; [reflexivity|]. cbn. rewrite IH. reflexivity. Qed.
Lemma str_app_nil a : a ^^ "" = a. Proof. induction a as [|x a IH]; [reflexivity|]. cbn. rewrite IH. reflexivity. Qed.
Lemma decimal_len l : String.length (decimal l) = List.length l. Proof. induction l as [|d l IH]; [reflexivity|]. rewrite decimal_cons. cbn [String.length List.length]. rewrite IH. reflexivity. Qed.

(** What one round of the loop does with the value of a term. *)
Definition add_term (d v f unit : N) (scale : spec_float) : option N :=
  if 2 ^ 63 / unit <? v then None
  else let v2 := if 0 <? f then (v * unit + fraction_ns f unit scale) mod 2 ^ 64 else v * unit in
       if (0 <? f) && (2 ^ 63 <? v2) then None
       else let d1 := (d + v2) mod 2 ^ 64 in if 2 ^ 63 <? d1 then None else Some d1.

Lemma unit_ns_pos u n : unit_ns u n -> 0 < n. Proof. destruct 1; lia. Qed.
Lemma unit_ns_bound u n : unit_ns u n -> n <= 3600000000000. Proof. destruct 1; lia. Qed.

Lemma parse_term_read d t r : term_ok t -> unit_stop r ->
  parse_term d (term_text t ^^ r) =
  match add_term d (number (t_whole t)) (number (read_digits t)) (t_ns t) (scale10 (List.length (read_digits t))) with Some d1 => Some (d1, r) | None => None end.
Proof.
  intros (HW & HF & HN & HU) HR. unfold read_digits. destruct (take_unit_app _ _ r HU HR) as (TU & LU & c0 & t0 & EU & NU). assert (UP := unit_ns_pos _ _ HU).
  destruct t as [w fr u n]. unfold frac_digits, term_text in *. cbn [t_whole t_frac t_unit t_ns] in *.
  set (fs := match fr with Some l => "." ^^ decimal l | None => "" end).
  assert (ND : no_digit (fs ^^ u ^^ r)).
  { unfold fs. destruct fr as [l|]; [reflexivity|]. cbn [append]. rewrite EU. cbn. apply orb_false_iff in NU. apply NU. }
  rewrite !str_app_assoc. assert (LI := leading_int_read w HW 0 (fs ^^ u ^^ r) ltac:(lia) ND). cbv zeta in LI. fold (number w) in LI.
  assert (HEAD : exists c s, decimal w ^^ fs ^^ u ^^ r = String c s /\ Ascii.eqb c "." || is_digit c = true).
  { destruct w as [|d0 w].
    - destruct fr as [l|]; [|destruct HN; contradiction]. unfold fs. eexists. eexists. split; [reflexivity|reflexivity].
    - rewrite decimal_cons. inversion HW; subst. destruct (digit_char_ok d0 ltac:(assumption)) as (A & _). eexists. eexists. split; [reflexivity|]. rewrite A. apply orb_true_r. }
  unfold parse_term. destruct HEAD as (c & s & ES & HC). rewrite ES in *. rewrite HC, LI. clear HC LI.
  destruct (N.ltb_spec (2 ^ 63) (number w)) as [BIG|SMALL].
  { unfold add_term. assert (E : (2 ^ 63 / n <? number w) = true). { apply N.ltb_lt. apply N.div_lt_upper_bound; [lia|]. nia. } rewrite E. reflexivity. }
  assert (PRE : negb (String.length (String c s) =? String.length (fs ^^ u ^^ r))%nat = negb (List.length w =? 0)%nat).
  { rewrite <- ES, str_len_app, decimal_len. f_equal. destruct (Nat.eqb_spec (List.length w) 0) as [->|]; [apply Nat.eqb_refl|apply Nat.eqb_neq; lia]. }
  rewrite PRE. clear ES PRE c s.
  assert (FIN : forall f scale, (let '(u0, s3) := take_unit (u ^^ r) in match u0 with
     | EmptyString => None | _ => match lookup_unit u0 with None => None | Some unit => if 2 ^ 63 / unit <? number w then None else
       let v1 := number w * unit in let v2 := if 0 <? f then (v1 + fraction_ns f unit scale) mod 2 ^ 64 else v1 in
       if (0 <? f) && (2 ^ 63 <? v2) then None else let d1 := (d + v2) mod 2 ^ 64 in if 2 ^ 63 <? d1 then None else Some (d1, s3) end end) =
     match add_term d (number w) f n scale with Some d1 => Some (d1, r) | None => None end).
  { intros f scale. rewrite TU. rewrite EU at 1. rewrite LU. unfold add_term. destruct (2 ^ 63 / n <? number w); [reflexivity|]. cbv zeta.
    destruct ((0 <? f) && (2 ^ 63 <? (if 0 <? f then (number w * n + fraction_ns f n scale) mod 2 ^ 64 else number w * n))); [reflexivity|].
    destruct (2 ^ 63 <? (d + (if 0 <? f then (number w * n + fraction_ns f n scale) mod 2 ^ 64 else number w * n)) mod 2 ^ 64); reflexivity. }
  unfold fs. destruct fr as [l|].
  - rewrite !str_app_assoc. cbn [append].
    assert (LF := leading_fraction_read l HF 0 0 (u ^^ r)). change (scale10 0) with (f64_of_Z 1) in LF.
    rewrite LF; [|rewrite EU; cbn; apply orb_false_iff in NU; apply NU]. clear LF. fold (number (kept 0 l)). cbn [Nat.add].
    rewrite str_len_app, decimal_len.
    assert (POST : negb (List.length w =? 0)%nat = false -> negb (List.length l + String.length (u ^^ r) =? String.length (u ^^ r))%nat = true).
    { intros E. destruct w; [|discriminate]. destruct HN as [HN|HN]; [contradiction|]. destruct l; [contradiction|]. cbn [List.length]. apply negb_true_iff, Nat.eqb_neq. lia. }
    destruct (negb (List.length w =? 0)%nat); [|rewrite POST by reflexivity]; cbn [negb andb]; apply FIN.
  - cbn [append]. assert (PW : negb (List.length w =? 0)%nat = true) by (destruct HN as [HN|HN]; [destruct w; [contradiction|reflexivity]|contradiction]). rewrite PW. cbn [negb andb].
    assert (HEAD : forall (A : Type) (f : string -> A) (b : A), (match u ^^ r with String "." t => f t | _ => b end) = b).
    { intros A f b. rewrite EU. cbn [append]. apply orb_false_iff in NU. destruct NU as [NU _]. apply Ascii.eqb_neq in NU. clear - NU. destruct c0 as [b0 b1 b2 b3 b4 b5 b6 b7]. destruct b0, b1, b2, b3, b4, b5, b6, b7; try reflexivity; contradiction NU; reflexivity. }
    rewrite HEAD. cbn [kept List.length]. change (number []) with 0. change (scale10 0) with (f64_of_Z 1). apply FIN.
Qed.

(** ---- The fraction of a unit. *)
Definition units : list Z := [1; 1000; 1000000; 1000000000; 60000000000; 3600000000000]%Z.
Definition ratio_ok (u : Z) (k : nat) : bool :=
  match f64_div (f64_of_Z u) (scale10 k) with
  | S754_finite false m e =>
      ((-300 <=? e) && (e <=? 0) && (Z.abs (Zpos m * 10 ^ Z.of_nat k - u * 2 ^ (- e)) * 2 ^ 51 <=? u * 2 ^ (- e)) &&
       (negb (u mod 10 ^ Z.of_nat k =? 0) || (Zpos m * 10 ^ Z.of_nat k =? u * 2 ^ (- e))))%Z
  | _ => false
  end.
Lemma all_ratios : forallb (fun u => forallb (ratio_ok u) (seq 0 33)) units = true. Proof. vm_compute. reflexivity. Qed.

Lemma ratio u k : In u units -> (k <= 32)%nat -> exists m e, f64_div (f64_of_Z u) (scale10 k) = S754_finite false m e /\ (-300 <= e <= 0)%Z /\
  (Z.abs (Zpos m * 10 ^ Z.of_nat k - u * 2 ^ (- e)) * 2 ^ 51 <= u * 2 ^ (- e))%Z /\ ((u mod 10 ^ Z.of_nat k = 0)%Z -> (Zpos m * 10 ^ Z.of_nat k = u * 2 ^ (- e))%Z).
Proof.
  intros HU HK. assert (H := all_ratios). rewrite forallb_forall in H. specialize (H u HU). rewrite forallb_forall in H. specialize (H k ltac:(apply in_seq; lia)). clear HU.
  unfold ratio_ok in H. destruct (f64_div (f64_of_Z u) (scale10 k)) as [| | |[|] m e]; try discriminate. exists m, e. split; [reflexivity|].
  apply andb_true_iff in H. destruct H as [H H4]. apply andb_true_iff in H. destruct H as [H H3]. apply andb_true_iff in H. destruct H as [H1 H2].
  apply Z.leb_le in H1, H2, H3. split; [split; assumption|]. split; [exact H3|]. intros E. apply orb_true_iff in H4. destruct H4 as [H4|H4].
  - apply negb_true_iff, Z.eqb_neq in H4. contradiction.
  - apply Z.eqb_eq in H4. exact H4.
Qed.

Lemma unit_in u n : unit_ns u n -> In (Z.of_N n) units. Proof. destruct 1; cbn; intuition. Qed.

Section Errors.
Open Scope Z_scope.
Lemma err_prod a b c x w : 0 <= a -> 0 <= b -> 4 <= c -> Z.abs (x - a) * c <= a -> Z.abs (w - b) * c <= b ->
  Z.abs (x * w - a * b) * c <= 3 * (a * b) /\ 0 <= x * w <= 2 * (a * b).
Proof.
  intros Ha Hb Hc Hx Hw.
  assert (X1 : Z.abs (x - a) <= a) by nia. assert (W1 : Z.abs (w - b) <= b) by nia.
  assert (X0 : 0 <= x) by lia. assert (W0 : 0 <= w <= 2 * b) by lia.
  assert (E : x * w - a * b = (x - a) * w + a * (w - b)) by ring.
  assert (T : Z.abs (x * w - a * b) <= Z.abs (x - a) * w + a * Z.abs (w - b)).
  { rewrite E. replace (Z.abs (x - a) * w) with (Z.abs ((x - a) * w)) by (rewrite Z.abs_mul, (Z.abs_eq w) by lia; reflexivity).
    replace (a * Z.abs (w - b)) with (Z.abs (a * (w - b))) by (rewrite Z.abs_mul, (Z.abs_eq a) by lia; reflexivity). apply Z.abs_triangle. }
  assert (T0 : 0 <= Z.abs (x - a) * c) by (apply Z.mul_nonneg_nonneg; lia). assert (T1 : Z.abs (x - a) * c * w <= a * (2 * b)) by (apply Z.mul_le_mono_nonneg; lia).
  assert (T2 : a * (Z.abs (w - b) * c) <= a * b) by (apply Z.mul_le_mono_nonneg_l; lia).
  assert (F : Z.abs (x * w - a * b) * c <= 3 * (a * b)).
  { apply Z.le_trans with ((Z.abs (x - a) * w + a * Z.abs (w - b)) * c); [apply Z.mul_le_mono_nonneg_r; lia|]. lia. }
  split; [exact F|]. split; [apply Z.mul_nonneg_nonneg; lia|]. assert (0 <= a * b) by (apply Z.mul_nonneg_nonneg; lia). set (g := Z.abs (x * w - a * b)) in *. assert (4 * g <= 3 * (a * b)) by nia. lia.
Qed.

(** r = Z / A with Z within 1/100 of the exact value. *)
Lemma err_floor z A p n : 0 < A -> 0 < p -> 100 * Z.abs (z * p - n * A) <= p * A -> 100 * Z.abs ((z / A) * p - n) <= 101 * p.
Proof.
  intros HA Hp H. assert (D := Z.div_mod z A ltac:(lia)). assert (B := Z.mod_pos_bound z A HA). set (r := z / A) in *. set (t := z mod A) in *. clearbody r t. subst z.
  assert (E : (r * p - n) * A = ((A * r + t) * p - n * A) - t * p) by ring.
  assert (T : 0 <= t * p <= A * p) by nia.
  assert (G : 100 * Z.abs ((r * p - n) * A) <= 101 * p * A) by (rewrite E; lia).
  rewrite Z.abs_mul, (Z.abs_eq A) in G by lia. nia.
Qed.
End Errors.

Lemma fraction_near f un n k : unit_ns un n -> (k <= 32)%nat -> 0 < f -> f < 10 ^ N.of_nat k ->
  (100 * Z.abs (Z.of_N (fraction_ns f n (scale10 k)) * 10 ^ Z.of_nat k - Z.of_N f * Z.of_N n) <= 101 * 10 ^ Z.of_nat k)%Z /\
  fraction_ns f n (scale10 k) <= n /\
  ((10 ^ N.of_nat k | n) -> fraction_ns f n (scale10 k) * 10 ^ N.of_nat k = f * n).
Proof.
  intros HU HK HF HB. assert (UP := unit_ns_pos _ _ HU). assert (UB := unit_ns_bound _ _ HU). assert (BK := K_big).
  destruct (ratio (Z.of_N n) k (unit_in _ _ HU) HK) as (my & ey & DY & EY & NY & XY).
  unfold fraction_ns. rewrite DY. clear DY.
  assert (P18 : (10 ^ Z.of_nat k <= 10 ^ 32)%Z) by (apply Z.pow_le_mono_r; lia).
  assert (PP : (0 < 10 ^ Z.of_nat k)%Z) by (apply Z.pow_pos_nonneg; lia).
  assert (NZ : Z.of_N (10 ^ N.of_nat k) = (10 ^ Z.of_nat k)%Z) by (rewrite N2Z.inj_pow, nat_N_Z; reflexivity).
  destruct f as [|pf]; [lia|]. change (Z.of_N (Npos pf)) with (Zpos pf).
  assert (FB : (Zpos pf < 10 ^ Z.of_nat k)%Z) by (rewrite <- NZ; lia). clear HB HF.
  set (p := (10 ^ Z.of_nat k)%Z) in *.
  assert (FP : (Zpos pf < 2 ^ 500)%Z) by (apply Z.lt_trans with (10 ^ 32)%Z; [lia|vm_compute; reflexivity]).
  destruct (of_Z_pos pf FP) as (mx & ex & DX & EX & NX & XX). rewrite DX. clear DX.
  set (A := (2 ^ K)%Z) in *. assert (PA : (0 < A)%Z) by (apply pow2_pos; lia).
  (* the quotient in units of 2^-K *)
  assert (YK : (Zpos my * 2 ^ (ey + K) * 2 ^ (- ey) = Zpos my * A)%Z) by (unfold A; rewrite <- Z.mul_assoc, <- Z.pow_add_r by lia; do 2 f_equal; lia).
  assert (YE : (0 < 2 ^ (- ey))%Z) by (apply pow2_pos; lia).
  set (X := (Zpos mx * 2 ^ (ex + K))%Z) in *. set (Y := (Zpos my * 2 ^ (ey + K))%Z) in *.
  assert (NY' : (Z.abs (Y * p - Z.of_N n * A) * 2 ^ 51 <= Z.of_N n * A)%Z).
  { assert (E : ((Y * p - Z.of_N n * A) * 2 ^ (- ey) = (Zpos my * p - Z.of_N n * 2 ^ (- ey)) * A)%Z) by (replace ((Y * p - Z.of_N n * A) * 2 ^ (- ey))%Z with (Y * 2 ^ (- ey) * p - Z.of_N n * A * 2 ^ (- ey))%Z by ring; rewrite YK; ring).
    apply (f_equal Z.abs) in E. rewrite !Z.abs_mul, (Z.abs_eq (2 ^ (- ey))), (Z.abs_eq A) in E by lia.
    set (g := Z.abs (Y * p - Z.of_N n * A)) in *. set (h := Z.abs (Zpos my * p - Z.of_N n * 2 ^ (- ey))) in *. clearbody g h.
    assert (M : (h * 2 ^ 51 * A <= Z.of_N n * 2 ^ (- ey) * A)%Z) by (apply Z.mul_le_mono_nonneg_r; lia).
    apply (Z.mul_le_mono_pos_r _ _ (2 ^ (- ey))); [exact YE|]. replace (g * 2 ^ 51 * 2 ^ (- ey))%Z with (g * 2 ^ (- ey) * 2 ^ 51)%Z by ring. rewrite E. lia. }
  (* sizes *)
  assert (SX : (2 ^ (K - 400) <= X <= 2 ^ (K + 400))%Z).
  { assert (0 <= X - Zpos pf * A + Zpos pf * A)%Z by (unfold X; assert (0 < 2 ^ (ex + K))%Z by (apply pow2_pos; lia); lia).
    assert (L : (Z.abs (X - Zpos pf * A) * 2 <= Zpos pf * A)%Z) by lia.
    assert (LB : (2 ^ (K - 400) * 2 <= A)%Z) by (unfold A; replace (2 ^ (K - 400) * 2)%Z with (2 ^ (K - 400 + 1))%Z by (rewrite Z.pow_add_r by lia; reflexivity); apply Z.pow_le_mono_r; lia).
    assert (UB' : (2 * 10 ^ 32 * A <= 2 ^ (K + 400))%Z) by (unfold A; rewrite (Z.pow_add_r 2 K 400) by lia; rewrite Z.mul_comm; apply Z.mul_le_mono_nonneg_l; [lia|vm_compute; discriminate]).
    assert (Zpos pf * A <= 10 ^ 32 * A)%Z by (apply Z.mul_le_mono_nonneg_r; lia). assert (1 * A <= Zpos pf * A)%Z by (apply Z.mul_le_mono_nonneg_r; lia). lia. }
  assert (SY : (2 ^ (K - 400) <= Y <= 2 ^ (K + 400))%Z).
  { split.
    - unfold Y. apply Z.le_trans with (1 * 2 ^ (ey + K))%Z; [rewrite Z.mul_1_l; apply Z.pow_le_mono_r; lia|apply Z.mul_le_mono_nonneg_r; [apply Z.lt_le_incl, pow2_pos; lia|lia]].
    - assert (0 < Y)%Z by (unfold Y; assert (0 < 2 ^ (ey + K))%Z by (apply pow2_pos; lia); lia).
      assert (Y * 1 <= Y * p)%Z by (apply Z.mul_le_mono_nonneg_l; lia). assert (Y * p <= 2 * (Z.of_N n * A))%Z by lia.
      assert (Z.of_N n * A <= 3600000000000 * A)%Z by (apply Z.mul_le_mono_nonneg_r; lia).
      assert (UB' : (2 * 3600000000000 * A <= 2 ^ (K + 400))%Z) by (unfold A; rewrite (Z.pow_add_r 2 K 400) by lia; rewrite Z.mul_comm; apply Z.mul_le_mono_nonneg_l; [lia|vm_compute; discriminate]). lia. }
  destruct (mul_near false mx ex false my ey EX ltac:(lia) SX SY) as (m & e & DM & EM & NM & XM). fold X Y in NM, XM. rewrite DM, trunc_scaled by exact EM. clear DM.
  set (Q := (Zpos m * 2 ^ (e + K))%Z) in *. fold A. assert (Q0 : (0 <= Q)%Z) by (apply Z.mul_nonneg_nonneg; [lia|apply Z.lt_le_incl, pow2_pos; lia]).
  assert (R0 : (0 <= Q / A)%Z) by (apply Z.div_pos; lia). rewrite Z2N.id by exact R0.
  fold A in NM, XM. clearbody Q X Y A.
  assert (E5 : (Z.abs (Q * p - Zpos pf * Z.of_N n * A) * 2 ^ 51 <= 5 * (Zpos pf * Z.of_N n * A))%Z).
  { destruct (err_prod (Zpos pf * A) (Z.of_N n * A) (2 ^ 51) X (Y * p) ltac:(lia) ltac:(lia) ltac:(lia) ltac:(lia) NY') as [E1 E2].
    assert (E3 : (Z.abs (Q * A * p - X * (Y * p)) * 2 ^ 53 <= X * (Y * p))%Z).
    { replace (Q * A * p - X * (Y * p))%Z with ((Q * A - X * Y) * p)%Z by ring. rewrite Z.abs_mul, (Z.abs_eq p) by lia.
      replace (Z.abs (Q * A - X * Y) * p * 2 ^ 53)%Z with (Z.abs (Q * A - X * Y) * 2 ^ 53 * p)%Z by ring. replace (X * (Y * p))%Z with (X * Y * p)%Z by ring. apply Z.mul_le_mono_nonneg_r; lia. }
    assert (GE : (Zpos pf * A * (Z.of_N n * A) = Zpos pf * Z.of_N n * A * A)%Z) by ring.
    set (G := (Zpos pf * A * (Z.of_N n * A))%Z) in *. set (H := (X * (Y * p))%Z) in *.
    assert (E4 : (Z.abs (Q * A * p - G) * 2 ^ 51 <= 5 * G)%Z) by (clear - E1 E2 E3; lia).
    replace (Q * A * p - G)%Z with ((Q * p - Zpos pf * Z.of_N n * A) * A)%Z in E4 by (rewrite GE; ring). rewrite Z.abs_mul, (Z.abs_eq A), GE in E4 by lia.
    apply (Z.mul_le_mono_pos_r _ _ A); [exact PA|]. lia. }
  assert (E6 : (Zpos pf * Z.of_N n * A <= p * Z.of_N n * A)%Z) by (apply Z.mul_le_mono_nonneg_r; [lia|apply Z.mul_le_mono_nonneg; lia]).
  assert (E7 : (p * Z.of_N n * A <= p * 3600000000000 * A)%Z) by (apply Z.mul_le_mono_nonneg_r; [lia|apply Z.mul_le_mono_nonneg; lia]).
  assert (PAP : (0 < A * p)%Z) by (apply Z.mul_pos_pos; assumption).
  split; [|split].
  - apply err_floor; [exact PA|exact PP|]. set (g := Z.abs (Q * p - Zpos pf * Z.of_N n * A)) in *. clearbody g. clear - E5 E6 E7 PAP. lia.
  - enough (L : (Q / A <= Z.of_N n)%Z) by (apply N2Z.inj_le; rewrite Z2N.id by exact R0; exact L).
    destruct (Z.le_gt_cases (Q / A) (Z.of_N n)) as [L|L]; [exact L|exfalso].
    assert (QA : ((Z.of_N n + 1) * A <= Q)%Z). { assert (A * (Q / A) <= Q)%Z by (apply Z.mul_div_le; lia). assert (A * (Z.of_N n + 1) <= A * (Q / A))%Z by (apply Z.mul_le_mono_nonneg_l; lia). lia. }
    assert (QP : ((Z.of_N n + 1) * A * p <= Q * p)%Z) by (apply Z.mul_le_mono_nonneg_r; lia).
    clear - QP E5 E6 E7 PAP. lia.
  - intros [j HJ].
    assert (J0 : 0 < j) by (destruct j; lia). assert (JZ : Z.of_N n = (Z.of_N j * p)%Z) by (rewrite HJ, N2Z.inj_mul, NZ; reflexivity).
    assert (XX' : (X = Zpos pf * A)%Z). { apply XX. assert (1 * p <= Z.of_N j * p)%Z by (apply Z.mul_le_mono_nonneg_r; lia). clear - H FB UB JZ. lia. }
    assert (XY' : (Y * p = Z.of_N n * A)%Z).
    { assert (E : (Zpos my * p = Z.of_N n * 2 ^ (- ey))%Z) by (apply XY; rewrite JZ; apply Z.mod_mul; lia).
      apply (Z.mul_reg_r _ _ (2 ^ (- ey))); [lia|]. replace (Y * p * 2 ^ (- ey))%Z with (Y * 2 ^ (- ey) * p)%Z by ring. rewrite YK. replace (Zpos my * A * p)%Z with (Zpos my * p * A)%Z by ring. rewrite E. ring. }
    assert (XYA : (Y = Z.of_N j * A)%Z) by (apply (Z.mul_reg_r _ _ p); [lia|]; rewrite XY', JZ; ring).
    assert (VB : (Zpos pf * Z.of_N j < 2 ^ 53)%Z). { assert (Zpos pf * Z.of_N j < p * Z.of_N j)%Z by (apply Z.mul_lt_mono_pos_r; lia). clear - H JZ UB. lia. }
    rewrite (XM (Zpos pf * Z.of_N j)%Z VB) by (rewrite XX', XYA; ring). rewrite Z.div_mul by lia.
    apply N2Z.inj. rewrite !N2Z.inj_mul, Z2N.id by (apply Z.mul_nonneg_nonneg; [apply Pos2Z.is_nonneg|apply N2Z.is_nonneg]). rewrite NZ, JZ. change (Z.of_N (Npos pf)) with (Zpos pf). ring.
Qed.

(** ---- Longer fractions: far behind the point nothing is left of a unit. *)
Definition tiny (y : spec_float) : bool :=
  match y with
  | S754_zero _ => true
  | S754_finite false m e => ((e <=? 0) && (Zpos m * 2 ^ 65 <=? 2 ^ (- e)))%Z
  | _ => false
  end.
Definition far (s : spec_float) : bool := forallb (fun u => tiny (f64_div (f64_of_Z u) s)) units.
(** Multiplying by ten until the scale is infinite. *)
Fixpoint all_far (n : nat) (s : spec_float) : bool :=
  match n with
  | O => match s with S754_infinity false => true | _ => false end
  | S m => far s && all_far m (f64_mul s (f64_of_Z 10))
  end.
Lemma all_far_true : all_far 276 (scale10 33) = true. Proof. vm_compute. reflexivity. Qed.

Lemma scale_far j : far (scale10 (33 + j)) = true.
Proof.
  assert (INF : forall i, Nat.iter i (fun s => f64_mul s (f64_of_Z 10)) (S754_infinity false) = S754_infinity false).
  { induction i as [|i IH]; [reflexivity|]. cbn [Nat.iter nat_rect]. unfold Nat.iter in IH. rewrite IH. vm_compute. reflexivity. }
  assert (IT : forall i a, scale10 (a + i) = Nat.iter i (fun s => f64_mul s (f64_of_Z 10)) (scale10 a)).
  { induction i as [|i IH]; intros a; [rewrite Nat.add_0_r; reflexivity|]. rewrite Nat.add_succ_r. change (scale10 (S (a + i))) with (f64_mul (scale10 (a + i)) (f64_of_Z 10)). rewrite IH. reflexivity. }
  rewrite IT. assert (H := all_far_true). revert H j. generalize 276%nat (scale10 33). clear IT.
  induction n as [|n IH]; intros s H j.
  - destruct s as [| [] | |]; try discriminate. rewrite INF. vm_compute. reflexivity.
  - cbn [all_far] in H. apply andb_true_iff in H. destruct H as [A B]. destruct j as [|j]; [exact A|].
    specialize (IH _ B j). replace (Nat.iter (S j) (fun s0 => f64_mul s0 (f64_of_Z 10)) s) with (Nat.iter j (fun s0 => f64_mul s0 (f64_of_Z 10)) (f64_mul s (f64_of_Z 10))); [exact IH|].
    clear. induction j as [|j IH]; [reflexivity|]. cbn [Nat.iter nat_rect] in *. unfold Nat.iter in *. rewrite IH. reflexivity.
Qed.

Lemma far_fraction f un n j : unit_ns un n -> 0 < f -> f <= 2 ^ 63 -> fraction_ns f n (scale10 (33 + j)) = 0.
Proof.
  intros HU HF HB. assert (F := scale_far j). unfold far in F. rewrite forallb_forall in F. specialize (F (Z.of_N n) (unit_in _ _ HU)).
  unfold fraction_ns. destruct f as [|p]; [lia|]. change (Z.of_N (Npos p)) with (Zpos p).
  assert (PB : (Zpos p <= 2 ^ 63)%Z) by (apply N2Z.inj_le in HB; exact HB).
  destruct (of_Z_pos p) as (m & e & D & E & NR & _); [apply Z.le_lt_trans with (2 ^ 63)%Z; [exact PB|vm_compute; reflexivity]|]. rewrite D.
  set (y := f64_div (f64_of_Z (Z.of_N n)) (scale10 (33 + j))) in *. destruct y as [s| s | |[] my ey]; try discriminate; [reflexivity|].
  cbn [tiny] in F. apply andb_true_iff in F. destruct F as [F1 F2]. apply Z.leb_le in F1, F2.
  assert (BK := K_big). assert (PK : (0 < 2 ^ K)%Z) by (apply pow2_pos; lia).
  assert (MB : (Zpos m * 2 ^ (e + K) <= 2 ^ 64 * 2 ^ K)%Z) by (clear - NR PB PK; nia).
  assert (E64 : (e <= 64)%Z).
  { enough (e + K < 65 + K)%Z by lia. apply pow2_lt_inv; [lia|]. assert (0 < 2 ^ (e + K))%Z by (apply pow2_pos; lia).
    assert (2 ^ (65 + K) = 2 * (2 ^ 64 * 2 ^ K))%Z by (rewrite Z.pow_add_r by lia; change (2 ^ 65)%Z with (2 * 2 ^ 64)%Z; ring). nia. }
  assert (EY : (ey <= - 65)%Z).
  { enough (65 < - ey + 1)%Z by lia. apply pow2_lt_inv; [lia|]. rewrite Z.pow_add_r by lia. assert (0 < 2 ^ (- ey))%Z by (apply pow2_pos; lia). lia. }
  assert (S : (Zpos (m * my) * 2 <= 2 ^ (- (e + ey)))%Z).
  { assert (PE : (0 < 2 ^ (e + K))%Z) by (apply pow2_pos; lia). apply (Z.mul_le_mono_pos_r _ _ (2 ^ (e + K))); [exact PE|].
    replace (2 ^ (- (e + ey)) * 2 ^ (e + K))%Z with (2 ^ (- ey) * 2 ^ K)%Z by (rewrite <- !Z.pow_add_r by lia; f_equal; lia).
    rewrite Pos2Z.inj_mul. replace (Zpos m * Zpos my * 2 * 2 ^ (e + K))%Z with (Zpos m * 2 ^ (e + K) * (Zpos my * 2))%Z by ring.
    apply Z.le_trans with (2 ^ 64 * 2 ^ K * (Zpos my * 2))%Z; [apply Z.mul_le_mono_nonneg_r; lia|].
    replace (2 ^ 64 * 2 ^ K * (Zpos my * 2))%Z with (Zpos my * 2 ^ 65 * 2 ^ K)%Z by (change (2 ^ 65)%Z with (2 ^ 64 * 2)%Z; ring). apply Z.mul_le_mono_nonneg_r; lia. }
  unfold f64_mul, SFmul. rewrite small_trunc by (try assumption; lia). reflexivity.
Qed.

(** The fraction of a unit that is read: less than 1.01 nanoseconds off what its digits say, however many there are. *)
Lemma fraction_any f un n k : unit_ns un n -> 0 < f -> f <= 2 ^ 63 -> f < 10 ^ N.of_nat k ->
  (100 * Z.abs (Z.of_N (fraction_ns f n (scale10 k)) * 10 ^ Z.of_nat k - Z.of_N f * Z.of_N n) <= 101 * 10 ^ Z.of_nat k)%Z /\
  fraction_ns f n (scale10 k) <= n /\
  ((10 ^ N.of_nat k | n) -> fraction_ns f n (scale10 k) * 10 ^ N.of_nat k = f * n).
Proof.
  intros HU HF HB HT. destruct (Nat.le_gt_cases k 32) as [L|L]; [apply (fraction_near f un n k); assumption|].
  assert (UP := unit_ns_pos _ _ HU). assert (UB := unit_ns_bound _ _ HU).
  assert (BIG : (10 ^ 33 <= 10 ^ Z.of_nat k)%Z) by (apply Z.pow_le_mono_r; lia).
  assert (NZ : Z.of_N (10 ^ N.of_nat k) = (10 ^ Z.of_nat k)%Z) by (rewrite N2Z.inj_pow, nat_N_Z; reflexivity).
  assert (Z0 := far_fraction f un n (k - 33) HU HF HB). replace (33 + (k - 33))%nat with k in Z0 by lia. rewrite Z0.
  assert (FN : (0 <= Z.of_N f * Z.of_N n <= 2 ^ 63 * 3600000000000)%Z).
  { split; [lia|]. change (2 ^ 63)%Z with (Z.of_N (2 ^ 63)). apply Z.mul_le_mono_nonneg; lia. }
  split; [|split].
  - change (Z.of_N 0) with 0%Z. rewrite Z.mul_0_l. change (2 ^ 63 * 3600000000000)%Z with 33204139332677192908800000000000%Z in FN. change (10 ^ 33)%Z with 1000000000000000000000000000000000%Z in BIG. set (a := (Z.of_N f * Z.of_N n)%Z) in *. clearbody a. set (b := (10 ^ Z.of_nat k)%Z) in *. clearbody b. clear - FN BIG. lia.
  - lia.
  - intros D. apply N.divide_pos_le in D; [|exact UP]. exfalso. assert (Z.of_N n <= 3600000000000)%Z by lia. assert (3600000000000 < 10 ^ 33)%Z by (vm_compute; reflexivity). lia.
Qed.
