From Verif.Model Require Import Base Calendar.
From Verif.Spec Require Import Gregorian.
From Verif.Proofs Require Import BaseFacts.
From Coq Require Import ZifyBool ZifyN.
Open Scope Z_scope.
Ltac Zify.zify_post_hook ::= Z.div_mod_to_equations.

Definition ylen (y : Z) : Z := if is_leap y then 366 else 365.

Lemma is_leap_leap y : is_leap y = leap y.
Proof. reflexivity. Qed.

(** The decomposition used by Go, as arithmetic facts. *)
Lemma div_step (x q k r : Z) : 0 < k -> x = k * q + r -> 0 <= r < k -> x / k = q.
Proof. intros Hk E Hr. symmetry. apply (Z.div_unique x k q r); [left; lia|lia]. Qed.
Lemma mod_step (x q k r : Z) : 0 < k -> x = k * q + r -> 0 <= r < k -> x mod k = r.
Proof. intros Hk E Hr. symmetry. apply (Z.mod_unique x k q r); [left; lia|lia]. Qed.
Lemma cut4 (d k hi n : Z) : 0 < k -> 0 <= d < hi -> 4 * k <= hi -> hi <= 4 * k + 1 -> n = d / k - (d / k) / 4 ->
  0 <= n <= 3 /\ (n < 3 -> d - k * n < k) /\ 0 <= d - k * n < k + 1 /\ (d < 4 * k -> d - k * n < k).
Proof.
  intros Hk Hd H1 H2 ->.
  pose proof (Z.div_mod d k ltac:(lia)) as E. pose proof (Z.mod_pos_bound d k Hk) as R.
  set (c := d / k) in *. set (r := d mod k) in *. clearbody c r.
  assert (0 <= c <= 4) by nia.
  assert (c = 4 \/ c <= 3) as [C|C] by lia.
  - subst c. change (4 / 4) with 1. assert (r = 0) by lia. lia.
  - assert (c / 4 = 0) as -> by (apply Z.div_small; lia). replace (c - 0) with c by lia. lia.
Qed.
Lemma abs_year_spec d y yd :
  abs_year d = (y, yd) -> d = days_before_year y + yd /\ 0 <= yd < ylen y.
Proof.
  unfold abs_year. cbv zeta. intros H. apply pair_inj in H as [Hy Hyd].
  remember (d / 146097) as n400 eqn:E400.
  assert (H0 : 0 <= d - 146097 * n400 < 146097) by (subst n400; lia).
  remember (d - 146097 * n400) as d1 eqn:Ed1.
  remember (d1 / 36524 - d1 / 36524 / 4) as n100 eqn:E100.
  destruct (cut4 d1 36524 146097 n100 ltac:(lia) H0 ltac:(lia) ltac:(lia) E100) as (A1 & A2 & A3 & _).
  remember (d1 - 36524 * n100) as d2 eqn:Ed2.
  remember (d2 / 1461) as n4 eqn:E4.
  assert (B : 0 <= n4 <= 24 /\ 0 <= d2 - 1461 * n4 < 1461) by (subst n4; clear -A3; lia).
  destruct B as [B1 B].
  remember (d2 - 1461 * n4) as d3 eqn:Ed3.
  remember (d3 / 365 - d3 / 365 / 4) as n1 eqn:E1.
  destruct (cut4 d3 365 1461 n1 ltac:(lia) B ltac:(lia) ltac:(lia) E1) as (C1 & C2 & C3 & C4).
  clear E400 E100 E4 E1 H0 B.
  assert (Hdec : d = 146097 * n400 + 36524 * n100 + 1461 * n4 + 365 * n1 + yd) by lia.
  assert (B2 : n4 = 24 -> n100 < 3 -> d3 < 1460) by lia.
  assert (Hq : (y - 1) / 4 = 100 * n400 + 25 * n100 + n4) by (apply (div_step _ _ _ n1); lia).
  assert (Hq1 : (y - 1) / 100 = 4 * n400 + n100) by (apply (div_step _ _ _ (4 * n4 + n1)); lia).
  assert (Hq4 : (y - 1) / 400 = n400) by (apply (div_step _ _ _ (100 * n100 + 4 * n4 + n1)); lia).
  split.
  - unfold days_before_year. rewrite Hq, Hq1, Hq4. lia.
  - split; [lia|].
    assert (M : n1 < 3 \/ (n1 = 3 /\ n4 < 24) \/ (n1 = 3 /\ n4 = 24 /\ n100 < 3) \/ (n1 = 3 /\ n4 = 24 /\ n100 = 3)) by lia.
    unfold ylen, is_leap. destruct M as [M|[M|[M|M]]].
    + rewrite (mod_step y (100 * n400 + 25 * n100 + n4) 4 (n1 + 1)) by lia.
      replace (n1 + 1 =? 0) with false by lia. cbn [andb]. lia.
    + rewrite (mod_step y (100 * n400 + 25 * n100 + n4 + 1) 4 0) by lia.
      rewrite (mod_step y (4 * n400 + n100) 100 (4 * n4 + 4)) by lia.
      replace (4 * n4 + 4 =? 0) with false by lia. change (0 =? 0) with true; cbn [andb orb negb]. lia.
    + rewrite (mod_step y (4 * n400 + n100 + 1) 100 0) by lia.
      rewrite (mod_step y n400 400 (100 * n100 + 100)) by lia.
      replace (100 * n100 + 100 =? 0) with false by lia. change (0 =? 0) with true; cbn [andb orb negb]. rewrite andb_false_r. lia.
    + rewrite (mod_step y (100 * n400 + 100) 4 0) by lia.
      rewrite (mod_step y (4 * n400 + 4) 100 0) by lia.
      rewrite (mod_step y (n400 + 1) 400 0) by lia. change (0 =? 0) with true. cbn [andb orb negb]. lia.
Qed.

Lemma div_pred y k : 0 < k -> y / k = (y - 1) / k + (if y mod k =? 0 then 1 else 0).
Proof.
  intros Hk. pose proof (Z.div_mod y k ltac:(lia)) as E. pose proof (Z.mod_pos_bound y k Hk) as R.
  destruct (Z.eqb_spec (y mod k) 0) as [M|M].
  - assert ((y - 1) / k = y / k - 1) by (apply (div_step _ _ _ (k - 1)); lia). lia.
  - assert ((y - 1) / k = y / k) by (apply (div_step _ _ _ (y mod k - 1)); lia). lia.
Qed.
Lemma days_before_year_succ y : days_before_year (y + 1) = days_before_year y + ylen y.
Proof.
  unfold days_before_year, ylen, is_leap. replace (y + 1 - 1) with y by lia.
  assert (E4 : y / 4 = (y - 1) / 4 + (if y mod 4 =? 0 then 1 else 0)) by (apply div_pred; lia).
  assert (E100 : y / 100 = (y - 1) / 100 + (if y mod 100 =? 0 then 1 else 0)) by (apply div_pred; lia).
  assert (E400 : y / 400 = (y - 1) / 400 + (if y mod 400 =? 0 then 1 else 0)) by (apply div_pred; lia).
  rewrite E4, E100, E400.
  destruct (Z.eqb_spec (y mod 4) 0), (Z.eqb_spec (y mod 100) 0), (Z.eqb_spec (y mod 400) 0);
    cbn [andb orb negb]; lia.
Qed.

Lemma days_before_year_mono_nat k y : days_before_year y <= days_before_year (y + Z.of_nat k).
Proof.
  induction k as [|k IH]; [rewrite Z.add_0_r; lia|].
  rewrite Nat2Z.inj_succ. replace (y + Z.succ (Z.of_nat k)) with (y + Z.of_nat k + 1) by lia.
  rewrite days_before_year_succ. unfold ylen. destruct (is_leap _); lia.
Qed.
Lemma days_before_year_mono y y' : y <= y' -> days_before_year y <= days_before_year y'.
Proof. intros H. replace y' with (y + Z.of_nat (Z.to_nat (y' - y))) by lia. apply days_before_year_mono_nat. Qed.

Lemma abs_year_unique y yd : 0 <= yd < ylen y -> abs_year (days_before_year y + yd) = (y, yd).
Proof.
  intros H. destruct (abs_year (days_before_year y + yd)) as [y' yd'] eqn:E.
  apply abs_year_spec in E as [E R].
  assert (y' = y).
  { destruct (Z_lt_le_dec y' y) as [L|L].
    - pose proof (days_before_year_mono (y' + 1) y ltac:(lia)). rewrite days_before_year_succ in *. lia.
    - destruct (Z_lt_le_dec y y') as [L'|L']; [|lia].
      pose proof (days_before_year_mono (y + 1) y' ltac:(lia)). rewrite days_before_year_succ in *. lia. }
  subst. f_equal. lia.
Qed.

(** month/day within a year: finite, decided by enumeration over the 366 days. *)
Definition dim (lp : bool) (m : Z) : Z :=
  if m =? 2 then (if lp then 29 else 28)
  else if (m =? 4) || (m =? 6) || (m =? 9) || (m =? 11) then 30 else 31.
Definition doy (lp : bool) (m d : Z) : Z := days_before (m - 1) + (if lp && (3 <=? m) then 1 else 0) + (d - 1).

Definition month_ok (lp : bool) (yd : Z) : bool :=
  let '(m, d) := abs_month lp yd in
  (1 <=? m) && (m <=? 12) && (1 <=? d) && (d <=? dim lp m) && (doy lp m d =? yd).

Lemma month_sweep : forallb (fun k => month_ok true (Z.of_nat k)) (seq 0 366) = true
                 /\ forallb (fun k => month_ok false (Z.of_nat k)) (seq 0 365) = true.
Proof. split; vm_compute; reflexivity. Qed.

Lemma abs_month_spec (lp : bool) yd m d :
  0 <= yd < (if lp then 366 else 365) -> abs_month lp yd = (m, d) ->
  1 <= m <= 12 /\ 1 <= d <= dim lp m /\ doy lp m d = yd.
Proof.
  intros H E.
  assert (G : month_ok lp yd = true).
  { destruct month_sweep as [S1 S2]. rewrite forallb_forall in S1, S2.
    rewrite <- (Z2Nat.id yd) by lia.
    destruct lp; [apply S1|apply S2]; apply in_seq; lia. }
  unfold month_ok in G. rewrite E in G. lia.
Qed.

Ltac db := repeat match goal with
  | |- context [days_before ?k] => let v := eval vm_compute in (days_before k) in change (days_before k) with v
  | H : context [days_before ?k] |- _ => let v := eval vm_compute in (days_before k) in change (days_before k) with v in H
  end.
Ltac zb := cbn [Z.eqb Z.leb Z.ltb Z.compare Pos.eqb Pos.compare Pos.compare_cont andb orb] in *.
Ltac split_or H := match type of H with _ \/ _ => destruct H as [H|H]; [|split_or H] | _ => idtac end.
Lemma doy_bounds (lp : bool) m d : 1 <= m <= 12 -> 1 <= d <= dim lp m ->
  0 <= doy lp m d < (if lp then 366 else 365).
Proof.
  intros Hm Hd. unfold doy, dim in *.
  assert (M : m = 1 \/ m = 2 \/ m = 3 \/ m = 4 \/ m = 5 \/ m = 6 \/ m = 7 \/ m = 8 \/ m = 9 \/ m = 10 \/ m = 11 \/ m = 12) by lia.
  destruct lp; split_or M; subst m; db; zb; lia.
Qed.
Lemma doy_inj lp m d m' d' : 1 <= m <= 12 -> 1 <= d <= dim lp m -> 1 <= m' <= 12 -> 1 <= d' <= dim lp m' ->
  doy lp m d = doy lp m' d' -> m = m' /\ d = d'.
Proof.
  intros Hm Hd Hm' Hd' H. unfold doy, dim in *.
  assert (M : m = 1 \/ m = 2 \/ m = 3 \/ m = 4 \/ m = 5 \/ m = 6 \/ m = 7 \/ m = 8 \/ m = 9 \/ m = 10 \/ m = 11 \/ m = 12) by lia.
  assert (M' : m' = 1 \/ m' = 2 \/ m' = 3 \/ m' = 4 \/ m' = 5 \/ m' = 6 \/ m' = 7 \/ m' = 8 \/ m' = 9 \/ m' = 10 \/ m' = 11 \/ m' = 12) by lia.
  clear Hm Hm'.
  destruct lp; split_or M; subst m; split_or M'; subst m'; db; zb; lia.
Qed.

Lemma date_of_day_spec n y m d :
  date_of_day n = (y, m, d) ->
  1 <= m <= 12 /\ 1 <= d <= dim (is_leap y) m /\
  n = days_before_year y + doy (is_leap y) m d - epoch_days.
Proof.
  unfold date_of_day. destruct (abs_year (n + epoch_days)) as [y' yd] eqn:E.
  destruct (abs_month (is_leap y') yd) as [m' d'] eqn:E'. intros [= <- <- <-].
  apply abs_year_spec in E as [E R]. apply abs_month_spec in E' as (A & B & C); [|exact R].
  repeat split; try lia.
Qed.

Lemma date_of_day_unique y m d :
  1 <= m <= 12 -> 1 <= d <= dim (is_leap y) m ->
  date_of_day (days_before_year y + doy (is_leap y) m d - epoch_days) = (y, m, d).
Proof.
  intros Hm Hd. pose proof (doy_bounds _ _ _ Hm Hd) as R. unfold date_of_day.
  replace (days_before_year y + doy (is_leap y) m d - epoch_days + epoch_days)
    with (days_before_year y + doy (is_leap y) m d) by lia.
  rewrite abs_year_unique by exact R.
  destruct (abs_month (is_leap y) (doy (is_leap y) m d)) as [m' d'] eqn:E.
  apply abs_month_spec in E as (A & B & C); [|exact R].
  apply doy_inj in C; auto. destruct C as [-> ->]. reflexivity.
Qed.

Lemma dim_days_in_month y m : dim (is_leap y) m = days_in_month y m.
Proof. reflexivity. Qed.

Lemma date_of_day_calendar : is_calendar date_of_day.
Proof.
  split; [vm_compute; reflexivity|].
  intros n. destruct (date_of_day n) as [[y m] d] eqn:E.
  apply date_of_day_spec in E as (Hm & Hd & Hn). split; [exact (conj Hm Hd)|].
  unfold next_date. rewrite <- dim_days_in_month.
  destruct (Z.ltb_spec d (dim (is_leap y) m)).
  - rewrite <- (date_of_day_unique y m (d + 1)) by lia. f_equal. unfold doy in *. lia.
  - destruct (Z.ltb_spec m 12).
    + assert (D1 : 1 <= 1 <= dim (is_leap y) (m + 1)) by (unfold dim; destruct (is_leap y); repeat destruct (_ =? _); cbn; lia).
      rewrite <- (date_of_day_unique y (m + 1) 1) by (try exact D1; lia). f_equal. rewrite Hn.
      assert (d = dim (is_leap y) m) by lia. subst d. clear -Hm H0.
      enough (doy (is_leap y) m (dim (is_leap y) m) + 1 = doy (is_leap y) (m + 1) 1) by lia.
      unfold doy, dim, days_before.
      assert (M : m = 1 \/ m = 2 \/ m = 3 \/ m = 4 \/ m = 5 \/ m = 6 \/ m = 7 \/ m = 8 \/ m = 9 \/ m = 10 \/ m = 11) by lia.
      destruct (is_leap y); split_or M; subst m; reflexivity.
    + assert (m = 12) by lia. subst m.
      assert (D1 : 1 <= 1 <= dim (is_leap (y + 1)) 1) by (cbn; lia).
      rewrite <- (date_of_day_unique (y + 1) 1 1) by (try exact D1; lia). f_equal. rewrite Hn.
      rewrite days_before_year_succ. unfold ylen.
      assert (Hdd : d = 31) by (cbn in *; lia). subst d.
      unfold doy. db. destruct (is_leap y), (is_leap (y + 1)); zb; lia.
Qed.

Lemma date_of_day_inj a b : date_of_day a = date_of_day b -> a = b.
Proof.
  destruct (date_of_day a) as [[y m] d] eqn:Ea. intros Eb. symmetry in Eb.
  apply date_of_day_spec in Ea, Eb. destruct Ea as (_ & _ & ->), Eb as (_ & _ & ->). reflexivity.
Qed.

(** Only one function is the calendar. *)
Lemma calendar_unique_pos f : is_calendar f -> forall k, f (Z.of_nat k) = date_of_day (Z.of_nat k).
Proof.
  intros [H0 HS]. destruct date_of_day_calendar as [G0 GS]. induction k as [|k IH].
  - change (Z.of_nat 0) with 0. congruence.
  - rewrite Nat2Z.inj_succ. unfold Z.succ. rewrite (proj2 (HS _)), (proj2 (GS _)), IH. reflexivity.
Qed.
Lemma next_date_inj a b : valid_date a -> valid_date b -> next_date a = next_date b -> a = b.
Proof.
  intros Ha Hb H.
  assert (G : forall x, valid_date x -> x <> (fst (fst x), snd (fst x), snd x) -> False) by (intros [[? ?] ?]; simpl; tauto).
  destruct a as [[y m] d], b as [[y' m'] d']. simpl in Ha, Hb.
  rewrite <- !dim_days_in_month in Ha, Hb.
  rewrite <- (date_of_day_unique y m d) in H |- * by tauto.
  rewrite <- (date_of_day_unique y' m' d') in H |- * by tauto.
  rewrite <- !(proj2 (proj2 date_of_day_calendar _)) in H.
  apply date_of_day_inj in H. f_equal. lia.
Qed.
Lemma calendar_unique f : is_calendar f -> forall n, f n = date_of_day n.
Proof.
  intros Hf n. pose proof (calendar_unique_pos f Hf) as HP. destruct Hf as [H0 HS].
  destruct date_of_day_calendar as [G0 GS].
  assert (HN : forall k, f (- Z.of_nat k) = date_of_day (- Z.of_nat k)).
  { induction k as [|k IH].
    - change (- Z.of_nat 0) with 0. congruence.
    - apply next_date_inj; [apply HS|apply GS|].
      rewrite <- (proj2 (HS _)), <- (proj2 (GS _)). rewrite Nat2Z.inj_succ.
      replace (- Z.succ (Z.of_nat k) + 1) with (- Z.of_nat k) by lia. exact IH. }
  destruct (Z_le_gt_dec 0 n).
  - rewrite <- (Z2Nat.id n) by lia. apply HP.
  - specialize (HN (Z.to_nat (- n))). rewrite Z2Nat.id, Z.opp_involutive in HN by lia. exact HN.
Qed.

(* ------------------------------------------------------------------ formatting *)
Lemma digit_inj a b : 0 <= a < 10 -> 0 <= b < 10 -> digit a = digit b -> a = b.
Proof.
  intros Ha Hb H. unfold digit in H. apply (f_equal N_of_ascii) in H.
  rewrite !N_ascii_embedding in H by lia. lia.
Qed.
Lemma append_int4_inj a b : 0 <= a < 10000 -> 0 <= b < 10000 -> append_int4 a = append_int4 b -> a = b.
Proof.
  intros Ha Hb. unfold append_int4. rewrite !Z.abs_eq by lia.
  destruct (Z.ltb_spec a 0), (Z.ltb_spec b 0), (Z.ltb_spec a 10000), (Z.ltb_spec b 10000); try lia.
  cbn [append]. intros H'. injection H' as H4 H5 H6 H7. apply digit_inj in H4, H5, H6, H7; lia.
Qed.
Lemma append_int2_inj a b : 0 <= a < 100 -> 0 <= b < 100 -> append_int2 a = append_int2 b -> a = b.
Proof.
  intros Ha Hb. unfold append_int2. rewrite !Z.abs_eq by lia.
  destruct (Z.ltb_spec a 0), (Z.ltb_spec b 0), (Z.ltb_spec a 100), (Z.ltb_spec b 100); try lia.
  cbn [append]. intros H'. injection H' as H4 H5. apply digit_inj in H4, H5; lia.
Qed.
Lemma length_append_int4 a : 0 <= a < 10000 -> String.length (append_int4 a) = 4%nat.
Proof.
  intros Ha. unfold append_int4. rewrite !Z.abs_eq by lia.
  destruct (Z.ltb_spec a 0), (Z.ltb_spec a 10000); try lia. reflexivity.
Qed.
Lemma length_append_int2 a : 0 <= a < 100 -> String.length (append_int2 a) = 2%nat.
Proof.
  intros Ha. unfold append_int2. rewrite !Z.abs_eq by lia.
  destruct (Z.ltb_spec a 0), (Z.ltb_spec a 100); try lia. reflexivity.
Qed.

Lemma month_of_bounds t : 1 <= month_of t <= 12.
Proof. unfold month_of, date_of. destruct (date_of_day (day_of t)) as [[y m] d] eqn:E. apply date_of_day_spec in E. tauto. Qed.
Lemma mday_of_bounds t : 1 <= mday_of t <= 31.
Proof.
  unfold mday_of, date_of. destruct (date_of_day (day_of t)) as [[y m] d] eqn:E. apply date_of_day_spec in E.
  destruct E as (? & ? & _). unfold dim in *. destruct (is_leap y); repeat destruct (_ =? _); cbn in *; lia.
Qed.
Lemma hour_of_bounds t : 0 <= hour_of t < 24.
Proof. unfold hour_of, ns_day, ns_hour. lia. Qed.

(** Years of instants whose nanosecond count fits an int64. *)
Lemma year_mono n y m d Y : date_of_day n = (y, m, d) -> days_before_year Y - epoch_days <= n -> Y <= y.
Proof.
  intros E H. apply date_of_day_spec in E as (Hm & Hd & Hn).
  pose proof (doy_bounds _ _ _ Hm Hd) as R.
  destruct (Z_lt_le_dec y Y) as [L|]; auto.
  pose proof (days_before_year_mono (y + 1) Y ltac:(lia)). rewrite days_before_year_succ in *. unfold ylen in *.
  destruct (is_leap y); lia.
Qed.
Lemma year_mono_lt n y m d Y : date_of_day n = (y, m, d) -> n < days_before_year Y - epoch_days -> y < Y.
Proof.
  intros E H. apply date_of_day_spec in E as (Hm & Hd & Hn).
  pose proof (doy_bounds _ _ _ Hm Hd) as R.
  destruct (Z_lt_le_dec y Y) as [L|L]; auto.
  pose proof (days_before_year_mono Y y L). lia.
Qed.

Definition int64_range (t : Z) : Prop := - 2 ^ 63 <= t < 2 ^ 63.
Lemma year_of_int64 t : int64_range t -> 1677 <= year_of t < 2263.
Proof.
  intros H. unfold year_of, date_of. destruct (date_of_day (day_of t)) as [[y m] d] eqn:E.
  unfold int64_range in H. split.
  - eapply year_mono; [exact E|]. change (days_before_year 1677 - epoch_days) with (-107015).
    unfold day_of, ns_day, ns_hour. lia.
  - eapply year_mono_lt; [exact E|]. change (days_before_year 2263 - epoch_days) with 107016.
    unfold day_of, ns_day, ns_hour. lia.
Qed.

Definition year4 (t : Z) : Prop := 0 <= year_of t < 10000.
Lemma year4_int64 t : int64_range t -> year4 t.
Proof. intros H. apply year_of_int64 in H. unfold year4. lia. Qed.

Lemma length_format_Y t : year4 t -> String.length (format_Y t) = 4%nat.
Proof. intros H. apply length_append_int4, H. Qed.
Lemma length_format_YM t : year4 t -> String.length (format_YM t) = 6%nat.
Proof.
  intros H. unfold format_YM. rewrite length_append, length_format_Y, length_append_int2; auto.
  pose proof (month_of_bounds t). lia.
Qed.
Lemma length_format_YMD t : year4 t -> String.length (format_YMD t) = 8%nat.
Proof.
  intros H. unfold format_YMD. rewrite length_append, length_format_YM, length_append_int2; auto.
  pose proof (mday_of_bounds t). lia.
Qed.
Lemma length_format_YMDH t : year4 t -> String.length (format_YMDH t) = 10%nat.
Proof.
  intros H. unfold format_YMDH. rewrite length_append, length_format_YMD, length_append_int2; auto.
  pose proof (hour_of_bounds t). lia.
Qed.

Lemma format_Y_eq a b : year4 a -> year4 b -> (format_Y a = format_Y b <-> year_of a = year_of b).
Proof.
  intros Ha Hb. unfold format_Y. split; [apply append_int4_inj; auto|congruence].
Qed.
Lemma format_YM_eq a b : year4 a -> year4 b ->
  (format_YM a = format_YM b <-> year_of a = year_of b /\ month_of a = month_of b).
Proof.
  intros Ha Hb. unfold format_YM. split.
  - intros H. apply append_inj_len in H as [H1 H2]; [|rewrite !length_format_Y; auto].
    apply format_Y_eq in H1; auto. apply append_int2_inj in H2; auto.
    + pose proof (month_of_bounds a); lia.
    + pose proof (month_of_bounds b); lia.
  - intros [H1 H2]. rewrite H2. f_equal. apply format_Y_eq; auto.
Qed.
Lemma date_parts t : date_of t = (year_of t, month_of t, mday_of t).
Proof. unfold year_of, month_of, mday_of. destruct (date_of t) as [[? ?] ?]. reflexivity. Qed.
Lemma date_of_eq a b : date_of a = date_of b <-> day_of a = day_of b.
Proof. unfold date_of. split; [apply date_of_day_inj|congruence]. Qed.
Lemma format_YMD_eq a b : year4 a -> year4 b ->
  (format_YMD a = format_YMD b <-> day_of a = day_of b).
Proof.
  intros Ha Hb. rewrite <- date_of_eq, !date_parts. unfold format_YMD. split.
  - intros H. apply append_inj_len in H as [H1 H2]; [|rewrite !length_format_YM; auto].
    apply format_YM_eq in H1; auto. apply append_int2_inj in H2.
    + destruct H1 as [-> ->]. rewrite H2. reflexivity.
    + pose proof (mday_of_bounds a); lia.
    + pose proof (mday_of_bounds b); lia.
  - intros H. injection H as H1 H2 H3. rewrite H3. f_equal. apply format_YM_eq; auto.
Qed.
Lemma format_YMDH_eq a b : year4 a -> year4 b ->
  (format_YMDH a = format_YMDH b <-> a / ns_hour = b / ns_hour).
Proof.
  intros Ha Hb. unfold format_YMDH.
  assert (D : forall x, x / ns_hour = day_of x * 24 + hour_of x).
  { intros x. unfold day_of, hour_of, ns_day, ns_hour. lia. }
  rewrite !D. pose proof (hour_of_bounds a). pose proof (hour_of_bounds b). split.
  - intros H1. apply append_inj_len in H1 as [H1 H2]; [|rewrite !length_format_YMD; auto].
    apply format_YMD_eq in H1; auto. apply append_int2_inj in H2; lia.
  - intros H1. assert (day_of a = day_of b /\ hour_of a = hour_of b) as [H2 H3] by lia.
    rewrite H3. f_equal. apply format_YMD_eq; auto.
Qed.
