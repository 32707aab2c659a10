From Verif.Model Require Import Base Labels Calendar View Store ScanBuilder.
From Verif.Spec Require Import Gregorian Scripts.
From Verif.Proofs Require Import BaseFacts CalendarFacts ViewFacts.
Open Scope Z_scope.

(* ---------------------------------------------------------------- calendar windows *)
Lemma day_lit t : t / 86400000000000 = day_of t. Proof. symmetry. apply day_of_val. Qed.
Lemma midnight_le c D t : midnight c D <= t <-> D <= day_of (t + ck_zone c).
Proof.
  unfold midnight. pose proof ns_day_pos as P. pose proof (day_tod (t + ck_zone c)) as E. pose proof (tod (t + ck_zone c)) as B. split; intros H.
  - destruct (Z.le_gt_cases D (day_of (t + ck_zone c))) as [|G]; [assumption|exfalso].
    assert ((day_of (t + ck_zone c) + 1) * ns_day <= D * ns_day) by (apply Z.mul_le_mono_nonneg_r; lia). lia.
  - assert (D * ns_day <= day_of (t + ck_zone c) * ns_day) by (apply Z.mul_le_mono_nonneg_r; lia). lia.
Qed.
Lemma local_day_mono zone a b : a <= b -> day_of (a + zone) <= day_of (b + zone).
Proof. intros H. apply day_of_mono. lia. Qed.
Section Cal.
  Variables (f : Z -> Z * Z * Z) (c : clock) (t : Z).
  Hypothesis Cal : is_calendar f.
  Hypothesis T : t <= ck_ns c.
  Let a := day_of (t + ck_zone c).
  Let b := day_of (ck_ns c + ck_zone c).
  Lemma ab : a <= b. Proof. apply local_day_mono, T. Qed.
  Lemma local_date_a x : local_date f (ck_zone c) x = date_of (x + ck_zone c).
  Proof. unfold local_date. rewrite day_lit, (calendar_unique f Cal). reflexivity. Qed.
  Lemma today_window : beginning_of_day c <= t <-> local_date f (ck_zone c) t = local_date f (ck_zone c) (ck_ns c).
  Proof.
    rewrite !local_date_a. unfold beginning_of_day, local_day. rewrite midnight_le. pose proof ab as AB. unfold a, b in AB. split; intros H.
    - unfold date_of. f_equal. lia.
    - apply date_of_eq in H. lia.
  Qed.
  Lemma year_local x : year (local_date f (ck_zone c) x) = year_of (x + ck_zone c).
  Proof. rewrite local_date_a, date_parts. reflexivity. Qed.
  Lemma month_local x : month (local_date f (ck_zone c) x) = month_of (x + ck_zone c).
  Proof. rewrite local_date_a, date_parts. reflexivity. Qed.
  Lemma local_parts : date_of_day (local_day c) = (year_of (ck_ns c + ck_zone c), month_of (ck_ns c + ck_zone c), mday_of (ck_ns c + ck_zone c)).
  Proof. apply (date_parts (ck_ns c + ck_zone c)). Qed.
  Lemma fm_le_iff k x : fm k <= day_of x <-> k <= mi x.
  Proof.
    pose proof (mi_range x) as R. split; intros H.
    - destruct (Z.le_gt_cases k (mi x)) as [|G]; [assumption|exfalso]. pose proof (fm_le (mi x + 1) k). lia.
    - pose proof (fm_le k (mi x) H). lia.
  Qed.
  Lemma mi_mono_c : mi (t + ck_zone c) <= mi (ck_ns c + ck_zone c). Proof. apply mi_mono. lia. Qed.
  Lemma month_window : beginning_of_month c <= t <->
    year (local_date f (ck_zone c) t) = year (local_date f (ck_zone c) (ck_ns c)) /\ month (local_date f (ck_zone c) t) = month (local_date f (ck_zone c) (ck_ns c)).
  Proof.
    rewrite !year_local, !month_local. unfold beginning_of_month. rewrite local_parts. rewrite midnight_le, day_of_civil_fm.
    replace (fm (12 * year_of (ck_ns c + ck_zone c) + month_of (ck_ns c + ck_zone c) - 1) + 1 - 1) with (fm (mi (ck_ns c + ck_zone c))) by (unfold mi; lia).
    rewrite fm_le_iff, <- mi_eq. pose proof mi_mono_c. lia.
  Qed.
  Lemma year_window : beginning_of_year c <= t <-> year (local_date f (ck_zone c) t) = year (local_date f (ck_zone c) (ck_ns c)).
  Proof.
    rewrite !year_local. unfold beginning_of_year. rewrite local_parts. rewrite midnight_le, day_of_civil_fm.
    replace (fm (12 * year_of (ck_ns c + ck_zone c) + 1 - 1) + 1 - 1) with (fm (12 * year_of (ck_ns c + ck_zone c))) by (replace (12 * year_of (ck_ns c + ck_zone c) + 1 - 1) with (12 * year_of (ck_ns c + ck_zone c)) by lia; lia).
    rewrite fm_le_iff. pose proof mi_mono_c as M. unfold mi in *.
    pose proof (month_of_bounds (t + ck_zone c)). pose proof (month_of_bounds (ck_ns c + ck_zone c)). lia.
  Qed.
  Lemma week_window : beginning_of_week c <= t <-> local_week (ck_zone c) t = local_week (ck_zone c) (ck_ns c).
  Proof.
    unfold local_week. rewrite !day_lit. unfold beginning_of_week, local_day. rewrite midnight_le. pose proof ab as AB. unfold a, b in AB.
    set (x := day_of (t + ck_zone c)) in *. set (y := day_of (ck_ns c + ck_zone c)) in *. unfold weekday.
    pose proof (Z.div_mod (y - 3) 7) as E1. pose proof (Z.mod_pos_bound (y - 3) 7) as B1. pose proof (Z.div_mod (x - 3) 7) as E2. pose proof (Z.mod_pos_bound (x - 3) 7) as B2.
    assert (W : (y + 4) mod 7 = (y - 3) mod 7) by (replace (y + 4) with (y - 3 + 1 * 7) by lia; apply Z.mod_add; lia). rewrite W. lia.
  Qed.
End Cal.

(* ---------------------------------------------------------------- time stamps *)
Lemma as_time_pb t : as_time (Some (pb_of_time t)) = t.
Proof. cbn [as_time pb_of_time]. pose proof (Z.div_mod t 1000000000). lia. Qed.
Lemma as_duration_pb d : min_int64 <= d <= max_int64 -> as_duration (pb_of_duration d) = d.
Proof.
  intros H. unfold as_duration, pb_of_duration. pose proof (Z.quot_rem' d 1000000000) as E.
  replace (Z.quot d 1000000000 * 1000000000 + Z.rem d 1000000000) with d by lia. unfold clamp64. lia.
Qed.

(* ---------------------------------------------------------------- running a script *)
Lemma run_app pd s l1 l2 : run pd s (l1 ++ l2) = run pd (run pd s l1) l2.
Proof. apply fold_left_app. Qed.
Lemma last_setting_nil {A B} (f : A -> list B) : last_setting f [] = None. Proof. reflexivity. Qed.
Lemma last_setting_snoc {A B} (f : A -> list B) l x : last_setting f (l ++ [x]) = match last (map Some (f x)) None with Some b => Some b | None => last_setting f l end.
Proof.
  unfold last_setting. rewrite flat_map_app. cbn [flat_map]. rewrite app_nil_r, map_app. destruct (f x) as [|b bs]; [cbn [map last]; rewrite app_nil_r; reflexivity|].
  cbn [map]. assert (H : forall (k : list (option B)) y ys, last (k ++ y :: ys) None = last (y :: ys) None).
  { induction k as [|z k IH]; intros y ys; [reflexivity|]. cbn [app]. destruct (k ++ y :: ys) eqn:E; [destruct k; discriminate|]. change (last (z :: o :: l0) None) with (last (o :: l0) None). rewrite <- E. apply IH. }
  rewrite H. destruct (last (Some b :: map Some bs) None) eqn:E; [reflexivity|]. exfalso. revert E. clear. revert b. induction bs as [|b' bs IH]; intros b; [discriminate|]. cbn [map]. intros E. apply (IH b'). exact E.
Qed.
