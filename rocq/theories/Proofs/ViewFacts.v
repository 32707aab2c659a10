From Verif.Model Require Import Base Calendar KeySpace View.
From Verif.Spec Require Import Gregorian.
From Verif.Proofs Require Import BaseFacts CalendarFacts.
From Coq Require Import ZifyBool ZifyN.
Open Scope Z_scope.
Ltac Zify.zify_post_hook ::= idtac.

(* ------------------------------------------------------------------ strings *)
Lemma substring_all n s : (String.length s <= n)%nat -> substring 0 n s = s.
Proof.
  revert n. induction s as [|c s IH]; intros [|n] H; cbn in *; try reflexivity; try lia.
  rewrite IH by lia. reflexivity.
Qed.
Lemma substring_0_0 s : substring 0 0 s = ""%string.
Proof. destruct s; reflexivity. Qed.
Lemma substring_any_0 m s : substring m 0 s = ""%string.
Proof. revert m. induction s; intros [|m]; cbn; auto. Qed.
Lemma substring_prefix n a b : String.length a = n -> substring 0 n (append a b) = a.
Proof.
  intros <-. induction a as [|c a IH]; cbn; [apply substring_0_0|]. rewrite IH. reflexivity.
Qed.
Lemma copy_into_full dst src : String.length src = String.length dst -> copy_into dst src = src.
Proof.
  intros H. unfold copy_into. rewrite H, Nat.sub_diag, substring_any_0, append_nil_r.
  apply substring_all. lia.
Qed.
Lemma get_append_r i a b : String.get (String.length a + i) (append a b) = String.get i b.
Proof. induction a; cbn; auto. Qed.
Lemma prefix_append a b : String.prefix a (append a b) = true.
Proof.
  induction a as [|c a IH]; [destruct b; reflexivity|]. cbn [append String.prefix].
  destruct (ascii_dec c c); [exact IH|congruence].
Qed.

(* ------------------------------------------------------------------ digits are not zero bytes *)
Lemma digit_nonzero n : 0 <= n < 10 -> Ascii.eqb (digit n) zero = false.
Proof.
  intros H. apply Ascii.eqb_neq. intros E. apply (f_equal N_of_ascii) in E. unfold digit in E.
  rewrite N_ascii_embedding in E by lia. change (N_of_ascii zero) with 0%N in E. lia.
Qed.
Lemma append_int4_head a b : 0 <= a < 10000 -> byte_zero 0 (append (append_int4 a) b) = false.
Proof.
  intros Ha. unfold append_int4. rewrite Z.abs_eq by lia.
  destruct (Z.ltb_spec a 0), (Z.ltb_spec a 10000); try lia. cbn [append byte_zero String.get].
  unfold byte_zero. cbn [String.get]. apply digit_nonzero.
  split; [apply Z.div_pos; lia|apply Z.div_lt_upper_bound; lia].
Qed.
Lemma append_int2_head a b : 0 <= a < 100 -> byte_zero 0 (append (append_int2 a) b) = false.
Proof.
  intros Ha. unfold append_int2. rewrite Z.abs_eq by lia.
  destruct (Z.ltb_spec a 0), (Z.ltb_spec a 100); try lia. cbn [append].
  unfold byte_zero. cbn [String.get]. apply digit_nonzero.
  split; [apply Z.div_pos; lia|apply Z.div_lt_upper_bound; lia].
Qed.
Lemma byte_zero_append n a b : String.length a = n -> byte_zero n (append a b) = byte_zero 0 b.
Proof. intros <-. unfold byte_zero. rewrite <- (Nat.add_0_r (String.length a)), get_append_r. reflexivity. Qed.

Lemma filing_views_eq p t : String.length p = 10%nat -> year4 t -> filing_views p t = Some (std_views t).
Proof.
  intros Hp Ht. unfold filing_views, qt_set.
  rewrite copy_into_full by (rewrite Hp; apply length_format_YMDH; auto).
  pose proof (month_of_bounds t) as Bm. pose proof (mday_of_bounds t) as Bd. pose proof (hour_of_bounds t) as Bh.
  assert (Z0 : byte_zero 0 (format_YMDH t) = false).
  { unfold format_YMDH, format_YMD, format_YM, format_Y. rewrite !append_assoc. apply append_int4_head, Ht. }
  assert (Z4 : byte_zero 4 (format_YMDH t) = false).
  { unfold format_YMDH, format_YMD, format_YM. rewrite !append_assoc.
    rewrite byte_zero_append by (apply length_format_Y; auto). apply append_int2_head; lia. }
  assert (Z6 : byte_zero 6 (format_YMDH t) = false).
  { unfold format_YMDH, format_YMD. rewrite !append_assoc.
    rewrite byte_zero_append by (apply length_format_YM; auto). apply append_int2_head; lia. }
  assert (Z8 : byte_zero 8 (format_YMDH t) = false).
  { unfold format_YMDH. rewrite byte_zero_append by (apply length_format_YMD; auto).
    rewrite <- (append_nil_r (append_int2 _)). apply append_int2_head; lia. }
  unfold batch_quantum. cbn [views_buf Ascii.eqb Bool.eqb]. rewrite Z0, Z4, Z6, Z8.
  unfold std_views, view_Y, view_M, view_D, view_H. f_equal.
  repeat f_equal.
  - unfold format_YMDH, format_YMD, format_YM. rewrite !append_assoc. apply substring_prefix, length_format_Y, Ht.
  - unfold format_YMDH, format_YMD. rewrite !append_assoc. apply substring_prefix, length_format_YM, Ht.
  - unfold format_YMDH. apply substring_prefix, length_format_YMD, Ht.
  - apply substring_all. rewrite length_format_YMDH by auto. lia.
Qed.

(* ------------------------------------------------------------------ calendar arithmetic *)
Definition mi (t : Z) : Z := 12 * year_of t + month_of t - 1.
Lemma mi_eqn t : mi t = 12 * year_of t + month_of t - 1. Proof. reflexivity. Qed.
Definition fm (k : Z) : Z := days_before_year (k / 12) + doy (is_leap (k / 12)) (k mod 12 + 1) 1 - epoch_days.
Definition mlen (k : Z) : Z := dim (is_leap (k / 12)) (k mod 12 + 1).

Lemma mod12 k : 0 <= k mod 12 < 12. Proof. apply Z.mod_pos_bound; lia. Qed.
Lemma mlen_bounds k : 28 <= mlen k <= 31.
Proof. unfold mlen, dim. destruct (is_leap _); repeat destruct (_ =? _); cbn; lia. Qed.

Lemma date_of_day_fm k d : 1 <= d <= mlen k -> date_of_day (fm k + d - 1) = (k / 12, k mod 12 + 1, d).
Proof.
  intros H. rewrite <- (date_of_day_unique (k / 12) (k mod 12 + 1) d).
  - f_equal. unfold fm, doy. lia.
  - pose proof (mod12 k). lia.
  - exact H.
Qed.
Lemma fm_of_date n y m d : date_of_day n = (y, m, d) -> n = fm (12 * y + m - 1) + d - 1 /\ 1 <= d <= mlen (12 * y + m - 1) /\ 1 <= m <= 12.
Proof.
  intros H. apply date_of_day_spec in H as (Hm & Hd & Hn).
  assert (E1 : (12 * y + m - 1) / 12 = y) by (apply (div_step _ _ _ (m - 1)); lia).
  assert (E2 : (12 * y + m - 1) mod 12 = m - 1) by (apply (mod_step _ y); lia).
  unfold fm, mlen. rewrite E1, E2. replace (m - 1 + 1) with m by lia. unfold doy in *. lia.
Qed.
Lemma day_of_fm t : day_of t = fm (mi t) + mday_of t - 1.
Proof.
  pose proof (date_parts t) as H. unfold date_of in H. apply fm_of_date in H. apply H.
Qed.
Lemma mday_mlen t : 1 <= mday_of t <= mlen (mi t).
Proof. pose proof (date_parts t) as H. unfold date_of in H. apply fm_of_date in H. apply H. Qed.
Lemma fm_succ k : fm (k + 1) = fm k + mlen k.
Proof.
  pose proof (mod12 k) as B. pose proof (Z.div_mod k 12 ltac:(lia)) as E.
  destruct (Z.eq_dec (k mod 12) 11) as [C|C].
  - unfold fm, mlen. rewrite C.
    rewrite (div_step (k + 1) (k / 12 + 1) 12 0), (mod_step (k + 1) (k / 12 + 1) 12 0) by lia.
    rewrite days_before_year_succ. unfold ylen, doy. db.
    destruct (is_leap (k / 12)), (is_leap (k / 12 + 1)); cbn; lia.
  - unfold fm, mlen. rewrite (div_step (k + 1) (k / 12) 12 (k mod 12 + 1)), (mod_step (k + 1) (k / 12) 12 (k mod 12 + 1)) by lia.
    set (lp := is_leap (k / 12)). clearbody lp. set (r := k mod 12) in *. clearbody r. clear E.
    assert (M : r = 0 \/ r = 1 \/ r = 2 \/ r = 3 \/ r = 4 \/ r = 5 \/ r = 6 \/ r = 7 \/ r = 8 \/ r = 9 \/ r = 10) by lia.
    enough (doy lp (r + 1 + 1) 1 = doy lp (r + 1) 1 + dim lp (r + 1)) by lia.
    destruct lp; split_or M; subst r; reflexivity.
Qed.
Lemma fm_lt_nat n k : fm k < fm (k + 1 + Z.of_nat n).
Proof.
  induction n as [|n IH].
  - rewrite Z.add_0_r, fm_succ. pose proof (mlen_bounds k). lia.
  - replace (k + 1 + Z.of_nat (S n)) with (k + 1 + Z.of_nat n + 1) by lia.
    rewrite fm_succ. pose proof (mlen_bounds (k + 1 + Z.of_nat n)). lia.
Qed.
Lemma fm_lt a b : a < b -> fm a < fm b.
Proof. intros H. replace b with (a + 1 + Z.of_nat (Z.to_nat (b - a - 1))) by lia. apply fm_lt_nat. Qed.
Lemma fm_le a b : a <= b -> fm a <= fm b.
Proof. intros H. destruct (Z.eq_dec a b) as [->|]; [lia|]. pose proof (fm_lt a b). lia. Qed.

Lemma mi_range t : fm (mi t) <= day_of t < fm (mi t + 1).
Proof. rewrite fm_succ. pose proof (day_of_fm t). pose proof (mday_mlen t). lia. Qed.
Lemma mi_of_day a b : day_of a <= day_of b -> mi a <= mi b.
Proof.
  intros H. destruct (Z_lt_le_dec (mi b) (mi a)) as [L|]; auto.
  pose proof (mi_range a). pose proof (mi_range b). pose proof (fm_le (mi b + 1) (mi a)). lia.
Qed.
Lemma day_of_mono a b : a <= b -> day_of a <= day_of b.
Proof. intros H. apply Z.div_le_mono; [reflexivity|exact H]. Qed.
Lemma mi_mono a b : a <= b -> mi a <= mi b.
Proof. intros H. apply mi_of_day, day_of_mono, H. Qed.
Lemma mi_lt_day a b : mi a < mi b -> day_of a < day_of b.
Proof. intros H. destruct (Z_lt_le_dec (day_of a) (day_of b)); auto. pose proof (mi_of_day b a). lia. Qed.
Lemma year_of_mi t : year_of t = mi t / 12.
Proof. pose proof (month_of_bounds t). symmetry. apply (div_step _ _ _ (month_of t - 1)); unfold mi; lia. Qed.
Lemma month_of_mi t : month_of t = mi t mod 12 + 1.
Proof. pose proof (month_of_bounds t). rewrite (mod_step (mi t) (year_of t) 12 (month_of t - 1)); unfold mi; lia. Qed.
Lemma mi_eq a b : mi a = mi b <-> year_of a = year_of b /\ month_of a = month_of b.
Proof.
  split.
  - intros H. rewrite !year_of_mi, !month_of_mi, H. auto.
  - intros [H1 H2]. unfold mi. lia.
Qed.
Lemma year_mono_t a b : a <= b -> year_of a <= year_of b.
Proof. intros H. rewrite !year_of_mi. apply Z.div_le_mono; [lia|]. apply mi_mono, H. Qed.
Lemma year_lt_day a b : year_of a < year_of b -> day_of a < day_of b.
Proof.
  intros H. apply mi_lt_day. rewrite !year_of_mi in H.
  destruct (Z_lt_le_dec (mi a) (mi b)); auto.
  pose proof (Z.div_le_mono (mi b) (mi a) 12 ltac:(lia) ltac:(lia)). lia.
Qed.

Lemma day_of_civil_fm y m d : day_of_civil y m d = fm (12 * y + m - 1) + d - 1.
Proof.
  unfold day_of_civil, fm.
  assert (E1 : (12 * y + m - 1) / 12 = y + (m - 1) / 12).
  { replace (12 * y + m - 1) with (m - 1 + y * 12) by lia. rewrite Z.div_add by lia. lia. }
  assert (E2 : (12 * y + m - 1) mod 12 = (m - 1) mod 12).
  { replace (12 * y + m - 1) with (m - 1 + y * 12) by lia. rewrite Z.mod_add by lia. lia. }
  rewrite E1, E2. unfold doy. replace ((m - 1) mod 12 + 1 - 1) with ((m - 1) mod 12) by lia.
  replace (3 <=? (m - 1) mod 12 + 1) with (2 <=? (m - 1) mod 12) by lia. lia.
Qed.
Lemma ns_day_pos : 0 < ns_day. Proof. reflexivity. Qed.
Lemma ns_hour_pos : 0 < ns_hour. Proof. reflexivity. Qed.
Lemma ns_day_hours : ns_day = 24 * ns_hour. Proof. reflexivity. Qed.
Lemma ns_hour_nz : ns_hour <> 0. Proof. discriminate. Qed.
Lemma ns_day_nz : ns_day <> 0. Proof. discriminate. Qed.
Lemma ns_hour_val : ns_hour = 3600000000000. Proof. reflexivity. Qed.
Lemma ns_day_val : ns_day = 86400000000000. Proof. reflexivity. Qed.
Lemma date_of_div t : date_of t = date_of_day (t / 86400000000000).
Proof. unfold date_of, day_of. rewrite ns_day_val. reflexivity. Qed.
Lemma day_of_val t : day_of t = t / 86400000000000.
Proof. unfold day_of. rewrite ns_day_val. reflexivity. Qed.
#[local] Opaque ns_day ns_hour.
Lemma tod t : 0 <= t mod ns_day < ns_day. Proof. apply Z.mod_pos_bound, ns_day_pos. Qed.
Lemma day_tod t : t = day_of t * ns_day + t mod ns_day.
Proof. unfold day_of. pose proof (Z.div_mod t ns_day ns_day_nz). lia. Qed.
Lemma day_of_make D r : 0 <= r < ns_day -> day_of (D * ns_day + r) = D.
Proof. intros H. apply (div_step _ _ _ r); [apply ns_day_pos|lia|exact H]. Qed.

Lemma add_date_fm t dy dm dd :
  add_date t dy dm dd = (fm (mi t + 12 * dy + dm) + mday_of t + dd - 1) * ns_day + t mod ns_day.
Proof.
  unfold add_date. rewrite date_parts, day_of_civil_fm. f_equal. f_equal.
  replace (12 * (year_of t + dy) + (month_of t + dm) - 1) with (mi t + 12 * dy + dm) by (unfold mi; lia). lia.
Qed.
Lemma day_of_add_date t dy dm dd : day_of (add_date t dy dm dd) = fm (mi t + 12 * dy + dm) + mday_of t + dd - 1.
Proof. rewrite add_date_fm, day_of_make by apply tod. reflexivity. Qed.
Lemma add_date_day t : add_date t 0 0 1 = t + ns_day.
Proof.
  rewrite add_date_fm. pose proof (day_of_fm t). pose proof (day_tod t).
  replace (fm (mi t + 12 * 0 + 0) + mday_of t + 1 - 1) with (day_of t + 1)
    by (replace (mi t + 12 * 0 + 0) with (mi t) by lia; lia).
  rewrite Z.mul_add_distr_r, Z.mul_1_l. lia.
Qed.
Lemma date_of_make k d r : 1 <= d <= mlen k -> 0 <= r < ns_day ->
  date_of ((fm k + d - 1) * ns_day + r) = (k / 12, k mod 12 + 1, d).
Proof. intros Hd Hr. unfold date_of. rewrite day_of_make by auto. apply date_of_day_fm, Hd. Qed.
Lemma mi_date t k d : date_of t = (k / 12, k mod 12 + 1, d) -> mi t = k /\ mday_of t = d.
Proof.
  intros H. rewrite date_parts in H. apply pair_inj in H as [H H3]. apply pair_inj in H as [H1 H2].
  split; auto. unfold mi. pose proof (Z.div_mod k 12). lia.
Qed.

Lemma add_month_spec t : mi (add_month t) = mi t + 1 /\ mday_of (add_month t) <= 28 /\ t + ns_hour <= add_month t.
Proof.
  pose proof (mday_mlen t) as Hd. pose proof (day_of_fm t) as HD. pose proof (tod t) as Ht.
  pose proof (mlen_bounds (mi t + 1)) as HM. pose proof (fm_succ (mi t)) as HS.
  unfold add_month. destruct (Z.ltb_spec 28 (mday_of t)) as [L|L].
  - rewrite day_of_civil_fm.
    replace (12 * year_of t + month_of t - 1) with (mi t) by (unfold mi; lia).
    set (r := hour_of t * ns_hour).
    assert (Hr : 0 <= r < ns_day /\ r <= t mod ns_day < r + ns_hour).
    { unfold r, hour_of. pose proof (Z.div_mod (t mod ns_day) ns_hour ns_hour_nz) as E.
      pose proof (Z.mod_pos_bound (t mod ns_day) ns_hour ns_hour_pos) as F.
      pose proof (Z.div_pos (t mod ns_day) ns_hour). nia. }
    set (t' := (fm (mi t) + 1 - 1) * ns_day + r).
    assert (D : date_of t' = (mi t / 12, mi t mod 12 + 1, 1)).
    { apply date_of_make; [pose proof (mlen_bounds (mi t)); lia|apply Hr]. }
    apply mi_date in D as [D1 D2].
    assert (D3 : t' mod ns_day = r).
    { apply (mod_step _ (fm (mi t) + 1 - 1)); [apply ns_day_pos|unfold t'; apply (f_equal (fun z => z + r)), Z.mul_comm|apply Hr]. }
    rewrite add_date_fm, D1, D2, D3.
    replace (mi t + 12 * 0 + 1) with (mi t + 1) by lia. replace (1 + 0 - 1) with (1 - 1) by lia.
    replace (fm (mi t + 1) + 1 + 0 - 1) with (fm (mi t + 1) + 1 - 1) by lia.
    assert (E : date_of ((fm (mi t + 1) + 1 - 1) * ns_day + r) = ((mi t + 1) / 12, (mi t + 1) mod 12 + 1, 1)).
    { apply date_of_make; [lia|apply Hr]. }
    apply mi_date in E as [E1 E2]. rewrite E1, E2. split; [reflexivity|split; [lia|]].
    rewrite (day_tod t) at 1. rewrite HD, HS.
    pose proof ns_day_hours. pose proof ns_hour_pos. nia.
  - rewrite add_date_fm. replace (mi t + 12 * 0 + 1) with (mi t + 1) by lia.
    replace (fm (mi t + 1) + mday_of t + 0 - 1) with (fm (mi t + 1) + mday_of t - 1) by lia.
    assert (E : date_of ((fm (mi t + 1) + mday_of t - 1) * ns_day + t mod ns_day) = ((mi t + 1) / 12, (mi t + 1) mod 12 + 1, mday_of t)).
    { apply date_of_make; [lia|apply tod]. }
    apply mi_date in E as [E1 E2]. rewrite E1, E2. split; [reflexivity|split; [lia|]].
    rewrite (day_tod t) at 1. rewrite HD, HS.
    pose proof ns_day_hours. pose proof ns_hour_pos. pose proof (mlen_bounds (mi t)). nia.
Qed.

Lemma add_year_spec t : year_of (add_date t 1 0 0) = year_of t + 1 /\ t + ns_hour <= add_date t 1 0 0.
Proof.
  pose proof (mday_mlen t) as Hd. pose proof (mlen_bounds (mi t + 12)) as HM.
  assert (Y : year_of (add_date t 1 0 0) = year_of t + 1).
  { rewrite add_date_fm. replace (mi t + 12 * 1 + 0) with (mi t + 12) by lia.
    replace (fm (mi t + 12) + mday_of t + 0 - 1) with (fm (mi t + 12) + mday_of t - 1) by lia.
    assert (K : (mi t + 12) / 12 = mi t / 12 + 1) by (replace (mi t + 12) with (mi t + 1 * 12) by lia; apply Z.div_add; lia).
    assert (K2 : (mi t + 12) mod 12 = mi t mod 12) by (replace (mi t + 12) with (mi t + 1 * 12) by lia; apply Z.mod_add; lia).
    destruct (Z_le_gt_dec (mday_of t) (mlen (mi t + 12))) as [L|L].
    - unfold year_of at 1. rewrite date_of_make by (try apply tod; lia). rewrite K, <- year_of_mi. reflexivity.
    - assert (M : mi t mod 12 = 1 /\ mday_of t = mlen (mi t + 12) + 1).
      { revert L Hd. unfold mlen. rewrite K, K2. unfold dim. pose proof (mod12 (mi t)).
        destruct (Z.eqb_spec (mi t mod 12 + 1) 2); [|destruct (_ || _ || _ || _); lia].
        destruct (is_leap (mi t / 12)), (is_leap (mi t / 12 + 1)); lia. }
      destruct M as [M1 M2]. rewrite M2.
      replace (fm (mi t + 12) + (mlen (mi t + 12) + 1) - 1) with (fm (mi t + 12 + 1) + 1 - 1) by (rewrite fm_succ; lia).
      unfold year_of at 1. rewrite date_of_make; [|pose proof (mlen_bounds (mi t + 12 + 1)); lia|apply tod].
      rewrite year_of_mi. apply (div_step _ _ _ 2); pose proof (Z.div_mod (mi t) 12); lia. }
  split; [exact Y|].
  assert (D : day_of t < day_of (add_date t 1 0 0)) by (apply year_lt_day; lia).
  rewrite (day_tod t) at 1. rewrite day_of_add_date in D. rewrite add_date_fm.
  pose proof ns_day_hours. pose proof ns_hour_pos. nia.
Qed.

Lemma next_day_gte_spec t e : next_day_gte t e = (day_of t <? day_of e).
Proof.
  unfold next_day_gte. rewrite add_date_day.
  assert (D : day_of (t + ns_day) = day_of t + 1).
  { rewrite (day_tod t) at 1. replace (day_of t * ns_day + t mod ns_day + ns_day) with ((day_of t + 1) * ns_day + t mod ns_day) by (rewrite Z.mul_add_distr_r; lia).
    apply day_of_make, tod. }
  assert (E : ((year_of (t + ns_day) =? year_of e) && (month_of (t + ns_day) =? month_of e) && (mday_of (t + ns_day) =? mday_of e))
     = (day_of (t + ns_day) =? day_of e)).
  { destruct (Z.eqb_spec (day_of (t + ns_day)) (day_of e)) as [H|H].
    - apply date_of_eq in H. rewrite !date_parts in H. apply pair_inj in H as [H H3]. apply pair_inj in H as [H1 H2].
      rewrite H1, H2, H3, !Z.eqb_refl. reflexivity.
    - apply not_true_is_false. intros C. apply H, date_of_eq. rewrite !date_parts. f_equal; [f_equal|]; lia. }
  rewrite E, D. pose proof (day_of_mono (t + ns_day + 1) e). pose proof (day_of_mono e (t + ns_day)).
  pose proof (day_of_mono (t + ns_day) (t + ns_day + 1)).
  destruct (Z.eqb_spec (day_of t + 1) (day_of e)), (Z.ltb_spec (t + ns_day) e), (Z.ltb_spec (day_of t) (day_of e)); cbn; try reflexivity; lia.
Qed.
Lemma next_year_gte_spec t e : next_year_gte t e = (year_of t <? year_of e).
Proof.
  unfold next_year_gte. destruct (add_year_spec t) as [Y _]. set (n := add_date t 1 0 0) in *. clearbody n.
  pose proof (year_mono_t n e). pose proof (year_mono_t e n).
  destruct (Z.eqb_spec (year_of n) (year_of e)), (Z.ltb_spec n e), (Z.ltb_spec (year_of t) (year_of e)); cbn; try reflexivity; lia.
Qed.
Lemma next_month_mi t : mi t + 1 <= mi (add_date t 0 1 0) /\ (mday_of t <= 28 -> mi (add_date t 0 1 0) = mi t + 1).
Proof.
  pose proof (mday_mlen t) as Hd. pose proof (mlen_bounds (mi t + 1)) as HM.
  rewrite add_date_fm. replace (mi t + 12 * 0 + 1) with (mi t + 1) by lia.
  replace (fm (mi t + 1) + mday_of t + 0 - 1) with (fm (mi t + 1) + mday_of t - 1) by lia.
  set (n := (fm (mi t + 1) + mday_of t - 1) * ns_day + t mod ns_day).
  assert (D : day_of n = fm (mi t + 1) + mday_of t - 1) by (apply day_of_make, tod).
  split.
  - destruct (Z_lt_le_dec (mi n) (mi t + 1)) as [L|]; auto.
    pose proof (mi_range n). pose proof (fm_le (mi n + 1) (mi t + 1)). lia.
  - intros L. apply (fun H => proj1 (mi_date n (mi t + 1) (mday_of t) H)).
    apply date_of_make; [lia|apply tod].
Qed.
Lemma next_month_gte_true t e : next_month_gte t e = true -> mi t < mi e.
Proof.
  unfold next_month_gte. destruct (next_month_mi t) as [M _]. set (n := add_date t 0 1 0) in *. clearbody n.
  intros H. apply orb_true_iff in H as [H|H].
  - assert (mi n = mi e) by (apply mi_eq; lia). lia.
  - pose proof (mi_mono n e). lia.
Qed.
Lemma next_month_gte_28 t e : mday_of t <= 28 -> mi t < mi e -> next_month_gte t e = true.
Proof.
  intros L H. unfold next_month_gte. destruct (next_month_mi t) as [_ M]. specialize (M L).
  set (n := add_date t 0 1 0) in *. clearbody n.
  destruct (Z.eq_dec (mi n) (mi e)) as [E|E].
  - apply mi_eq in E as [E1 E2]. rewrite E1, E2, !Z.eqb_refl. reflexivity.
  - apply orb_true_iff. right. destruct (Z.ltb_spec n e) as [|G]; auto. pose proof (mi_mono e n). lia.
Qed.

(* ------------------------------------------------------------------ the walk *)
Lemma walk_total step fuel t e :
  (forall t v t', step t e = Some (v, t') -> t + ns_hour <= t') ->
  (Z.to_nat ((e - t) / ns_hour + 1) <= fuel)%nat ->
  exists vs t', walk step fuel t e = Some (vs, t') /\ t <= t'.
Proof.
  intros Hs. revert t. induction fuel as [|fuel IH]; intros t Hf; cbn [walk].
  - destruct (Z.ltb_spec t e) as [L|L]; [|exists [], t; split; [reflexivity|lia]].
    exfalso. pose proof (Z.div_pos (e - t) ns_hour ltac:(lia) ns_hour_pos). lia.
  - destruct (Z.ltb_spec t e) as [L|L]; [|exists [], t; split; [reflexivity|lia]].
    destruct (step t e) as [[v t']|] eqn:E; [|exists [], t; split; [reflexivity|lia]].
    apply Hs in E. destruct (IH t') as (vs & t'' & W & G).
    { pose proof (Z.div_le_mono (e - t') (e - t - 1 * ns_hour) ns_hour ns_hour_pos ltac:(lia)) as D.
      replace (e - t - 1 * ns_hour) with (e - t + (-1) * ns_hour) in D by lia. rewrite Z.div_add in D by apply ns_hour_nz. lia. }
    rewrite W. exists (v :: vs), t''. split; auto. pose proof ns_hour_pos. lia.
Qed.

Section UnitWalk.
  Variables (u : Z -> Z) (vw : Z -> string) (P : Z -> Prop) (e : Z).
  Variable step : Z -> Z -> option (string * Z).
  Hypothesis vw_ext : forall a b, u a = u b -> vw a = vw b.
  Hypothesis step_some : forall t v t', step t e = Some (v, t') -> v = vw t /\ u t' = u t + 1 /\ u t < u e /\ P t'.
  (** The walk emits exactly the units from that of its start up to where it stops. *)
  Lemma walk_units fuel : forall t vs t', walk step fuel t e = Some (vs, t') ->
    (forall v, In v vs <-> exists x, u t <= u x < u t' /\ v = vw x) /\ u t <= u t' <= Z.max (u t) (u e) /\
    (P t -> P t' /\ (t' < e -> step t' e = None)).
  Proof.
    induction fuel as [|fuel IH]; intros t vs t' W; cbn [walk] in W.
    - destruct (Z.ltb_spec t e) as [L|L].
      + destruct (step t e) as [[v t1]|] eqn:E; [discriminate|]. apply some_inj, pair_inj in W as [<- <-].
        split; [|split; [lia|auto]]. intros v. split; [intros []|intros (x & Hx & _); lia].
      + apply some_inj, pair_inj in W as [<- <-].
        split; [|split; [lia|split; auto; lia]]. intros v. split; [intros []|intros (x & Hx & _); lia].
    - destruct (Z.ltb_spec t e) as [L|L].
      + destruct (step t e) as [[v t1]|] eqn:E.
        * destruct (walk step fuel t1 e) as [[vs1 t2]|] eqn:W1; [|discriminate].
          apply some_inj, pair_inj in W as [<- <-].
          apply step_some in E as (-> & E2 & E3 & E4). apply IH in W1 as (I1 & I2 & I3).
          split; [|split; [lia|intros _; auto]]. intros w. cbn [In]. rewrite I1. split.
          -- intros [<-|(x & Hx & ->)]; [exists t; split; auto; lia|exists x; split; auto; lia].
          -- intros (x & Hx & ->). destruct (Z.eq_dec (u x) (u t)) as [Q|Q].
             ++ left. apply vw_ext; auto.
             ++ right. exists x. split; auto; lia.
        * apply some_inj, pair_inj in W as [<- <-].
          split; [|split; [lia|auto]]. intros v. split; [intros []|intros (x & Hx & _); lia].
      + apply some_inj, pair_inj in W as [<- <-].
        split; [|split; [lia|split; auto; lia]]. intros v. split; [intros []|intros (x & Hx & _); lia].
  Qed.
End UnitWalk.

(** Steps of each quantum. *)
Lemma up_step_adv q t e v t' : up_step q t e = Some (v, t') -> t + ns_hour <= t'.
Proof.
  unfold up_step. pose proof ns_day_hours. pose proof ns_hour_pos.
  repeat match goal with |- context [if ?b then _ else _] => destruct b end; intros E; try discriminate;
   apply some_inj, pair_inj in E as [_ <-].
  - lia.
  - rewrite add_date_day. lia.
  - apply add_month_spec.
Qed.
Lemma down_step_adv q t e v t' : down_step q t e = Some (v, t') -> t + ns_hour <= t'.
Proof.
  unfold down_step. pose proof ns_day_hours. pose proof ns_hour_pos.
  repeat match goal with |- context [if ?b then _ else _] => destruct b end; intros E; try discriminate;
   apply some_inj, pair_inj in E as [_ <-].
  - apply add_year_spec.
  - apply add_month_spec.
  - rewrite add_date_day. lia.
  - lia.
Qed.

Lemma views_split s e q : exists a t b t',
  (if has_hour q || has_day q || has_month q then walk (up_step q) (range_fuel s e) s e else Some ([], s)) = Some (a, t)
  /\ walk (down_step q) (range_fuel s e) t e = Some (b, t')
  /\ views_by_time_range (range_fuel s e) s e q = Some (app a b).
Proof.
  assert (A : exists a t, (if has_hour q || has_day q || has_month q then walk (up_step q) (range_fuel s e) s e else Some ([], s)) = Some (a, t) /\ s <= t).
  { destruct (has_hour q || has_day q || has_month q).
    - apply (walk_total (up_step q) (range_fuel s e) s e (fun t v t' => up_step_adv q t e v t')). unfold range_fuel. lia.
    - exists [], s. split; auto; lia. }
  destruct A as (a & t & A & L).
  destruct (walk_total (down_step q) (range_fuel s e) t e (fun t v t' => down_step_adv q t e v t')) as (b & t' & B & _).
  { assert ((e - t) / ns_hour <= (e - s) / ns_hour) by (apply Z.div_le_mono; [apply ns_hour_pos|lia]).
    unfold range_fuel. lia. }
  { exists a, t, b, t'. split; auto. split; auto. unfold views_by_time_range. rewrite A, B. reflexivity. }
Qed.
Lemma search_total s e : exists vs, search s e = Some vs.
Proof. destruct (views_split s e (choose_quantum (time_sub e s))) as (a & t & b & t' & _ & _ & H). unfold search. rewrite H. eauto. Qed.

Lemma view_D_ext a b : day_of a = day_of b -> view_D a = view_D b.
Proof.
  intros H. unfold view_D, format_YMD, format_YM, format_Y, year_of, month_of, mday_of.
  apply date_of_eq in H. rewrite H. reflexivity.
Qed.
Lemma view_M_ext a b : mi a = mi b -> view_M a = view_M b.
Proof. intros H. apply mi_eq in H as [H1 H2]. unfold view_M, format_YM, format_Y. rewrite H1, H2. reflexivity. Qed.
Lemma view_Y_ext a b : year_of a = year_of b -> view_Y a = view_Y b.
Proof. intros H. unfold view_Y, format_Y. rewrite H. reflexivity. Qed.

Lemma up_step_D t e v t' : up_step QD t e = Some (v, t') -> v = view_D t /\ day_of t' = day_of t + 1 /\ day_of t < day_of e /\ True.
Proof.
  unfold up_step. cbn [has_hour has_day has_month andb].
  destruct (next_month_gte t e) eqn:N; cbn [negb]; [|discriminate]. destruct (mday_of t =? 1); cbn [negb]; [discriminate|].
  intros E. apply some_inj, pair_inj in E as [<- <-]. split; auto.
  rewrite day_of_add_date. replace (mi t + 12 * 0 + 0) with (mi t) by lia. pose proof (day_of_fm t).
  apply next_month_gte_true in N. apply mi_lt_day in N. lia.
Qed.
Lemma down_step_D t e v t' : down_step QD t e = Some (v, t') -> v = view_D t /\ day_of t' = day_of t + 1 /\ day_of t < day_of e /\ True.
Proof.
  unfold down_step. cbn [has_hour has_day has_month has_year andb]. rewrite next_day_gte_spec.
  destruct (Z.ltb_spec (day_of t) (day_of e)); [|discriminate].
  intros E. apply some_inj, pair_inj in E as [<- <-]. split; auto.
  rewrite day_of_add_date. replace (mi t + 12 * 0 + 0) with (mi t) by lia. pose proof (day_of_fm t). lia.
Qed.
Lemma down_step_D_none t e : down_step QD t e = None -> day_of e <= day_of t.
Proof.
  unfold down_step. cbn [has_hour has_day has_month has_year andb]. rewrite next_day_gte_spec.
  destruct (Z.ltb_spec (day_of t) (day_of e)); [discriminate|auto].
Qed.
Lemma up_step_M t e v t' : up_step QM t e = Some (v, t') -> v = view_M t /\ mi t' = mi t + 1 /\ mi t < mi e /\ mday_of t' <= 28.
Proof.
  unfold up_step. cbn [has_hour has_day has_month andb]. rewrite next_year_gte_spec.
  destruct (Z.ltb_spec (year_of t) (year_of e)) as [N|]; cbn [negb]; [|discriminate].
  destruct (month_of t =? 1); cbn [negb]; [discriminate|].
  intros E. apply some_inj, pair_inj in E as [<- <-]. split; auto.
  destruct (add_month_spec t) as (A & B & _). split; [auto|split; [|auto]].
  rewrite !year_of_mi in N. destruct (Z_lt_le_dec (mi t) (mi e)); auto.
  pose proof (Z.div_le_mono (mi e) (mi t) 12). lia.
Qed.
Lemma down_step_M t e v t' : down_step QM t e = Some (v, t') -> v = view_M t /\ mi t' = mi t + 1 /\ mi t < mi e /\ mday_of t' <= 28.
Proof.
  unfold down_step. cbn [has_hour has_day has_month has_year andb].
  destruct (next_month_gte t e) eqn:N; [|discriminate].
  intros E. apply some_inj, pair_inj in E as [<- <-]. split; auto.
  destruct (add_month_spec t) as (A & B & _). apply next_month_gte_true in N. auto.
Qed.
Lemma down_step_M_none t e : mday_of t <= 28 -> down_step QM t e = None -> mi e <= mi t.
Proof.
  unfold down_step. cbn [has_hour has_day has_month has_year andb]. intros H E.
  destruct (Z_lt_le_dec (mi t) (mi e)) as [L|]; auto. rewrite next_month_gte_28 in E by auto. discriminate.
Qed.
Lemma down_step_Y t e v t' : down_step QY t e = Some (v, t') -> v = view_Y t /\ year_of t' = year_of t + 1 /\ year_of t < year_of e /\ True.
Proof.
  unfold down_step. cbn [has_hour has_day has_month has_year andb]. rewrite next_year_gte_spec.
  destruct (Z.ltb_spec (year_of t) (year_of e)) as [N|]; [|discriminate].
  intros E. apply some_inj, pair_inj in E as [<- <-]. split; auto.
  destruct (add_year_spec t). auto.
Qed.
Lemma down_step_Y_none t e : down_step QY t e = None -> year_of e <= year_of t.
Proof.
  unfold down_step. cbn [has_hour has_day has_month has_year andb]. rewrite next_year_gte_spec.
  destruct (Z.ltb_spec (year_of t) (year_of e)) as [N|]; [discriminate|auto].
Qed.

Lemma range_D s e vs : views_by_time_range (range_fuel s e) s e QD = Some vs ->
  forall v, In v vs <-> exists t, day_of s <= day_of t < day_of e /\ v = view_D t.
Proof.
  destruct (views_split s e QD) as (a & t & b & t' & A & B & V). rewrite V. intros H. apply some_inj in H as <-.
  cbn [has_hour has_day has_month orb] in A.
  apply (walk_units day_of view_D (fun _ => True) e (up_step QD) view_D_ext (fun t v t' => up_step_D t e v t')) in A as (A1 & A2 & _).
  apply (walk_units day_of view_D (fun _ => True) e (down_step QD) view_D_ext (fun t v t' => down_step_D t e v t')) in B as (B1 & B2 & B3).
  assert (F : day_of e <= day_of t').
  { destruct (Z_lt_le_dec t' e) as [L|L]; [|apply day_of_mono; auto]. apply down_step_D_none, B3; auto. }
  intros v. rewrite in_app_iff, A1, B1. split.
  - intros [(x & Hx & ->)|(x & Hx & ->)]; exists x; split; auto; lia.
  - intros (x & Hx & ->). destruct (Z_lt_le_dec (day_of x) (day_of t)); [left|right]; exists x; split; auto; lia.
Qed.
Lemma range_Y s e vs : views_by_time_range (range_fuel s e) s e QY = Some vs ->
  forall v, In v vs <-> exists t, year_of s <= year_of t < year_of e /\ v = view_Y t.
Proof.
  destruct (views_split s e QY) as (a & t & b & t' & A & B & V). rewrite V. intros H. apply some_inj in H as <-.
  cbn [has_hour has_day has_month orb] in A. apply some_inj, pair_inj in A as [<- <-].
  apply (walk_units year_of view_Y (fun _ => True) e (down_step QY) view_Y_ext (fun t v t' => down_step_Y t e v t')) in B as (B1 & B2 & B3).
  assert (F : year_of e <= year_of t').
  { destruct (Z_lt_le_dec t' e) as [L|L]; [|apply year_mono_t; auto]. apply down_step_Y_none, B3; auto. }
  intros v. cbn [app]. rewrite B1. split; intros (x & Hx & ->); exists x; split; auto; lia.
Qed.
Lemma range_M s e vs : views_by_time_range (range_fuel s e) s e QM = Some vs ->
  exists m, (forall v, In v vs <-> exists t, mi s <= mi t < m /\ v = view_M t) /\ m <= Z.max (mi s) (mi e) /\
    (mday_of s <= 28 -> mi e <= m).
Proof.
  destruct (views_split s e QM) as (a & t & b & t' & A & B & V). rewrite V. intros H. apply some_inj in H as <-.
  cbn [has_hour has_day has_month orb] in A.
  apply (walk_units mi view_M (fun t => mday_of t <= 28) e (up_step QM) view_M_ext (fun t v t' => up_step_M t e v t')) in A as (A1 & A2 & A3).
  apply (walk_units mi view_M (fun t => mday_of t <= 28) e (down_step QM) view_M_ext (fun t v t' => down_step_M t e v t')) in B as (B1 & B2 & B3).
  exists (mi t'). split; [|split].
  - intros v. rewrite in_app_iff, A1, B1. split.
    + intros [(x & Hx & ->)|(x & Hx & ->)]; exists x; split; auto; lia.
    + intros (x & Hx & ->). destruct (Z_lt_le_dec (mi x) (mi t)); [left|right]; exists x; split; auto; lia.
  - lia.
  - intros P. apply A3 in P as [P _]. apply B3 in P as [P Q].
    destruct (Z_lt_le_dec t' e) as [L|L]; [|apply mi_mono; auto]. apply down_step_M_none; auto.
Qed.

(** months, from any day *)
Lemma next_month_over t : mlen (mi t + 1) < mday_of t -> mi (add_date t 0 1 0) = mi t + 2.
Proof.
  intros L. pose proof (mday_mlen t) as Hd. pose proof (mlen_bounds (mi t)) as HT. pose proof (mlen_bounds (mi t + 1)) as HM. pose proof (mlen_bounds (mi t + 2)) as HN.
  rewrite add_date_fm. replace (mi t + 12 * 0 + 1) with (mi t + 1) by lia.
  replace (fm (mi t + 1) + mday_of t + 0 - 1) with (fm (mi t + 2) + (mday_of t - mlen (mi t + 1)) - 1)
    by (replace (mi t + 2) with (mi t + 1 + 1) by lia; rewrite fm_succ; lia).
  match goal with |- mi ?n = _ => apply (fun H => proj1 (mi_date n (mi t + 2) (mday_of t - mlen (mi t + 1)) H)) end.
  apply date_of_make; [lia|apply tod].
Qed.
Lemma next_month_fits t : mday_of t <= mlen (mi t + 1) -> mi (add_date t 0 1 0) = mi t + 1.
Proof.
  intros L. pose proof (mday_mlen t) as Hd.
  rewrite add_date_fm. replace (mi t + 12 * 0 + 1) with (mi t + 1) by lia.
  replace (fm (mi t + 1) + mday_of t + 0 - 1) with (fm (mi t + 1) + mday_of t - 1) by lia.
  match goal with |- mi ?n = _ => apply (fun H => proj1 (mi_date n (mi t + 1) (mday_of t) H)) end.
  apply date_of_make; [lia|apply tod].
Qed.
Lemma next_month_gte_mi t e : next_month_gte t e = (mi (add_date t 0 1 0) <=? mi e).
Proof.
  unfold next_month_gte. set (n := add_date t 0 1 0). clearbody n.
  destruct (Z.leb_spec (mi n) (mi e)) as [L|L].
  - destruct (Z.eq_dec (mi n) (mi e)) as [E|E].
    + apply mi_eq in E as [E1 E2]. rewrite E1, E2, !Z.eqb_refl. reflexivity.
    + apply orb_true_iff. right. destruct (Z.ltb_spec n e) as [|G]; auto. pose proof (mi_mono e n). lia.
  - apply orb_false_iff. split.
    + apply not_true_is_false. intros H. assert (mi n = mi e) by (apply mi_eq; lia). lia.
    + destruct (Z.ltb_spec n e) as [G|]; auto. pose proof (mi_mono n e). lia.
Qed.
(** The window ends in the month after the one it starts in, which has no such day. *)
Definition short_next (s e : Z) : Prop := mi e = mi s + 1 /\ mlen (mi e) < mday_of s.
Lemma down_M_none_any t e : down_step QM t e = None <-> mi e <= mi t \/ short_next t e.
Proof.
  unfold down_step, short_next. cbn [has_hour has_day has_month has_year andb]. rewrite next_month_gte_mi.
  destruct (Z_le_gt_dec (mday_of t) (mlen (mi t + 1))) as [L|L].
  - rewrite next_month_fits by lia. destruct (Z.leb_spec (mi t + 1) (mi e)).
    + split; [discriminate|]. intros [K|[K1 K2]]; [lia|]. rewrite K1 in K2. lia.
    + split; [left; lia|reflexivity].
  - rewrite next_month_over by lia. destruct (Z.leb_spec (mi t + 2) (mi e)).
    + split; [discriminate|]. intros [K|[K1 K2]]; lia.
    + split; [|reflexivity]. intros _. destruct (Z_le_gt_dec (mi e) (mi t)); [left; lia|right]. assert (E : mi e = mi t + 1) by lia. split; [exact E|]. rewrite E. lia.
Qed.
Lemma short_next_up s e : short_next s e -> up_step QM s e = None.
Proof.
  intros [K1 K2]. unfold up_step. cbn [has_hour has_day has_month andb]. rewrite next_year_gte_spec.
  destruct (Z.ltb_spec (year_of s) (year_of e)) as [N|]; cbn [negb]; [exfalso|reflexivity].
  pose proof (mday_mlen s) as Hd. pose proof (mlen_bounds (mi s)) as HT. rewrite !year_of_mi, K1 in N.
  assert (E : (mi s + 1) mod 12 = 0) by (pose proof (Z.div_mod (mi s) 12); pose proof (Z.div_mod (mi s + 1) 12); pose proof (mod12 (mi s)); pose proof (mod12 (mi s + 1)); lia).
  rewrite K1 in K2. unfold mlen in K2. rewrite E in K2. unfold dim in K2. cbn in K2. lia.
Qed.
Lemma walk_first_M step fuel e : (forall t v t', step t e = Some (v, t') -> v = view_M t /\ mi t' = mi t + 1 /\ mi t < mi e /\ mday_of t' <= 28) ->
  forall t vs t', walk step fuel t e = Some (vs, t') ->
  (vs = [] /\ t' = t /\ (t < e -> step t e = None)) \/ (mday_of t' <= 28 /\ (t' < e -> step t' e = None)).
Proof.
  intros Hs t vs t' W. destruct fuel as [|fuel]; cbn [walk] in W.
  - destruct (Z.ltb_spec t e) as [L|L].
    + destruct (step t e) as [[v t1]|] eqn:E; [discriminate|]. apply some_inj, pair_inj in W as [<- <-]. left. auto.
    + apply some_inj, pair_inj in W as [<- <-]. left. repeat split; auto; lia.
  - destruct (Z.ltb_spec t e) as [L|L].
    + destruct (step t e) as [[v t1]|] eqn:E.
      * destruct (walk step fuel t1 e) as [[vs1 t2]|] eqn:W1; [|discriminate]. apply some_inj, pair_inj in W as [<- <-].
        apply Hs in E as (_ & _ & _ & P). right.
        apply (walk_units mi view_M (fun t => mday_of t <= 28) e step view_M_ext Hs) in W1 as (_ & _ & W3). exact (W3 P).
      * apply some_inj, pair_inj in W as [<- <-]. left. auto.
    + apply some_inj, pair_inj in W as [<- <-]. left. repeat split; auto; lia.
Qed.
Lemma range_M_any s e vs : s < e -> views_by_time_range (range_fuel s e) s e QM = Some vs ->
  (short_next s e -> vs = []) /\
  (~ short_next s e -> forall v, In v vs <-> exists t, mi s <= mi t < mi e /\ v = view_M t).
Proof.
  intros Lse. destruct (views_split s e QM) as (a & t & b & t' & A & B & V). rewrite V. intros H. apply some_inj in H as <-.
  cbn [has_hour has_day has_month orb] in A. split.
  - intros S. pose proof (short_next_up _ _ S) as U. pose proof (proj2 (down_M_none_any s e) (or_intror S)) as D.
    assert (W : forall step f x y, step s e = None -> walk step f s e = Some (x, y) -> x = [] /\ y = s).
    { intros step f x y N W. destruct f; cbn [walk] in W; destruct (s <? e); rewrite ?N in W; apply some_inj, pair_inj in W as [<- <-]; auto. }
    apply W in A as [-> ->]; [|exact U]. apply W in B as [-> _]; [|exact D]. reflexivity.
  - intros S. pose proof A as A0. pose proof B as B0.
    apply (walk_units mi view_M (fun t => mday_of t <= 28) e (up_step QM) view_M_ext (fun t v t' => up_step_M t e v t')) in A as (A1 & A2 & A3).
    apply (walk_units mi view_M (fun t => mday_of t <= 28) e (down_step QM) view_M_ext (fun t v t' => down_step_M t e v t')) in B as (B1 & B2 & B3).
    assert (F : mi e <= mi t').
    { destruct (Z_lt_le_dec t' e) as [L|L]; [|apply mi_mono; auto].
      assert (K : mday_of t' <= 28 /\ down_step QM t' e = None \/ t' = s /\ down_step QM s e = None).
      { apply (walk_first_M _ _ _ (fun t v t' => up_step_M t e v t')) in A0. apply (walk_first_M _ _ _ (fun t v t' => down_step_M t e v t')) in B0.
        destruct A0 as [(_ & -> & _)|(P & _)].
        - destruct B0 as [(_ & -> & Q)|(P & Q)]; [right; split; [reflexivity|auto]|left; auto].
        - destruct (B3 P) as [P' Q]. left. auto. }
      destruct K as [[P N]|[-> N]]; [apply down_step_M_none; auto|]. apply down_M_none_any in N as [N|N]; [exact N|contradiction]. }
    assert (G : mi t' <= Z.max (mi s) (mi e)) by lia. assert (M : mi s <= mi e) by (apply mi_mono; lia).
    intros v. rewrite in_app_iff, A1, B1. split.
    + intros [(x & Hx & ->)|(x & Hx & ->)]; exists x; split; auto; lia.
    + intros (x & Hx & ->). destruct (Z_lt_le_dec (mi x) (mi t)); [left|right]; exists x; split; auto; lia.
Qed.

(** hours *)
Lemma walk_hours step fuel e :
  (forall t v t', step t e = Some (v, t') -> v = view_H t /\ t' = t + ns_hour) ->
  forall t vs t', walk step fuel t e = Some (vs, t') ->
  exists n : nat, t' = t + Z.of_nat n * ns_hour /\ vs = map (fun k => view_H (t + Z.of_nat k * ns_hour)) (seq 0 n) /\
    (forall k, (k < n)%nat -> t + Z.of_nat k * ns_hour < e) /\ (t' < e -> step t' e = None).
Proof.
  intros Hs. induction fuel as [|fuel IH]; intros t vs t' W; cbn [walk] in W.
  - destruct (Z.ltb_spec t e) as [L|L].
    + destruct (step t e) as [[v t1]|] eqn:E; [discriminate|]. apply some_inj, pair_inj in W as [<- <-].
      exists O. cbn. repeat split; auto; lia.
    + apply some_inj, pair_inj in W as [<- <-]. exists O. cbn. repeat split; auto; lia.
  - destruct (Z.ltb_spec t e) as [L|L].
    + destruct (step t e) as [[v t1]|] eqn:E.
      * destruct (walk step fuel t1 e) as [[vs1 t2]|] eqn:W1; [|discriminate].
        apply some_inj, pair_inj in W as [<- <-]. apply Hs in E as [-> ->].
        apply IH in W1 as (n & N1 & N2 & N3 & N4). exists (S n). split; [lia|]. split; [|split; [|exact N4]].
        -- cbn [seq map]. f_equal; [f_equal; lia|]. rewrite N2, <- seq_shift, map_map. apply map_ext.
           intros k. f_equal. lia.
        -- intros [|k] Hk; [lia|]. specialize (N3 k). lia.
      * apply some_inj, pair_inj in W as [<- <-]. exists O. cbn. repeat split; auto; lia.
    + apply some_inj, pair_inj in W as [<- <-]. exists O. cbn. repeat split; auto; lia.
Qed.
Lemma up_step_H t e v t' : up_step QH t e = Some (v, t') -> v = view_H t /\ t' = t + ns_hour.
Proof.
  unfold up_step. cbn [has_hour has_day has_month andb].
  repeat match goal with |- context [if ?b then _ else _] => destruct b end; intros E; try discriminate.
  apply some_inj, pair_inj in E as [<- <-]. auto.
Qed.
Lemma range_H s e vs : views_by_time_range (range_fuel s e) s e QH = Some vs ->
  exists n : nat, vs = map (fun k => view_H (s + Z.of_nat k * ns_hour)) (seq 0 n) /\
    (forall k, (k < n)%nat <-> s + Z.of_nat k * ns_hour < e).
Proof.
  destruct (views_split s e QH) as (a & t & b & t' & A & B & V). rewrite V. intros H. apply some_inj in H as <-.
  cbn [has_hour has_day has_month orb] in A.
  apply (walk_hours _ _ _ (fun t v t' => up_step_H t e v t')) in A as (n & -> & -> & A3 & _).
  apply (walk_hours _ _ _) in B as (m & -> & -> & B3 & B4).
  2:{ unfold down_step. cbn. intros x v x' E. apply some_inj, pair_inj in E as [<- <-]. auto. }
  exists (n + m)%nat. split.
  - rewrite seq_app, map_app. f_equal. cbn [plus].
    assert (G : forall l i, map (fun k => view_H (s + Z.of_nat n * ns_hour + Z.of_nat k * ns_hour)) (seq i l)
       = map (fun k => view_H (s + Z.of_nat k * ns_hour)) (seq (n + i) l)).
    { induction l as [|l IH]; intros i; cbn [seq map]; [reflexivity|]. f_equal; [f_equal; lia|].
      rewrite IH. f_equal. f_equal. lia. }
    rewrite G, Nat.add_0_r. reflexivity.
  - assert (F : e <= s + Z.of_nat n * ns_hour + Z.of_nat m * ns_hour).
    { destruct (Z_lt_le_dec (s + Z.of_nat n * ns_hour + Z.of_nat m * ns_hour) e) as [L|L]; auto.
      apply B4 in L. discriminate. }
    intros k. pose proof ns_hour_pos. split.
    + intros L. destruct (Nat.lt_ge_cases k n) as [L'|L']; [auto|]. specialize (B3 (k - n)%nat). nia.
    + intros L. destruct (Nat.lt_ge_cases k (n + m)) as [L'|L']; auto. nia.
Qed.
Lemma hour_parts x : x / ns_hour = day_of x * 24 + hour_of x.
Proof.
  unfold hour_of. pose proof (day_tod x) as E. rewrite E at 1. rewrite ns_day_hours at 1.
  replace (day_of x * (24 * ns_hour) + x mod ns_day) with (x mod ns_day + (day_of x * 24) * ns_hour)
    by (rewrite Z.mul_assoc; apply Z.add_comm).
  rewrite Z.div_add by apply ns_hour_nz. apply Z.add_comm.
Qed.
Lemma view_H_ext a b : a / ns_hour = b / ns_hour -> view_H a = view_H b.
Proof.
  rewrite !hour_parts. intros E. pose proof (hour_of_bounds a). pose proof (hour_of_bounds b).
  assert (E3 : day_of a = day_of b /\ hour_of a = hour_of b) by lia. destruct E3 as [E3 E4].
  unfold view_H, format_YMDH. rewrite E4. f_equal. f_equal.
  pose proof (view_D_ext _ _ E3) as E5. unfold view_D in E5. apply append_inj_l in E5. exact E5.
Qed.
