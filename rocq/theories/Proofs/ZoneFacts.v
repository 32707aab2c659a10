From Verif.Model Require Import Base Labels Calendar View Store ScanBuilder Zone.
From Verif.Spec Require Import Gregorian Scripts Zones.
From Verif.Proofs Require Import BaseFacts CalendarFacts ViewFacts ScanBuilderFacts.
Open Scope Z_scope.

Lemma a_day_ns : a_day = ns_day. Proof. reflexivity. Qed.
Lemma a_day_pos : 0 < a_day. Proof. reflexivity. Qed.

(* ---------------------------------------------------------------- days *)
Lemma day_lt k x : day_of x < k <-> x < k * a_day.
Proof. pose proof (day_tod x) as E. pose proof (tod x) as B. rewrite <- a_day_ns in *. pose proof a_day_pos. split; intros H0; nia. Qed.
Lemma day_le k x : k <= day_of x <-> k * a_day <= x.
Proof. pose proof (day_lt k x). lia. Qed.
Lemma day_mult k : day_of (k * a_day) = k.
Proof. pose proof (day_le k (k * a_day)). pose proof (day_lt (k + 1) (k * a_day)). pose proof a_day_pos. lia. Qed.

(* ---------------------------------------------------------------- looking up *)
Definition covers (start stop : option Z) (u : Z) : Prop := match start with Some s => s <= u | None => True end /\ match stop with Some e => u < e | None => True end.
Lemma lookup_from_covers l : forall o start u, match start with Some s => s <= u | None => True end ->
  let '(_, s, e) := lookup_from o start l u in covers s e u.
Proof.
  induction l as [|[T o'] l IH]; intros o start u H; cbn [lookup_from]; [split; [exact H|exact Logic.I]|].
  destruct (Z.ltb_spec u T); [split; [exact H|assumption]|]. apply IH. assumption.
Qed.

(** The list seen from an offset: [off o l u]. *)
Definition off (o : Z) (l : list (Z * Z)) (u : Z) : Z := fst (fst (lookup_from o None l u)).
Lemma lookup_start l : forall o s s' u, fst (fst (lookup_from o s l u)) = fst (fst (lookup_from o s' l u)).
Proof. induction l as [|[T o'] l IH]; intros o s s' u; cbn [lookup_from]; [reflexivity|]. destruct (u <? T); [reflexivity|reflexivity]. Qed.
Lemma off_cons o T o' l u : off o ((T, o') :: l) u = if u <? T then o else off o' l u.
Proof. unfold off. cbn [lookup_from]. destruct (u <? T); [reflexivity|apply lookup_start]. Qed.

Definition first_after (T : Z) (l : list (Z * Z)) : Prop := match l with (T', _) :: _ => T + 2 * a_day <= T' | [] => True end.
Lemma off_before o l u T : first_after T l -> u < T + 2 * a_day -> off o l u = o.
Proof. destruct l as [|[T' o'] l]; [reflexivity|]. intros F H. cbn [first_after] in F. rewrite off_cons. destruct (Z.ltb_spec u T'); [reflexivity|lia]. Qed.

(** Days never go back. *)
Definition fine (T o o' : Z) : Prop := within_a_day T o o' \/ skips_midnight T o o'.
Lemma fine_days T o o' : fine T o o' -> exists d, d * a_day < T + o' <= (d + 1) * a_day /\ T + o <= (d + 1) * a_day /\ d * a_day <= T + o.
Proof. intros [(d & A & B)|(C & d & A & B)]; exists d; pose proof a_day_pos; [lia|]. lia. Qed.
Lemma shown_ge l : forall o T0 day, first_after T0 l -> orderly_from o l -> day * a_day < T0 + o -> forall u, T0 <= u -> day <= day_of (u + off o l u).
Proof.
  induction l as [|[T o'] l IH]; intros o T0 day F O H u Hu.
  - apply day_le. change (off o [] u) with o. lia.
  - rewrite off_cons. cbn [orderly_from] in O. destruct O as (W & _ & F' & O). apply fine_days in W as (d & A & B & C). cbn [first_after] in F. pose proof a_day_pos.
    destruct (Z.ltb_spec u T); [apply day_le; lia|].
    assert (D : day <= d) by nia. apply Z.le_trans with d; [exact D|]. apply (IH o' T d F' O); [lia|assumption].
Qed.
Lemma day_mono_from l : forall o, orderly_from o l -> forall u v, u <= v -> day_of (u + off o l u) <= day_of (v + off o l v).
Proof.
  induction l as [|[T o'] l IH]; intros o O u v H.
  - change (off o [] u) with o. change (off o [] v) with o. apply day_of_mono. lia.
  - rewrite !off_cons. cbn [orderly_from] in O. destruct O as (W & _ & F' & O). apply fine_days in W as (d & A & B & C).
    destruct (Z.ltb_spec u T); destruct (Z.ltb_spec v T); try lia.
    + apply day_of_mono. lia.
    + apply Z.le_trans with d; [apply Z.lt_succ_r, day_lt; lia|]. apply (shown_ge l o' T d F' O); [lia|assumption].
    + apply IH; assumption.
Qed.

(* ---------------------------------------------------------------- the instant of a midnight *)
Definition date_from (o : Z) (start : option Z) (l : list (Z * Z)) (whole : Z -> Z) (L : Z) : Z :=
  let '(offset, start, stop) := lookup_from o start l L in
  if offset =? 0 then L
  else
    let utc := L - offset in
    let outside := match start with Some s => utc <? s | None => false end || match stop with Some e => e <=? utc | None => false end in
    L - (if outside then whole utc else offset).

(** [r] is the first instant of day [k]: it shows its midnight, or this was skipped, and two days from [r] on the offset is the same. *)
Definition first_instant (whole : Z -> Z) (k r : Z) : Prop :=
  k * a_day <= r + whole r /\ r - 1 + whole (r - 1) < k * a_day /\
  (r + whole r = k * a_day \/ k * a_day < r + whole r /\ forall u, r <= u < r + 2 * a_day -> whole u = whole r).
Lemma before_midnight (whole : Z -> Z) k r : r + whole r = k * a_day -> whole (r - 1) = whole r \/ fine r (whole (r - 1)) (whole r) -> first_instant whole k r.
Proof.
  intros E H. split; [lia|]. split; [|left; exact E]. destruct H as [->|[(d & A & B)|(A & _)]]; [lia| |lia]. rewrite E in B. pose proof a_day_pos. assert (k = d + 1) by nia. subst. lia.
Qed.

Definition seen (whole : Z -> Z) (o : Z) (start : option Z) (l : list (Z * Z)) (L : Z) : Prop :=
  match start with
  | None => forall u, whole u = off o l u
  | Some s => s <= L /\ first_after s l /\ (forall u, s <= u -> whole u = off o l u) /\
              exists op, - a_day < op < a_day /\ fine s op o /\ forall u, s - 2 * a_day <= u < s -> whole u = op
  end.
(** The offset at the midnight read as UTC is that after the change at [s], but it is not in force at the instant found. *)
Lemma before_the_change whole l o s k : - a_day < o < a_day -> seen whole o (Some s) l (k * a_day) -> k * a_day - o < s ->
  first_instant whole k (k * a_day - whole (k * a_day - o)).
Proof.
  pose proof a_day_pos as AP. intros HO S B. destruct S as (SL & F & IN & op & HP & W & P). rewrite (P (k * a_day - o)) by lia.
  assert (R : k * a_day - op < s \/ (k * a_day - op = s /\ op < o)).
  { destruct W as [(d & A1 & A2)|(A & d & A1 & A2)].
    - left. assert (k < d + 1) by nia. assert (k * a_day <= d * a_day) by nia. lia.
    - assert (k < d + 1) by nia. assert (k * a_day <= d * a_day) by nia. lia. }
  destruct R as [R|[R Lt]].
  - assert (Wr : whole (k * a_day - op) = op) by (apply P; lia). apply before_midnight; [rewrite Wr; lia|]. left. rewrite Wr. apply P. lia.
  - rewrite R. assert (Wo : forall u, s <= u < s + 2 * a_day -> whole u = o) by (intros u Hu; rewrite (IN u) by lia; apply (off_before o l u s F); lia).
    assert (Ws : whole s = o) by (apply Wo; lia). split; [lia|]. split; [rewrite (P (s - 1)) by lia; lia|]. right. split; [lia|].
    intros u Hu. rewrite Ws. apply Wo, Hu.
Qed.
Lemma date_from_midnight whole l : forall o start k, - a_day < o < a_day -> orderly_from o l -> seen whole o start l (k * a_day) ->
  first_instant whole k (date_from o start l whole (k * a_day)).
Proof.
  pose proof a_day_pos as AP.
  induction l as [|[T o'] l IH]; intros o start k HO O S.
  - (* the last offset *)
    unfold date_from. cbn [lookup_from]. rewrite orb_false_r.
    assert (IN : forall u, match start with Some s => s <= u | None => True end -> whole u = o).
    { intros u H. unfold seen in S. destruct start as [s|]; [destruct S as (_ & _ & S & _); rewrite (S u H)|rewrite S]; reflexivity. }
    assert (GOAL : forall r, k * a_day = r + o -> match start with Some s => s <= r | None => True end -> first_instant whole k r).
    { intros r Er Hr. apply before_midnight; [rewrite (IN r Hr); lia|]. rewrite (IN r Hr).
      destruct start as [s|]; [|left; apply IN; exact Logic.I]. destruct (Z.eq_dec r s) as [->|]; [right|left; apply IN; lia].
      destruct S as (_ & _ & _ & op & _ & W & P). rewrite (P (s - 1)) by lia. exact W. }
    destruct (Z.eqb_spec o 0) as [->|N].
    { apply GOAL; [lia|]. destruct start as [s|]; [|exact Logic.I]. apply S. }
    destruct start as [s|]; [|apply GOAL; [lia|exact Logic.I]].
    destruct (Z.ltb_spec (k * a_day - o) s) as [B|B]; [|apply GOAL; [lia|exact B]].
    apply (before_the_change whole [] o s k HO S B).
  - cbn [orderly_from] in O. destruct O as (W & HO' & F & O). unfold date_from. cbn [lookup_from].
    destruct (Z.ltb_spec (k * a_day) T) as [LT|GE].
    + assert (IN : forall u, match start with Some s => s <= u | None => True end -> u < T -> whole u = o).
      { intros u H HT. unfold seen in S. destruct start as [s|]; [destruct S as (_ & _ & S & _); rewrite (S u H)|rewrite S]; rewrite off_cons; (destruct (Z.ltb_spec u T); [reflexivity|lia]). }
      assert (AFTER : forall u, T <= u < T + 2 * a_day -> whole u = o').
      { intros u [H1 H2]. unfold seen in S. destruct start as [s|]; [destruct S as (S0 & _ & S & _); rewrite (S u) by lia|rewrite S]; rewrite off_cons; (destruct (Z.ltb_spec u T); [lia|]); apply (off_before o' l u T F H2). }
      assert (FS : match start with Some s => s + 2 * a_day <= T | None => True end) by (destruct start; [exact (proj1 (proj2 S))|exact Logic.I]).
      assert (GOAL : forall r, k * a_day = r + o -> match start with Some s => s <= r | None => True end -> r < T -> first_instant whole k r).
      { intros r Er Hr Ht. apply before_midnight; [rewrite (IN r Hr Ht); lia|]. rewrite (IN r Hr Ht).
        destruct start as [s|]; [|left; apply IN; [exact Logic.I|lia]]. destruct (Z.eq_dec r s) as [->|]; [right|left; apply IN; lia].
        destruct S as (_ & _ & _ & op & _ & W' & P). rewrite (P (s - 1)) by lia. exact W'. }
      destruct (Z.eqb_spec o 0) as [->|N].
      { apply GOAL; [lia| |exact LT]. destruct start as [s|]; [|exact Logic.I]. apply S. }
      destruct (Z.leb_spec T (k * a_day - o)) as [B|B].
      * rewrite orb_true_r. rewrite (AFTER (k * a_day - o)) by lia. destruct W as [W|(K & _)]; [|lia].
        assert (R : T <= k * a_day - o').
        { destruct W as (d & A1 & A2). assert (d < k) by nia. assert ((d + 1) * a_day <= k * a_day) by nia. lia. }
        assert (Wr : whole (k * a_day - o') = o') by (apply AFTER; lia). apply before_midnight; [rewrite Wr; lia|]. rewrite Wr.
        destruct (Z.eq_dec (k * a_day - o') T) as [E|]; [right|left; apply AFTER; lia]. rewrite E. rewrite (IN (T - 1)); [left; exact W| |lia]. destruct start; [lia|exact Logic.I].
      * rewrite orb_false_r. destruct start as [s|]; [|apply GOAL; [lia|exact Logic.I|exact B]].
        destruct (Z.ltb_spec (k * a_day - o) s) as [C|C]; [|apply GOAL; [lia|exact C|exact B]].
        apply (before_the_change whole ((T, o') :: l) o s k HO S C).
    + apply (IH o' (Some T) k HO' O). cbn [seen]. split; [exact GE|]. split; [exact F|]. split.
      * intros u Hu. unfold seen in S. destruct start as [s|]; [destruct S as (S0 & F0 & S & _); cbn [first_after] in F0; rewrite (S u) by lia|rewrite S]; rewrite off_cons; (destruct (Z.ltb_spec u T); [lia|reflexivity]).
      * exists o. split; [exact HO|]. split; [exact W|]. intros u Hu. unfold seen in S.
        destruct start as [s|]; [destruct S as (S0 & F0 & S & _); cbn [first_after] in F0; rewrite (S u) by lia|rewrite S]; rewrite off_cons; (destruct (Z.ltb_spec u T); [reflexivity|lia]).
Qed.

(* ---------------------------------------------------------------- a zone *)
Section Zone.
  Variable z : zone.
  Hypothesis Z : orderly z.
  Lemma offset_at_off u : offset_at z u = off (z_first z) (z_changes z) u. Proof. reflexivity. Qed.
  Lemma day_in_mono u v : (u <= v)%Z -> (day_in z u <= day_in z v)%Z.
  Proof. intros H. unfold day_in, shows. rewrite !offset_at_off. apply day_mono_from; [apply Z|exact H]. Qed.
  Lemma date_in_first k : first_instant (offset_at z) k (date_in z (k * ns_day)).
  Proof. destruct Z as [B O]. exact (date_from_midnight (offset_at z) (z_changes z) (z_first z) None k B O (fun u => eq_refl)). Qed.
  Lemma date_in_le k t : (date_in z (k * ns_day) <= t <-> k <= day_in z t)%Z.
  Proof.
    destruct (date_in_first k) as (E & P & _). split; intros H.
    - apply Z.le_trans with (day_in z (date_in z (k * ns_day))); [|apply day_in_mono, H]. unfold day_in. apply day_le, E.
    - destruct (Z.le_gt_cases (date_in z (k * ns_day)) t) as [|G]; [assumption|exfalso]. pose proof (day_in_mono t (date_in z (k * ns_day) - 1) ltac:(lia)) as M.
      apply day_lt in P. unfold day_in, shows in M, H. lia.
  Qed.
  (** The midnight is shown if it is shown at all. *)
  Lemma date_in_shows k i : shows z i = (k * ns_day)%Z -> shows z (date_in z (k * ns_day)) = (k * ns_day)%Z.
  Proof.
    intros Hi. destruct (date_in_first k) as (E & P & [Q|(Q & C)]); [exact Q|exfalso]. set (r := date_in z (k * ns_day)) in *. pose proof a_day_pos as AP.
    assert (Di : day_in z i = k) by (unfold day_in; rewrite Hi, <- a_day_ns; apply day_mult).
    assert (Ri : (r <= i)%Z) by (apply date_in_le; lia). destruct (Z_lt_le_dec i (r + 2 * a_day)) as [Lt|Ge].
    - unfold shows in Hi. rewrite (C i) in Hi by lia. rewrite a_day_ns in *. lia.
    - pose proof (day_in_mono (r + 2 * a_day - 1) i ltac:(lia)) as M. rewrite Di in M. unfold day_in, shows in M. rewrite (C (r + 2 * a_day - 1))%Z in M by lia.
      assert (k + 1 <= day_of (r + 2 * a_day - 1 + offset_at z r))%Z; [apply day_le; lia|lia].
  Qed.
End Zone.

(* ---------------------------------------------------------------- the calendar windows, through the fixed-offset case *)
Section Cal.
  Variables (f : Z -> Z * Z * Z) (z : zone) (u t : Z).
  Hypothesis Cal : is_calendar f.
  Hypothesis Or : orderly z.
  Hypothesis T : t <= u.
  Let c := Clock (day_in z u * a_day) 0.
  Let t' := day_in z t * a_day.
  Lemma t_le : t' <= ck_ns c.
  Proof. change (day_in z t * a_day <= day_in z u * a_day). apply Z.mul_le_mono_nonneg_r; [discriminate|]. apply (day_in_mono z Or), T. Qed.
  Lemma local_day_c : local_day c = day_in z u. Proof. unfold local_day. cbn [ck_ns ck_zone c]. rewrite Z.add_0_r. apply day_mult. Qed.
  Lemma local_date_c d : local_date f 0 (d * a_day) = f d. Proof. unfold local_date. rewrite Z.add_0_r. f_equal. apply (Z.div_mul d a_day). discriminate. Qed.
  Lemma midnight_c k : date_in z (k * ns_day) <= t <-> midnight c k <= t'.
  Proof. rewrite midnight_le. cbn [ck_zone c]. rewrite Z.add_0_r. unfold t'. rewrite day_mult. apply date_in_le, Or. Qed.
  Lemma today_in : beginning_of_day_in z u <= t <-> f (day_in z t) = f (day_in z u).
  Proof.
    unfold beginning_of_day_in. rewrite midnight_c, <- local_day_c. change (midnight c (local_day c)) with (beginning_of_day c).
    rewrite (today_window f c t' Cal t_le). cbn [ck_ns ck_zone c]. unfold t'. rewrite !local_date_c, local_day_c. reflexivity.
  Qed.
  Lemma week_in : (exists i, shows z i = day_in z u * ns_day) -> (beginning_of_week_in z u <= t <-> (day_in z t - 3) / 7 = (day_in z u - 3) / 7).
  Proof.
    intros [i Hi]. unfold beginning_of_week_in, beginning_of_day_in. rewrite (date_in_shows z Or (day_in z u) i Hi).
    replace (day_of (day_in z u * ns_day)) with (day_in z u) by (symmetry; apply day_mult).
    replace (day_in z u * ns_day - weekday (day_in z u) * ns_day) with ((day_in z u - weekday (day_in z u)) * ns_day) by lia.
    rewrite midnight_c, <- local_day_c. change (midnight c (local_day c - weekday (local_day c))) with (beginning_of_week c).
    rewrite (week_window c t' t_le). unfold local_week. cbn [ck_ns ck_zone c]. unfold t'. rewrite !Z.add_0_r, local_day_c.
    change 86400000000000 with a_day. rewrite !Z.div_mul by discriminate. reflexivity.
  Qed.
  Lemma month_in : beginning_of_month_in z u <= t <-> year (f (day_in z t)) = year (f (day_in z u)) /\ month (f (day_in z t)) = month (f (day_in z u)).
  Proof.
    pose proof (month_window f c t' Cal t_le) as M. unfold beginning_of_month in M. unfold beginning_of_month_in. rewrite local_day_c in M.
    destruct (date_of_day (day_in z u)) as [[y m] d]. rewrite midnight_c, M. cbn [ck_ns ck_zone c]. unfold t'. rewrite !local_date_c. reflexivity.
  Qed.
  Lemma year_in : beginning_of_year_in z u <= t <-> year (f (day_in z t)) = year (f (day_in z u)).
  Proof.
    pose proof (year_window f c t' Cal t_le) as M. unfold beginning_of_year in M. unfold beginning_of_year_in. rewrite local_day_c in M.
    destruct (date_of_day (day_in z u)) as [[y m] d]. rewrite midnight_c, M. cbn [ck_ns ck_zone c]. unfold t'. rewrite !local_date_c. reflexivity.
  Qed.
End Cal.

(* ---------------------------------------------------------------- the offset in force *)
Lemma in_force_off z u : orderly z -> forall o, in_force z u o <-> o = offset_at z u.
Proof.
  intros [_ O]. unfold in_force. rewrite offset_at_off. destruct z as [o0 l]. cbn [z_first z_changes] in *.
  assert (AFTER : forall l o T, first_after T l -> orderly_from o l -> forall T' o', In (T', o') l -> T < T').
  { clear. induction l as [|[T1 o1] l IH]; intros o T F O T' o' H; [destruct H|]. cbn [orderly_from first_after] in *. destruct O as (_ & _ & F' & O). pose proof a_day_pos.
    destruct H as [E|H]; [apply pair_inj in E; destruct E; subst; lia|]. pose proof (IH o1 T1 F' O T' o' H). lia. }
  revert o0 O. induction l as [|[T1 o1] l IH]; intros o0 O o.
  - unfold off. cbn. split; [intros [(T & [] & _)|[H _]]; exact H|intros ->; right; split; [reflexivity|intros ? ? []]].
  - cbn [orderly_from] in O. destruct O as (_ & _ & F & O). rewrite off_cons. pose proof (AFTER l o1 T1 F O) as A. destruct (Z.ltb_spec u T1) as [LT|GE].
    + split.
      * intros [(T & [E|H] & HT & _)|[H _]]; [apply pair_inj in E; destruct E; subst; lia|specialize (A _ _ H); lia|exact H].
      * intros ->. right. split; [reflexivity|]. intros T' o' [E|H]; [apply pair_inj in E; destruct E; subst; lia|specialize (A _ _ H); lia].
    + rewrite <- (IH o1 O o). split.
      * intros [(T & [E|H] & HT & M)|[_ M]].
        -- apply pair_inj in E. destruct E. subst. right. split; [reflexivity|]. intros T' o' H. destruct (Z.le_gt_cases T' u) as [L|]; [|assumption]. specialize (M T' o' (or_intror H) L). specialize (A _ _ H). lia.
        -- left. exists T. split; [exact H|]. split; [exact HT|]. intros T' o' H'. apply (M T' o'). right. exact H'.
        -- specialize (M T1 o1 (or_introl eq_refl)). lia.
      * intros [(T & H & HT & M)|[-> M]].
        -- left. exists T. split; [right; exact H|]. split; [exact HT|]. intros T' o' [E|H'] L; [apply pair_inj in E; destruct E; subst; specialize (A _ _ H); lia|apply (M _ _ H' L)].
        -- left. exists T1. split; [left; reflexivity|]. split; [exact GE|]. intros T' o' [E|H'] L; [apply pair_inj in E; destruct E; subst; lia|specialize (M _ _ H'); lia].
Qed.
Lemma both_show_days z same t u : orderly z -> (both_show z same t u <-> same (day_in z t) (day_in z u)).
Proof.
  intros O. unfold both_show, wall_shows. split.
  - intros (a & b & (oa & Ia & ->) & (ob & Ib & ->) & H). apply (in_force_off z t O) in Ia. apply (in_force_off z u O) in Ib. subst. exact H.
  - intros H. exists (shows z t), (shows z u). split; [exists (offset_at z t); split; [apply in_force_off; [exact O|reflexivity]|reflexivity]|].
    split; [exists (offset_at z u); split; [apply in_force_off; [exact O|reflexivity]|reflexivity]|exact H].
Qed.
Lemma midnight_shown_day z u : orderly z -> midnight_shown z u -> exists i, shows z i = day_in z u * ns_day.
Proof.
  intros O (i & a & (o & Io & ->) & (o' & Io' & E)). apply (in_force_off z u O) in Io. apply (in_force_off z i O) in Io'. subst o o'. exists i. unfold shows at 1. rewrite <- E.
  reflexivity.
Qed.
