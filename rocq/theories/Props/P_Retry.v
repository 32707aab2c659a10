(** C106: trying again. *)
From Verif.Model Require Import Base Retry.
From Verif.Spec Require Import Retries.
Open Scope Z_scope.

Definition default_config (b : backoff) : Prop := bo_initial b = 500 * ms /\ bo_max_interval b = 60000 * ms /\ bo_max_elapsed b = 900000 * ms.
Lemma pooled_config b : pooled b -> default_config b.
Proof. intros [now|b']; repeat split. Qed.
Lemma random_bounds c draw : 0 <= c -> 0 <= draw < 2 ^ 53 -> c / 2 <= random_value c draw /\ 2 * random_value c draw <= 3 * c + 2.
Proof.
  intros C D. unfold random_value. change (2 ^ 54) with (2 ^ 53 * 2). change (2 ^ 53) with 9007199254740992 in *. split.
  - apply Z.div_le_lower_bound; [reflexivity|]. pose proof (Z.mul_div_le c 2 eq_refl). nia.
  - assert (K : (c * 9007199254740992 + 2 * draw * (c + 1)) / (9007199254740992 * 2) * 2 <= 3 * c + 2); [|lia].
    set (x := c * 9007199254740992 + 2 * draw * (c + 1)). assert (X : x <= 9007199254740992 * (3 * c + 2)) by (unfold x; nia). clearbody x.
    Z.to_euclidean_division_equations. lia.
Qed.
(** The state of a value in use, begun at [start]. *)
Definition fit (start : Z) (b : backoff) : Prop := default_config b /\ bo_start b = start /\ 500 * ms <= bo_current b <= 60000 * ms.
Lemma fit_restart b now : default_config b -> fit now (restart (restart b now) now).
Proof. intros (A & B & C). split; [split; [exact A|split; [exact B|exact C]]|]. split; [reflexivity|]. change (500 * ms <= bo_initial b <= 60000 * ms). rewrite A. unfold ms. lia. Qed.
Lemma fit_next start b now draw : fit start b -> fit start (snd (next_backoff b now draw)).
Proof.
  intros ((A & B & C) & S & K). split; [split; [exact A|split; [exact B|exact C]]|]. split; [exact S|]. cbn [next_backoff snd increment bo_current]. rewrite B.
  unfold ms in *. destruct (Z.leb_spec (2 * (60000 * 1000000)) (3 * bo_current b)); [lia|]. Z.to_euclidean_division_equations. lia.
Qed.
Lemma next_some start b now draw d : fit start b -> 0 <= draw < 2 ^ 53 -> fst (next_backoff b now draw) = Some d ->
  250 * ms <= d /\ d <= 90000 * ms + 1 /\ now - start + d <= 900000 * ms.
Proof.
  intros ((A & B & C) & S & K) D H. cbn [next_backoff fst] in H. rewrite C, S in H.
  destruct (random_bounds (bo_current b) draw ltac:(unfold ms in K; lia) D) as [R1 R2]. set (n := random_value (bo_current b) draw) in *. clearbody n.
  change (negb (900000 * ms =? 0)) with true in H. cbn [andb] in H. destruct (Z.ltb_spec (900000 * ms) (now - start + n)); [discriminate|]. injection H as <-.
  unfold ms in *. assert (250000000 <= bo_current b / 2) by (apply Z.div_le_lower_bound; lia). lia.
Qed.
Lemma next_none start b now draw : fit start b -> 0 <= draw < 2 ^ 53 -> fst (next_backoff b now draw) = None -> 900000 * ms - (90000 * ms + 1) < now - start.
Proof.
  intros ((A & B & C) & S & K) D H. cbn [next_backoff fst] in H. rewrite C, S in H.
  destruct (random_bounds (bo_current b) draw ltac:(unfold ms in K; lia) D) as [R1 R2]. set (n := random_value (bo_current b) draw) in *. clearbody n.
  change (negb (900000 * ms =? 0)) with true in H. cbn [andb] in H. destruct (Z.ltb_spec (900000 * ms) (now - start + n)); [|discriminate]. unfold ms in *. lia.
Qed.

(** ------ C106: Do always returns, after at most 3601 attempts, whatever the operation answers. *)
Theorem C106_returns : forall b w now, pooled b -> ordinary w -> exists j r t, do_with b w now j r t /\ (j <= 3600)%nat.
Proof.
  intros b w now P O. unfold do_with.
  assert (G : forall n i b' now', (i + n = 3600)%nat -> fit now b' -> now + Z.of_nat i * (250 * ms) <= now' -> exists j r t, tries w i b' now' j r t /\ (j <= 3600)%nat).
  { induction n as [|n IH]; intros i b' now' N F L; destruct (O i) as (T & La & D);
      (destruct (at_result (w i)) as [|e|e] eqn:R; [exists i, None; eexists; split; [apply TOk, R|lia]| |exists i, (Some e); eexists; split; [apply TPermanent, R|lia]]);
      destruct (fst (next_backoff b' (now' + at_takes (w i)) (at_draw (w i)))) as [d|] eqn:X; try (exists i, (Some e); eexists; split; [apply (TStop w i b' now' e R X)|lia]).
    - destruct (next_some now b' _ _ d F D X) as (D1 & _ & D3). exfalso. unfold ms in *. lia.
    - destruct (next_some now b' _ _ d F D X) as (D1 & _ & D3).
      destruct (IH (S i) (snd (next_backoff b' (now' + at_takes (w i)) (at_draw (w i)))) (now' + at_takes (w i) + d + at_late (w i)) ltac:(lia) (fit_next _ _ _ _ F)) as (j & r & t & H & B); [unfold ms in *; lia|].
      exists j, r, t. split; [apply (TAgain w i b' now' e d j r t R X H)|exact B]. }
  apply (G 3600%nat 0%nat); [reflexivity|apply fit_restart, pooled_config, P|cbn; lia].
Qed.
Print Assumptions C106_returns.
(** It returns what the last attempt returned; every attempt before it failed, and none of them for good. *)
Theorem C106_last_attempt : forall b w now j r t, do_with b w now j r t ->
  r = error_of (w j) /\ forall i, (i < j)%nat -> exists e, at_result (w i) = Failed e.
Proof.
  intros b w now j r t. unfold do_with. intros H.
  assert (G : forall i b now, tries w i b now j r t -> r = error_of (w j) /\ (i <= j)%nat /\ forall i', (i <= i' < j)%nat -> exists e, at_result (w i') = Failed e).
  { clear. intros i b now H. induction H as [i b now R|i b now e R|i b now e R X|i b now e d j r t R X H IH].
    - split; [unfold error_of; rewrite R; reflexivity|]. split; [lia|]. intros; lia.
    - split; [unfold error_of; rewrite R; reflexivity|]. split; [lia|]. intros; lia.
    - split; [unfold error_of; rewrite R; reflexivity|]. split; [lia|]. intros; lia.
    - destruct IH as (A & B & C). split; [exact A|]. split; [lia|]. intros i' L. destruct (Nat.eq_dec i' i) as [->|N]; [exists e; exact R|]. apply C. lia. }
  destruct (G _ _ _ H) as (A & _ & C). split; [exact A|]. intros i L. apply C. lia.
Qed.
(** It gives up on an operation that may yet succeed only when more than thirteen and a half minutes have passed (less a nanosecond), and waits between
    attempts at least a quarter of a second and at most a minute and a half. *)
Theorem C106_patience : forall b w now j r t, pooled b -> ordinary w -> do_with b w now j r t ->
  (forall e, at_result (w j) = Failed e -> seconds 810 - 1 < t - now) /\
  exists d, (forall i, (i < j)%nat -> seconds 1 <= 4 * d i /\ d i <= seconds 90 + 1) /\ t = begins_at w d now j + at_takes (w j) /\
    ((0 < j)%nat -> begins_at w d now j - at_late (w (j - 1)%nat) - now <= seconds 900).
Proof.
  intros b w now j r t P O H. unfold do_with in H.
  assert (G : forall i b' now', tries w i b' now' j r t -> fit now b' -> (i <= j)%nat /\
    (forall e, at_result (w j) = Failed e -> seconds 810 - 1 < t - now) /\
    forall d0, begins_at w d0 now i = now' -> ((0 < i)%nat -> now' - at_late (w (i - 1)%nat) - now <= seconds 900) -> exists d, (forall k, (k < i)%nat -> d k = d0 k) /\ (forall k, (i <= k < j)%nat -> seconds 1 <= 4 * d k /\ d k <= seconds 90 + 1) /\ t = begins_at w d now j + at_takes (w j) /\
    ((0 < j)%nat -> begins_at w d now j - at_late (w (j - 1)%nat) - now <= seconds 900)).
  { clear H b P. intros i b' now' H. induction H as [i b' now' R|i b' now' e R|i b' now' e R X|i b' now' e d j r t R X H IH]; intros F.
    - split; [lia|]. split; [congruence|]. intros d0 E W. exists d0. split; [auto|]. split; [intros; lia|]. rewrite E. auto.
    - split; [lia|]. split; [congruence|]. intros d0 E W. exists d0. split; [auto|]. split; [intros; lia|]. rewrite E. auto.
    - split; [lia|]. split; [|intros d0 E W; exists d0; split; [auto|]; split; [intros; lia|]; rewrite E; auto].
      intros e' _. destruct (O i) as (_ & _ & D). pose proof (next_none now b' _ _ F D X). unfold seconds, ms in *. lia.
    - destruct (O i) as (T & La & D). destruct (next_some now b' _ _ d F D X) as (D1 & D2 & D3).
      destruct (IH (fit_next _ _ _ _ F)) as (L & Gv & Ex). split; [lia|]. split; [exact Gv|]. intros d0 E W.
      set (d1 := fun k => if (k =? i)%nat then d else d0 k).
      assert (Same : forall n, (n <= i)%nat -> begins_at w d1 now n = begins_at w d0 now n).
      { induction n as [|n IHn]; intros Ln; [reflexivity|]. cbn [begins_at]. rewrite IHn by lia. unfold d1. destruct (Nat.eqb_spec n i); [lia|reflexivity]. }
      destruct (Ex d1) as (d2 & A & B & C & W2).
      + cbn [begins_at]. rewrite Same, E by lia. unfold d1. rewrite Nat.eqb_refl. reflexivity.
      + intros _. replace (S i - 1)%nat with i by lia. unfold seconds, ms in *. lia.
      + exists d2. split; [intros k Lk; rewrite A by lia; unfold d1; destruct (Nat.eqb_spec k i); [lia|reflexivity]|]. split; [|split; [exact C|exact W2]].
        intros k Lk. destruct (Nat.eq_dec k i) as [->|N]; [|apply B; lia]. rewrite A by lia. unfold d1. rewrite Nat.eqb_refl. unfold seconds, ms in *. lia. }
  destruct (G _ _ _ H (fit_restart _ _ (pooled_config _ P))) as (_ & A & B). split; [exact A|].
  destruct (B (fun _ => 0) eq_refl ltac:(lia)) as (d & _ & C & D & W). exists d. split; [intros i L; apply C; lia|]. split; [exact D|exact W].
Qed.
Print Assumptions C106_patience.
(** What was done before with a value of the pool does not matter, and neither does which value it is. *)
Theorem C106_no_memory : forall b b' w now j r t j' r' t', pooled b -> pooled b' -> do_with b w now j r t -> do_with b' w now j' r' t' -> j' = j /\ r' = r /\ t' = t.
Proof.
  intros b b' w now j r t j' r' t' P P' H H'. unfold do_with in *.
  assert (E : restart (restart b' now) now = restart (restart b now) now).
  { destruct (pooled_config _ P) as (A & B & C). destruct (pooled_config _ P') as (A' & B' & C'). unfold restart. cbn. rewrite A, B, C, A', B', C'. reflexivity. }
  rewrite E in H'. clear E. revert j' r' t' H'. induction H as [i bo now R|i bo now e R|i bo now e R X|i bo now e d j r t R X H IH]; intros j' r' t' H'; inversion H'; subst; try congruence; auto.
  - assert (e0 = e) by congruence. subst. auto.
  - assert (e0 = e) by congruence. subst. auto.
  - assert (d0 = d) by congruence. subst. apply IH. assumption.
Qed.

(** An operation that fails twice and then succeeds, each call taking a second. *)
Definition third_time (i : nat) : attempt := Attempt (match i with O | S O => Failed "busy" | _ => Success end) 1000000000 0 0.
Example C106_example : ordinary third_time /\ pooled (reset (new_backoff 7)) /\ do_with (reset (new_backoff 7)) third_time 0 2 None 3625000000.
Proof.
  split; [intros i; cbn; lia|]. split; [constructor|]. unfold do_with.
  eapply TAgain; [reflexivity|vm_compute; reflexivity|]. eapply TAgain; [reflexivity|vm_compute; reflexivity|].
  match goal with |- tries _ _ _ ?n _ _ ?t => replace t with (n + at_takes (third_time 2)) by reflexivity end. apply TOk. reflexivity.
Qed.
