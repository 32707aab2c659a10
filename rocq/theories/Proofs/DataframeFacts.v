From Verif.Model Require Import Base Labels View Otlp Transform Dataframe.
From Verif.Spec Require Import Indexing Frames.
From Verif.Proofs Require Import BaseFacts CalendarFacts ViewFacts.
Open Scope N_scope.

(* ------------------------------------------------------------------ rows *)
Definition ids_above (n : N) (l : list sample) : Prop := forall s, In s l -> n <= smp_id s.
Definition last_id (d : N) (l : list sample) : N := fold_left (fun _ s => smp_id s) l d.

Lemma nth_repeat_lt {A} (a : A) n i : (i < n)%nat -> nth_error (repeat a n) i = Some a.
Proof. revert i. induction n as [|n IH]; intros [|i] H; cbn; try lia; [reflexivity|]. apply IH. lia. Qed.

(** The appended block: sample [id] at offset id - last - 1, blanks elsewhere. *)
Lemma new_rows_spec l : forall last, increasing l -> ids_above (last + 1) l ->
  N.of_nat (List.length (new_rows last l)) = last_id last l - last /\
  (forall s, In s l -> nth_error (new_rows last l) (N.to_nat (smp_id s - last - 1)) = Some (smp_data s)) /\
  (forall i d, nth_error (new_rows last l) i = Some d ->
     (exists s, In s l /\ N.of_nat i = smp_id s - last - 1 /\ d = smp_data s) \/
     ((forall s, In s l -> N.of_nat i <> smp_id s - last - 1) /\ d = DNone)) /\
  last <= last_id last l.
Proof.
  induction l as [|s l IH]; intros last INC AB; cbn [new_rows last_id fold_left].
  - split; [cbn; lia|]. split; [intros s []|]. split; [intros [|i] d H; discriminate|lia].
  - inversion INC; subst. assert (A0 : last + 1 <= smp_id s) by (apply AB; left; reflexivity).
    assert (AB' : ids_above (smp_id s + 1) l).
    { intros s' Hs'. rewrite Forall_forall in H2. specialize (H2 s' Hs'). cbn in H2. lia. }
    destruct (IH (smp_id s) H1 AB') as (L & P & Q & LE). change (fold_left (fun _ s0 => smp_id s0) l (smp_id s)) with (last_id (smp_id s) l).
    set (k := N.to_nat (smp_id s - (last + 1))). split; [|split; [|split]].
    + rewrite app_length, repeat_length. cbn [List.length]. lia.
    + intros s' [<-|I].
      * replace (N.to_nat (smp_id s - last - 1)) with k by (subst k; lia).
        rewrite nth_error_app2 by (rewrite repeat_length; lia). rewrite repeat_length, Nat.sub_diag. reflexivity.
      * specialize (AB' s' I). rewrite nth_error_app2 by (rewrite repeat_length; lia). rewrite repeat_length.
        replace (N.to_nat (smp_id s' - last - 1) - k)%nat with (S (N.to_nat (smp_id s' - smp_id s - 1))) by lia. cbn [nth_error]. apply P, I.
    + intros i d H. destruct (Nat.lt_trichotomy i k) as [Hi|[Hi|Hi]].
      * right. rewrite nth_error_app1 in H by (rewrite repeat_length; lia). rewrite nth_repeat_lt in H by exact Hi. apply some_inj in H.
        split; [|congruence]. intros s' [<-|I]; [lia|]. specialize (AB' s' I). lia.
      * left. exists s. split; [left; reflexivity|]. split; [lia|]. subst i. rewrite nth_error_app2 in H by (rewrite repeat_length; lia).
        rewrite repeat_length, Nat.sub_diag in H. cbn in H. congruence.
      * rewrite nth_error_app2 in H by (rewrite repeat_length; lia). rewrite repeat_length in H.
        replace (i - k)%nat with (S (i - k - 1)) in H by lia. cbn [nth_error] in H. apply Q in H as [(s' & I & E & D)|[E D]].
        -- left. exists s'. split; [right; exact I|]. split; [|exact D]. specialize (AB' s' I). lia.
        -- right. split; [|exact D]. intros s' [<-|I]; [lia|]. specialize (AB' s' I). specialize (E s' I). lia.
    + lia.
Qed.

(** The history of one view: the flushes that reached it, oldest first. *)
Definition view_after (h : list (list sample)) : option frame := fold_left (fun o ss => Some (append_view o ss)) h None.
Definition history_ok (h : list (list sample)) : Prop := (forall ss, In ss h -> ss <> []) /\ increasing (List.concat h).

Lemma increasing_app a b : increasing (a ++ b) -> increasing a /\ increasing b /\ forall x y, In x a -> In y b -> smp_id x < smp_id y.
Proof.
  induction a as [|x a IH]; cbn [app]; intros H; [split; [constructor|]; split; [exact H|intros ? ? []]|].
  inversion H; subst. destruct (IH H2) as (A & B & C). rewrite Forall_forall in H3. split; [|split; [exact B|]].
  - constructor; [exact A|]. apply Forall_forall. intros y Hy. apply H3, in_app_iff. auto.
  - intros u w [<-|Hu] Hw; [apply H3, in_app_iff; auto|auto].
Qed.
Lemma last_id_cons d s l : last_id d (s :: l) = last_id (smp_id s) l. Proof. reflexivity. Qed.
Lemma last_id_app d a b : last_id d (a ++ b) = last_id (last_id d a) b.
Proof. unfold last_id. apply fold_left_app. Qed.
Lemma last_id_in d l : l <> [] -> exists s, In s l /\ smp_id s = last_id d l.
Proof.
  revert d. induction l as [|s l IH]; intros d H; [congruence|]. rewrite last_id_cons.
  destruct l as [|s' l]; [exists s; split; [left; reflexivity|reflexivity]|].
  destruct (IH (smp_id s)) as (x & I & E); [discriminate|]. exists x. split; [right; exact I|exact E].
Qed.
Lemma last_id_max d l s : increasing l -> In s l -> smp_id s <= last_id d l.
Proof.
  revert d s. induction l as [|x l IH]; intros d s H I; [destruct I|]. inversion H; subst. rewrite last_id_cons. destruct I as [<-|I]; [|apply IH; auto].
  destruct l as [|y l]; [cbn; lia|]. rewrite Forall_forall in H3. specialize (H3 y (or_introl eq_refl)). cbn in H3.
  pose proof (IH (smp_id x) y H2 (or_introl eq_refl)). lia.
Qed.

(** Appending to an existing record whose length does not exceed the new ids puts row number = id. *)
Lemma layout_append rows place all ss : layout rows place all -> (forall s, In s all -> place s < N.of_nat (List.length rows)) ->
  rows <> [] -> increasing ss -> ids_above (N.of_nat (List.length rows)) ss ->
  forall place', (forall s, In s all -> place' s = place s) -> (forall s, In s ss -> place' s = smp_id s) ->
  let rows' := rows ++ new_rows (N.of_nat (List.length rows) - 1) ss in
  layout rows' place' (all ++ ss) /\ (ss <> [] -> N.of_nat (List.length rows') = last_id 0 ss + 1) /\
  (forall s, In s (all ++ ss) -> place' s < N.of_nat (List.length rows')) /\ rows' <> [].
Proof.
  intros [P1 P2] PL NE INC AB place' E1 E2. cbv zeta. set (n := N.of_nat (List.length rows)) in *.
  assert (n0 : 0 < n) by (destruct rows; [congruence|subst n; cbn; lia]).
  destruct (new_rows_spec ss (n - 1) INC) as (L & Q & R & LE); [intros s Hs; specialize (AB s Hs); lia|].
  assert (LEN : N.of_nat (List.length (rows ++ new_rows (n - 1) ss)) = last_id (n - 1) ss + 1).
  { rewrite app_length, Nat2N.inj_add. fold n. rewrite L. lia. }
  split; [split|split; [|split]].
  - intros s Hs. apply in_app_iff in Hs as [Hs|Hs].
    + rewrite E1 by exact Hs. specialize (PL s Hs). rewrite nth_error_app1 by lia. apply P1, Hs.
    + rewrite E2 by exact Hs. specialize (AB s Hs). rewrite nth_error_app2 by lia.
      replace (N.to_nat (smp_id s) - List.length rows)%nat with (N.to_nat (smp_id s - (n - 1) - 1)) by lia. apply Q, Hs.
  - intros i d H. destruct (Nat.lt_ge_cases i (List.length rows)) as [Hi|Hi].
    + rewrite nth_error_app1 in H by exact Hi. apply P2 in H as [(s & I & E & D)|[E D]].
      * left. exists s. split; [apply in_app_iff; auto|]. split; [rewrite E1 by exact I; exact E|exact D].
      * right. split; [|exact D]. intros s Hs. apply in_app_iff in Hs as [Hs|Hs]; [rewrite E1 by exact Hs; auto|].
        rewrite E2 by exact Hs. specialize (AB s Hs). lia.
    + rewrite nth_error_app2 in H by exact Hi. apply R in H as [(s & I & E & D)|[E D]].
      * left. exists s. split; [apply in_app_iff; auto|]. split; [|exact D]. rewrite E2 by exact I. specialize (AB s I). lia.
      * right. split; [|exact D]. intros s Hs. apply in_app_iff in Hs as [Hs|Hs].
        -- rewrite E1 by exact Hs. specialize (PL s Hs). lia.
        -- rewrite E2 by exact Hs. specialize (E s Hs). specialize (AB s Hs). lia.
  - intros NEs. rewrite LEN. destruct ss as [|s ss]; [congruence|]. rewrite !last_id_cons. reflexivity.
  - intros s Hs. rewrite LEN. apply in_app_iff in Hs as [Hs|Hs].
    + rewrite E1 by exact Hs. specialize (PL s Hs). lia.
    + rewrite E2 by exact Hs. pose proof (last_id_max (n - 1) ss s INC Hs). lia.
  - destruct rows; [congruence|discriminate].
Qed.

Lemma first_flush_layout ss : ss <> [] -> increasing ss ->
  let rows := new_rows 0 ss in
  layout rows (place_in [ss]) ss /\ N.of_nat (List.length rows) = last_id 0 ss + (if first_id [ss] =? 0 then 1 else 0) /\
  (forall s, In s ss -> place_in [ss] s < N.of_nat (List.length rows)) /\ rows <> [].
Proof.
  intros NE INC. cbv zeta. destruct ss as [|s ss]; [congruence|]. clear NE.
  assert (IF : forall x, In x (s :: ss) -> in_first [s :: ss] (smp_id x) = true).
  { intros x Hx. unfold in_first. apply existsb_exists. exists x. split; [exact Hx|apply N.eqb_refl]. }
  assert (FI : first_id [s :: ss] = smp_id s) by reflexivity.
  destruct (N.eqb_spec (smp_id s) 0) as [Z|NZ].
  - assert (PL : forall x, place_in [s :: ss] x = smp_id x).
    { intros x. unfold place_in, row_number. rewrite FI, Z. reflexivity. }
    inversion INC; subst. assert (AB : ids_above 1 ss).
    { intros x Hx. rewrite Forall_forall in H2. specialize (H2 x Hx). cbn in H2. lia. }
    assert (E : new_rows 0 (s :: ss) = [smp_data s] ++ new_rows (N.of_nat (List.length [smp_data s]) - 1) ss).
    { cbn [new_rows]. rewrite Z. reflexivity. }
    rewrite E. destruct (layout_append [smp_data s] (fun x => smp_id x) [s] ss) with (place' := place_in [s :: ss]) as (A & B & C & D).
    + split.
      * intros x [<-|[]]. rewrite Z. reflexivity.
      * intros [|i] d H; cbn in H; [apply some_inj in H; left; exists s; split; [left; reflexivity|]; split; [rewrite Z; reflexivity|congruence]|destruct i; discriminate].
    + intros x [<-|[]]. rewrite Z. cbn. lia.
    + discriminate.
    + exact H1.
    + exact AB.
    + intros x _. apply PL.
    + intros x _. apply PL.
    + split; [exact A|]. rewrite FI, Z, N.eqb_refl. split; [|split; [exact C|exact D]].
      rewrite last_id_cons. destruct ss as [|s' ss]; [rewrite Z; reflexivity|]. rewrite B by discriminate. rewrite !last_id_cons. reflexivity.
  - assert (PL : forall x, In x (s :: ss) -> place_in [s :: ss] x = smp_id x - 1).
    { intros x Hx. unfold place_in, row_number. rewrite FI, (IF x Hx). destruct (N.eqb_spec (smp_id s) 0); congruence. }
    assert (AB : ids_above (0 + 1) (s :: ss)).
    { intros x [<-|Hx]; [lia|]. inversion INC; subst. rewrite Forall_forall in H2. specialize (H2 x Hx). cbn in H2. lia. }
    destruct (new_rows_spec (s :: ss) 0 INC AB) as (L & Q & R & LE). rewrite N.sub_0_r in L. split; [split|split; [|split]].
    + intros x Hx. rewrite PL by exact Hx. specialize (Q x Hx). rewrite N.sub_0_r in Q. exact Q.
    + intros i d H. apply R in H as [(x & I & E & D)|[E D]]; [left; exists x; split; [exact I|]; split; [rewrite PL by exact I; rewrite N.sub_0_r in E; exact E|exact D]|].
      right. split; [|exact D]. intros x Hx. rewrite PL by exact Hx. specialize (E x Hx). rewrite N.sub_0_r in E. exact E.
    + rewrite L, FI. destruct (N.eqb_spec (smp_id s) 0); [congruence|]. lia.
    + intros x Hx. rewrite PL by exact Hx. rewrite L. pose proof (last_id_max 0 _ x INC Hx). specialize (AB x Hx). lia.
    + cbn [new_rows]. intros C. apply app_eq_nil in C as [_ C]. discriminate.
Qed.

Lemma view_after_app h ss : view_after (h ++ [ss]) = Some (append_view (view_after h) ss).
Proof. unfold view_after. rewrite fold_left_app. reflexivity. Qed.
Lemma first_id_app h ss : List.concat h <> [] -> first_id (h ++ [ss]) = first_id h.
Proof. intros NE. unfold first_id. rewrite concat_app. destruct (List.concat h); [congruence|reflexivity]. Qed.
Lemma in_first_app h ss id : h <> [] -> in_first (h ++ [ss]) id = in_first h id.
Proof. destruct h; [congruence|reflexivity]. Qed.

Theorem view_layout h : h <> [] -> history_ok h ->
  exists f, view_after h = Some f /\ layout (fr_rows f) (place_in h) (List.concat h) /\ fr_rows f <> [] /\
    (forall s, In s (List.concat h) -> place_in h s < N.of_nat (List.length (fr_rows f))) /\
    N.of_nat (List.length (fr_rows f)) = last_id 0 (List.concat h) + (if (first_id h =? 0) || (1 <? N.of_nat (List.length h)) then 1 else 0).
Proof.
  intros NE OK. destruct (exists_last NE) as (h0 & ss & ->). clear NE. revert ss OK.
  induction h0 as [|ss0 h0 IH] using rev_ind; intros ss [NEs INC].
  - cbn [app] in *. assert (NE : ss <> []) by (apply NEs; left; reflexivity).
    unfold List.concat in INC. rewrite app_nil_r in INC. destruct (first_flush_layout ss NE INC) as (A & B & C & D).
    exists (append_view None ss). cbn [view_after fold_left append_view fr_rows List.concat]. rewrite app_nil_r.
    split; [reflexivity|]. split; [exact A|]. split; [exact D|]. split; [exact C|]. rewrite B.
    change (1 <? N.of_nat (List.length [ss])) with false. rewrite Bool.orb_false_r. reflexivity.
  - assert (NEall : forall s1, In s1 ((h0 ++ [ss0]) ++ [ss]) -> s1 <> []) by exact NEs.
    rewrite concat_app in INC. apply increasing_app in INC as (I1 & I2 & I12).
    destruct (IH ss0) as (f & E & LAY & NEr & PLr & LEN).
    { split; [intros s1 H1; apply NEs, in_app_iff; auto|exact I1]. }
    set (h := h0 ++ [ss0]) in *. rewrite view_after_app, E. cbn [append_view]. eexists. split; [reflexivity|]. cbn [fr_rows].
    assert (hne : h <> []) by (subst h; destruct h0; discriminate).
    assert (cne : List.concat h <> []).
    { subst h. rewrite concat_app. intros C. apply app_eq_nil in C as [_ C]. cbn in C. rewrite app_nil_r in C.
      apply (NEs ss0); [apply in_app_iff; left; apply in_app_iff; right; left; reflexivity|exact C]. }
    assert (ssne : ss <> []) by (apply NEs, in_app_iff; right; left; reflexivity).
    assert (PE : forall s, place_in (h ++ [ss]) s = place_in h s).
    { intros s. unfold place_in. rewrite first_id_app by exact cne. rewrite in_first_app by exact hne. reflexivity. }
    rewrite concat_app. cbn [List.concat] in *. rewrite app_nil_r in *.
    assert (AB : ids_above (N.of_nat (List.length (fr_rows f))) ss).
    { intros s Hs. rewrite LEN. destruct (last_id_in 0 (List.concat h) cne) as (x & Ix & <-). specialize (I12 x s Ix Hs).
      destruct ((first_id h =? 0) || (1 <? N.of_nat (List.length h))); lia. }
    assert (PS : forall s, In s ss -> place_in (h ++ [ss]) s = smp_id s).
    { intros s Hs. rewrite PE. unfold place_in, row_number. destruct (first_id h =? 0); [reflexivity|].
      assert (NF : in_first h (smp_id s) = false); [|rewrite NF; reflexivity].
      unfold in_first. destruct h as [|s1 h1]; [congruence|]. apply Bool.not_true_is_false. intros C. apply existsb_exists in C as (x & Ix & Ex).
      apply N.eqb_eq in Ex. assert (In x (List.concat (s1 :: h1))) by (cbn [List.concat]; apply in_app_iff; left; exact Ix). specialize (I12 x s H Hs). lia. }
    destruct (layout_append (fr_rows f) (place_in h) (List.concat h) ss LAY PLr NEr I2 AB (place_in (h ++ [ss])) (fun s _ => PE s) PS) as (A & B & C & D).
    split; [exact A|]. split; [exact D|]. split; [exact C|]. rewrite B by exact ssne. rewrite last_id_app.
    destruct ss as [|s ss]; [congruence|]. rewrite !last_id_cons.
    assert (Q : (1 <? N.of_nat (List.length (h ++ [s :: ss]))) = true).
    { apply N.ltb_lt. rewrite app_length. cbn [List.length]. destruct h; [congruence|cbn [List.length]; lia]. }
    rewrite Q, Bool.orb_true_r. reflexivity.
Qed.

(* ------------------------------------------------------------------ membership sets *)
Definition sig_ids (signal : Z) (l : list sample) (id : N) : Prop := exists s, In s l /\ smp_id s = id /\ signal_of (smp_data s) = signal.
Lemma set_sample_rows f s : fr_rows (set_sample f s) = fr_rows f.
Proof. unfold set_sample. destruct (smp_data s); reflexivity. Qed.
Definition three (signal : Z) : Prop := signal = RESOURCE_METRICS \/ signal = RESOURCE_TRACES \/ signal = RESOURCE_LOGS.
Lemma set_sample_set f s signal id : three signal ->
  In id (signal_set signal (set_sample f s)) <-> In id (signal_set signal f) \/ (id = smp_id s /\ signal_of (smp_data s) = signal).
Proof.
  intros [->|[->| ->]]; unfold set_sample, signal_set, signal_of; destruct (smp_data s); cbn; rewrite ?in_sadd; (split; [intros H; try tauto|intros [H|[E H]]; try (exact H); try discriminate H; auto]).
Qed.
Lemma set_samples_set l : forall f signal id, three signal ->
  In id (signal_set signal (fold_left set_sample l f)) <-> In id (signal_set signal f) \/ sig_ids signal l id.
Proof.
  induction l as [|s l IH]; intros f signal id T; cbn [fold_left].
  - split; [auto|intros [H|(s & [] & _)]; exact H].
  - rewrite IH, set_sample_set by exact T. unfold sig_ids. cbn [In]. split.
    + intros [[H|[-> H]]|(s' & I & H)]; [auto|right; exists s; auto|right; exists s'; intuition].
    + intros [H|(s' & [->|I] & E & H)]; [auto|left; right; auto|right; exists s'; auto].
Qed.
Lemma set_samples_sorted l : forall f, ssorted (fr_metrics f) /\ ssorted (fr_traces f) /\ ssorted (fr_logs f) ->
  ssorted (fr_metrics (fold_left set_sample l f)) /\ ssorted (fr_traces (fold_left set_sample l f)) /\ ssorted (fr_logs (fold_left set_sample l f)).
Proof.
  induction l as [|s l IH]; intros f H; cbn [fold_left]; [exact H|]. apply IH. unfold set_sample.
  destruct (smp_data s); cbn [fr_metrics fr_traces fr_logs]; destruct H as (A & B & C); repeat split; auto using ssorted_sadd.
Qed.
Lemma append_view_set o ss signal id : three signal ->
  In id (signal_set signal (append_view o ss)) <-> match o with Some f => In id (signal_set signal f) | None => False end \/ sig_ids signal ss id.
Proof.
  intros T. pose proof (fun f => set_samples_set ss f signal id T) as H. destruct o as [f|]; cbn [append_view].
  - rewrite <- H. unfold signal_set. cbn. tauto.
  - rewrite <- (H (Frame [] [] [] [])) at 1 || idtac.
    transitivity (In id (signal_set signal (fold_left set_sample ss (Frame [] [] [] [])))); [unfold signal_set; cbn; tauto|].
    rewrite H. destruct T as [->|[->| ->]]; cbn; tauto.
Qed.
Lemma view_after_set h f signal id : three signal -> view_after h = Some f ->
  In id (signal_set signal f) <-> sig_ids signal (List.concat h) id.
Proof.
  intros T. revert f. induction h as [|ss h IH] using rev_ind; intros f E; [discriminate|].
  rewrite view_after_app in E. apply some_inj in E. subst f. rewrite append_view_set by exact T. rewrite concat_app. cbn [List.concat]. rewrite app_nil_r.
  assert (Q : match view_after h with Some f => In id (signal_set signal f) | None => False end <-> sig_ids signal (List.concat h) id).
  { destruct (view_after h) as [f|] eqn:E; [apply IH; reflexivity|]. destruct h as [|ss' h] using rev_ind; [|rewrite view_after_app in E; discriminate].
    split; [intros []|intros (s & [] & _)]. }
  rewrite Q. unfold sig_ids. split.
  - intros [(s & I & H)|(s & I & H)]; exists s; (split; [apply in_app_iff; auto|exact H]).
  - intros (s & I & H). apply in_app_iff in I as [I|I]; [left|right]; exists s; auto.
Qed.
Lemma append_view_sorted o ss :
  match o with Some f => ssorted (fr_metrics f) /\ ssorted (fr_traces f) /\ ssorted (fr_logs f) | None => True end ->
  let f := append_view o ss in ssorted (fr_metrics f) /\ ssorted (fr_traces f) /\ ssorted (fr_logs f).
Proof.
  intros H. destruct o as [f|]; cbn [append_view fr_metrics fr_traces fr_logs]; cbv zeta; apply set_samples_sorted; [exact H|].
  cbn. repeat split; constructor.
Qed.
Lemma view_after_sorted h f : view_after h = Some f -> ssorted (fr_metrics f) /\ ssorted (fr_traces f) /\ ssorted (fr_logs f).
Proof.
  revert f. induction h as [|ss h IH] using rev_ind; intros f E; [discriminate|]. rewrite view_after_app in E. apply some_inj in E. subst f.
  apply append_view_sorted. destruct (view_after h); auto.
Qed.

(* ------------------------------------------------------------------ all views *)
(** The flushes of a list of per-view appends that concern view [v]. *)
Definition history_of (v : string) (evs : list (string * list sample)) : list (list sample) :=
  map snd (filter (fun g => String.eqb (fst g) v) evs).
Lemma append_steps_app fs a b : append_steps fs (a ++ b) = append_steps (append_steps fs a) b.
Proof. apply fold_left_app. Qed.
Lemma frames_after evs : forall v, aget String.eqb v (append_steps [] evs) = view_after (history_of v evs).
Proof.
  induction evs as [|[w ss] evs IH] using rev_ind; intros v; [reflexivity|].
  rewrite append_steps_app. cbn [append_steps fold_left append_step fst snd]. unfold append_step. cbn [fst snd].
  rewrite (aget_aset _ string_eqb_reflect). unfold history_of. rewrite filter_app, map_app. cbn [filter fst].
  destruct (String.eqb_spec v w) as [->|NE].
  - rewrite String.eqb_refl. cbn [map snd]. rewrite view_after_app. f_equal. f_equal. apply IH.
  - destruct (String.eqb_spec w v); [congruence|]. cbn [map]. rewrite app_nil_r. apply IH.
Qed.

(* ------------------------------------------------------------------ grouping a flush by view *)
Lemma group_sample_get vs s : forall m v, NoDup vs ->
  match aget String.eqb v (group_sample vs s m) with Some l => l | None => [] end =
  match aget String.eqb v m with Some l => l | None => [] end ++ (if existsb (String.eqb v) vs then [s] else []).
Proof.
  induction vs as [|w vs IH]; intros m v ND; cbn [group_sample fold_left existsb]; [rewrite app_nil_r; reflexivity|].
  inversion ND; subst. change (fold_left _ vs ?m) with (group_sample vs s m). rewrite IH by auto.
  rewrite (aget_aset _ string_eqb_reflect). destruct (String.eqb_spec v w) as [->|NE].
  - assert (X : existsb (String.eqb w) vs = false).
    { apply Bool.not_true_is_false. intros C. apply existsb_exists in C as (x & I & E). apply String.eqb_eq in E. subst. contradiction. }
    rewrite X, app_nil_r. reflexivity.
  - reflexivity.
Qed.
Lemma group_sample_keys vs s : forall m v, In v (map fst (group_sample vs s m)) <-> In v vs \/ In v (map fst m).
Proof.
  induction vs as [|w vs IH]; intros m v; cbn [group_sample fold_left In]; [tauto|].
  change (fold_left _ vs ?m) with (group_sample vs s m). rewrite IH, (in_aset_keys _ string_eqb_reflect). intuition congruence.
Qed.
Lemma group_sample_nodup vs s : forall m, NoDup (map fst m) -> NoDup (map fst (group_sample vs s m)).
Proof.
  induction vs as [|w vs IH]; intros m H; cbn [group_sample fold_left]; [exact H|].
  change (fold_left _ vs ?m) with (group_sample vs s m). apply IH, nodup_aset; [apply string_eqb_reflect|exact H].
Qed.

Notation when := int64_of_u64.
Lemma when_year4 ts : ts < two64 -> year4 (when ts).
Proof.
  intros H. apply year4_int64. unfold int64_of_u64, int64_range, two63. unfold two64 in H.
  change (2 ^ 64) with 18446744073709551616 in *. change (2 ^ 63) with 9223372036854775808 in *.
  unfold two64. change (2 ^ 64) with 18446744073709551616.
  destruct (N.ltb_spec ts 9223372036854775808); lia.
Qed.
Lemma length_qt_set q t : String.length q = 10%nat -> year4 t -> String.length (qt_set q t) = 10%nat.
Proof.
  intros Hq Ht. unfold qt_set. rewrite copy_into_full by (rewrite Hq; apply length_format_YMDH; auto). apply length_format_YMDH, Ht.
Qed.
Lemma std_views_nodup t : year4 t -> NoDup (std_views t).
Proof.
  intros Y. assert (L : map String.length (std_views t) = [8; 10; 12; 14]%nat).
  { unfold std_views, view_Y, view_M, view_D, view_H. cbn [map].
    rewrite !length_append, length_format_Y, length_format_YM, length_format_YMD, length_format_YMDH by auto. reflexivity. }
  apply NoDup_map_inv with (f := String.length). rewrite L. repeat constructor; cbn; lia.
Qed.
Lemma group_samples_cons q q' s ts t m vs : q' = qt_set q (when ts) -> views_buf batch_quantum q' = Some vs ->
  group_samples q ((s, ts) :: t) m = group_samples q' t (group_sample vs s m).
Proof. intros E H. cbn [group_samples]. rewrite <- E, H. reflexivity. Qed.
Lemma filing_buf p t : filing_views p t = views_buf batch_quantum (qt_set p t). Proof. reflexivity. Qed.
Lemma group_samples_step q s ts t m : String.length q = 10%nat -> year4 (when ts) ->
  group_samples q ((s, ts) :: t) m = group_samples (qt_set q (when ts)) t (group_sample (std_views (when ts)) s m).
Proof.
  intros Hq Hy. apply group_samples_cons; [reflexivity|]. rewrite <- filing_buf. apply filing_views_eq; assumption.
Qed.
Lemma group_samples_spec l : forall q m, String.length q = 10%nat -> (forall p, In p l -> snd p < two64) -> NoDup (map fst m) ->
  exists m', group_samples q l m = Some m' /\ NoDup (map fst m') /\
   (forall v, match aget String.eqb v m' with Some ss => ss | None => [] end = match aget String.eqb v m with Some ss => ss | None => [] end ++ filed_in v l) /\
   (forall v, In v (map fst m') -> In v (map fst m) \/ filed_in v l <> []).
Proof.
  induction l as [|[s ts] l IH]; intros q m Hq Hts ND.
  - exists m. split; [reflexivity|]. split; [exact ND|]. split; [|auto]. intros v. rewrite app_nil_r. reflexivity.
  - assert (Y : year4 (when ts)) by (apply when_year4, (Hts (s, ts)); left; reflexivity).
    rewrite group_samples_step by auto.
    destruct (IH (qt_set q (when ts)) (group_sample (std_views (when ts)) s m)) as (m' & E & ND' & G & K).
    + apply length_qt_set; auto.
    + intros p Hp. apply Hts. right. exact Hp.
    + apply group_sample_nodup, ND.
    + exists m'. split; [exact E|]. split; [exact ND'|]. split.
      * intros v. rewrite G, group_sample_get by (apply std_views_nodup, Y). unfold filed_in. cbn [filter].
        unfold in_view at 2. cbn [snd]. rewrite <- app_assoc. destruct (existsb (String.eqb v) (std_views (when ts))); reflexivity.
      * intros v Hv. apply K in Hv as [Hv|Hv].
        -- apply group_sample_keys in Hv as [Hv|Hv]; [|auto]. right. unfold filed_in. cbn [filter].
           assert (X : in_view v (s, ts) = true).
           { unfold in_view. cbn [snd]. apply existsb_exists. exists v. split; [exact Hv|apply String.eqb_refl]. }
           rewrite X. discriminate.
        -- right. unfold filed_in in *. cbn [filter]. destruct (in_view v (s, ts)); [discriminate|exact Hv].
Qed.
Lemma groups_exact q l : String.length q = 10%nat -> (forall p, In p l -> snd p < two64) ->
  exists m, group_samples q l [] = Some m /\ NoDup (map fst m) /\ forall v ss, In (v, ss) m <-> ss = filed_in v l /\ ss <> [].
Proof.
  intros Hq Hts. destruct (group_samples_spec l q [] Hq Hts (NoDup_nil _)) as (m & E & ND & G & K). exists m. split; [exact E|]. split; [exact ND|].
  intros v ss. specialize (G v). cbn in G. split.
  - intros I. apply (in_aget _ string_eqb_reflect) in I as A; [|exact ND]. rewrite A in G. split; [exact G|].
    destruct (K v) as [[]|H]; [apply in_map_iff; exists (v, ss); auto|congruence].
  - intros [-> NE]. destruct (aget String.eqb v m) as [ss|] eqn:A; [|congruence]. apply (aget_in _ string_eqb_reflect) in A. congruence.
Qed.

(* ------------------------------------------------------------------ reading *)
Lemma read_views_app fault fs signal rows a b : read_views fault fs signal rows (a ++ b) =
  match read_views fault fs signal rows a with None => None | Some x =>
  match read_views fault fs signal rows b with None => None | Some y => Some (x ++ y) end end.
Proof.
  induction a as [|v a IH]; cbn [app read_views].
  - destruct (read_views fault fs signal rows b); reflexivity.
  - destruct (read_view fault fs signal rows v); [|reflexivity]. rewrite IH.
    destruct (read_views fault fs signal rows a); [|reflexivity]. destruct (read_views fault fs signal rows b); [|reflexivity]. rewrite app_assoc. reflexivity.
Qed.
Definition no_fault : string -> bool := fun _ => false.
(** What a faultless read answers. *)
Definition view_ids (fs : frames) (signal : Z) (rows : nset) (v : string) : list N :=
  match aget String.eqb v fs with Some f => sinter (signal_set signal f) rows | None => [] end.
Definition row_at (fs : frames) (v : string) (id : N) : option data :=
  match aget String.eqb v fs with Some f => nth_error (fr_rows f) (N.to_nat id) | None => None end.
Lemma read_views_ok fs signal rows vs :
  read_views no_fault fs signal rows vs = Some (flat_map (fun v => map (fun id => option_map (only_signal signal) (row_at fs v id)) (view_ids fs signal rows v)) vs).
Proof.
  induction vs as [|v vs IH]; [reflexivity|]. cbn [read_views flat_map]. unfold read_view, no_fault, view_ids, row_at.
  destruct (aget String.eqb v fs) as [f|] eqn:E; fold no_fault; unfold no_fault in *; rewrite IH; reflexivity.
Qed.

(* ------------------------------------------------------------------ histories of flushes *)
Lemma filter_unique v (l : list (string * list sample)) ss : NoDup (map fst l) -> In (v, ss) l -> filter (fun g => String.eqb (fst g) v) l = [(v, ss)].
Proof.
  induction l as [|[w t] l IH]; intros ND I; [destruct I|]. cbn [map fst] in ND. inversion ND; subst. cbn [filter fst]. destruct I as [E|I].
  - apply pair_inj in E as [-> ->]. rewrite String.eqb_refl. f_equal.
    assert (G : forall l', (forall g, In g l' -> In g l) -> filter (fun g => String.eqb (fst g) v) l' = []).
    { induction l' as [|[u t'] l' IHl]; intros H; [reflexivity|]. cbn [filter fst]. destruct (String.eqb_spec u v) as [->|NE].
      - exfalso. apply H1. apply in_map_iff. exists (v, t'). split; [reflexivity|]. apply H. left. reflexivity.
      - apply IHl. intros g Hg. apply H. right. exact Hg. }
    apply G. auto.
  - destruct (String.eqb_spec w v) as [->|NE]; [exfalso; apply H1; apply in_map_iff; exists (v, ss); auto|]. apply IH; auto.
Qed.
Lemma written_in fl v ss : flush_ok fl -> In (v, ss) (written fl) -> ss = filed_in v (fl_samples fl) /\ ss <> [].
Proof.
  intros (Hq & Hts & m & E & P) I. destruct (groups_exact _ _ Hq Hts) as (m' & E' & ND & G). rewrite E in E'. apply some_inj in E'. subst m'.
  apply G. apply Permutation_in with (l := fl_order fl); [apply Permutation_sym, P|]. revert I. unfold written. intros I.
  rewrite <- (firstn_skipn (fl_done fl) (fl_order fl)). apply in_app_iff. auto.
Qed.
Lemma firstn_nodup {A} n (l : list A) : NoDup l -> NoDup (firstn n l).
Proof.
  revert n. induction l as [|x l IH]; intros [|n] H; cbn; try constructor; inversion H; subst.
  - intros C. apply H2. rewrite <- (firstn_skipn n l). apply in_app_iff. auto.
  - apply IH, H3.
Qed.
Lemma written_nodup fl : flush_ok fl -> NoDup (map fst (written fl)).
Proof.
  intros (Hq & Hts & m & E & P). destruct (groups_exact _ _ Hq Hts) as (m' & E' & ND & _). rewrite E in E'. apply some_inj in E'. subst m'.
  unfold written. rewrite <- firstn_map. apply firstn_nodup. revert ND. apply Permutation_NoDup, Permutation_map, P.
Qed.
Lemma reached_in v fl : reached v fl = true <-> exists ss, In (v, ss) (written fl).
Proof.
  unfold reached. rewrite existsb_exists. split.
  - intros ([w ss] & I & E). apply String.eqb_eq in E. cbn in E. subst. eauto.
  - intros (ss & I). exists (v, ss). split; [exact I|]. apply String.eqb_refl.
Qed.
Lemma history_of_app v a b : history_of v (a ++ b) = history_of v a ++ history_of v b.
Proof. unfold history_of. rewrite filter_app, map_app. reflexivity. Qed.
Lemma history_written v fl : flush_ok fl -> history_of v (written fl) = if reached v fl then [filed_in v (fl_samples fl)] else [].
Proof.
  intros OK. destruct (reached v fl) eqn:R.
  - apply reached_in in R as (ss & I). unfold history_of. rewrite (filter_unique v _ ss (written_nodup _ OK) I). cbn.
    destruct (written_in _ _ _ OK I) as [-> _]. reflexivity.
  - unfold history_of. assert (F : filter (fun g => String.eqb (fst g) v) (written fl) = []).
    { unfold reached in R. induction (written fl) as [|g l IH]; [reflexivity|]. cbn [existsb filter] in *.
      apply Bool.orb_false_iff in R as [R1 R2]. rewrite R1. auto. }
    rewrite F. reflexivity.
Qed.
Lemma history_of_flushes v fls : Forall flush_ok fls -> history_of v (flat_map written fls) = view_history v fls.
Proof.
  induction 1 as [|fl fls OK _ IH]; [reflexivity|]. cbn [flat_map]. rewrite history_of_app, IH, (history_written _ _ OK).
  unfold view_history. cbn [filter]. destruct (reached v fl); reflexivity.
Qed.
Lemma frames_of_flushes v fls : Forall flush_ok fls -> aget String.eqb v (run_flushes fls) = view_after (view_history v fls).
Proof. intros OK. unfold run_flushes. rewrite frames_after, history_of_flushes by exact OK. reflexivity. Qed.

Lemma increasing_filter {B} (f : B -> sample) (p : B -> bool) l : increasing (map f l) -> increasing (map f (filter p l)).
Proof.
  induction l as [|x l IH]; cbn [map filter]; intros H; [exact H|]. inversion H; subst. destruct (p x); [|auto]. cbn [map].
  constructor; [apply IH; auto|]. rewrite Forall_forall in *. intros y Hy. apply H3. apply in_map_iff in Hy as (z & <- & I).
  apply in_map. apply filter_In in I. tauto.
Qed.
Lemma increasing_app_intro a b : increasing a -> increasing b -> (forall x y, In x a -> In y b -> smp_id x < smp_id y) -> increasing (a ++ b).
Proof.
  intros Ha Hb H. induction a as [|x a IH]; [exact Hb|]. inversion Ha; subst. cbn. constructor.
  - apply IH; auto. intros; apply H; auto. right; auto.
  - apply Forall_app. split; [exact H3|]. apply Forall_forall. intros y Hy. apply H; [left; reflexivity|exact Hy].
Qed.
Lemma in_concat_history v fls s : In s (List.concat (view_history v fls)) -> In s (all_samples fls).
Proof.
  intros H. apply in_concat in H as (ss & I & H). unfold view_history in I. apply in_map_iff in I as (fl & <- & I).
  apply filter_In in I as [I _]. unfold all_samples. apply in_flat_map. exists fl. split; [exact I|].
  unfold filed_in in H. apply in_map_iff in H as (p & <- & J). apply filter_In in J as [J _]. apply in_map, J.
Qed.
Lemma view_history_ok v fls : Forall flush_ok fls -> increasing (all_samples fls) -> history_ok (view_history v fls).
Proof.
  intros OK INC. split.
  - intros ss I. unfold view_history in I. apply in_map_iff in I as (fl & <- & I). apply filter_In in I as [I R].
    apply reached_in in R as (ss & J). rewrite Forall_forall in OK. destruct (written_in _ _ _ (OK fl I) J) as [-> NE]. exact NE.
  - clear OK. induction fls as [|fl fls IH]; [constructor|]. unfold all_samples in INC. cbn [flat_map] in INC.
    apply increasing_app in INC as (A & B & C). unfold view_history. cbn [filter]. destruct (reached v fl).
    + cbn [map List.concat]. apply increasing_app_intro; [apply increasing_filter, A|apply IH, B|].
      intros x y Hx Hy. apply C.
      * unfold filed_in in Hx. apply in_map_iff in Hx as (p & <- & J). apply filter_In in J as [J _]. apply in_map, J.
      * apply in_concat_history in Hy. exact Hy.
    + apply IH, B.
Qed.
