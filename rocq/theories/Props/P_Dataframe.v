(** C29-C33: stored sample data (internal/dataframe). *)
From Verif.Model Require Import Base Labels View Otlp Transform Dataframe.
From Verif.Spec Require Import Indexing Frames.
From Verif.Proofs Require Import BaseFacts CalendarFacts ViewFacts DataframeFacts.
Open Scope N_scope.

(** Histories of flushes with increasing ids, each stopped anywhere, views written in any order. *)
Definition good (fls : list flush) : Prop := Forall flush_ok fls /\ increasing (all_samples fls).
(** Sample [s] was filed in view [v] by a flush that reached the view. *)
Definition stored (v : string) (fls : list flush) (s : sample) : Prop :=
  exists fl ts, In fl fls /\ reached v fl = true /\ In (s, ts) (fl_samples fl) /\ In v (std_views (int64_of_u64 ts)).

Lemma in_view_iff v p : in_view v p = true <-> In v (std_views (int64_of_u64 (snd p))).
Proof.
  unfold in_view. rewrite existsb_exists. split.
  - intros (w & I & E). apply String.eqb_eq in E. subst. exact I.
  - intros I. exists v. split; [exact I|apply String.eqb_refl].
Qed.
Lemma stored_iff v fls s : stored v fls s <-> In s (List.concat (view_history v fls)).
Proof.
  unfold stored, view_history. rewrite in_concat. split.
  - intros (fl & ts & I & R & J & V). exists (filed_in v (fl_samples fl)). split.
    + apply (in_map (fun fl => filed_in v (fl_samples fl))). apply filter_In. auto.
    + unfold filed_in. apply in_map_iff. exists (s, ts). split; [reflexivity|]. apply filter_In. split; [exact J|apply in_view_iff; exact V].
  - intros (ss & I & H). apply in_map_iff in I as (fl & <- & I). apply filter_In in I as [I R].
    unfold filed_in in H. apply in_map_iff in H as ([s' ts] & <- & J). apply filter_In in J as [J V]. apply in_view_iff in V.
    exists fl, ts. auto.
Qed.

(** C29: where every row really is. *)
Theorem C29_row_numbers_exact : forall fls v, good fls -> view_history v fls <> [] ->
  exists f, aget String.eqb v (run_flushes fls) = Some f /\
    layout (fr_rows f) (place_in (view_history v fls)) (List.concat (view_history v fls)).
Proof.
  intros fls v [OK INC] NE. destruct (view_layout (view_history v fls) NE (view_history_ok v fls OK INC)) as (f & E & L & _).
  exists f. split; [rewrite frames_of_flushes by exact OK; exact E|exact L].
Qed.
(** Row number = id fails for every view whose first sample has an id other than 0: after the first
    flush of such a view its newest sample's row number is beyond the record. *)
Theorem C29_row_number_is_id_refuted :
  (forall fls v s, good fls -> List.length (view_history v fls) = 1%nat -> first_id (view_history v fls) <> 0 ->
     stored v fls s -> (forall s', stored v fls s' -> smp_id s' <= smp_id s) ->
     row_at (run_flushes fls) v (smp_id s) = None) /\
  (** and an earlier row of that flush holds the data of the following sample *)
  (forall fls v s s', good fls -> List.length (view_history v fls) = 1%nat -> first_id (view_history v fls) <> 0 ->
     stored v fls s -> stored v fls s' -> smp_id s' = smp_id s + 1 ->
     row_at (run_flushes fls) v (smp_id s) = Some (smp_data s')).
Proof.
  assert (G : forall fls v, good fls -> List.length (view_history v fls) = 1%nat -> first_id (view_history v fls) <> 0 ->
    exists f ss, view_history v fls = [ss] /\ aget String.eqb v (run_flushes fls) = Some f /\ layout (fr_rows f) (fun s => smp_id s - 1) ss /\
      N.of_nat (List.length (fr_rows f)) = last_id 0 ss /\ increasing ss /\ ss <> []).
  { intros fls v [OK INC] L1 F1. destruct (view_history v fls) as [|ss [|? ?]] eqn:E; try discriminate.
    pose proof (view_history_ok v fls OK INC) as HOK. rewrite E in HOK.
    destruct (view_layout [ss]) as (f & A & B & C & D & LEN); [discriminate|exact HOK|]. exists f, ss. split; [reflexivity|].
    split; [rewrite frames_of_flushes by exact OK; rewrite E; exact A|].
    cbn [List.concat] in *. rewrite app_nil_r in *. destruct HOK as [NEs INCs]. cbn [List.concat] in INCs. rewrite app_nil_r in INCs.
    assert (FN : (first_id [ss] =? 0) = false) by (apply N.eqb_neq, F1).
    rewrite FN in LEN. change (1 <? N.of_nat (List.length [ss])) with false in LEN. cbn [orb] in LEN. rewrite N.add_0_r in LEN.
    assert (PL : forall s, In s ss -> place_in [ss] s = smp_id s - 1).
    { intros s Hs. unfold place_in, row_number. rewrite FN. assert (IF : in_first [ss] (smp_id s) = true).
      { unfold in_first. apply existsb_exists. exists s. split; [exact Hs|apply N.eqb_refl]. } rewrite IF. reflexivity. }
    split; [|split; [exact LEN|split; [exact INCs|apply NEs; left; reflexivity]]].
    destruct B as [B1 B2]. split.
    - intros s Hs. rewrite <- PL by exact Hs. apply B1, Hs.
    - intros i d H. apply B2 in H as [(s & I & Q & R)|[Q R]]; [left; exists s; split; [exact I|]; split; [rewrite <- PL by exact I; exact Q|exact R]|].
      right. split; [|exact R]. intros s Hs. rewrite <- PL by exact Hs. apply Q, Hs. }
  split.
  - intros fls v s Gd L1 F1 St Mx. destruct (G fls v Gd L1 F1) as (f & ss & Eh & Ef & LAY & LEN & INC & NE).
    apply stored_iff in St. rewrite Eh in St. cbn [List.concat] in St. rewrite app_nil_r in St.
    unfold row_at. rewrite Ef. apply nth_error_None.
    destruct (last_id_in 0 ss NE) as (x & Ix & Ex).
    assert (smp_id x <= smp_id s). { apply Mx. apply stored_iff. rewrite Eh. cbn [List.concat]. rewrite app_nil_r. exact Ix. }
    lia.
  - intros fls v s s' Gd L1 F1 St St' E. destruct (G fls v Gd L1 F1) as (f & ss & Eh & Ef & [L _] & _).
    apply stored_iff in St'. rewrite Eh in St'. cbn [List.concat] in St'. rewrite app_nil_r in St'.
    unfold row_at. rewrite Ef. specialize (L s' St'). rewrite E in L. replace (smp_id s + 1 - 1) with (smp_id s) in L by lia. exact L.
Qed.
(** C29, the part that holds: row number = id for every sample that is not part of its view's first flush. *)
Theorem C29_row_number_is_id_partial : forall fls v s, good fls -> stored v fls s ->
  first_id (view_history v fls) = 0 \/ in_first (view_history v fls) (smp_id s) = false ->
  row_at (run_flushes fls) v (smp_id s) = Some (smp_data s).
Proof.
  intros fls v s Gd St H. apply stored_iff in St.
  assert (NE : view_history v fls <> []) by (intros C; rewrite C in St; destruct St).
  destruct (C29_row_numbers_exact fls v Gd NE) as (f & E & L & _). unfold row_at. rewrite E. specialize (L s St).
  unfold place_in, row_number in L. destruct (N.eqb_spec (first_id (view_history v fls)) 0) as [Z|NZ]; [exact L|].
  destruct H as [H|H]; [congruence|]. rewrite H in L. exact L.
Qed.

(** C30: views whose first sample is sample 0. *)
Theorem C30_anchored_views_aligned : forall fls v, good fls -> (exists s, stored v fls s /\ smp_id s = 0) ->
  (forall s, stored v fls s -> row_at (run_flushes fls) v (smp_id s) = Some (smp_data s)) /\
  (forall id d, row_at (run_flushes fls) v id = Some d -> (forall s, stored v fls s -> smp_id s <> id) -> d = DNone) /\
  (forall s, stored v fls s -> forall id, id <= smp_id s -> row_at (run_flushes fls) v id <> None).
Proof.
  intros fls v Gd (s0 & St0 & Z0). apply stored_iff in St0.
  assert (NE : view_history v fls <> []) by (intros C; rewrite C in St0; destruct St0).
  assert (F0 : first_id (view_history v fls) = 0).
  { pose proof (view_history_ok v fls (proj1 Gd) (proj2 Gd)) as [_ INC]. unfold first_id. destruct (List.concat (view_history v fls)) as [|x l]; [reflexivity|].
    destruct St0 as [<-|St0]; [exact Z0|]. inversion INC; subst. rewrite Forall_forall in H2. specialize (H2 s0 St0). cbn in H2. lia. }
  destruct (C29_row_numbers_exact fls v Gd NE) as (f & E & L1 & L2).
  assert (PL : forall s, place_in (view_history v fls) s = smp_id s) by (intros s; unfold place_in, row_number; rewrite F0; reflexivity).
  unfold row_at. rewrite E. split; [|split].
  - intros s St. apply stored_iff in St. specialize (L1 s St). rewrite PL in L1. exact L1.
  - intros id d H Hno. apply L2 in H as [(s & I & Q & R)|[_ R]]; [|exact R]. exfalso. rewrite PL, N2Nat.id in Q.
    apply (Hno s); [apply stored_iff; exact I|congruence].
  - intros s St id Hid. apply stored_iff in St. specialize (L1 s St). rewrite PL in L1. apply nth_error_Some.
    assert (N.to_nat (smp_id s) < List.length (fr_rows f))%nat by (apply nth_error_Some; congruence). lia.
Qed.

(** C31: the set of ids of a signal in a view is exact (ids need not even be increasing). *)
Definition members (fs : frames) (v : string) (signal : Z) : nset := match aget String.eqb v fs with Some f => signal_set signal f | None => [] end.
Theorem C31_membership_exact : forall fls v signal, Forall flush_ok fls -> In signal [RESOURCE_METRICS; RESOURCE_TRACES; RESOURCE_LOGS] ->
  StronglySorted N.lt (members (run_flushes fls) v signal) /\
  forall id, In id (members (run_flushes fls) v signal) <-> exists s, stored v fls s /\ smp_id s = id /\ signal_of (smp_data s) = signal.
Proof.
  intros fls v signal OK T0. assert (T : three signal) by (destruct T0 as [<-|[<-|[<-|[]]]]; unfold three; auto). unfold members.
  rewrite frames_of_flushes by exact OK. split.
  - destruct (view_after (view_history v fls)) as [f|] eqn:E; [|constructor]. destruct (view_after_sorted _ _ E) as (A & B & C).
    destruct T as [->|[->| ->]]; assumption.
  - intros id. transitivity (sig_ids signal (List.concat (view_history v fls)) id).
    + destruct (view_after (view_history v fls)) as [f|] eqn:E; [apply view_after_set; auto|].
      destruct (view_history v fls) as [|ss h] eqn:Eh; [split; [intros []|intros (s & [] & _)]|].
      exfalso. clear - E. revert E. destruct (exists_last (l := ss :: h)) as (h' & x & ->); [discriminate|]. rewrite view_after_app. discriminate.
    + unfold sig_ids. split; intros (s & I & H); exists s; (split; [apply stored_iff; exact I|exact H]).
Qed.
Theorem C31_membership_disjoint : forall fls v g1 g2 id, good fls ->
  In g1 [RESOURCE_METRICS; RESOURCE_TRACES; RESOURCE_LOGS] -> In g2 [RESOURCE_METRICS; RESOURCE_TRACES; RESOURCE_LOGS] ->
  In id (members (run_flushes fls) v g1) -> In id (members (run_flushes fls) v g2) -> g1 = g2.
Proof.
  intros fls v g1 g2 id [OK INC] T1 T2 H1 H2. apply (C31_membership_exact fls v g1 OK T1) in H1 as (s1 & S1 & E1 & <-).
  apply (C31_membership_exact fls v g2 OK T2) in H2 as (s2 & S2 & E2 & <-).
  assert (A1 : In s1 (all_samples fls)) by (eapply in_concat_history, stored_iff, S1).
  assert (A2 : In s2 (all_samples fls)) by (eapply in_concat_history, stored_iff, S2).
  assert (U : forall l, increasing l -> In s1 l -> In s2 l -> s1 = s2).
  { induction l as [|x l IH]; intros I J1 J2; [destruct J1|]. inversion I; subst. rewrite Forall_forall in H2. destruct J1 as [<-|J1], J2 as [<-|J2]; auto.
    - specialize (H2 _ J2). cbn in H2. lia.
    - specialize (H2 _ J1). cbn in H2. lia. }
  rewrite (U _ INC A1 A2). reflexivity.
Qed.

(** C32: what reading touches. *)
Theorem C32_reading_stays_in_signal : forall fls signal rows vs, Forall flush_ok fls ->
  In signal [RESOURCE_METRICS; RESOURCE_TRACES; RESOURCE_LOGS] ->
  exists (ids : string -> list N) (keep : data -> data),
    read_views no_fault (run_flushes fls) signal rows vs = Some (flat_map (fun v => map (fun id => option_map keep (row_at (run_flushes fls) v id)) (ids v)) vs) /\
    (forall d, keep d = d /\ signal_of d = signal \/ keep d = DNone /\ signal_of d <> signal) /\
    forall v, StronglySorted N.lt (ids v) /\
      forall id, In id (ids v) <-> In id rows /\ exists s, stored v fls s /\ smp_id s = id /\ signal_of (smp_data s) = signal.
Proof.
  intros fls signal rows vs OK T. exists (view_ids (run_flushes fls) signal rows), (only_signal signal). split; [apply read_views_ok|]. split.
  { intros d. destruct T as [<-|[<-|[<-|[]]]]; destruct d; cbn; auto; right; split; auto; discriminate. }
  intros v. destruct (C31_membership_exact fls v signal OK T) as [S M].
  assert (E : view_ids (run_flushes fls) signal rows v = sinter (members (run_flushes fls) v signal) rows).
  { unfold view_ids, members. destruct (aget String.eqb v (run_flushes fls)); reflexivity. }
  rewrite E. split; [apply ssorted_sinter, S|]. intros id. rewrite in_sinter, M. tauto.
Qed.
(** Reads fail exactly when one of the views needed cannot be read, and are otherwise unaffected. *)
Theorem C32_read_errors : forall fault fs signal rows vs,
  (read_views fault fs signal rows vs = None <-> exists v, In v vs /\ fault v = true) /\
  (forall r, read_views fault fs signal rows vs = Some r -> read_views no_fault fs signal rows vs = Some r).
Proof.
  intros fault fs signal rows vs. induction vs as [|v vs [IH1 IH2]]; cbn [read_views].
  - split; [split; [discriminate|intros (v & [] & _)]|auto].
  - unfold read_view at 1 2. destruct (fault v) eqn:F.
    + split; [|discriminate]. split; [intros _; exists v; split; [left; reflexivity|exact F]|reflexivity].
    + change (read_view no_fault fs signal rows v) with (match aget String.eqb v fs with None => Some [] | Some f => Some (map (fun id => option_map (only_signal signal) (nth_error (fr_rows f) (N.to_nat id))) (sinter (signal_set signal f) rows)) end).
      destruct (match aget String.eqb v fs with None => Some [] | Some f => Some (map (fun id => option_map (only_signal signal) (nth_error (fr_rows f) (N.to_nat id))) (sinter (signal_set signal f) rows)) end) as [a|] eqn:A.
      * destruct (read_views fault fs signal rows vs) as [b|].
        -- split; [split; [discriminate|]|].
           ++ intros (w & [<-|I] & H); [congruence|]. assert (C : Some b = None) by (apply IH1; eauto). discriminate.
           ++ intros r H. rewrite (IH2 b eq_refl). exact H.
        -- split; [|discriminate]. split; [|reflexivity]. intros _. destruct (proj1 IH1 eq_refl) as (w & I & H). exists w. split; [right; exact I|exact H].
      * destruct (aget String.eqb v fs); discriminate.
Qed.

(** C33: a flush stopped anywhere leaves each view either as it was or as the full flush makes it. *)
Theorem C33_interrupted_flush : forall fs fl v, flush_ok fl ->
  let before := aget String.eqb v fs in
  let after := aget String.eqb v (append_steps fs (fl_order fl)) in
  let now := aget String.eqb v (append_steps fs (written fl)) in
  (reached v fl = false -> now = before) /\
  (reached v fl = true -> now = after /\ now = Some (append_view before (filed_in v (fl_samples fl)))).
Proof.
  intros fs fl v OK before after now.
  assert (U : forall l fs0, (forall ss, ~ In (v, ss) l) -> aget String.eqb v (append_steps fs0 l) = aget String.eqb v fs0).
  { induction l as [|[w ss] l IH]; intros fs0 H; [reflexivity|]. cbn [append_steps fold_left]. change (fold_left append_step l ?x) with (append_steps x l).
    rewrite IH by (intros ss' I; apply (H ss'); right; exact I). unfold append_step. cbn [fst snd].
    rewrite (aget_aset_ne _ string_eqb_reflect); [reflexivity|]. intros ->. apply (H ss). left. reflexivity. }
  assert (S : forall l fs0 ss, NoDup (map fst l) -> In (v, ss) l -> aget String.eqb v (append_steps fs0 l) = Some (append_view (aget String.eqb v fs0) ss)).
  { induction l as [|[w t] l IH]; intros fs0 ss ND I; [destruct I|]. cbn [map fst] in ND. inversion ND; subst.
    cbn [append_steps fold_left]. change (fold_left append_step l ?x) with (append_steps x l). destruct I as [E|I].
    - apply pair_inj in E as [-> ->]. rewrite U.
      + unfold append_step. cbn [fst snd]. apply (aget_aset_eq _ string_eqb_reflect).
      + intros ss' I. apply H1. apply in_map_iff. exists (v, ss'). auto.
    - rewrite (IH _ ss H2 I). unfold append_step. cbn [fst snd]. rewrite (aget_aset_ne _ string_eqb_reflect); [reflexivity|].
      intros ->. apply H1. apply in_map_iff. exists (w, ss). auto. }
  split.
  - intros R. apply U. intros ss I. assert (C : reached v fl = true) by (apply reached_in; eauto). congruence.
  - intros R. apply reached_in in R as (ss & I). destruct (written_in _ _ _ OK I) as [E _].
    assert (N1 : now = Some (append_view before ss)) by (apply S; [apply written_nodup, OK|exact I]).
    assert (N2 : after = Some (append_view before ss)).
    { apply S.
      - pose proof (written_nodup (Flush (fl_samples fl) (fl_pool fl) (fl_order fl) (List.length (fl_order fl)))) as W. unfold written in W. cbn [fl_done fl_order] in W.
        rewrite firstn_all in W. apply W. exact OK.
      - unfold written in I. rewrite <- (firstn_skipn (fl_done fl) (fl_order fl)). apply in_app_iff. auto. }
    rewrite N1, N2, E. auto.
Qed.

(** A concrete history: sample 0 in the first hour of 1970 UTC, samples 1 and 2 in the second hour, then
    sample 5, the last flush stopped before all its views were written. *)
Definition md (name : string) : data := DMetrics [RGroup "" None [SGroup "" None [Metric name "" "" None]]].
Definition ex_flush (l : list (sample * N)) (n : nat) : flush :=
  Flush l zero_qt (match group_samples zero_qt l [] with Some m => m | None => [] end) n.
Definition hour2 : N := 5400000000000.
Definition ex_fls : list flush :=
  [ex_flush [(Sample 0 (md "a"), 1000000000)] 4;
   ex_flush [(Sample 1 (md "b"), hour2); (Sample 2 (md "c"), hour2)] 4;
   ex_flush [(Sample 5 (md "d"), hour2)] 3].
Lemma ex_flush_ok l n : (forall p, In p l -> snd p < two64) -> flush_ok (ex_flush l n).
Proof.
  intros H. destruct (groups_exact zero_qt l eq_refl H) as (m & E & _). split; [reflexivity|]. split; [exact H|]. exists m.
  split; [exact E|]. unfold ex_flush. cbn [fl_order]. rewrite E. apply Permutation_refl.
Qed.
Example ex_good : good ex_fls.
Proof.
  split.
  - repeat constructor; apply ex_flush_ok; cbn [In]; intros p Hp; repeat (destruct Hp as [<-|Hp]; [reflexivity|]); destruct Hp.
  - unfold increasing, all_samples. cbn. repeat constructor.
Qed.
Example ex_views : std_views (int64_of_u64 hour2) = ["std_1970"; "std_197001"; "std_19700101"; "std_1970010101"]%string.
Proof. vm_compute. reflexivity. Qed.
(** In the year view everything is aligned; in the hour view sample 1 reads as sample 2 and sample 2 is out of range. *)
Example ex_year : row_at (run_flushes ex_fls) "std_1970" 5 = Some (md "d") /\ row_at (run_flushes ex_fls) "std_1970" 3 = Some DNone.
Proof. vm_compute. auto. Qed.
Example ex_hour : row_at (run_flushes ex_fls) "std_1970010101" 1 = Some (md "c") /\ row_at (run_flushes ex_fls) "std_1970010101" 2 = None.
Proof. vm_compute. auto. Qed.
Example ex_hour_hyps : List.length (view_history "std_1970010101" ex_fls) = 1%nat /\ first_id (view_history "std_1970010101" ex_fls) = 1.
Proof. vm_compute. auto. Qed.
Example ex_members : members (run_flushes ex_fls) "std_1970" RESOURCE_METRICS = [0; 1; 2; 5]. Proof. vm_compute. reflexivity. Qed.
