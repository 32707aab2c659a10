(** Invariant of the service: mutual exclusion, and every stored sample is in exactly one place. *)
From Verif.Model Require Import Base KV Sequence Otlp Transform Service.
From Verif.Proofs Require Import BaseFacts SequenceFacts.
Open Scope N_scope.

Definition inflight (f : flusher) : list sample := match f with FSwapped ls | FSaving ls => ls | _ => [] end.
(** Samples in the order they entered: handed to the store, on their way, buffered. *)
Definition handed (s : service) : list sample := flat_map fst (sv_saves s).
Definition total (s : service) : list sample := handed s ++ inflight (sv_flusher s) ++ sv_buffer s.
Definition entered (c : client) : list sample := match c with CStored r id | CDone r id => [Sample id (export r)] | _ => [] end.
Definition c_holds (c : client) : bool := match c with CLocked _ | CRead _ _ _ | CStored _ _ => true | _ => false end.
Definition f_holds (f : flusher) : bool := match f with FLocked | FTaken _ | FSwapped _ => true | _ => false end.

Record inv (lo0 lo hi : N) (s : service) : Prop := Inv {
  i_client : forall i c, nth_error (sv_clients s) i = Some c -> (c_holds c = true <-> sv_mutex s = Some (OClient i));
  i_owner : forall i, sv_mutex s = Some (OClient i) -> exists c, nth_error (sv_clients s) i = Some c;
  i_flusher : f_holds (sv_flusher s) = true <-> sv_mutex s = Some OFlusher;
  i_taken : forall ls, sv_flusher s = FTaken ls -> ls = sv_buffer s;
  i_read : forall i r items id, nth_error (sv_clients s) i = Some (CRead r items id) ->
    items = sv_buffer s /\ Forall (fun x => smp_id x < id) (total s) /\ lo0 <= id < lo;
  i_perm : Permutation (total s) (flat_map entered (sv_clients s));
  i_sorted : StronglySorted N.lt (map smp_id (total s));
  i_range : Forall (fun x => lo0 <= smp_id x < lo) (total s);
  i_lo : lo0 <= lo;
  i_seq : ss_inv (sv_seq s) lo hi
}.

Lemma nth_set_eq {A} i (a : A) : forall l x, nth_error l i = Some x -> nth_error (set_nth i a l) i = Some a.
Proof. induction i as [|i IH]; intros [|y l] x H; try discriminate; [reflexivity|]. exact (IH l x H). Qed.
Lemma nth_set_ne {A} i j (a : A) : i <> j -> forall l, nth_error (set_nth i a l) j = nth_error l j.
Proof.
  revert j. induction i as [|i IH]; intros j Hij [|y l]; try reflexivity; destruct j as [|j]; try reflexivity; [congruence|]. cbn. apply IH. congruence.
Qed.
Lemma nth_set {A} i j (a : A) l x : nth_error l i = Some x -> nth_error (set_nth i a l) j = if Nat.eqb i j then Some a else nth_error l j.
Proof. intros H. destruct (PeanoNat.Nat.eqb_spec i j) as [<-|Hn]; [eapply nth_set_eq; eauto|apply nth_set_ne; exact Hn]. Qed.
Lemma flat_set_same {A B} (f : A -> list B) i a : forall l x, nth_error l i = Some x -> f a = f x -> flat_map f (set_nth i a l) = flat_map f l.
Proof.
  induction i as [|i IH]; intros [|y l] x H E; try discriminate; cbn in *; [injection H as ->; rewrite E; reflexivity|]. f_equal. eapply IH; eauto.
Qed.
Lemma flat_set_new {A B} (f : A -> list B) i a : forall l x, nth_error l i = Some x -> f x = [] -> Permutation (flat_map f (set_nth i a l)) (flat_map f l ++ f a).
Proof.
  induction i as [|i IH]; intros [|y l] x H E; try discriminate; cbn in *.
  - injection H as ->. rewrite E. cbn. apply Permutation_app_comm.
  - rewrite <- app_assoc. apply Permutation_app_head. eapply IH; eauto.
Qed.

Lemma sorted_snoc l x : StronglySorted N.lt l -> Forall (fun y => y < x) l -> StronglySorted N.lt (l ++ [x]).
Proof.
  induction 1 as [|a l Hs IH Ha]; intros F; [repeat constructor|]. inversion F; subst. cbn. constructor; [auto|].
  apply Forall_app. split; [exact Ha|repeat constructor; assumption].
Qed.

Lemma inv_new q lo hi : ss_inv q lo hi -> inv lo lo hi (service_new q).
Proof.
  intros H. split; cbn.
  - intros [|i] c Hc; discriminate.
  - intros i Hc; discriminate.
  - split; discriminate.
  - intros ls Hc; discriminate.
  - intros [|i] r items id Hc; discriminate.
  - constructor.
  - constructor.
  - constructor.
  - lia.
  - exact H.
Qed.

(** Facts about the lists that make up [total]. *)
Lemma inv_step lo0 lo hi s m s' : inv lo0 lo hi s -> hi + sample_bandwidth < two64 -> service_step s m = Some s' ->
  exists lo', lo <= lo' /\ inv lo0 lo' (hi + sample_bandwidth) s'.
Proof.
  intros Hi Hb E. unfold service_step in E. destruct (sv_exited s) eqn:Ex; [discriminate|].
  destruct Hi as [Hc Ho Hf Ht Hr Hp Hs Hg Hlo Hq].
  assert (ss_inv (sv_seq s) lo (hi + sample_bandwidth)) as Hq' by (eapply ss_inv_mono; [|exact Hq]; lia).
  destruct m as [r|i fail|ok| | |k v].
  - (* request *) injection E as <-. exists lo. split; [lia|].
    assert (forall j c, nth_error (sv_clients s ++ [CWaiting r]) j = Some c -> nth_error (sv_clients s) j = Some c \/ (c = CWaiting r /\ j = List.length (sv_clients s))) as Hn.
    { intros j c Hj. destruct (PeanoNat.Nat.lt_ge_cases j (List.length (sv_clients s))) as [L|L].
      - rewrite nth_error_app1 in Hj by exact L. left. exact Hj.
      - rewrite nth_error_app2 in Hj by exact L. destruct (j - List.length (sv_clients s))%nat as [|d] eqn:D; [|destruct d; discriminate Hj].
        injection Hj as <-. right. split; [reflexivity|lia]. }
    split; cbn; auto.
    + intros j c Hj. apply Hn in Hj. destruct Hj as [Hj|[-> ->]]; [exact (Hc _ _ Hj)|]. cbn. split; [discriminate|].
      intros Hm. destruct (Ho _ Hm) as (c & Hc'). assert (List.length (sv_clients s) < List.length (sv_clients s))%nat by (apply nth_error_Some; congruence). lia.
    + intros j Hm. destruct (Ho _ Hm) as (c & Hc'). exists c. rewrite nth_error_app1; [exact Hc'|]. apply nth_error_Some. congruence.
    + intros j r0 items id Hj. apply Hn in Hj. destruct Hj as [Hj|[Hj _]]; [exact (Hr _ _ _ _ Hj)|discriminate].
    + rewrite flat_map_app. cbn. rewrite !app_nil_r. exact Hp.
  - (* client *) unfold move_client in E. destruct (nth_error (sv_clients s) i) as [c|] eqn:Hn; [|discriminate]. pose proof (Hc _ _ Hn) as Hci. destruct c as [r|r|r items id|r id|r id].
    + destruct (sv_mutex s) as [o|] eqn:Hm; [discriminate|]. injection E as <-. exists lo. split; [lia|].
      split; cbn; auto.
      * intros j c Hj. rewrite (nth_set _ _ _ _ _ Hn) in Hj. destruct (PeanoNat.Nat.eqb_spec i j) as [<-|D]; [injection Hj as <-; cbn; tauto|].
        rewrite (Hc _ _ Hj). split; congruence.
      * intros j [= <-]. exists (CLocked r). eapply nth_set_eq; eauto.
      * rewrite Hf. split; congruence.
      * intros j r0 items id Hj. rewrite (nth_set _ _ _ _ _ Hn) in Hj. destruct (PeanoNat.Nat.eqb_spec i j) as [<-|D]; [discriminate|]. exact (Hr _ _ _ _ Hj).
      * rewrite (flat_set_same _ _ _ _ _ Hn) by reflexivity. exact Hp.
    + destruct (seq_step (sv_seq s) (SNext fail)) as [q [id|]] eqn:Es; pose proof (seq_step_inv _ _ _ _ _ _ Hq Hb Es) as Hnext; injection E as <-.
      * destruct Hnext as [Hle Hq2]. exists (id + 1). split; [lia|].
        assert (Forall (fun x => lo0 <= smp_id x < id + 1) (total s)) as Hg' by (eapply Forall_impl; [|exact Hg]; cbn; intros; lia).
        split; cbn; auto; try lia.
        -- intros j c Hj. rewrite (nth_set _ _ _ _ _ Hn) in Hj. destruct (PeanoNat.Nat.eqb_spec i j) as [<-|D]; [injection Hj as <-; cbn in *; exact Hci|exact (Hc _ _ Hj)].
        -- intros j Hm. destruct (Ho _ Hm) as (c & Hc'). rewrite (nth_set _ _ _ _ _ Hn). destruct (Nat.eqb i j); eauto.
        -- intros j r0 items id0 Hj. rewrite (nth_set _ _ _ _ _ Hn) in Hj. destruct (PeanoNat.Nat.eqb_spec i j) as [<-|D].
           ++ injection Hj as <- <- <-. split; [reflexivity|]. split; [|lia]. eapply Forall_impl; [|exact Hg]. cbn. intros. lia.
           ++ destruct (Hr _ _ _ _ Hj) as (A & B & C). split; [exact A|]. split; [exact B|lia].
        -- rewrite (flat_set_same _ _ _ _ _ Hn) by reflexivity. exact Hp.
      * exists lo. split; [lia|]. split; cbn; auto.
    + destruct (Hr _ _ _ _ Hn) as (-> & Hless & Hid). cbn in Hci. assert (sv_mutex s = Some (OClient i)) as Hm by tauto. injection E as <-. exists lo. split; [lia|].
      assert (inflight (sv_flusher s) = [] \/ exists ls, sv_flusher s = FSaving ls) as Hfl.
      { destruct (sv_flusher s) eqn:Ef; cbn; auto; [|eauto]. cbn in Hf. rewrite Hm in Hf. destruct Hf as [Hf _]. specialize (Hf eq_refl). discriminate. }
      set (s' := with_client _ _ _ _). assert (total s' = total s ++ [Sample id (export r)]) as Et by (unfold total, handed, s'; cbn; rewrite !app_assoc; reflexivity).
      split; try (rewrite Et); cbn; auto.
      * intros j c Hj. rewrite (nth_set _ _ _ _ _ Hn) in Hj. destruct (PeanoNat.Nat.eqb_spec i j) as [<-|D]; [injection Hj as <-; cbn; tauto|exact (Hc _ _ Hj)].
      * intros j Hmj. destruct (Ho _ Hmj) as (c & Hc'). rewrite (nth_set _ _ _ _ _ Hn). destruct (Nat.eqb i j); eauto.
      * intros ls Hls. exfalso. rewrite Hls in Hf. cbn in Hf. rewrite Hm in Hf. destruct Hf as [Hf _]. specialize (Hf eq_refl). discriminate.
      * intros j r0 items id0 Hj. rewrite (nth_set _ _ _ _ _ Hn) in Hj. destruct (PeanoNat.Nat.eqb_spec i j) as [<-|D]; [discriminate|].
        pose proof (Hc _ _ Hj) as Hcj. cbn in Hcj. rewrite Hm in Hcj. destruct Hcj as [Hcj _]. specialize (Hcj eq_refl). congruence.
      * eapply Permutation_trans; [apply Permutation_app_tail, Hp|]. symmetry. apply (flat_set_new entered i (CStored r id) _ _ Hn). reflexivity.
      * rewrite map_app. apply sorted_snoc; [exact Hs|]. apply Forall_map. exact Hless.
      * apply Forall_app. split; [exact Hg|]. repeat constructor; cbn; lia.
    + cbn in Hci. assert (sv_mutex s = Some (OClient i)) as Hm by tauto. injection E as <-. exists lo. split; [lia|].
      split; cbn; auto.
      * intros j c Hj. rewrite (nth_set _ _ _ _ _ Hn) in Hj. destruct (PeanoNat.Nat.eqb_spec i j) as [<-|D]; [injection Hj as <-; cbn; split; discriminate|].
        rewrite (Hc _ _ Hj). rewrite Hm. split; congruence.
      * intros j; discriminate.
      * rewrite Hf, Hm. split; discriminate.
      * intros j r0 items id0 Hj. rewrite (nth_set _ _ _ _ _ Hn) in Hj. destruct (PeanoNat.Nat.eqb_spec i j) as [<-|D]; [discriminate|]. exact (Hr _ _ _ _ Hj).
      * rewrite (flat_set_same _ _ _ _ _ Hn) by reflexivity. exact Hp.
    + discriminate.
  - (* flusher *) unfold move_flusher in E. destruct (sv_flusher s) as [| |ls|ls|ls|] eqn:Ef; cbn in Hf.
    + destruct (sv_mutex s) as [o|] eqn:Hm; [discriminate|]. injection E as <-. exists lo. split; [lia|]. split; cbn; auto.
      * intros j c Hj. rewrite (Hc _ _ Hj). split; discriminate.
      * intros j; discriminate.
      * tauto.
      * discriminate.
      * unfold total, handed in *. cbn. rewrite Ef in *. exact Hr.
      * unfold total, handed in *. cbn. rewrite Ef in *. exact Hp.
      * unfold total, handed in *. cbn. rewrite Ef in *. exact Hs.
      * unfold total, handed in *. cbn. rewrite Ef in *. exact Hg.
    + injection E as <-. exists lo. split; [lia|]. split; cbn; auto.
      * intros ls [= <-]. reflexivity.
      * unfold total, handed in *. cbn. rewrite Ef in *. exact Hr.
      * unfold total, handed in *. cbn. rewrite Ef in *. exact Hp.
      * unfold total, handed in *. cbn. rewrite Ef in *. exact Hs.
      * unfold total, handed in *. cbn. rewrite Ef in *. exact Hg.
    + pose proof (Ht _ eq_refl) as ->. injection E as <-. exists lo. split; [lia|].
      assert (sv_mutex s = Some OFlusher) as Hm by tauto.
      set (s' := with_flusher _ _ _). assert (total s' = total s) as Et by (unfold total, handed, s'; cbn; rewrite Ef; cbn; rewrite app_nil_r; reflexivity).
      split; try (rewrite Et); cbn; auto.
      * discriminate.
      * intros j r0 items id Hj. pose proof (Hc _ _ Hj) as Hcj. cbn in Hcj. rewrite Hm in Hcj. destruct Hcj as [Hcj _]. specialize (Hcj eq_refl). congruence.
    + injection E as <-. exists lo. split; [lia|]. assert (sv_mutex s = Some OFlusher) as Hm by tauto.
      set (s' := with_flusher _ _ _). assert (total s' = total s) as Et by (unfold total, handed, s'; cbn; rewrite Ef; reflexivity).
      split; try (rewrite Et); cbn; auto.
      * intros j c Hj. rewrite (Hc _ _ Hj), Hm. split; congruence.
      * intros j; discriminate.
      * split; discriminate.
      * discriminate.
    + injection E as <-. exists lo. split; [lia|].
      set (s' := Service _ _ _ _ _ _ _ _). assert (total s' = total s) as Et by (unfold total, handed, s'; cbn; rewrite Ef, flat_map_app; cbn; rewrite app_nil_r, <- app_assoc; reflexivity).
      split; try (rewrite Et); cbn; auto. discriminate.
    + discriminate.
  - injection E as <-. exists lo. split; [lia|]. split; cbn; auto.
  - destruct (sv_flusher s) eqn:Ef; try discriminate. destruct (sv_cancelled s) eqn:Hcan; [|discriminate]. injection E as <-. exists lo. split; [lia|].
    set (s' := with_flusher _ _ _). assert (total s' = total s) as Et by (unfold total, handed, s'; cbn; rewrite Ef; reflexivity).
    split; try (rewrite Et); cbn; auto. discriminate.
  - injection E as <-. exists lo. split; [lia|].
    assert (ss_inv (fst (seq_step (sv_seq s) (SOther k v))) lo (hi + sample_bandwidth)) as Hn'.
    { destruct (seq_step (sv_seq s) (SOther k v)) as [q o] eqn:Es. pose proof (seq_step_inv _ _ _ _ _ _ Hq Hb Es) as Hn. cbn [fst].
      assert (o = None) as -> by (unfold seq_step in Es; destruct (ss_proc (sv_seq s)); congruence). exact Hn. }
    split; cbn; auto.
Qed.

Lemma inv_run ms : forall lo0 lo hi s s', inv lo0 lo hi s -> hi + N.of_nat (List.length ms) * sample_bandwidth < two64 -> service_run s ms = Some s' ->
  exists lo' hi', lo <= lo' /\ inv lo0 lo' hi' s'.
Proof.
  induction ms as [|m ms IH]; intros lo0 lo hi s s' Hi Hb E; cbn [service_run] in E; [injection E as <-; exists lo, hi; split; [lia|exact Hi]|].
  destruct (service_step s m) as [s1|] eqn:Es; [|discriminate]. cbn [List.length] in Hb. rewrite Nat2N.inj_succ, N.mul_succ_l in Hb.
  destruct (inv_step _ _ _ _ _ _ Hi ltac:(lia) Es) as (lo1 & Hl & Hi1). destruct (IH _ _ _ _ _ Hi1 ltac:(lia) E) as (lo2 & hi2 & Hl2 & Hi2).
  exists lo2, hi2. split; [lia|exact Hi2].
Qed.

Lemma inv_run_hi ms : forall lo0 lo hi s s', inv lo0 lo hi s -> hi + N.of_nat (List.length ms) * sample_bandwidth < two64 -> service_run s ms = Some s' ->
  exists lo', lo <= lo' /\ inv lo0 lo' (hi + N.of_nat (List.length ms) * sample_bandwidth) s'.
Proof.
  induction ms as [|m ms IH]; intros lo0 lo hi s s' Hi Hb E; cbn [service_run] in E.
  - injection E as <-. exists lo. split; [lia|]. cbn [List.length N.of_nat]. rewrite N.mul_0_l, N.add_0_r. exact Hi.
  - destruct (service_step s m) as [s1|] eqn:Es; [|discriminate]. cbn [List.length] in *. rewrite Nat2N.inj_succ, N.mul_succ_l in *.
    destruct (inv_step _ _ _ _ _ _ Hi ltac:(lia) Es) as (lo1 & Hl & Hi1). destruct (IH _ _ _ _ _ Hi1 ltac:(lia) E) as (lo2 & Hl2 & Hi2).
    replace (hi + (N.of_nat (List.length ms) * sample_bandwidth + sample_bandwidth)) with (hi + sample_bandwidth + N.of_nat (List.length ms) * sample_bandwidth) by lia.
    exists lo2. split; [lia|exact Hi2].
Qed.

(** The id counter after any history of earlier processes. *)
Lemma seq_run_state ops : forall s lo hi s' l, ss_inv s lo hi -> hi + N.of_nat (List.length ops) * sample_bandwidth < two64 -> seq_run s ops = (s', l) ->
  exists lo', lo <= lo' /\ Forall (fun n => n < lo') l /\ ss_inv s' lo' (hi + N.of_nat (List.length ops) * sample_bandwidth).
Proof.
  induction ops as [|o ops IH]; intros s lo hi s' l Hi Hb E; cbn [seq_run] in E.
  - injection E as <- <-. exists lo. split; [lia|]. split; [constructor|]. cbn [List.length N.of_nat]. rewrite N.mul_0_l, N.add_0_r. exact Hi.
  - cbn [List.length] in *. rewrite Nat2N.inj_succ, N.mul_succ_l in *. destruct (seq_step s o) as [s1 r] eqn:E1. destruct (seq_run s1 ops) as [s2 l2] eqn:E2.
    injection E as <- <-. pose proof (seq_step_inv _ _ _ _ _ _ Hi ltac:(lia) E1) as H1.
    replace (hi + (N.of_nat (List.length ops) * sample_bandwidth + sample_bandwidth)) with (hi + sample_bandwidth + N.of_nat (List.length ops) * sample_bandwidth) in * by lia.
    destruct r as [n|].
    + destruct H1 as [Hn H1]. destruct (IH _ _ _ _ _ H1 ltac:(lia) E2) as (lo' & A & B & C). exists lo'. split; [lia|]. split; [constructor; [lia|exact B]|exact C].
    + destruct (IH _ _ _ _ _ H1 ltac:(lia) E2) as (lo' & A & B & C). exists lo'. split; [lia|]. split; [exact B|exact C].
Qed.

(** A state of a service that was started after any history of earlier processes handing out [earlier]. *)
Definition served (earlier : list N) (ms : list move) (s : service) : Prop :=
  exists d ops q, kvget sample_seq_key d = None /\ N.of_nat (List.length ops + List.length ms) < 2 ^ 44 /\
    seq_run (SeqState d None) ops = (q, earlier) /\ service_run (service_new q) ms = Some s.
Lemma served_inv earlier ms s : served earlier ms s -> exists lo0 lo hi, Forall (fun n => n < lo0) earlier /\ inv lo0 lo hi s.
Proof.
  intros (d & ops & q & H0 & Hlen & Hq & Hr).
  assert (N.of_nat (List.length ops) * sample_bandwidth + N.of_nat (List.length ms) * sample_bandwidth < two64) as Hb.
  { rewrite <- N.mul_add_distr_r. change sample_bandwidth with (2^20). change two64 with (2 ^ 44 * 2 ^ 20). apply N.mul_lt_mono_pos_r; [reflexivity|lia]. }
  destruct (seq_run_state ops (SeqState d None) 0 0 q earlier) as (lo & _ & F & Hi); [|lia|exact Hq|].
  { unfold ss_inv, seq_closed_inv, stored. cbn [ss_db ss_proc]. rewrite H0. lia. }
  destruct (inv_run ms lo lo _ _ _ (inv_new _ _ _ Hi) ltac:(lia) Hr) as (lo' & hi' & _ & Hi'). exists lo, lo', hi'. split; [exact F|exact Hi'].
Qed.
Lemma service_run_app ms1 : forall s ms2, service_run s (ms1 ++ ms2) = match service_run s ms1 with Some s1 => service_run s1 ms2 | None => None end.
Proof. induction ms1 as [|m ms1 IH]; intros s ms2; [reflexivity|]. cbn [app service_run]. destruct (service_step s m); [apply IH|reflexivity]. Qed.

(** Invariants proved over a run from invariants of the steps. *)
Lemma run_ind (P : service -> Prop) ms : (forall s m s', P s -> service_step s m = Some s' -> P s') -> forall s s', P s -> service_run s ms = Some s' -> P s'.
Proof.
  intros H. induction ms as [|m ms IH]; intros s s' Hp E; cbn [service_run] in E; [congruence|].
  destruct (service_step s m) as [s1|] eqn:Es; [|discriminate]. eapply IH; [|exact E]. eapply H; eauto.
Qed.
Lemma run_ind_inv (P : service -> Prop) ms : (forall lo0 lo hi s m s', inv lo0 lo hi s -> P s -> service_step s m = Some s' -> P s') ->
  forall lo0 lo hi s s', inv lo0 lo hi s -> hi + N.of_nat (List.length ms) * sample_bandwidth < two64 -> P s -> service_run s ms = Some s' -> P s'.
Proof.
  intros H. induction ms as [|m ms IH]; intros lo0 lo hi s s' Hi Hb Hp E; cbn [service_run] in E; [congruence|].
  destruct (service_step s m) as [s1|] eqn:Es; [|discriminate]. cbn [List.length] in Hb. rewrite Nat2N.inj_succ, N.mul_succ_l in Hb.
  destruct (inv_step _ _ _ _ _ _ Hi ltac:(lia) Es) as (lo1 & _ & Hi1). exact (IH _ _ _ _ _ Hi1 ltac:(lia) (H _ _ _ _ _ _ Hi Hp Es) E).
Qed.

(** A client that is done stays done. *)
Lemma done_stays s m s' r id : service_step s m = Some s' -> In (CDone r id) (sv_clients s) -> In (CDone r id) (sv_clients s').
Proof.
  intros E Hin. apply In_nth_error in Hin. destruct Hin as (j & Hj). unfold service_step in E. destruct (sv_exited s); [discriminate|].
  assert (forall i c c', nth_error (sv_clients s) i = Some c -> c <> CDone r id -> In (CDone r id) (set_nth i c' (sv_clients s))) as Hs.
  { intros i c c' Hi Hne. apply nth_error_In with (n := j). rewrite (nth_set _ _ _ _ _ Hi). destruct (PeanoNat.Nat.eqb_spec i j) as [<-|_]; [congruence|exact Hj]. }
  destruct m as [r0|i fail|ok| | |k v].
  - injection E as <-. cbn. apply in_or_app. left. eapply nth_error_In; eauto.
  - unfold move_client in E. destruct (nth_error (sv_clients s) i) as [c|] eqn:Hn; [|discriminate]. destruct c as [r1|r1|r1 items id1|r1 id1|r1 id1].
    + destruct (sv_mutex s); [discriminate|]. injection E as <-. cbn. eapply Hs; [exact Hn|discriminate].
    + destruct (seq_step (sv_seq s) (SNext fail)) as [q [id1|]]; injection E as <-; cbn; [eapply Hs; [exact Hn|discriminate]|eapply nth_error_In; eauto].
    + injection E as <-. cbn. eapply Hs; [exact Hn|discriminate].
    + injection E as <-. cbn. eapply Hs; [exact Hn|discriminate].
    + discriminate.
  - unfold move_flusher in E. destruct (sv_flusher s); [destruct (sv_mutex s); [discriminate|]| | | | |discriminate]; injection E as <-; cbn; eapply nth_error_In; eauto.
  - injection E as <-. cbn. eapply nth_error_In; eauto.
  - destruct (sv_flusher s); try discriminate. destruct (sv_cancelled s); [|discriminate]. injection E as <-. cbn. eapply nth_error_In; eauto.
  - injection E as <-. cbn. eapply nth_error_In; eauto.
Qed.

(** What left the buffer was answered. *)
Definition left_answered (s : service) : Prop :=
  forall x, In x (handed s ++ inflight (sv_flusher s)) -> exists r, In (CDone r (smp_id x)) (sv_clients s) /\ smp_data x = export r.
Lemma left_answered_step lo0 lo hi s m s' : inv lo0 lo hi s -> left_answered s -> service_step s m = Some s' -> left_answered s'.
Proof.
  intros Hi Hl E. pose proof (fun r id => done_stays s m s' r id E) as Hd.
  assert (forall L, (forall x, In x L -> In x (handed s ++ inflight (sv_flusher s)) \/ exists r, In (CDone r (smp_id x)) (sv_clients s) /\ smp_data x = export r) ->
    forall x, In x L -> exists r, In (CDone r (smp_id x)) (sv_clients s') /\ smp_data x = export r) as Hlift.
  { intros L HL x Hx. destruct (HL _ Hx) as [H|(r & H & Hx')]; [destruct (Hl _ H) as (r & H' & Hx')|]; exists r; (split; [apply Hd; assumption|exact Hx']). }
  unfold left_answered. unfold service_step in E. destruct (sv_exited s); [discriminate|].
  assert (forall s'', s'' = s' -> handed s'' = handed s -> inflight (sv_flusher s'') = inflight (sv_flusher s) -> left_answered s') as Hsame.
  { intros s'' -> E1 E2. unfold left_answered. rewrite E1, E2. apply Hlift. auto. }
  destruct m as [r0|i fail|ok| | |k v].
  - injection E as E. eapply Hsame; [exact E|reflexivity|reflexivity].
  - unfold move_client in E. destruct (nth_error (sv_clients s) i) as [c|] eqn:Hn; [|discriminate]. destruct c as [r1|r1|r1 items id1|r1 id1|r1 id1].
    + destruct (sv_mutex s); [discriminate|]. injection E as E. eapply Hsame; [exact E|reflexivity|reflexivity].
    + destruct (seq_step (sv_seq s) (SNext fail)) as [q [id1|]]; injection E as E; (eapply Hsame; [exact E|reflexivity|reflexivity]).
    + injection E as E. eapply Hsame; [exact E|reflexivity|reflexivity].
    + injection E as E. eapply Hsame; [exact E|reflexivity|reflexivity].
    + discriminate.
  - unfold move_flusher in E. destruct (sv_flusher s) as [| |ls|ls|ls|] eqn:Ef.
    + destruct (sv_mutex s); [discriminate|]. injection E as E. eapply Hsame; [exact E|reflexivity|reflexivity].
    + injection E as E. eapply Hsame; [exact E|reflexivity|reflexivity].
    + injection E as E. assert (sv_flusher s' = FSwapped ls /\ handed s' = handed s) as [-> ->] by (rewrite <- E; split; reflexivity). apply Hlift.
      intros x Hx. apply in_app_or in Hx. destruct Hx as [Hx|Hx]; [left; apply in_or_app; left; exact Hx|right]. cbn in Hx.
      destruct Hi as [Hc _ Hf Ht _ Hp _ _ _ _]. rewrite Ef in Hf. cbn in Hf. assert (sv_mutex s = Some OFlusher) as Hm by tauto.
      rewrite (Ht ls Ef) in Hx. assert (In x (total s)) as Hxt by (unfold total; apply in_or_app; right; apply in_or_app; right; exact Hx).
      apply (Permutation_in _ Hp) in Hxt. apply in_flat_map in Hxt. destruct Hxt as (c & Hcin & Hxc). destruct c as [r|r|r it id|r id|r id]; cbn [entered] in Hxc; try contradiction.
      * exfalso. apply In_nth_error in Hcin. destruct Hcin as (j & Hj). pose proof (Hc _ _ Hj) as Hcj. cbn in Hcj. rewrite Hm in Hcj. destruct Hcj as [Hcj _]. specialize (Hcj eq_refl). discriminate.
      * destruct Hxc as [<-|[]]. exists r. split; [exact Hcin|reflexivity].
    + injection E as E. eapply Hsame; [exact E|reflexivity|reflexivity].
    + injection E as E. assert (handed s' ++ inflight (sv_flusher s') = handed s ++ ls) as ->.
      { rewrite <- E. unfold handed. cbn. rewrite flat_map_app. cbn. rewrite !app_nil_r. reflexivity. }
      apply Hlift. auto.
    + discriminate.
  - injection E as E. eapply Hsame; [exact E|reflexivity|reflexivity].
  - destruct (sv_flusher s) eqn:Ef; try discriminate. destruct (sv_cancelled s); [|discriminate]. injection E as E. eapply Hsame; [exact E|reflexivity|reflexivity].
  - injection E as E. eapply Hsame; [exact E|reflexivity|reflexivity].
Qed.

(** A sample that was in the buffer when the flusher was idle is handed over by the next completed flush. *)
Definition on_its_way (x : sample) (n : nat) (s : service) : Prop :=
  In x (handed s) \/ (List.length (sv_saves s) = n /\
    ((In x (sv_buffer s) /\ match sv_flusher s with FIdle | FLocked | FTaken _ | FReturned => True | _ => False end) \/ In x (inflight (sv_flusher s)))).
Lemma on_its_way_step x n lo0 lo hi s m s' : inv lo0 lo hi s -> on_its_way x n s -> service_step s m = Some s' -> on_its_way x n s'.
Proof.
  intros Hi Hw E. unfold service_step in E. destruct (sv_exited s); [discriminate|].
  destruct m as [r0|i fail|ok| | |k v].
  - injection E as <-. exact Hw.
  - unfold move_client in E. destruct (nth_error (sv_clients s) i) as [c|] eqn:Hn; [|discriminate]. destruct c as [r1|r1|r1 items id1|r1 id1|r1 id1].
    + destruct (sv_mutex s); [discriminate|]. injection E as <-. exact Hw.
    + destruct (seq_step (sv_seq s) (SNext fail)) as [q [id1|]]; injection E as <-; exact Hw.
    + injection E as <-. destruct (i_read _ _ _ _ Hi _ _ _ _ Hn) as (-> & _). unfold on_its_way in *. cbn in *.
      destruct Hw as [Hw|[Hl [[Hw Hf]|Hw]]]; [left; exact Hw|right; split; [exact Hl|left; split; [apply in_or_app; left; exact Hw|exact Hf]]|right; split; [exact Hl|right; exact Hw]].
    + injection E as <-. exact Hw.
    + discriminate.
  - unfold move_flusher in E. unfold on_its_way in *. destruct (sv_flusher s) as [| |ls|ls|ls|] eqn:Ef; cbn in Hw.
    + destruct (sv_mutex s); [discriminate|]. injection E as <-. cbn. exact Hw.
    + injection E as <-. cbn. exact Hw.
    + injection E as <-. cbn. rewrite (i_taken _ _ _ _ Hi _ Ef). destruct Hw as [Hw|[Hl [[Hw _]|[]]]]; [left; exact Hw|right; split; [exact Hl|right; exact Hw]].
    + injection E as <-. cbn. destruct Hw as [Hw|[Hl [[_ []]|Hw]]]; [left; exact Hw|right; split; [exact Hl|right; exact Hw]].
    + injection E as <-. left. unfold handed. cbn. rewrite flat_map_app. apply in_or_app. destruct Hw as [Hw|[_ [[_ []]|Hw]]]; [left; exact Hw|right; cbn; rewrite app_nil_r; exact Hw].
    + discriminate.
  - injection E as <-. exact Hw.
  - destruct (sv_flusher s) eqn:Ef; try discriminate. destruct (sv_cancelled s); [|discriminate]. injection E as <-. unfold on_its_way in *. cbn in *. rewrite Ef in Hw. exact Hw.
  - injection E as <-. exact Hw.
Qed.

(** After the flush goroutine has returned nothing is saved any more. *)
Lemma returned_step s m s' : sv_flusher s = FReturned -> service_step s m = Some s' -> sv_flusher s' = FReturned /\ sv_saves s' = sv_saves s.
Proof.
  intros Hf E. unfold service_step in E. destruct (sv_exited s); [discriminate|]. destruct m as [r0|i fail|ok| | |k v].
  - injection E as <-. split; [exact Hf|reflexivity].
  - unfold move_client in E. destruct (nth_error (sv_clients s) i) as [c|] eqn:Hn; [|discriminate]. destruct c as [r1|r1|r1 items id1|r1 id1|r1 id1].
    + destruct (sv_mutex s); [discriminate|]. injection E as <-. split; [exact Hf|reflexivity].
    + destruct (seq_step (sv_seq s) (SNext fail)) as [q [id1|]]; injection E as <-; (split; [exact Hf|reflexivity]).
    + injection E as <-. split; [exact Hf|reflexivity].
    + injection E as <-. split; [exact Hf|reflexivity].
    + discriminate.
  - unfold move_flusher in E. rewrite Hf in E. discriminate.
  - injection E as <-. split; [exact Hf|reflexivity].
  - rewrite Hf in E. discriminate.
  - injection E as <-. split; [exact Hf|reflexivity].
Qed.
