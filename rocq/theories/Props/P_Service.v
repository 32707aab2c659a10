(** C43-C45, C69: the collector endpoints, the buffer and the flush loop under every interleaving. *)
From Verif.Model Require Import Base KV Sequence Otlp Transform Service.
From Verif.Proofs Require Import BaseFacts SequenceFacts ServiceFacts.
Open Scope N_scope.

(** What an answered (or about to be answered) request asked to store, under the id it was given. *)
Definition accepted (s : service) : list sample := flat_map entered (sv_clients s).
(** [given_to_store s] lists the samples of all calls of SaveSamples so far, in order. *)
Definition given_to_store (s : service) : list sample := flat_map fst (sv_saves s).

(** C43: under every interleaving the samples handed to the store, followed by those not handed over yet,
    are exactly the accepted ones, each once, with strictly increasing ids, all greater than those of earlier
    processes; with an idle flush loop and an empty buffer nothing is left over. *)
Theorem C43_handed_over_exactly_once : forall earlier ms s, served earlier ms s ->
  exists rest, Permutation (given_to_store s ++ rest) (accepted s) /\
    StronglySorted N.lt (map smp_id (given_to_store s ++ rest)) /\
    (forall n x, In n earlier -> In x (given_to_store s ++ rest) -> n < smp_id x) /\
    (sv_flusher s = FIdle -> sv_buffer s = [] -> rest = []).
Proof.
  intros earlier ms s H. destruct (served_inv _ _ _ H) as (lo0 & lo & hi & Fe & Hi). exists (inflight (sv_flusher s) ++ sv_buffer s).
  split; [exact (i_perm _ _ _ _ Hi)|]. split; [exact (i_sorted _ _ _ _ Hi)|]. split.
  - intros n x Hn Hx. pose proof (i_range _ _ _ _ Hi) as Hr. rewrite Forall_forall in Hr, Fe. specialize (Hr _ Hx). specialize (Fe _ Hn). lia.
  - intros -> ->. reflexivity.
Qed.
(** Nothing is handed over twice, and what is handed over was answered. *)
Theorem C43_nothing_else_is_handed_over : forall earlier ms s, served earlier ms s ->
  NoDup (map smp_id (given_to_store s)) /\
  forall x, In x (given_to_store s) -> exists r, In (CDone r (smp_id x)) (sv_clients s) /\ smp_data x = export r.
Proof.
  intros earlier ms s H. split.
  - destruct (C43_handed_over_exactly_once _ _ _ H) as (rest & _ & Hs & _). apply ssorted_nodup in Hs. rewrite map_app in Hs.
    clear -Hs. induction (map smp_id (given_to_store s)) as [|a l IH]; [constructor|]. cbn in Hs. inversion Hs; subst. constructor; [|auto]. intros K. apply H1, in_or_app. left. exact K.
  - destruct H as (d & ops & q & H0 & Hlen & Hq & Hr).
    assert (N.of_nat (List.length ops) * sample_bandwidth + N.of_nat (List.length ms) * sample_bandwidth < two64) as Hb.
    { rewrite <- N.mul_add_distr_r. change sample_bandwidth with (2^20). change two64 with (2 ^ 44 * 2 ^ 20). apply N.mul_lt_mono_pos_r; [reflexivity|lia]. }
    destruct (seq_run_state ops (SeqState d None) 0 0 q earlier) as (lo & _ & F & Hi); [|lia|exact Hq|].
    { unfold ss_inv, seq_closed_inv, stored. cbn [ss_db ss_proc]. rewrite H0. lia. }
    assert (left_answered s) as Hl.
    { eapply run_ind_inv with (ms := ms) (P := left_answered); [exact left_answered_step|exact (inv_new _ _ _ Hi)|lia| |exact Hr]. intros x []. }
    intros x Hx. apply Hl. apply in_or_app. left. exact Hx.
Qed.
(** [s'] is a later state of the service than [s]. *)
Definition served_then (earlier : list N) (s s' : service) : Prop :=
  exists d ops q ms ms', kvget sample_seq_key d = None /\ N.of_nat (List.length ops + List.length ms + List.length ms') < 2 ^ 44 /\
    seq_run (SeqState d None) ops = (q, earlier) /\ service_run (service_new q) ms = Some s /\ service_run s ms' = Some s'.
Lemma served_then_inv earlier s s' : served_then earlier s s' ->
  exists ms' lo0 lo hi, inv lo0 lo hi s /\ service_run s ms' = Some s' /\ hi + N.of_nat (List.length ms') * sample_bandwidth < two64.
Proof.
  intros (d & ops & q & ms & ms' & H0 & Hlen & Hq & Hr & Hr').
  assert ((N.of_nat (List.length ops) + N.of_nat (List.length ms) + N.of_nat (List.length ms')) * sample_bandwidth < two64) as Hb.
  { change sample_bandwidth with (2^20). change two64 with (2 ^ 44 * 2 ^ 20). apply N.mul_lt_mono_pos_r; [reflexivity|lia]. }
  rewrite !N.mul_add_distr_r in Hb.
  destruct (seq_run_state ops (SeqState d None) 0 0 q earlier) as (lo & _ & F & Hi); [|lia|exact Hq|].
  { unfold ss_inv, seq_closed_inv, stored. cbn [ss_db ss_proc]. rewrite H0. lia. }
  destruct (inv_run_hi ms lo lo _ _ _ (inv_new _ _ _ Hi) ltac:(lia) Hr) as (lo' & _ & Hi'). exists ms', lo, lo', (0 + N.of_nat (List.length ops) * sample_bandwidth + N.of_nat (List.length ms) * sample_bandwidth).
  split; [exact Hi'|]. split; [exact Hr'|lia].
Qed.
Lemma served_then_left earlier s s' : served_then earlier s s' -> exists ms, served earlier ms s.
Proof. intros (d & ops & q & ms & ms' & H0 & Hlen & Hq & Hr & Hr'). exists ms, d, ops, q. repeat split; try assumption. lia. Qed.
Lemma served_then_right earlier s s' : served_then earlier s s' -> exists ms, served earlier ms s'.
Proof. intros (d & ops & q & ms & ms' & H0 & Hlen & Hq & Hr & Hr'). exists (ms ++ ms'), d, ops, q. rewrite app_length, service_run_app, Hr. repeat split; try assumption. lia. Qed.

(** Progress: what was answered while the flush loop was idle is handed over as soon as one more flush
    completes, whatever happens in between. *)
Theorem C43_next_flush_hands_over : forall earlier s s' r id, served_then earlier s s' ->
  sv_flusher s = FIdle -> In (CDone r id) (sv_clients s) -> (List.length (sv_saves s) < List.length (sv_saves s'))%nat ->
  In (Sample id (export r)) (given_to_store s').
Proof.
  intros earlier s s' r id Hs Hf Hin Hlen. destruct (served_then_inv _ _ _ Hs) as (ms' & lo0 & lo & hi & Hi & Hr & Hb).
  assert (on_its_way (Sample id (export r)) (List.length (sv_saves s)) s) as Hw.
  { pose proof (i_perm _ _ _ _ Hi) as Hp.
    assert (In (Sample id (export r)) (total s)) as Ht.
    { apply (Permutation_in _ (Permutation_sym Hp)). apply in_flat_map. exists (CDone r id). split; [exact Hin|left; reflexivity]. }
    unfold total in Ht. rewrite Hf in Ht. cbn in Ht. apply in_app_or in Ht. unfold on_its_way. rewrite Hf.
    destruct Ht as [Ht|Ht]; [left; exact Ht|right; split; [reflexivity|left; split; [exact Ht|exact Logic.I]]]. }
  assert (on_its_way (Sample id (export r)) (List.length (sv_saves s)) s') as [Hw'|[Hl _]].
  { eapply run_ind_inv with (ms := ms') (P := on_its_way (Sample id (export r)) (List.length (sv_saves s))); [|exact Hi|exact Hb|exact Hw|exact Hr].
    intros a b c s1 m s2 Hi1 Hw1 E1. exact (on_its_way_step _ _ _ _ _ _ _ _ Hi1 Hw1 E1). }
  - exact Hw'.
  - lia.
Qed.

(** A concrete run: two clients and a flush interleave, a third client comes while the save is running. *)
Definition a_metric : request := RqMetrics [RGroup "" None [SGroup "" None [Metric "m" "" "" None]]].
Definition a_log : request := RqLogs [RGroup "" None [SGroup "" None [LogRecord 5 "INFO" [] None None ""]]].
Definition a_trace : request := RqTraces [].
Definition open_seq : seq_state := fst (seq_run (SeqState [] None) [SOpen false]).
Definition busy : list move :=
  [MRequest a_metric; MRequest a_log; MClient 1 false; MClient 1 false; MOther "x" "y"; MClient 1 false; MClient 1 false;
   MFlusher true; MFlusher true; MRequest a_trace; MFlusher true; MFlusher true; MClient 0 false; MClient 0 false; MFlusher true; MClient 0 false; MClient 0 false].
Definition busy_state : service :=
  match service_run (service_new open_seq) busy with Some s => s | None => service_new open_seq end.
Lemma busy_served : served [] busy busy_state.
Proof. exists [], [SOpen false], open_seq. split; [reflexivity|]. split; [vm_compute; reflexivity|]. split; vm_compute; reflexivity. Qed.
Example C43_nonvacuous : served [] busy busy_state /\ given_to_store busy_state = [Sample 0 (export a_log)] /\
  sv_buffer busy_state = [Sample 1 (export a_metric)] /\ accepted busy_state = [Sample 1 (export a_metric); Sample 0 (export a_log)] /\ sv_flusher busy_state = FIdle.
Proof. split; [exact busy_served|]. split; [vm_compute; reflexivity|]. split; [vm_compute; reflexivity|]. split; vm_compute; reflexivity. Qed.
Definition busy_later : service := match service_run busy_state [MFlusher false; MFlusher false; MFlusher false; MFlusher false; MFlusher true] with Some s => s | None => busy_state end.
Example C43_progress_nonvacuous : served_then [] busy_state busy_later /\ In (CDone a_metric 1) (sv_clients busy_state) /\ List.length (sv_saves busy_state) = 1%nat /\ List.length (sv_saves busy_later) = 2%nat.
Proof.
  split; [|split; [vm_compute; auto|split; vm_compute; reflexivity]]. exists [], [SOpen false], open_seq, busy, [MFlusher false; MFlusher false; MFlusher false; MFlusher false; MFlusher true]. split; [reflexivity|]. split; [vm_compute; reflexivity|]. split; [reflexivity|].
  split; [vm_compute; reflexivity|vm_compute; reflexivity].
Qed.

(** ------ C44 *)
(** After an interrupt the flush loop returns without a last flush: a request that was answered is in the
    buffer, and no continuation ever hands it to the store. *)
Lemma returned_run ms s s' : sv_flusher s = FReturned -> service_run s ms = Some s' -> sv_saves s' = sv_saves s.
Proof.
  intros Hf E. assert (sv_flusher s' = FReturned /\ sv_saves s' = sv_saves s) as [_ K]; [|exact K].
  eapply run_ind with (ms := ms) (P := fun x => sv_flusher x = FReturned /\ sv_saves x = sv_saves s); [|split; [exact Hf|reflexivity]|exact E].
  intros s1 m s2 [H1 H2] Es. destruct (returned_step _ _ _ H1 Es) as [A B]. split; [exact A|congruence].
Qed.
(** The loop goes on until then: without an interrupt it never returns. *)
Lemma cancel_needed ms s s' : service_run s ms = Some s' -> sv_cancelled s = false -> sv_flusher s <> FReturned -> ~ In MCancel ms ->
  sv_cancelled s' = false /\ sv_flusher s' <> FReturned.
Proof.
  revert s. induction ms as [|m ms IH]; intros s E Hc Hf N; cbn [service_run] in E; [apply some_inj in E; subst; auto|].
  destruct (service_step s m) as [s1|] eqn:E1; [|discriminate].
  assert (sv_cancelled s1 = false /\ sv_flusher s1 <> FReturned) as [Hc1 Hf1].
  { unfold service_step in E1. destruct (sv_exited s); [discriminate|]. destruct m as [r|i fail|ok| | |k v].
    - apply some_inj in E1. subst. cbn. auto.
    - unfold move_client in E1. destruct (nth_error (sv_clients s) i) as [[r|r|r items id|r id|r id]|]; try discriminate.
      + destruct (sv_mutex s); [discriminate|]. apply some_inj in E1. subst. cbn. auto.
      + destruct (seq_step (sv_seq s) (SNext fail)) as [q [id|]]; apply some_inj in E1; subst; cbn; auto.
      + apply some_inj in E1. subst. cbn. auto.
      + apply some_inj in E1. subst. cbn. auto.
    - unfold move_flusher in E1. destruct (sv_flusher s); try discriminate; [destruct (sv_mutex s); [discriminate|]| | | |];
        apply some_inj in E1; subst; cbn; split; auto; discriminate.
    - exfalso. apply N. left. reflexivity.
    - rewrite Hc in E1. destruct (sv_flusher s); discriminate.
    - apply some_inj in E1. subst. cbn. auto. }
  apply (IH s1 E Hc1 Hf1). intros K. apply N. right. exact K.
Qed.
Theorem C44_flushing_until_interrupted : forall q ms s, service_run (service_new q) ms = Some s ->
  (sv_flusher s = FReturned -> In MCancel ms) /\ (sv_cancelled s = true -> In MCancel ms).
Proof.
  intros q ms s E.
  assert (D : In MCancel ms \/ ~ In MCancel ms).
  { clear. induction ms as [|m ms IH]; [right; intros []|]. destruct IH as [IH|IH]; [left; right; exact IH|].
    destruct m; try (right; intros [K|K]; [discriminate K|exact (IH K)]). left. left. reflexivity. }
  destruct D as [D|D]; [auto|]. destruct (cancel_needed _ _ _ E eq_refl ltac:(discriminate) D) as [Hc Hf]. split; intros K; congruence.
Qed.
Theorem C44_buffer_is_lost_at_shutdown : forall s x, sv_flusher s = FReturned -> ~ In x (given_to_store s) ->
  forall ms s', service_run s ms = Some s' -> ~ In x (given_to_store s').
Proof. intros s x Hf Hn ms s' E. unfold given_to_store in *. rewrite (returned_run _ _ _ Hf E). exact Hn. Qed.
Definition stopping : list move := [MRequest a_log; MClient 0 false; MClient 0 false; MClient 0 false; MClient 0 false; MCancel; MStop].
Definition stopped : service := match service_run (service_new open_seq) stopping with Some s => s | None => service_new open_seq end.
Theorem C44_survives_shutdown_refuted : exists ms s r id, served [] ms s /\ In (CDone r id) (sv_clients s) /\ sv_cancelled s = true /\ sv_flusher s = FReturned /\
  forall ms' s', service_run s ms' = Some s' -> ~ In (Sample id (export r)) (given_to_store s').
Proof.
  exists stopping, stopped, a_log, 0. split; [exists [], [SOpen false], open_seq; split; [reflexivity|]; split; [vm_compute; reflexivity|]; split; vm_compute; reflexivity|].
  split; [vm_compute; auto|]. split; [vm_compute; reflexivity|]. split; [vm_compute; reflexivity|].
  intros ms' s' E. refine (C44_buffer_is_lost_at_shutdown stopped _ _ _ ms' s' E); [vm_compute; reflexivity|intros K; vm_compute in K; exact K].
Qed.
(** A failed save is never repeated: its samples are in no other call. *)
Theorem C44_failed_save_is_not_repeated : forall earlier ms s before ls after x, served earlier ms s ->
  sv_saves s = before ++ (ls, false) :: after -> In x ls -> forall ls' ok, In (ls', ok) (before ++ after) -> ~ In x ls'.
Proof.
  intros earlier ms s before ls after x H E Hx ls' ok Hin Hx'. destruct (C43_nothing_else_is_handed_over _ _ _ H) as [Hn _].
  unfold given_to_store in Hn. rewrite E, flat_map_app in Hn. cbn [flat_map fst] in Hn. rewrite !map_app in Hn.
  apply in_app_or in Hin.
  assert (In (smp_id x) (map smp_id ls)) as I1 by (apply in_map, Hx).
  assert (forall l, In (ls', ok) l -> In (smp_id x) (map smp_id (flat_map fst l))) as I2.
  { intros l Hl. apply in_map. apply in_flat_map. exists (ls', ok). split; [exact Hl|exact Hx']. }
  destruct Hin as [Hin|Hin]; apply I2 in Hin.
  - apply in_split in Hin. destruct Hin as (u & v & Eu). rewrite Eu in Hn. rewrite <- app_assoc in Hn. cbn in Hn. apply NoDup_remove_2 in Hn. apply Hn.
    apply in_or_app. right. apply in_or_app. right. apply in_or_app. left. exact I1.
  - apply in_split in I1. destruct I1 as (u & v & Eu). rewrite Eu, <- !app_assoc in Hn. cbn in Hn. rewrite app_assoc in Hn. apply NoDup_remove_2 in Hn. apply Hn.
    apply in_or_app. right. apply in_or_app. right. exact Hin.
Qed.
Example C44_failed_nonvacuous : exists before after, sv_saves
    (match service_run busy_state [MFlusher true; MFlusher true; MFlusher true; MFlusher true; MFlusher false; MFlusher true; MFlusher true; MFlusher true; MFlusher true; MFlusher true] with Some s => s | None => busy_state end)
    = before ++ ([Sample 1 (export a_metric)], false) :: after /\ before <> [] /\ after <> [].
Proof. exists [([Sample 0 (export a_log)], true)], [([], true)]. split; [vm_compute; reflexivity|split; discriminate]. Qed.
(** What does survive: data answered before the beginning of a flush that still completes. *)
Theorem C44_survives_if_flushed_partial : forall earlier s s' r id, served_then earlier s s' ->
  sv_flusher s = FIdle -> In (CDone r id) (sv_clients s) -> sv_cancelled s' = true -> (List.length (sv_saves s) < List.length (sv_saves s'))%nat ->
  exists ls ok, In (ls, ok) (sv_saves s') /\ In (Sample id (export r)) ls.
Proof.
  intros earlier s s' r id H Hf Hin _ Hl. pose proof (C43_next_flush_hands_over _ _ _ _ _ H Hf Hin Hl) as K.
  apply in_flat_map in K. destruct K as ([ls ok] & A & B). exists ls, ok. split; [exact A|exact B].
Qed.

(** ------ C45 *)
(** The stored payload has exactly the resources of the request, under the endpoint's own signal. *)
Definition carries (r : request) (d : data) : Prop :=
  match r, d with
  | RqMetrics l, DMetrics l' => l' = l
  | RqLogs l, DLogs l' => l' = l
  | RqTraces l, DTraces l' => l' = l
  | _, _ => False
  end.
Theorem C45_own_signal : forall earlier ms s, served earlier ms s ->
  (forall x, In x (given_to_store s) -> exists r, In (CDone r (smp_id x)) (sv_clients s) /\ carries r (smp_data x)) /\
  (forall r id, In (CDone r id) (sv_clients s) -> exists x, In x (given_to_store s ++ inflight (sv_flusher s) ++ sv_buffer s) /\ smp_id x = id /\ carries r (smp_data x)).
Proof.
  intros earlier ms s H. split.
  - intros x Hx. destruct (C43_nothing_else_is_handed_over _ _ _ H) as [_ K]. destruct (K _ Hx) as (r & Hr & E). exists r. split; [exact Hr|]. rewrite E. destruct r; reflexivity.
  - intros r id Hin. destruct (served_inv _ _ _ H) as (lo0 & lo & hi & _ & Hi). exists (Sample id (export r)). split; [|split; [reflexivity|destruct r; reflexivity]].
    apply (Permutation_in _ (Permutation_sym (i_perm _ _ _ _ Hi))). apply in_flat_map. exists (CDone r id). split; [exact Hin|left; reflexivity].
Qed.
Example C45_nonvacuous : served [] busy busy_state /\ In (Sample 0 (DLogs [RGroup "" None [SGroup "" None [LogRecord 5 "INFO" [] None None ""]]])) (given_to_store busy_state) /\
  In (CDone a_metric 1) (sv_clients busy_state).
Proof. split; [exact busy_served|]. split; vm_compute; auto. Qed.

(** ------ C69 *)
(** A waiting client can always be served, without the running save having to end. *)
Definition seq_open (s : service) : Prop := exists q, ss_proc (sv_seq s) = Some q.
Lemma next_ok s : seq_open s -> exists q id, seq_step (sv_seq s) (SNext false) = (q, Some id) /\ exists p, ss_proc q = Some p.
Proof.
  intros (p & Hp). unfold seq_step. rewrite Hp. unfold seq_next. unfold update_lease. destruct (q_leased p <=? q_next p); do 2 eexists; (split; [reflexivity|eexists; reflexivity]).
Qed.
Lemma serve_from_lock s i r : sv_exited s = false -> seq_open s -> nth_error (sv_clients s) i = Some (CLocked r) ->
  exists ms s' id, service_run s ms = Some s' /\ sv_saves s' = sv_saves s /\ nth_error (sv_clients s') i = Some (CDone r id) /\ sv_mutex s' = None /\
    sv_exited s' = false /\ seq_open s' /\ sv_flusher s' = sv_flusher s /\ forall j, i <> j -> nth_error (sv_clients s') j = nth_error (sv_clients s) j.
Proof.
  intros Hx Hq Hi. destruct (next_ok _ Hq) as (q & id & Es & Hp).
  pose (s1 := Service (sv_mutex s) (sv_buffer s) q (set_nth i (CRead r (sv_buffer s) id) (sv_clients s)) (sv_flusher s) (sv_saves s) (sv_cancelled s) false).
  pose (s2 := with_client (with_buffer s1 (sv_buffer s ++ [Sample id (export r)])) i (CStored r id) (sv_mutex s1)).
  pose (s3 := with_client s2 i (CDone r id) None).
  assert (service_step s (MClient i false) = Some s1) as E1 by (unfold service_step, move_client; rewrite Hx, Hi, Es; reflexivity).
  assert (nth_error (sv_clients s1) i = Some (CRead r (sv_buffer s) id)) as N1 by (eapply nth_set_eq; exact Hi).
  assert (service_step s1 (MClient i false) = Some s2) as E2.
  { unfold service_step, move_client. rewrite N1. reflexivity. }
  assert (nth_error (sv_clients s2) i = Some (CStored r id)) as N2 by (eapply nth_set_eq; exact N1).
  assert (service_step s2 (MClient i false) = Some s3) as E3.
  { unfold service_step, move_client. rewrite N2. reflexivity. }
  exists [MClient i false; MClient i false; MClient i false], s3, id. cbn [service_run]. rewrite E1, E2, E3.
  split; [reflexivity|]. split; [reflexivity|]. split; [eapply nth_set_eq; exact N2|]. split; [reflexivity|]. split; [reflexivity|]. split; [exact Hp|]. split; [reflexivity|].
  intros j Hj. cbn. rewrite !nth_set_ne by exact Hj. reflexivity.
Qed.
Lemma free_mutex lo0 lo hi s : inv lo0 lo hi s -> sv_exited s = false -> seq_open s ->
  exists ms s', service_run s ms = Some s' /\ sv_saves s' = sv_saves s /\ sv_mutex s' = None /\ sv_exited s' = false /\ seq_open s' /\
    forall j r, nth_error (sv_clients s) j = Some (CWaiting r) -> nth_error (sv_clients s') j = Some (CWaiting r).
Proof.
  intros Hi Hx Hq. destruct (sv_mutex s) as [[i|]|] eqn:Hm.
  - destruct (i_owner _ _ _ _ Hi _ Hm) as (c & Hc). pose proof (i_client _ _ _ _ Hi _ _ Hc) as Hh. rewrite Hm in Hh. destruct Hh as [_ Hh]. specialize (Hh eq_refl).
    destruct c as [r|r|r items id|r id|r id]; try discriminate.
    + destruct (serve_from_lock s i r Hx Hq Hc) as (ms & s' & id & A & B & C & D & E & F & _ & G). exists ms, s'. repeat (split; [assumption|]).
      intros j r' Hj. rewrite G; [exact Hj|]. intros ->. congruence.
    + pose (s2 := with_client (with_buffer s (items ++ [Sample id (export r)])) i (CStored r id) (sv_mutex s)). pose (s3 := with_client s2 i (CDone r id) None).
      assert (service_step s (MClient i false) = Some s2) as E2 by (unfold service_step, move_client; rewrite Hx, Hc; reflexivity).
      assert (nth_error (sv_clients s2) i = Some (CStored r id)) as N2 by (eapply nth_set_eq; exact Hc).
      assert (service_step s2 (MClient i false) = Some s3) as E3.
      { unfold service_step, move_client. rewrite N2. change (sv_exited s2) with (sv_exited s). rewrite Hx. reflexivity. }
      exists [MClient i false; MClient i false], s3. cbn [service_run]. rewrite E2, E3. split; [reflexivity|]. split; [reflexivity|]. split; [reflexivity|]. split; [exact Hx|]. split; [exact Hq|].
      intros j r' Hj. cbn. rewrite !nth_set_ne by (intros ->; congruence). exact Hj.
    + pose (s3 := with_client s i (CDone r id) None).
      assert (service_step s (MClient i false) = Some s3) as E3 by (unfold service_step, move_client; rewrite Hx, Hc; reflexivity).
      exists [MClient i false], s3. cbn [service_run]. rewrite E3. split; [reflexivity|]. split; [reflexivity|]. split; [reflexivity|]. split; [exact Hx|]. split; [exact Hq|].
      intros j r' Hj. cbn. rewrite !nth_set_ne by (intros ->; congruence). exact Hj.
  - destruct (i_flusher _ _ _ _ Hi) as [_ Hf]. specialize (Hf Hm). 
    assert (forall x ls, sv_exited x = false -> sv_flusher x = FSwapped ls -> service_run x [MFlusher true] = Some (with_flusher x (FSaving ls) None)) as S3.
    { intros x ls Hxx Hff. cbn. unfold service_step, move_flusher. rewrite Hxx, Hff. reflexivity. }
    assert (forall x ls, sv_exited x = false -> sv_flusher x = FTaken ls -> service_run x [MFlusher true; MFlusher true] = Some (with_flusher (with_flusher (with_buffer x []) (FSwapped ls) (sv_mutex x)) (FSaving ls) None)) as S2.
    { intros x ls Hxx Hff. change [MFlusher true; MFlusher true] with ([MFlusher true] ++ [MFlusher true]). rewrite service_run_app. cbn [service_run]. unfold service_step at 1, move_flusher. rewrite Hxx, Hff.
      exact (S3 (with_flusher (with_buffer x []) (FSwapped ls) (sv_mutex x)) ls Hxx eq_refl). }
    destruct (sv_flusher s) as [| |ls|ls|ls|] eqn:Ef; try discriminate.
    + pose (s1 := with_flusher s (FTaken (sv_buffer s)) (sv_mutex s)).
      assert (service_run s [MFlusher true] = Some s1) as S1 by (cbn; unfold service_step, move_flusher; rewrite Hx, Ef; reflexivity).
      exists ([MFlusher true] ++ [MFlusher true; MFlusher true]). eexists. rewrite service_run_app, S1.
      rewrite (S2 s1 (sv_buffer s) Hx eq_refl).
      split; [reflexivity|]. split; [reflexivity|]. split; [reflexivity|]. split; [exact Hx|]. split; [exact Hq|]. auto.
    + exists [MFlusher true; MFlusher true]. eexists. rewrite (S2 s ls Hx Ef). split; [reflexivity|]. split; [reflexivity|]. split; [reflexivity|]. split; [exact Hx|]. split; [exact Hq|]. auto.
    + exists [MFlusher true]. eexists. rewrite (S3 s ls Hx Ef). split; [reflexivity|]. split; [reflexivity|]. split; [reflexivity|]. split; [exact Hx|]. split; [exact Hq|]. auto.
  - exists [], s. split; [reflexivity|]. split; [reflexivity|]. split; [exact Hm|]. split; [exact Hx|]. split; [exact Hq|]. auto.
Qed.
Theorem C69_clients_are_served_while_saving : forall earlier ms s i r, served earlier ms s -> sv_exited s = false -> seq_open s ->
  nth_error (sv_clients s) i = Some (CWaiting r) ->
  exists ms' s' id, service_run s ms' = Some s' /\ nth_error (sv_clients s') i = Some (CDone r id) /\ sv_saves s' = sv_saves s.
Proof.
  intros earlier ms s i r H Hx Hq Hi. destruct (served_inv _ _ _ H) as (lo0 & lo & hi & _ & Hinv).
  destruct (free_mutex _ _ _ _ Hinv Hx Hq) as (m1 & s1 & R1 & V1 & M1 & X1 & Q1 & W1). specialize (W1 _ _ Hi).
  pose (s2 := with_client s1 i (CLocked r) (Some (OClient i))).
  assert (service_step s1 (MClient i false) = Some s2) as E2 by (unfold service_step, move_client; rewrite X1, W1, M1; reflexivity).
  assert (nth_error (sv_clients s2) i = Some (CLocked r)) as N2 by (eapply nth_set_eq; exact W1).
  destruct (serve_from_lock s2 i r X1 Q1 N2) as (m3 & s3 & id & R3 & V3 & D3 & _).
  exists (m1 ++ [MClient i false] ++ m3), s3, id. rewrite service_run_app, R1. cbn [app service_run]. rewrite E2. split; [exact R3|]. split; [exact D3|]. rewrite V3. exact V1.
Qed.
(** The process ends by itself only if an id could not be drawn, and the id sequence stays open till then. *)
Lemma exit_needed ms s s' : service_run s ms = Some s' -> sv_exited s = false -> seq_open s -> (forall i, ~ In (MClient i true) ms) ->
  sv_exited s' = false /\ seq_open s'.
Proof.
  revert s. induction ms as [|m ms IH]; intros s E Hx Hq N; cbn [service_run] in E; [apply some_inj in E; subst; auto|].
  destruct (service_step s m) as [s1|] eqn:E1; [|discriminate].
  assert (sv_exited s1 = false /\ seq_open s1) as [Hx1 Hq1].
  { unfold service_step in E1. rewrite Hx in E1. destruct m as [r|i fail|ok| | |k v].
    - apply some_inj in E1. subst. split; [reflexivity|exact Hq].
    - unfold move_client in E1. destruct (nth_error (sv_clients s) i) as [[r|r|r items id|r id|r id]|]; try discriminate.
      + destruct (sv_mutex s); [discriminate|]. apply some_inj in E1. subst. split; [exact Hx|exact Hq].
      + destruct fail; [exfalso; apply (N i); left; reflexivity|]. destruct (next_ok _ Hq) as (q & id & Es & Hp). rewrite Es in E1.
        apply some_inj in E1. subst. split; [exact Hx|exact Hp].
      + apply some_inj in E1. subst. split; [exact Hx|exact Hq].
      + apply some_inj in E1. subst. split; [exact Hx|exact Hq].
    - unfold move_flusher in E1. destruct (sv_flusher s); try discriminate; [destruct (sv_mutex s); [discriminate|]| | | |];
        apply some_inj in E1; subst; split; try exact Hx; exact Hq.
    - apply some_inj in E1. subst. split; [reflexivity|exact Hq].
    - destruct (sv_flusher s); try discriminate. destruct (sv_cancelled s); [|discriminate]. apply some_inj in E1. subst. split; [exact Hx|exact Hq].
    - apply some_inj in E1. subst. split; [reflexivity|]. destruct Hq as (p & Hp). exists p. cbn. rewrite <- Hp. unfold seq_step. reflexivity. }
  apply (IH s1 E Hx1 Hq1). intros i K. apply (N i). right. exact K.
Qed.
(** So as long as ids can be drawn every waiting client can be answered. *)
Theorem C69_clients_are_served_unless_ids_fail : forall earlier d ops q ms s i r,
  kvget sample_seq_key d = None -> N.of_nat (List.length ops + List.length ms) < 2 ^ 44 -> seq_run (SeqState d None) ops = (q, earlier) ->
  service_run (service_new q) ms = Some s -> (exists p, ss_proc q = Some p) -> (forall j, ~ In (MClient j true) ms) ->
  nth_error (sv_clients s) i = Some (CWaiting r) ->
  exists ms' s' id, service_run s ms' = Some s' /\ nth_error (sv_clients s') i = Some (CDone r id) /\ sv_saves s' = sv_saves s.
Proof.
  intros earlier d ops q ms s i r H0 Hl Hq Hr Ho N Hi. destruct (exit_needed _ _ _ Hr eq_refl Ho N) as [Hx Hs].
  eapply C69_clients_are_served_while_saving; [|exact Hx|exact Hs|exact Hi]. exists d, ops, q. split; [exact H0|]. split; [exact Hl|]. split; [exact Hq|exact Hr].
Qed.
(** If drawing the id of a request fails the process ends there and then: the request is never answered, and
    nothing more happens. *)
Theorem C69_failed_id_ends_the_process : forall s i r fail s', nth_error (sv_clients s) i = Some (CLocked r) -> snd (seq_step (sv_seq s) (SNext fail)) = None ->
  service_step s (MClient i fail) = Some s' ->
  sv_exited s' = true /\ nth_error (sv_clients s') i = Some (CLocked r) /\ sv_buffer s' = sv_buffer s /\ forall m, service_step s' m = None.
Proof.
  intros s i r fail s' Hi Hf E. unfold service_step, move_client in E. destruct (sv_exited s) eqn:Hx; [discriminate|]. rewrite Hi in E.
  destruct (seq_step (sv_seq s) (SNext fail)) as [q o]. cbn [snd] in Hf. subst o. apply some_inj in E. subst s'. cbn [sv_exited sv_clients sv_buffer]. auto.
Qed.
Example C69_failed_id_nonvacuous : exists s' s, service_run (service_new (SeqState [] None)) [MRequest a_log; MClient 0 false] = Some s /\ nth_error (sv_clients s) 0 = Some (CLocked a_log) /\ snd (seq_step (sv_seq s) (SNext false)) = None /\ service_step s (MClient 0 false) = Some s'.
Proof. eexists _, _. split; [reflexivity|]. split; [reflexivity|]. split; reflexivity. Qed.
(** While a save runs the mutex is not held by the flush loop. *)
Theorem C69_save_runs_without_the_mutex : forall earlier ms s ls, served earlier ms s -> sv_flusher s = FSaving ls -> sv_mutex s <> Some OFlusher.
Proof. intros earlier ms s ls H Hf Hm. destruct (served_inv _ _ _ H) as (lo0 & lo & hi & _ & Hi). destruct (i_flusher _ _ _ _ Hi) as [_ K]. specialize (K Hm). rewrite Hf in K. discriminate. Qed.
(** While a save runs, another client is half way through and a third one waits. *)
Definition crowded : list move := firstn 14 busy.
Definition crowded_state : service := match service_run (service_new open_seq) crowded with Some s => s | None => service_new open_seq end.
Example C69_unless_nonvacuous : (exists p, ss_proc open_seq = Some p) /\ service_run (service_new open_seq) crowded = Some crowded_state /\
  existsb (fun m => match m with MClient _ b => b | _ => false end) crowded = false /\ nth_error (sv_clients crowded_state) 2 = Some (CWaiting a_trace).
Proof. split; [eexists; vm_compute; reflexivity|]. split; [vm_compute; reflexivity|]. split; vm_compute; reflexivity. Qed.
Example C69_nonvacuous : served [] crowded crowded_state /\ sv_exited crowded_state = false /\ seq_open crowded_state /\
  nth_error (sv_clients crowded_state) 2 = Some (CWaiting a_trace) /\ sv_mutex crowded_state = Some (OClient 0) /\ sv_flusher crowded_state = FSaving [Sample 0 (export a_log)].
Proof.
  split; [exists [], [SOpen false], open_seq; split; [reflexivity|]; split; [vm_compute; reflexivity|]; split; vm_compute; reflexivity|].
  split; [vm_compute; reflexivity|]. split; [eexists; vm_compute; reflexivity|]. split; [vm_compute; reflexivity|]. split; vm_compute; reflexivity.
Qed.
