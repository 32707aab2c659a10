(** C94: starting and stopping the server. *)
From Verif.Model Require Import Base KV Sequence Server.
From Verif.Spec Require Import Lifecycles.
From Verif.Proofs Require Import BaseFacts SequenceFacts.
Open Scope N_scope.

Definition part_dec (p q : part) : {p = q} + {p <> q}. Proof. decide equality. Defined.
Lemma part_eqb_spec p q : reflect (p = q) (part_eqb p q). Proof. destruct p, q; constructor; (reflexivity || discriminate). Qed.

Lemma run_from_ok works rest : forall parts stack, (forall p e, In (p, e) parts -> e <> NoError -> works p = true) ->
  run_from (parts ++ rest) works stack = map Opened (map fst parts) ++ run_from rest works (rev (map fst parts) ++ stack).
Proof.
  induction parts as [|[p e] t IH]; intros stack H; [reflexivity|]. cbn [run_from map app rev fst].
  assert (works p = true \/ e = NoError) as W by (destruct e; [left; apply (H p ReturnIt); [left; reflexivity|discriminate]|left; apply (H p EndProcess); [left; reflexivity|discriminate]|right; reflexivity]).
  rewrite IH by (intros q f I0; apply H; right; exact I0). rewrite <- app_assoc. cbn [app].
  destruct e; try (destruct W as [ -> | W ]; [reflexivity|discriminate]). reflexivity.
Qed.
Lemma fallible p e : In (p, e) run_parts -> e <> NoError -> can_fail p.
Proof. intros I0 E. cbn in I0. split; intros ->; repeat destruct I0 as [I0|I0]; try discriminate; try contradiction; injection I0 as <-; congruence. Qed.
Lemma fallible_how p e : In (p, e) run_parts -> can_fail p -> e = if part_eqb p Listener then EndProcess else ReturnIt.
Proof. intros I0 [A B]. cbn in I0. repeat destruct I0 as [I0|I0]; try contradiction; injection I0 as <- <-; congruence || reflexivity. Qed.

(** The whole run: if everything can be opened, all parts are opened in order, the server serves, and all parts are closed, last
    opened first. Otherwise, with the first part that cannot be opened, those opened before it are closed, last opened first, and the
    process reports failure: except that, when the address cannot be listened on, the process ends on the spot. *)
Theorem C94_start_and_stop : forall works,
  ((forall p, can_fail p -> works p = true) -> server_run works = map Opened order ++ [Serving] ++ map Closed (rev order) ++ [Exits 0]) /\
  (forall before p after, order = before ++ p :: after -> can_fail p -> works p = false -> (forall q, In q before -> can_fail q -> works q = true) ->
     server_run works = map Opened before ++ [NotOpened p] ++ (if part_eqb p Listener then [] else map Closed (rev before)) ++ [Exits 1]).
Proof.
  intros works. split.
  - intros H. unfold server_run. rewrite <- (app_nil_r run_parts). rewrite run_from_ok; [reflexivity|].
    intros p e I0 E. apply H, (fallible p e); assumption.
  - intros before p after E F W B. unfold server_run.
    assert (map fst run_parts = before ++ p :: after) as E' by exact E. apply map_eq_app in E'. destruct E' as (bp & ap & R & <- & Ea).
    apply map_eq_cons in Ea. destruct Ea as ([p' e] & ap' & -> & <- & <-). cbn [fst] in *.
    assert (In (p', e) run_parts) as In0 by (rewrite R; apply in_or_app; right; left; reflexivity).
    rewrite R, run_from_ok.
    + cbn [run_from]. pose proof (fallible_how _ _ In0 F) as He. rewrite W, He, app_nil_r. destruct (part_eqb p' Listener); reflexivity.
    + intros q f I0 Ef. apply B; [apply in_map_iff; exists (q, f); split; [reflexivity|exact I0]|]. apply (fallible q f); [|exact Ef].
      rewrite R. apply in_or_app. left. exact I0.
Qed.
Print Assumptions C94_start_and_stop.

(** Deciding the statement on a given run. *)
Definition event_is (e f : event) : bool :=
  match e, f with Opened p, Opened q => part_eqb p q | Closed p, Closed q => part_eqb p q | _, _ => false end.
Definition opens (l : list event) (p : part) : bool := existsb (event_is (Opened p)) l && negb (existsb (event_is (Closed p)) l).
Lemma existsb_in l e : (exists p, e = Opened p \/ e = Closed p) -> existsb (event_is e) l = true <-> In e l.
Proof.
  intros [p H]. rewrite existsb_exists. split.
  - intros (x & I0 & T). destruct H as [ -> | -> ]; destruct x; try discriminate; cbn in T; destruct (part_eqb_spec p p0); (discriminate || subst; exact I0).
  - intros I0. exists e. split; [exact I0|]. destruct H as [ -> | -> ]; cbn; destruct (part_eqb_spec p p); congruence.
Qed.
Lemma opens_spec l p : opens l p = true <-> is_open l p.
Proof.
  unfold opens, is_open. rewrite andb_true_iff, existsb_in by eauto. rewrite negb_true_iff, <- not_true_iff_false, existsb_in by eauto. reflexivity.
Qed.
Definition needs_list : list (part * part) :=
  [(Translator, Database); (SampleSequence, Database); (Api, Database); (Api, Translator); (Api, SampleSequence); (Api, Index); (RpcServer, Listener);
   (RpcServer, Api); (Telemetry, Api)].
Definition sound (l : list event) : bool :=
  forallb (fun k => forallb (fun '(p, q) => implb (opens (firstn k l) p) (opens (firstn k l) q)) needs_list) (seq 0 (S (List.length l))).
Lemma sound_spec l : sound l = true -> forall before after, l = before ++ after -> forall p q, needs p q -> is_open before p -> is_open before q.
Proof.
  unfold sound. rewrite forallb_forall. intros H before after -> p q Nd O. specialize (H (List.length before)).
  assert (In (List.length before) (seq 0 (S (List.length (before ++ after))))) as I0 by (apply in_seq; rewrite app_length; lia).
  specialize (H I0). rewrite forallb_forall in H. specialize (H (p, q)). cbn beta iota in H.
  replace (firstn (List.length before) (before ++ after)) with before in H by (rewrite firstn_app, Nat.sub_diag, firstn_O, app_nil_r, firstn_all; reflexivity).
  apply opens_spec in O. apply opens_spec. rewrite O in H. apply H. destruct Nd; cbn; tauto.
Qed.

(** At every moment of every run, what an open part needs is open. *)
Theorem C94_open_parts_have_what_they_need : forall works before after, server_run works = before ++ after ->
  forall p q, needs p q -> is_open before p -> is_open before q.
Proof.
  intros works. apply sound_spec. unfold server_run, run_parts. cbn [run_from].
  destruct (works Database); [|reflexivity]. destruct (works Translator); [|reflexivity]. destruct (works SampleSequence); [|reflexivity].
  destruct (works Api); [|reflexivity]. destruct (works Listener); [|reflexivity]. destruct (works Telemetry); reflexivity.
Qed.
Print Assumptions C94_open_parts_have_what_they_need.


(** A process that cannot listen on its address leaves everything open. *)
Theorem C94_closed_at_exit_refuted : ~ (forall works p, In (Opened p) (server_run works) -> In (Closed p) (server_run works)).
Proof.
  intros H. specialize (H (fun p => negb (part_eqb p Listener)) SampleSequence). cbn in H.
  assert (In (Opened SampleSequence) [Opened Database; Opened Translator; Opened Index; Opened SampleSequence; Opened Api; NotOpened Listener; Exits 1]) as I0 by (cbn; tauto).
  apply H in I0. repeat destruct I0 as [I0|I0]; (discriminate || contradiction).
Qed.
Print Assumptions C94_closed_at_exit_refuted.

(** The number the next sample would get, on a database that nobody uses. *)
Definition next_number (d : kv) : N := match kvget sample_seq_key d with None => 0 | Some v => be_val v end.

(** Lives without a sample. One that stops in order, or fails at any part but the address, leaves the next sample number as it was; one
    that cannot listen on its address skips 2^20 numbers, every time. *)
Theorem C94_numbers_skipped : forall lives d, next_number d + N.of_nat (List.length lives) * 2 ^ 20 < 2 ^ 64 ->
  next_number (sequence_after d (map server_run lives)) =
  next_number d + 2 ^ 20 * N.of_nat (List.length (filter (fun works => works Database && works Translator && works SampleSequence && works Api && negb (works Listener)) lives)).
Proof.
  assert (one : forall works d, next_number d + 2 ^ 20 < 2 ^ 64 -> forall rest,
    exists d', fst (seq_run (SeqState d None) (flat_map seq_ops_of (server_run works) ++ rest)) = fst (seq_run (SeqState d' None) rest) /\
      next_number d' = next_number d + (if works Database && works Translator && works SampleSequence && works Api && negb (works Listener) then 2 ^ 20 else 0)).
  { intros works d B rest.
    assert (let d' := kvset sample_seq_key (u64be (next_number d + 2 ^ 20)) d in
      forall (tail : list seq_op), fst (seq_run (SeqState d None) (SOpen false :: SRelease false :: SCrash :: tail)) =
        fst (seq_run (SeqState (kvset sample_seq_key (u64be (next_number d)) d') None) tail) /\
        fst (seq_run (SeqState d None) (SOpen false :: SCrash :: tail)) = fst (seq_run (SeqState d' None) tail)) as G.
    { cbv zeta. intros tail. assert ((next_number d + sample_bandwidth) mod two64 = next_number d + 2 ^ 20) as M by (apply N.mod_small; exact B).
      assert (seq_step (SeqState d None) (SOpen false) =
        (SeqState (kvset sample_seq_key (u64be (next_number d + 2 ^ 20)) d) (Some (Seq (next_number d) (next_number d + 2 ^ 20))), None)) as Op.
      { unfold seq_step. cbn [ss_proc ss_db]. unfold get_sequence, update_lease. fold (next_number d). rewrite M. reflexivity. }
      split.
      - cbn [seq_run]. rewrite Op. unfold seq_step at 1. cbn [ss_proc ss_db]. unfold seq_release. cbn [q_next q_leased]. rewrite kvget_set_eq.
        rewrite be_val_u64be by exact B. rewrite N.eqb_refl. unfold seq_step. cbn [ss_proc ss_db]. destruct (seq_run _ tail). reflexivity.
      - cbn [seq_run]. rewrite Op. unfold seq_step. cbn [ss_proc ss_db]. destruct (seq_run _ tail). reflexivity. }
    cbv zeta in G. specialize (G rest). destruct G as [G1 G2].
    assert (next_number (kvset sample_seq_key (u64be (next_number d)) (kvset sample_seq_key (u64be (next_number d + 2 ^ 20)) d)) = next_number d + 0) as N1.
    { unfold next_number at 1. rewrite kvget_set_eq, be_val_u64be; [lia|]. change two64 with (2 ^ 64). lia. }
    assert (next_number (kvset sample_seq_key (u64be (next_number d + 2 ^ 20)) d) = next_number d + 2 ^ 20) as N2.
    { unfold next_number at 1. rewrite kvget_set_eq, be_val_u64be; [reflexivity|exact B]. }
    assert (exists d', fst (seq_run (SeqState d None) (SCrash :: rest)) = fst (seq_run (SeqState d' None) rest) /\ next_number d' = next_number d + 0) as N0.
    { exists d. split; [cbn [seq_run seq_step ss_db]; destruct (seq_run (SeqState d None) rest); reflexivity|lia]. }
    unfold server_run, run_parts. cbn [run_from].
    destruct (works Database); [|exact N0]. destruct (works Translator); [|exact N0].
    destruct (works SampleSequence); [|exact N0]. cbn [andb].
    destruct (works Api); cbn [andb]; [|eexists; split; [exact G1|exact N1]].
    destruct (works Listener); cbn [negb]; [|eexists; split; [exact G2|exact N2]].
    destruct (works Telemetry); eexists; (split; [exact G1|exact N1]). }
  unfold sequence_after.
  induction lives as [|works t IH]; intros d B; [cbn; lia|]. cbn [map flat_map filter List.length] in *.
  destruct (one works d ltac:(lia) (flat_map (flat_map seq_ops_of) (map server_run t))) as (d' & E & Nx). rewrite E, IH; rewrite Nx.
  - destruct (works Database && works Translator && works SampleSequence && works Api && negb (works Listener)); cbn [List.length]; lia.
  - destruct (works Database && works Translator && works SampleSequence && works Api && negb (works Listener)); lia.
Qed.
Print Assumptions C94_numbers_skipped.

(** The hypothesis and the loss, on a new database: three attempts while the address is taken, one attempt without database, then a good run. *)
Example C94_numbers_example :
  let busy p := negb (part_eqb p Listener) in
  next_number (sequence_after [] (map server_run [busy; busy; fun p => false; busy; fun p => true])) = 3 * 2 ^ 20.
Proof. cbv zeta. rewrite C94_numbers_skipped; reflexivity. Qed.

Definition is_close (m : serving_move) : bool := match m with CloseNext => true | _ => false end.
Lemma all_open st f e p : still_open p (Srv st (rev order) f e) = true. Proof. destruct p; reflexivity. Qed.
(** After the flush loop has returned, only closing goes on. *)
Lemma serving_closing : forall moves stack s events, serving_run (Srv true stack Returned None) moves = Some (s, events) ->
  events = map EClosed (firstn (List.length (filter is_close moves)) stack) ++ match sv_ended s with Some c => [EEnds c] | None => [] end /\
  (sv_ended s = None \/ sv_ended s = Some 0).
Proof.
  induction moves as [|m t IH]; intros stack s events H; [injection H as <- <-; split; [reflexivity|left; reflexivity]|].
  cbn [serving_run] in H. destruct m; try discriminate; unfold serving_step in H; cbn [sv_ended sv_flush sv_stopping sv_stack] in H.
  - destruct (serving_run _ t) as [[s2 es]|] eqn:E; [|discriminate]. injection H as <- <-. apply IH in E. exact E.
  - destruct stack as [|p st].
    + destruct t as [|m t].
      * injection H as <- <-. split; [reflexivity|right; reflexivity].
      * cbn in H. discriminate.
    + destruct (serving_run _ t) as [[s2 es]|] eqn:E; [|discriminate]. injection H as <- <-. apply IH in E. destruct E as [-> E]. split; [reflexivity|exact E].
Qed.
Lemma serving_all_open : forall moves st f s events, serving_run (Srv st (rev order) f None) moves = Some (s, events) ->
  (forall before after s1 es1, moves = before ++ CloseNext :: after -> serving_run (Srv st (rev order) f None) before = Some (s1, es1) -> sv_flush s1 = Returned) ->
  exists used, events = map (fun p => EUsed p true) used ++ map EClosed (firstn (List.length (filter is_close moves)) (rev order)) ++
    match sv_ended s with Some c => [EEnds c] | None => [] end /\ (sv_ended s = None \/ sv_ended s = Some 0).
Proof.
  induction moves as [|m t IH]; intros st f s events H R; [injection H as <- <-; exists []; split; [reflexivity|left; reflexivity]|].
  destruct (is_close m) eqn:C.
  - destruct m; try discriminate. pose proof (R [] t _ _ eq_refl eq_refl) as F. cbn [sv_flush] in F. subst f.
    destruct st; [|cbn in H; discriminate]. apply serving_closing in H. exists []. exact H.
  - cbn [serving_run] in H. destruct (serving_step _ m) as [[s1 es]|] eqn:St; [|discriminate]. destruct (serving_run s1 t) as [[s2 es2]|] eqn:E; [|discriminate].
    injection H as <- <-. cbn [filter]. rewrite C.
    assert (exists st' f' used, s1 = Srv st' (rev order) f' None /\ es = map (fun p => EUsed p true) used) as (st' & f' & used & -> & ->).
    { unfold serving_step in St. cbn [sv_ended sv_flush sv_stopping sv_stack] in St. destruct m; try discriminate.
      - injection St as <- <-. exists true, f, []. split; reflexivity.
      - destruct f; try discriminate. injection St as <- <-. eexists _, _, []. split; reflexivity.
      - destruct f as [|[|p l]|]; try discriminate.
        + injection St as <- <-. eexists _, _, []. split; reflexivity.
        + rewrite !all_open in St. cbn [negb orb] in St. rewrite andb_false_r in St. injection St as <- <-. eexists _, _, [p]. split; reflexivity.
      - destruct f; try discriminate. destruct st; [|discriminate]. injection St as <- <-. eexists _, _, []. split; reflexivity. }
    destruct (IH _ _ _ _ E) as (u & -> & En).
    { intros before after s1 es1 -> Rn. apply (R (m :: before) after s1 (map (fun p => EUsed p true) used ++ es1)); [reflexivity|].
      cbn [serving_run]. rewrite St, Rn. reflexivity. }
    exists (used ++ u). split; [|exact En]. rewrite map_app, <- app_assoc. reflexivity.
Qed.

(** The flush loop is not waited for. If it has returned whenever a part is closed, then parts are used while they are open only, then
    closed in order, and the process reports success. *)
Theorem C94_no_closed_part_is_used_partial : forall moves s events, serving_run serving_start moves = Some (s, events) ->
  (forall before after s1 es1, moves = before ++ CloseNext :: after -> serving_run serving_start before = Some (s1, es1) -> sv_flush s1 = Returned) ->
  exists used ends, events = map (fun p => EUsed p true) used ++
      map EClosed (firstn (List.length (filter (fun m => match m with CloseNext => true | _ => false end) moves)) (rev order)) ++ ends /\
    (ends = [] \/ ends = [EEnds 0]).
Proof.
  intros moves s events H R. destruct (serving_all_open moves false Waiting s events H R) as (used & E & En).
  exists used, (match sv_ended s with Some c => [EEnds c] | None => [] end). split; [exact E|]. destruct En as [ -> | -> ]; auto.
Qed.
Print Assumptions C94_no_closed_part_is_used_partial.
(** Such a run: a save is completed, the loop notices the signal, and all is closed. *)
Example C94_stop_example :
  let moves := [Tick 2 1; SaveStep; SaveStep; Signal; SaveStep; SaveStep; SaveStep; Notice] ++ repeat CloseNext 9 in
  (exists s, serving_run serving_start moves =
    Some (s, map (fun p => EUsed p true) [Translator; Translator; Database; Index] ++ map EClosed (rev order) ++ [EEnds 0])) /\
  (forall before after s1 es1, moves = before ++ CloseNext :: after -> serving_run serving_start before = Some (s1, es1) -> sv_flush s1 = Returned).
Proof.
  cbv zeta. split; [eexists; reflexivity|]. intros before after s1 es1 E H. cbn [app repeat] in E.
  do 8 (destruct before as [|? before]; [discriminate|injection E as <- E]).
  do 9 (destruct before as [|? before]; [cbn in H; injection H as <- _; reflexivity|injection E as <- E]).
  destruct before; discriminate.
Qed.

(** Without that, a save can meet a closed index, and an orderly stop can end in failure with the rest left open. *)
Theorem C94_closed_part_used_refuted : ~ (forall moves s events, serving_run serving_start moves = Some (s, events) ->
  forall p open, In (EUsed p open) events -> open = true).
Proof.
  intros H. specialize (H [Tick 0 1; SaveStep; Signal; CloseNext; CloseNext; CloseNext; CloseNext; CloseNext; CloseNext; SaveStep]).
  cbn in H. specialize (H _ _ eq_refl Index false). cbn in H. discriminate H. do 7 right. left. reflexivity.
Qed.
Print Assumptions C94_closed_part_used_refuted.
Theorem C94_stop_reports_success_refuted : ~ (forall moves s events, serving_run serving_start moves = Some (s, events) ->
  forall code, In (EEnds code) events -> code = 0).
Proof.
  intros H. specialize (H [Signal; CloseNext; CloseNext; CloseNext; CloseNext; CloseNext; CloseNext; CloseNext; CloseNext; Tick 1 0; SaveStep]).
  cbn in H. specialize (H _ _ eq_refl 1). cbn in H. discriminate H. do 9 right. left. reflexivity.
Qed.
Print Assumptions C94_stop_reports_success_refuted.
(** A start that fails in the middle: the sample sequence cannot be opened. *)
Example C94_start_example : server_run (fun p => negb (part_eqb p SampleSequence)) =
  [Opened Database; Opened Translator; Opened Index; NotOpened SampleSequence; Closed Index; Closed Translator; Closed Database; Exits 1].
Proof.
  apply (proj2 (C94_start_and_stop _) [Database; Translator; Index] SampleSequence [Api; Listener; RpcServer; Telemetry] eq_refl); [split; discriminate|reflexivity|].
  intros q H _. cbn in H. repeat destruct H as [ <- | H ]; (reflexivity || contradiction).
Qed.

Lemma serving_run_app s : forall a b s1 e1 s2 e2, serving_run s a = Some (s1, e1) -> serving_run s1 b = Some (s2, e2) -> serving_run s (a ++ b) = Some (s2, e1 ++ e2).
Proof.
  intros a. revert s. induction a as [|m t IH]; intros s b s1 e1 s2 e2 A B; [injection A as <- <-; exact B|].
  cbn [serving_run app] in *. destruct (serving_step s m) as [[s' e]|]; [|discriminate]. destruct (serving_run s' t) as [[s'' e']|] eqn:E; [|discriminate].
  injection A as <- <-. rewrite (IH _ _ _ _ _ _ E B), app_assoc. reflexivity.
Qed.
(** An orderly stop is possible at every moment of serving, and loses nothing of the save that is under way: it is completed with all
    parts open, then the parts are closed, last opened first. *)
Theorem C94_orderly_stop_possible : forall moves s events, serving_run serving_start moves = Some (s, events) -> ~ In CloseNext moves ->
  exists more s', serving_run s more = Some (s', map (fun p => EUsed p true) (match sv_flush s with Saving rest => rest | _ => [] end) ++ map EClosed (rev order) ++ [EEnds 0]) /\
    sv_flush s' = Returned.
Proof.
  intros moves s events H C.
  assert (exists st f, s = Srv st (rev order) f None /\ (f = Returned -> st = true)) as (st & f & -> & F).
  { destruct (serving_all_open moves false Waiting s events H) as (_ & _ & _).
    - intros before after s1 es1 E. exfalso. apply C. rewrite E. apply in_or_app. right. left. reflexivity.
    - unfold serving_start in H. change (rev (map fst run_parts)) with (rev order) in H.
      assert (forall moves st f s events, serving_run (Srv st (rev order) f None) moves = Some (s, events) -> ~ In CloseNext moves -> (f = Returned -> st = true) ->
        exists st f, s = Srv st (rev order) f None /\ (f = Returned -> st = true)) as G.
      { clear. induction moves as [|m t IH]; intros st f s events H C F; [injection H as <- <-; exists st, f; split; [reflexivity|exact F]|].
        cbn [serving_run] in H. destruct (serving_step _ m) as [[s1 es]|] eqn:St; [|discriminate]. destruct (serving_run s1 t) as [[s2 es2]|] eqn:E; [|discriminate].
        injection H as <- <-. unfold serving_step in St. cbn [sv_ended sv_flush sv_stopping sv_stack] in St.
        destruct m; try discriminate.
        - injection St as <- <-. apply (IH _ _ _ _ E); [intros X; apply C; right; exact X|reflexivity].
        - exfalso. apply C. left. reflexivity.
        - destruct f; try discriminate. injection St as <- <-. apply (IH _ _ _ _ E); [intros X; apply C; right; exact X|discriminate].
        - destruct f as [|[|p l]|]; try discriminate.
          + injection St as <- <-. apply (IH _ _ _ _ E); [intros X; apply C; right; exact X|discriminate].
          + rewrite !all_open in St. cbn [negb orb] in St. rewrite andb_false_r in St. injection St as <- <-.
            apply (IH _ _ _ _ E); [intros X; apply C; right; exact X|discriminate].
        - destruct f; try discriminate. destruct st; [|discriminate]. injection St as <- <-. apply (IH _ _ _ _ E); [intros X; apply C; right; exact X|reflexivity]. }
      apply (G _ _ _ _ _ H C). discriminate. }
  assert (forall l st, serving_run (Srv st (rev order) (Saving l) None) (repeat SaveStep (S (List.length l))) = Some (Srv st (rev order) Waiting None, map (fun p => EUsed p true) l)) as Fin.
  { clear. induction l as [|p l IH]; intros st; [reflexivity|].
    change (repeat SaveStep (S (List.length (p :: l)))) with (SaveStep :: repeat SaveStep (S (List.length l))).
    remember (repeat SaveStep (S (List.length l))) as more. cbn [serving_run].
    assert (serving_step (Srv st (rev order) (Saving (p :: l)) None) SaveStep = Some (Srv st (rev order) (Saving l) None, [EUsed p true])) as ->.
    { unfold serving_step. cbn [sv_ended sv_flush sv_stopping sv_stack]. rewrite !all_open. cbn [negb orb]. rewrite andb_false_r. reflexivity. }
    rewrite IH. reflexivity. }
  assert (forall st, exists s', serving_run (Srv st (rev order) Waiting None) (Signal :: Notice :: repeat CloseNext 9) = Some (s', map EClosed (rev order) ++ [EEnds 0]) /\ sv_flush s' = Returned) as Cl
    by (intros st'; eexists; split; reflexivity).
  destruct f as [|l|]; cbn [sv_flush].
  - destruct (Cl st) as (s' & R & E). exists (Signal :: Notice :: repeat CloseNext 9), s'. split; [exact R|exact E].
  - destruct (Cl st) as (s' & R & E). exists (repeat SaveStep (S (List.length l)) ++ Signal :: Notice :: repeat CloseNext 9), s'. split; [|exact E].
    apply (serving_run_app _ _ _ _ _ _ _ (Fin l st) R).
  - rewrite (F eq_refl). exists (repeat CloseNext 9). eexists. split; reflexivity.
Qed.
Print Assumptions C94_orderly_stop_possible.

(** Requests that are still being handled while the server stops. *)
Definition low (p : part) : Prop := In p [Database; Translator; Index; SampleSequence].
Definition is_closed (e : serving_event) : bool := match e with EClosed _ => true | _ => false end.
Lemma save_low n k p : In p (save_uses n k) -> low p.
Proof.
  unfold save_uses, low. intros H. cbn. repeat match type of H with In _ (_ ++ _) => apply in_app_iff in H as [H|H] end.
  - apply repeat_spec in H. auto.
  - destruct H as [H|[]]. auto.
  - apply repeat_spec in H. auto.
Qed.
Lemma request_low r p : In p (request_uses r) -> low p.
Proof.
  unfold low. intros H. cbn. destruct r; cbn [request_uses] in H.
  - destruct H as [H|[]]. auto.
  - repeat match type of H with In _ (_ ++ _) => apply in_app_iff in H as [H|H] end; apply repeat_spec in H; auto.
Qed.
Lemma low_open p j st f e : low p -> (j <= 4)%nat -> still_open p (Srv st (skipn j (rev order)) f e) = true.
Proof. intros H J. do 5 (destruct j as [|j]; [repeat destruct H as [ <- | H ]; (reflexivity || contradiction)|]). lia. Qed.
Lemma in_drop {A} i (l : list A) x : In x (drop_nth i l) -> In x l.
Proof. unfold drop_nth. intros H. apply in_app_iff in H as [H|H]; [rewrite <- (firstn_skipn i l)|rewrite <- (firstn_skipn (S i) l)]; apply in_or_app; auto. Qed.
Lemma in_put {A} i (y : A) l x : In x (put_nth i y l) -> x = y \/ In x l.
Proof.
  unfold put_nth. intros H. apply in_app_iff in H as [H|[H|H]]; [right; rewrite <- (firstn_skipn i l); apply in_or_app; auto|auto|].
  right. rewrite <- (firstn_skipn (S i) l). apply in_or_app. auto.
Qed.

Record orderly (b : busy) (es : list serving_event) (j : nat) : Prop := {
  od_stack : sv_stack (by_serving b) = skipn j (rev order);
  od_closed : filter is_closed es = map EClosed (firstn j (rev order));
  od_open : forall p o, In (EUsed p o) es -> o = true;
  od_ends : forall c, In (EEnds c) es -> c = 0;
  od_ended : sv_ended (by_serving b) = None \/ sv_ended (by_serving b) = Some 0;
  od_reqs : forall l p, In l (by_requests b) -> In p l -> low p;
  od_save : forall l p, sv_flush (by_serving b) = Saving l -> In p l -> low p;
  od_quiet : (j <= 4)%nat \/ (sv_flush (by_serving b) = Returned /\ by_requests b = [])
}.
Lemma order_skip j : (j < 8)%nat -> exists p, skipn j (rev order) = p :: skipn (S j) (rev order) /\ firstn (S j) (rev order) = firstn j (rev order) ++ [p].
Proof. intros H. do 8 (destruct j as [|j]; [eexists; split; reflexivity|]). lia. Qed.
Lemma order_end j : (8 <= j)%nat -> skipn j (rev order) = [] /\ firstn j (rev order) = rev order.
Proof. intros H. split; [apply skipn_all2|apply firstn_all2]; exact H. Qed.
Ltac no_event := match goal with H : In _ [] |- _ => destruct H end.

Lemma orderly_step b es j m b' es' : orderly b es j -> busy_step b m = Some (b', es') ->
  (m = Beside CloseNext -> In (EClosed Api) es -> sv_flush (by_serving b) = Returned /\ by_requests b = []) ->
  exists j', orderly b' (es ++ es') j'.
Proof.
  intros G St Q. destruct G as [E1 E2 E3 E4 E5 E6 E7 E8]. destruct b as [[st stack f ended] reqs]. cbn [by_serving by_requests sv_stack sv_flush sv_ended sv_stopping] in *.
  subst stack. destruct m as [m|r|i]; cbn [busy_step by_serving by_requests sv_ended sv_stack sv_flush sv_stopping] in St.
  - destruct ended; [destruct m; discriminate|]. clear E5.
    unfold serving_step in St. cbn [sv_ended sv_stack sv_flush sv_stopping] in St. destruct m.
    + injection St as <- <-. exists j. split; cbn; rewrite ?app_nil_r; auto.
    + destruct st; [|discriminate]. destruct (le_lt_dec 8 j) as [L|L].
      * destruct (order_end j L) as [S1 S2]. rewrite S1 in St. injection St as <- <-. exists j. split; cbn; auto.
        -- rewrite filter_app, E2. cbn. apply app_nil_r.
        -- intros p o H. apply in_app_iff in H as [H|[H|[]]]; [apply (E3 p o H)|discriminate].
        -- intros c H. apply in_app_iff in H as [H|[H|[]]]; [apply (E4 c H)|congruence].
      * destruct (order_skip j L) as (p & S1 & S2). rewrite S1 in St. injection St as <- <-. exists (S j). split; cbn [by_serving by_requests sv_stack sv_flush sv_ended]; auto.
        -- rewrite filter_app, E2, S2, map_app. reflexivity.
        -- intros q o H. apply in_app_iff in H as [H|[H|[]]]; [apply (E3 q o H)|discriminate].
        -- intros c H. apply in_app_iff in H as [H|[H|[]]]; [apply (E4 c H)|congruence].
        -- destruct E8 as [E8|E8]; [|right; exact E8]. destruct (le_lt_dec (S j) 4) as [J|J]; [left; exact J|].
           assert (j = 4)%nat as -> by lia. right. apply Q; [reflexivity|].
           assert (In (EClosed Api) (filter is_closed es)) as I0 by (rewrite E2; cbn; auto 8). apply filter_In in I0. apply I0.
    + destruct f; try discriminate. injection St as <- <-. exists j. split; cbn; rewrite ?app_nil_r; auto.
      * intros l p H I0. injection H as <-. apply (save_low _ _ _ I0).
      * destruct E8 as [E8|[E8 _]]; [left; exact E8|discriminate].
    + destruct f as [|[|p l]|]; try discriminate.
      * injection St as <- <-. exists j. split; cbn; rewrite ?app_nil_r; auto; [discriminate|]. destruct E8 as [E8|[E8 _]]; [left; exact E8|discriminate].
      * destruct E8 as [E8|[E8 _]]; [|discriminate]. pose proof (E7 _ p eq_refl (or_introl eq_refl)) as Lp. rewrite !low_open in St by (assumption || (cbn; unfold low; cbn; auto)).
        cbn [negb orb] in St. rewrite andb_false_r in St. injection St as <- <-. exists j. split; cbn [by_serving by_requests sv_stack sv_flush sv_ended]; auto.
        -- rewrite filter_app, E2. apply app_nil_r.
        -- intros q o H. apply in_app_iff in H as [H|[H|[]]]; [apply (E3 q o H)|congruence].
        -- intros c H. apply in_app_iff in H as [H|[H|[]]]; [apply (E4 c H)|discriminate].
        -- intros l' q H I0. injection H as <-. apply (E7 (p :: l) q eq_refl). right. exact I0.
    + destruct f; try discriminate. destruct st; [|discriminate]. injection St as <- <-. exists j. split; cbn; rewrite ?app_nil_r; auto; [discriminate|].
      destruct E8 as [E8|[E8 _]]; [left; exact E8|discriminate].
  - destruct ended; [discriminate|]. destruct (still_open RpcServer _) eqn:O; [|discriminate]. injection St as <- <-.
    exists j. split; cbn [by_serving by_requests sv_stack sv_flush sv_ended]; rewrite ?app_nil_r; auto.
    + intros l p H I0. apply in_app_iff in H as [H|[ <- |[]]]; [apply (E6 _ _ H I0)|apply (request_low _ _ I0)].
    + left. destruct (le_lt_dec j 4) as [J|J]; [exact J|exfalso]. do 5 (destruct j as [|j]; [lia|]). do 4 (destruct j as [|j]; [cbn in O; discriminate|]). cbn in O. discriminate.
  - destruct ended; [discriminate|]. destruct (nth_error reqs i) as [[|p l]|] eqn:En; try discriminate.
    + injection St as <- <-. exists j. split; cbn [by_serving by_requests sv_stack sv_flush sv_ended]; rewrite ?app_nil_r; auto.
      * intros l p H. apply in_drop in H. apply (E6 _ _ H).
      * destruct E8 as [E8|[E8 E9]]; [left; exact E8|]. subst reqs. destruct i; discriminate.
    + destruct E8 as [E8|[_ E8]]; [|subst reqs; destruct i; discriminate]. apply nth_error_In in En.
      pose proof (E6 _ p En (or_introl eq_refl)) as Lp. rewrite !low_open in St by (assumption || (unfold low; cbn; auto)).
      assert (Some (Busy (Srv st (skipn j (rev order)) f None) (put_nth i l reqs), [EUsed p true]) = Some (b', es')) as St' by (destruct p; exact St).
      injection St' as <- <-. exists j. split; cbn [by_serving by_requests sv_stack sv_flush sv_ended]; auto.
      * rewrite filter_app, E2. apply app_nil_r.
      * intros q o H. apply in_app_iff in H as [H|[H|[]]]; [apply (E3 q o H)|congruence].
      * intros c H. apply in_app_iff in H as [H|[H|[]]]; [apply (E4 c H)|discriminate].
      * intros l' q H I0. apply in_put in H as [ -> | H ]; [|apply (E6 _ _ H I0)]. apply (E6 _ q En). right. exact I0.
Qed.

Lemma busy_run_app : forall a b c s1 e1, busy_run b a = Some (s1, e1) ->
  busy_run b (a ++ c) = match busy_run s1 c with Some (s2, e2) => Some (s2, e1 ++ e2) | None => None end.
Proof.
  induction a as [|m t IH]; intros b c s1 e1 A; [injection A as <- <-; cbn; destruct (busy_run b c) as [[? ?]|]; reflexivity|].
  cbn [busy_run app] in *. destruct (busy_step b m) as [[s' e]|]; [|discriminate]. destruct (busy_run s' t) as [[s'' e']|] eqn:E; [|discriminate].
  injection A as <- <-. rewrite (IH _ c _ _ E). destruct (busy_run s'' c) as [[? ?]|]; [rewrite app_assoc|]; reflexivity.
Qed.

Lemma orderly_run : forall moves b es j b' es', orderly b es j -> busy_run b moves = Some (b', es') ->
  (forall before after b1 es1, moves = before ++ Beside CloseNext :: after -> busy_run b before = Some (b1, es1) ->
    In (EClosed Api) (es ++ es1) -> sv_flush (by_serving b1) = Returned /\ by_requests b1 = []) ->
  exists j', orderly b' (es ++ es') j'.
Proof.
  induction moves as [|m t IH]; intros b es j b' es' G R Q; [injection R as <- <-; rewrite app_nil_r; exists j; exact G|].
  cbn [busy_run] in R. destruct (busy_step b m) as [[b1 e1]|] eqn:St; [|discriminate]. destruct (busy_run b1 t) as [[b2 e2]|] eqn:E; [|discriminate].
  injection R as <- <-. destruct (orderly_step _ _ _ _ _ _ G St) as (j1 & G1).
  - intros -> I0. apply (Q [] t b []); [reflexivity|reflexivity|rewrite app_nil_r; exact I0].
  - rewrite app_assoc. apply (IH _ _ _ _ _ G1 E). intros before after b3 es3 -> R3 I0.
    apply (Q (m :: before) after b3 (e1 ++ es3)); [reflexivity| |rewrite app_assoc; exact I0]. cbn [busy_run]. rewrite St, R3. reflexivity.
Qed.

(** The signal can come in the middle of requests and of a save. If they are finished when the service has been closed - nothing waits for
    that - parts are used while they are open only, are closed in order, and the process reports success. *)
Theorem C94_requests_finished_partial : forall moves b events, busy_run busy_start moves = Some (b, events) ->
  (forall before after b1 es1, moves = before ++ Beside CloseNext :: after -> busy_run busy_start before = Some (b1, es1) ->
    In (EClosed Api) es1 -> sv_flush (by_serving b1) = Returned /\ by_requests b1 = []) ->
  (forall p open, In (EUsed p open) events -> open = true) /\ (forall code, In (EEnds code) events -> code = 0) /\
  exists n, filter (fun e => match e with EClosed _ => true | _ => false end) events = map EClosed (firstn n (rev order)).
Proof.
  intros moves b events R Q. destruct (orderly_run moves busy_start [] 0 b events) as (j & G).
  - split; cbn; auto; try contradiction; [discriminate|left; lia].
  - exact R.
  - exact Q.
  - split; [apply (od_open _ _ _ G)|]. split; [apply (od_ends _ _ _ G)|]. exists j. apply (od_closed _ _ _ G).
Qed.
Print Assumptions C94_requests_finished_partial.
(** Deciding a condition on the moments before a part is closed. *)
Lemma at_closings (check : busy -> list serving_event -> bool) : forall moves,
  forallb (fun k => match nth_error moves k, busy_run busy_start (firstn k moves) with
                    | Some (Beside CloseNext), Some (b, es) => check b es | _, _ => true end) (seq 0 (List.length moves)) = true ->
  forall before after b1 es1, moves = before ++ Beside CloseNext :: after -> busy_run busy_start before = Some (b1, es1) -> check b1 es1 = true.
Proof.
  intros moves H before after b1 es1 -> R. rewrite forallb_forall in H. specialize (H (List.length before)). cbv beta in H.
  rewrite nth_error_app2, Nat.sub_diag in H by apply le_n. cbn [nth_error] in H.
  rewrite firstn_app, Nat.sub_diag, firstn_O, app_nil_r, firstn_all, R in H. apply H, in_seq. rewrite app_length. cbn [List.length]. lia.
Qed.
Definition at_rest (b : busy) : bool := match sv_flush (by_serving b), by_requests b with Returned, [] => true | _, _ => false end.
Definition flush_returned (b : busy) : bool := match sv_flush (by_serving b) with Returned => true | _ => false end.
Definition api_closed (es : list serving_event) : bool := existsb (fun e => match e with EClosed p => part_eqb p Api | _ => false end) es.
Lemma api_closed_in es : In (EClosed Api) es -> api_closed es = true.
Proof. intros H. apply existsb_exists. exists (EClosed Api). split; [exact H|reflexivity]. Qed.
(** Such a run: a query and an export come in, the signal comes in the middle of a save, and both are still served while the telemetry,
    the gRPC server and its address are closed. *)
Example C94_requests_finished_example :
  let moves := [Arrives (ScanRequest 1 1 1); Arrives ExportRequest; Beside (Tick 1 1); Beside SaveStep; Works 0; Beside Signal; Beside CloseNext; Works 1; Beside SaveStep; Beside CloseNext; Works 0;
      Beside SaveStep; Beside SaveStep; Beside CloseNext; Works 1; Works 0; Works 0; Beside Notice; Beside CloseNext] ++ repeat (Beside CloseNext) 5 in
  (exists b, busy_run busy_start moves = Some (b,
     [EUsed Translator true; EUsed Translator true; EClosed Telemetry; EUsed SampleSequence true; EUsed Database true; EClosed RpcServer; EUsed Index true;
      EUsed Index true; EClosed Listener; EUsed Database true; EClosed Api; EClosed SampleSequence; EClosed Index; EClosed Translator; EClosed Database; EEnds 0])) /\
  (forall before after b1 es1, moves = before ++ Beside CloseNext :: after -> busy_run busy_start before = Some (b1, es1) ->
    In (EClosed Api) es1 -> sv_flush (by_serving b1) = Returned /\ by_requests b1 = []).
Proof.
  cbv zeta. split; [eexists; vm_compute; reflexivity|]. intros before after b1 es1 E R I0.
  assert (H := E). match type of H with ?l = _ => pose proof (at_closings (fun b es => implb (api_closed es) (at_rest b)) l ltac:(vm_compute; reflexivity) before after b1 es1 E R) as H0 end. clear H. rename H0 into H. cbv beta in H.
  rewrite (api_closed_in _ I0) in H. unfold at_rest in H. cbn [implb] in H. destruct (sv_flush (by_serving b1)); try discriminate.
  destruct (by_requests b1); [split; reflexivity|discriminate].
Qed.

(** Nothing waits for that: a request that is still being handled when the database has been closed makes an orderly stop end in failure,
    although the flush loop returned at once. *)
Theorem C94_request_in_flight_refuted : exists moves b events, busy_run busy_start moves = Some (b, events) /\
  (forall before after b1 es1, moves = before ++ Beside CloseNext :: after -> busy_run busy_start before = Some (b1, es1) -> sv_flush (by_serving b1) = Returned) /\
  In (EUsed SampleSequence false) events /\ In (EEnds 1) events /\ ~ In (EEnds 0) events.
Proof.
  exists ([Arrives ExportRequest; Beside Signal; Beside Notice] ++ repeat (Beside CloseNext) 8 ++ [Works 0]).
  eexists _, _. split; [vm_compute; reflexivity|]. split.
  - intros before after b1 es1 E R. cbn [app repeat] in E.
    do 12 (destruct before as [|? before]; [try discriminate E; vm_compute in R; injection R as <- <-; reflexivity|injection E as <- E]).
    destruct before; discriminate.
  - split; [cbn; auto 12|]. split; [cbn; auto 14|]. intros H. cbn in H. repeat destruct H as [H|H]; (discriminate || contradiction).
Qed.
Print Assumptions C94_request_in_flight_refuted.

(** Parts are closed in order, whatever else goes on. *)
Lemma closings_step b m b' es' j : busy_step b m = Some (b', es') -> sv_stack (by_serving b) = skipn j (rev order) ->
  exists j', sv_stack (by_serving b') = skipn j' (rev order) /\ map EClosed (firstn j (rev order)) ++ filter is_closed es' = map EClosed (firstn j' (rev order)).
Proof.
  intros St E1. destruct b as [[st stack f ended] reqs]. cbn [by_serving sv_stack] in E1. subst stack.
  assert (forall s', sv_stack (by_serving b') = sv_stack s' -> sv_stack s' = skipn j (rev order) -> filter is_closed es' = [] -> exists j',
    sv_stack (by_serving b') = skipn j' (rev order) /\ map EClosed (firstn j (rev order)) ++ filter is_closed es' = map EClosed (firstn j' (rev order))) as K
    by (intros s' A B C; exists j; rewrite A, C, app_nil_r; split; [exact B|reflexivity]).
  assert (forall b1 es1, Some (b1, es1) = Some (b', es') -> b1 = b' /\ es1 = es') as P by (intros ? ? H; injection H as <- <-; split; reflexivity).
  destruct m as [m|r|i]; cbn [busy_step by_serving by_requests sv_ended sv_stack sv_flush sv_stopping] in St.
  - destruct ended; [destruct m; discriminate|]. destruct (serving_step _ m) as [[s1 e1]|] eqn:S1; [|discriminate]. apply P in St as [<- <-]. cbn [by_serving] in *.
    unfold serving_step in S1. cbn [sv_ended sv_stack sv_flush sv_stopping] in S1. destruct m.
    + injection S1 as <- <-. apply (K (Srv true (skipn j (rev order)) f None)); reflexivity.
    + destruct st; [|discriminate]. destruct (le_lt_dec 8 j) as [L|L].
      * destruct (order_end j L) as [X1 X2]. rewrite X1 in S1. injection S1 as <- <-. exists j. cbn [by_serving sv_stack filter is_closed]. rewrite X1, X2. split; reflexivity.
      * destruct (order_skip j L) as (p & X1 & X2). rewrite X1 in S1. injection S1 as <- <-. exists (S j). rewrite X2, map_app. split; reflexivity.
    + destruct f; try discriminate. injection S1 as <- <-. eapply K; [reflexivity|reflexivity|reflexivity].
    + destruct f as [|[|p l]|]; try discriminate; [injection S1 as <- <-; eapply K; reflexivity|].
      destruct (part_eqb p Translator && _); injection S1 as <- <-; eapply K; reflexivity.
    + destruct f; try discriminate. destruct st; [|discriminate]. injection S1 as <- <-. eapply K; reflexivity.
  - destruct ended; [discriminate|]. destruct (still_open RpcServer _); [|discriminate]. apply P in St as [<- <-]. eapply K; reflexivity.
  - destruct ended; [discriminate|]. destruct (nth_error reqs i) as [[|p l]|]; try discriminate; [apply P in St as [<- <-]; eapply K; reflexivity|].
    destruct (match p with SampleSequence | Translator => _ | _ => _ end); [apply P in St as [<- <-]; eapply K; reflexivity|].
    destruct (part_eqb p SampleSequence); apply P in St as [<- <-]; eapply K; reflexivity.
Qed.
Lemma closings_run : forall moves b b' es' j, busy_run b moves = Some (b', es') -> sv_stack (by_serving b) = skipn j (rev order) ->
  exists j', map EClosed (firstn j (rev order)) ++ filter is_closed es' = map EClosed (firstn j' (rev order)).
Proof.
  induction moves as [|m t IH]; intros b b' es' j R E; [injection R as <- <-; exists j; apply app_nil_r|].
  cbn [busy_run] in R. destruct (busy_step b m) as [[b1 e1]|] eqn:St; [|discriminate]. destruct (busy_run b1 t) as [[b2 e2]|] eqn:R2; [|discriminate].
  injection R as <- <-. destruct (closings_step _ _ _ _ _ St E) as (j1 & E1 & C1). destruct (IH _ _ _ _ R2 E1) as (j2 & C2).
  exists j2. rewrite filter_app, app_assoc, C1. exact C2.
Qed.
(** How often a sample number is taken. *)
Definition takes_number (e : serving_event) : bool := match e with EUsed SampleSequence _ => true | _ => false end.
Lemma ops_between l : ~ In (EClosed SampleSequence) l -> ~ In (EClosed Database) l ->
  flat_map seq_ops_beside l = repeat (SNext false) (List.length (filter takes_number l)).
Proof.
  induction l as [|e t IH]; intros A B; [reflexivity|]. cbn [flat_map filter].
  rewrite IH by (intros H; first [apply A; right; exact H|apply B; right; exact H]).
  destruct e as [p|p o|c]; [| |reflexivity]; destruct p; try reflexivity; exfalso; (apply A; left; reflexivity) || (apply B; left; reflexivity).
Qed.

Record leased (d : kv) (q : sequence) : Prop := { ls_val : kvget sample_seq_key d = Some (u64be (q_leased q)); ls_le : q_next q <= q_leased q }.
Lemma next_step d q : leased d q -> q_leased q + 2 ^ 20 < 2 ^ 64 ->
  exists d' q', seq_step (SeqState d (Some q)) (SNext false) = (SeqState d' (Some q'), Some (q_next q)) /\ leased d' q' /\ q_next q' = q_next q + 1 /\
    q_leased q' = if q_leased q <=? q_next q then q_leased q + 2 ^ 20 else q_leased q.
Proof.
  intros [V L] B. unfold seq_step. cbn [ss_proc ss_db]. unfold seq_next. destruct (q_leased q <=? q_next q) eqn:E.
  - unfold update_lease. rewrite V, be_val_u64be by (change two64 with (2 ^ 64); lia).
    assert ((q_leased q + sample_bandwidth) mod two64 = q_leased q + 2 ^ 20) as -> by (apply N.mod_small; exact B). cbn [q_next q_leased].
    apply N.leb_le in E. assert (q_leased q = q_next q) as Eq by lia.
    assert ((q_leased q + 1) mod two64 = q_next q + 1) as -> by (rewrite Eq; apply N.mod_small; change two64 with (2 ^ 64); lia).
    eexists _, _. split; [rewrite Eq; reflexivity|]. split; [|split; [reflexivity|rewrite Eq; reflexivity]]. split; cbn [q_next q_leased]; [apply kvget_set_eq|].
    change (2 ^ 20) with 1048576. lia.
  - apply N.leb_gt in E. assert ((q_next q + 1) mod two64 = q_next q + 1) as -> by (apply N.mod_small; change two64 with (2 ^ 64); lia).
    eexists _, _. split; [reflexivity|]. split; [|split; reflexivity]. split; cbn [q_next q_leased]; [exact V|lia].
Qed.
Definition leases (k : N) : N := (k + (2 ^ 20 - 1)) / 2 ^ 20.
Lemma leases_step k : leases (k + 1) = if k mod 2 ^ 20 =? 0 then leases k + 1 else leases k.
Proof. unfold leases. destruct (N.eqb_spec (k mod 2 ^ 20) 0) as [E|E]; change (2 ^ 20) with 1048576 in *; zify; Z.to_euclidean_division_equations; lia. Qed.
Lemma leases_full k : 2 ^ 20 * leases k = k <-> k mod 2 ^ 20 = 0.
Proof. unfold leases. change (2 ^ 20) with 1048576. split; intros H; zify; Z.to_euclidean_division_equations; lia. Qed.
Lemma leases_bounds k : k <= 2 ^ 20 * leases k < k + 2 ^ 20.
Proof. unfold leases. change (2 ^ 20) with 1048576. zify; Z.to_euclidean_division_equations; lia. Qed.

(** [n] numbers taken in turn, from a sequence that has [used] numbers of its leases in use; [f] is 1 if it was just opened. *)
Lemma next_steps rest base f : f <= 1 -> forall n used d q, leased d q -> q_next q = base + used ->
  q_leased q = base + 2 ^ 20 * N.max f (leases used) -> base + used + N.of_nat n + 2 ^ 20 * 3 < 2 ^ 64 ->
  exists d' q', fst (seq_run (SeqState d (Some q)) (repeat (SNext false) n ++ rest)) = fst (seq_run (SeqState d' (Some q')) rest) /\
    leased d' q' /\ q_next q' = base + (used + N.of_nat n) /\ q_leased q' = base + 2 ^ 20 * N.max f (leases (used + N.of_nat n)).
Proof.
  intros F. induction n as [|n IH]; intros used d q L Nx Ls B.
  - exists d, q. cbn [repeat app]. rewrite N.add_0_r. auto.
  - pose proof (leases_bounds used) as Bd.
    destruct (next_step d q L) as (d1 & q1 & S1 & L1 & N1 & Q1); [rewrite Ls; change (2 ^ 20) with 1048576 in *; lia|].
    destruct (IH (used + 1) d1 q1) as (d2 & q2 & S2 & L2 & N2 & Q2); [exact L1|lia| |lia|].
    + rewrite Q1, leases_step. destruct (N.eqb_spec used 0) as [ -> | Z ].
      * change (leases 0) with 0 in *. cbn [N.modulo]. change (0 mod 2 ^ 20 =? 0) with true. cbv iota.
        assert (f = 0 \/ f = 1) as [ -> | -> ] by lia.
        -- destruct (N.leb_spec (q_leased q) (q_next q)) as [X|X]; change (2 ^ 20) with 1048576 in *; lia.
        -- destruct (N.leb_spec (q_leased q) (q_next q)) as [X|X]; change (2 ^ 20) with 1048576 in *; lia.
      * assert (1 <= leases used) as G by (change (2 ^ 20) with 1048576 in Bd; lia).
        replace (N.max f (leases used)) with (leases used) in Ls by lia.
        destruct (N.leb_spec (q_leased q) (q_next q)) as [X|X].
        -- assert (2 ^ 20 * leases used = used) as E by (change (2 ^ 20) with 1048576 in *; lia). apply leases_full in E. rewrite E, N.eqb_refl. 
           replace (N.max f (leases used + 1)) with (leases used + 1) by lia. lia.
        -- destruct (N.eqb_spec (used mod 2 ^ 20) 0) as [E|E].
           ++ apply leases_full in E. lia.
           ++ replace (N.max f (leases used)) with (leases used) by lia. exact Ls.
    + exists d2, q2. split; [|split; [exact L2|]].
      * rewrite <- S2. cbn [repeat app seq_run]. rewrite S1. destruct (seq_run (SeqState d1 (Some q1)) _). reflexivity.
      * replace (used + N.of_nat (S n)) with (used + 1 + N.of_nat n) by lia. split; [lia|exact Q2].
Qed.

(** What an orderly stop does to the numbering of samples: the numbers used before the sample sequence is closed are the only ones that
    are gone, unless requests take numbers between its closing and that of the database: every 2^20 of them, begun, cost 2^20 numbers. *)
Theorem C94_numbers_after_stop : forall moves b events before late rest d, busy_run busy_start moves = Some (b, events) ->
  events = before ++ EClosed SampleSequence :: late ++ EClosed Database :: rest ->
  let used l := N.of_nat (List.length (filter (fun e => match e with EUsed SampleSequence _ => true | _ => false end) l)) in
  next_number d + used before + used late + 2 ^ 22 < 2 ^ 64 ->
  next_number (ss_db (fst (seq_run (SeqState d None) (SOpen false :: flat_map seq_ops_beside events)))) =
    next_number d + used before + 2 ^ 20 * ((used late + (2 ^ 20 - 1)) / 2 ^ 20).
Proof.
  intros moves b events before late rest d R E used B.
  assert (~ In (EClosed SampleSequence) before /\ ~ In (EClosed Database) before /\ ~ In (EClosed SampleSequence) late /\ ~ In (EClosed Database) late /\ filter is_closed rest = []) as (U1 & U2 & U3 & U4 & U5).
  { destruct (closings_run _ _ _ _ 0 R eq_refl) as (j & C). cbn [firstn map app] in C. rewrite E, filter_app in C. cbn [filter is_closed] in C. rewrite filter_app in C. cbn [filter is_closed] in C.
    assert (forall l p, In (EClosed p) l -> In (EClosed p) (filter is_closed l)) as Fi by (intros l p H; apply filter_In; split; [exact H|reflexivity]).
    assert (forall l : list serving_event, l = map EClosed (firstn j (rev order)) -> exists t, l ++ t = map EClosed (rev order)) as Pre.
    { intros l ->. exists (map EClosed (skipn j (rev order))). rewrite <- map_app, firstn_skipn. reflexivity. }
    destruct (Pre _ C) as (t & T). clear C Pre. 
    assert (NoDup (map EClosed (rev order))) as Nd by (cbn; repeat constructor; cbn; intuition discriminate).
    rewrite <- T in Nd. rewrite <- app_assoc in Nd, T. cbn [app] in Nd, T. rewrite <- app_assoc in Nd, T. cbn [app] in Nd, T.
    remember (filter is_closed before) as x. remember (filter is_closed late) as y. remember (filter is_closed rest) as z.
    assert (~ In (EClosed SampleSequence) x /\ ~ In (EClosed SampleSequence) y) as [A1 A2].
    { apply NoDup_remove_2 in Nd. split; intros H; apply Nd; apply in_or_app; [left; exact H|right; apply in_or_app; left; exact H]. }
    assert (~ In (EClosed Database) x /\ ~ In (EClosed Database) y) as [A3 A4].
    { rewrite app_comm_cons, app_assoc in Nd. apply NoDup_remove_2 in Nd. split; intros H; apply Nd; apply in_or_app; left; apply in_or_app; [left|right; right]; exact H. }
    subst x y. split; [intros H; apply A1, Fi, H|]. split; [intros H; apply A3, Fi, H|]. split; [intros H; apply A2, Fi, H|]. split; [intros H; apply A4, Fi, H|].
    assert (exists w, filter is_closed before ++ EClosed SampleSequence :: filter is_closed late ++ [EClosed Database] ++ z ++ t = w ++ [EClosed Database]) as (w & W)
      by (exists (map EClosed (removelast (rev order))); exact T).
    destruct (z ++ t) eqn:Zt; [destruct z; [reflexivity|discriminate]|exfalso].
    rewrite app_comm_cons, app_assoc in Nd. apply NoDup_remove_2 in Nd. apply Nd, in_or_app. right.
    assert (s :: l <> []) as Ne by discriminate. destruct (exists_last Ne) as (w1 & la & La). rewrite La in *.
    rewrite app_comm_cons, !app_assoc in W. apply app_inj_tail in W as [_ <-]. apply in_or_app. right. left. reflexivity. }
  assert (forall l, ~ In (EClosed SampleSequence) l -> ~ In (EClosed Database) l -> flat_map seq_ops_beside l = repeat (SNext false) (List.length (filter takes_number l))) as Ops by exact ops_between.
  subst events. rewrite flat_map_app. cbn [flat_map]. rewrite flat_map_app. cbn [flat_map seq_ops_beside].
  rewrite (Ops before), (Ops late) by assumption. clear Ops.
  set (n := List.length (filter takes_number before)). set (k := List.length (filter takes_number late)).
  assert (used before = N.of_nat n) as Un by reflexivity. assert (used late = N.of_nat k) as Uk by reflexivity. rewrite Un, Uk in *. clearbody n k. clear used Un Uk.
  set (c := next_number d) in *. change (2 ^ 22) with (4 * 2 ^ 20) in B.
  assert (seq_step (SeqState d None) (SOpen false) = (SeqState (kvset sample_seq_key (u64be (c + 2 ^ 20)) d) (Some (Seq c (c + 2 ^ 20))), None)) as Op.
  { unfold seq_step. cbn [ss_proc ss_db]. unfold get_sequence, update_lease. fold (next_number d). fold c.
    assert ((c + sample_bandwidth) mod two64 = c + 2 ^ 20) as -> by (apply N.mod_small; change two64 with (2 ^ 64); change sample_bandwidth with (2 ^ 20); lia). reflexivity. }
  assert (forall o t s s' r, seq_step s o = (s', r) -> fst (seq_run s (o :: t)) = fst (seq_run s' t)) as Run1
    by (intros o t s s' r H; cbn [seq_run]; rewrite H; destruct (seq_run s' t); reflexivity).
  rewrite (Run1 _ _ _ _ _ Op).
  destruct (next_steps ([SRelease false] ++ repeat (SNext false) k ++ [SCrash] ++ flat_map seq_ops_beside rest) c 1 (N.le_refl 1) n 0 (kvset sample_seq_key (u64be (c + 2 ^ 20)) d) (Seq c (c + 2 ^ 20)))
    as (d1 & q1 & -> & [V1 L1] & N1 & Q1).
  { split; cbn [q_next q_leased]; [apply kvget_set_eq|lia]. }
  { cbn [q_next]. lia. }
  { cbn [q_leased]. change (N.max 1 (leases 0)) with 1. lia. }
  { lia. }
  rewrite N.add_0_l in *. pose proof (leases_bounds (N.of_nat n)) as Bn.
  assert (q_leased q1 < two64) as Bq by (change two64 with (2 ^ 64); rewrite Q1; change (2 ^ 20) with 1048576 in *; lia).
  assert (seq_step (SeqState d1 (Some q1)) (SRelease false) = (SeqState (kvset sample_seq_key (u64be (q_next q1)) d1) (Some (Seq (q_next q1) (q_next q1))), None)) as Re.
  { unfold seq_step. cbn [ss_proc ss_db]. unfold seq_release. rewrite V1, be_val_u64be by exact Bq. rewrite N.eqb_refl. reflexivity. }
  cbn [app]. rewrite (Run1 _ _ _ _ _ Re).
  destruct (next_steps (SCrash :: flat_map seq_ops_beside rest) (q_next q1) 0 N.le_0_1 k 0 (kvset sample_seq_key (u64be (q_next q1)) d1) (Seq (q_next q1) (q_next q1)))
    as (d2 & q2 & -> & [V2 L2] & N2 & Q2).
  { split; cbn [q_next q_leased]; [apply kvget_set_eq|lia]. }
  { cbn [q_next]. lia. }
  { cbn [q_leased]. change (N.max 0 (leases 0)) with 0. lia. }
  { lia. }
  rewrite N.add_0_l in *. rewrite (Run1 SCrash _ _ (SeqState d2 None) None) by reflexivity.
  assert (flat_map seq_ops_beside rest = repeat (SNext false) (List.length (filter takes_number rest))) as ->.
  { apply ops_between; intros H; assert (In (EClosed SampleSequence) (filter is_closed rest) \/ In (EClosed Database) (filter is_closed rest)) as X
      by ((left; apply filter_In; split; [exact H|reflexivity]) || (right; apply filter_In; split; [exact H|reflexivity])); rewrite U5 in X; destruct X as [[]|[]]. }
  assert (forall m, fst (seq_run (SeqState d2 None) (repeat (SNext false) m)) = SeqState d2 None) as Idle.
  { induction m as [|m IH]; [reflexivity|]. cbn [repeat]. rewrite (Run1 (SNext false) _ _ (SeqState d2 None) None) by reflexivity. exact IH. }
  rewrite Idle. cbn [ss_db].
  rewrite N.max_0_l in Q2. unfold next_number. rewrite V2. rewrite be_val_u64be.
  - rewrite Q2, N1. unfold leases. reflexivity.
  - pose proof (leases_bounds (N.of_nat k)) as Bk. rewrite Q2, N1. change two64 with (2 ^ 64). change (2 ^ 20) with 1048576 in *. lia.
Qed.
Print Assumptions C94_numbers_after_stop.
(** A stop with one number taken in time and one too late: the next start begins at 1 + 2^20. *)
Example C94_numbers_after_stop_example : exists b events,
  busy_run busy_start ([Arrives ExportRequest; Arrives ExportRequest; Works 0; Beside Signal; Beside Notice] ++ repeat (Beside CloseNext) 5 ++ [Works 1] ++ repeat (Beside CloseNext) 4) =
    Some (b, events) /\ In (EEnds 0) events /\
  next_number (ss_db (fst (seq_run (SeqState [] None) (SOpen false :: flat_map seq_ops_beside events)))) = 1 + 2 ^ 20.
Proof.
  remember ([Arrives ExportRequest; Arrives ExportRequest; Works 0; Beside Signal; Beside Notice] ++ repeat (Beside CloseNext) 5 ++ [Works 1] ++ repeat (Beside CloseNext) 4) as ms eqn:M.
  assert (exists b, busy_run busy_start ms = Some (b, [EUsed SampleSequence true] ++ [EClosed Telemetry; EClosed RpcServer; EClosed Listener; EClosed Api] ++ EClosed SampleSequence ::
    [EUsed SampleSequence false; EClosed Index; EClosed Translator] ++ EClosed Database :: [EEnds 0])) as (b & R) by (subst ms; eexists; vm_compute; reflexivity).
  eexists b, _. split; [exact R|]. split; [cbn; auto 14|].
  rewrite (C94_numbers_after_stop ms b _ ([EUsed SampleSequence true] ++ [EClosed Telemetry; EClosed RpcServer; EClosed Listener; EClosed Api])
    [EUsed SampleSequence false; EClosed Index; EClosed Translator] [EEnds 0] [] R); [reflexivity|rewrite app_assoc; reflexivity|reflexivity].
Qed.

(** The same for a query: it finds the index closed, while the label it asks for is still translated, and ends with an error. *)
Theorem C94_query_in_flight_refuted : exists moves b events, busy_run busy_start moves = Some (b, events) /\
  (forall before after b1 es1, moves = before ++ Beside CloseNext :: after -> busy_run busy_start before = Some (b1, es1) -> sv_flush (by_serving b1) = Returned) /\
  In (EUsed Translator true) events /\ In (EUsed Index false) events /\ ~ In (EUsed Database true) events /\ by_requests b = [].
Proof.
  exists ([Arrives (ScanRequest 1 1 1); Beside Signal; Beside Notice] ++ repeat (Beside CloseNext) 6 ++ [Works 0; Works 0]). eexists _, _.
  split; [vm_compute; reflexivity|]. split.
  - intros before after b1 es1 E R. assert (H := E).
    match type of H with ?l = _ => pose proof (at_closings (fun b es => flush_returned b) l ltac:(vm_compute; reflexivity) before after b1 es1 E R) as H0 end.
    unfold flush_returned in H0. destruct (sv_flush (by_serving b1)); try discriminate. reflexivity.
  - split; [cbn; tauto|]. split; [cbn; tauto|]. split; [|reflexivity]. intros H. cbn in H. repeat (destruct H as [H|H]; [discriminate|]). exact H.
Qed.
Print Assumptions C94_query_in_flight_refuted.
