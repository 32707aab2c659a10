(** C110: answers of any size. *)
From Verif.Model Require Import Base Labels Calendar View KV Otlp Transform Batch Rows Shards Dataframe Collapse Store Sequence Translate Visit XxHash Query Service MessageSize.
From Verif.Spec Require Import Indexing Translator Frames Saves Sets Merge Trim Queries Serving.
From Verif.Proofs Require Import BaseFacts CalendarFacts LabelsFacts TransformFacts DataframeFacts StoreFacts ScanFacts ListTranslator VisitFacts OnceFacts SequenceFacts ServiceFacts.
From Verif.Props Require Import P_Dataframe P_Store P_Collapse P_EndToEnd P_Query P_Once P_Service P_Serving P_Restart.
From Verif.Props Require P_Visit P_Time.
Open Scope N_scope.

Definition life_of (a b : string) : list event := life6 ++ [ev [Sample 1 (mtp "b" a); Sample 2 (mtp "b" b)] life6].
Definition answer_of (a b : string) : data := DMetrics [RGroup "" None [SGroup "" None [Metric "b" "" "" (Some (MData KGauge 0 false [Point half1 [] a; Point half1 [] b]))]]].
Lemma life_of_history a b : history list_impl list_inv [] (life_of a b).
Proof.
  split; [vm_compute; reflexivity|]. split; [|split].
  - unfold life_of. apply life_snoc; [|apply times_forall; repeat constructor]. unfold life6. apply life_snoc; [exact Logic.I|apply times_forall; repeat constructor].
  - vm_compute. repeat constructor.
  - intros s Hs. vm_compute in Hs. repeat (destruct Hs as [<-|Hs]; [reflexivity|]). destruct Hs.
Qed.
Lemma life_of_scan a b : do_scan list_impl xxh64 toy_kvb (after list_impl [] (life_of a b)) (calm 0) (ask "b" 0 3600) group_columns = SData (Some (answer_of a b)).
Proof. vm_compute. reflexivity. Qed.
(** What is assumed of the encoding: a payload takes at least the bytes of the other fields of its data points, and a payload of one
    point no more than these, its name and 64 bytes. *)
Definition len (s : string) : N := N.of_nat (String.length s).
Definition bulk (d : data) : N := fold_right (fun e n => match snd e with RPoint _ _ _ _ _ _ p => len (p_rest p) + n | _ => n end) 0 (entries d).
Definition sizes (size : data -> N) : Prop := (forall d, bulk d <= size d) /\ (forall n r, size (mtp n r) <= len n + len r + 64).
Lemma sizes_meet : sizes (fun d => bulk d + match d with DMetrics [RGroup _ _ [SGroup _ _ [m]]] => len (m_name m) | _ => 0 end).
Proof. split; [intros d; lia|]. intros n r. cbn. lia. Qed.
Lemma any_length n : exists s, len s = n.
Proof.
  induction n as [|n [s IH]] using N.peano_ind; [exists ""%string; reflexivity|]. exists (String "x" s). unfold len in *. cbn [String.length]. lia.
Qed.
(** ------ C110 *)
(** A query gets its whole answer or an error ... *)
Theorem C110_whole_or_error : forall size I h h0 kvb (st : store I) e client sc order,
  query_sized size I h h0 kvb st e client sc order = query I h h0 kvb st e client sc order \/ query_sized size I h h0 kvb st e client sc order = AError.
Proof. intros. unfold query_sized. destruct (do_scan I h kvb st e sc order) as [|o|]; auto. destruct (receivable size (over_grpc o)); auto. Qed.
(** ... the answer if what the store found takes no more than 4 MiB ... *)
Theorem C110_answered_partial : forall size I h h0 kvb (st : store I) e client sc order,
  (forall d, do_scan I h kvb st e sc order = SData (Some d) -> size d <= 4194304) -> size DNone <= 4194304 ->
  query_sized size I h h0 kvb st e client sc order = query I h h0 kvb st e client sc order.
Proof.
  intros size I h h0 kvb st e client sc order H N. unfold query_sized, receivable, max_message. destruct (do_scan I h kvb st e sc order) as [|[d|]|] eqn:E; try reflexivity; cbn [over_grpc].
  - destruct (N.leb_spec (size d) 4194304) as [_|L]; [reflexivity|]. specialize (H d eq_refl). lia.
  - destruct (N.leb_spec (size DNone) 4194304) as [_|L]; [reflexivity|]. lia.
Qed.
(** ... and an error, always, if it takes more. *)
Theorem C110_too_large : forall size I h h0 kvb (st : store I) e client sc order d, do_scan I h kvb st e sc order = SData (Some d) -> 4194304 < size d ->
  query_sized size I h h0 kvb st e client sc order = AError.
Proof.
  intros size I h h0 kvb st e client sc order d E L. unfold query_sized, receivable, max_message. rewrite E. cbn [over_grpc]. destruct (N.leb_spec (size d) 4194304); [lia|reflexivity].
Qed.
(** The claim is false of the server as it is wired: two requests it accepts and saves can no longer be queried, not even for one record. *)
Theorem C110_large_answers_refuted : forall size, sizes size -> exists es sc out,
  history list_impl list_inv [] es /\ (forall s, In s (given es) -> receivable size (smp_data s) = true) /\ sc_limit sc = 1 /\
  query list_impl xxh64 xxh64_zero toy_kvb (after list_impl [] es) (calm 0) 0 sc group_columns = AData out /\ List.length (records out) = 2%nat /\
  query_sized size list_impl xxh64 xxh64_zero toy_kvb (after list_impl [] es) (calm 0) 0 sc group_columns = AError.
Proof.
  intros size [Low High]. destruct (any_length 3000000) as [r L]. exists (life_of r r), (ask "b" 0 3600), (answer_of r r).
  split; [apply life_of_history|]. split; [|split; [reflexivity|split; [|split; [reflexivity|]]]].
  - intros s Hs. assert (G : In s [Sample 0 (mtp "a" "x"); Sample 1 (mtp "b" r); Sample 2 (mtp "b" r)]).
    { vm_compute in Hs. cbn [In]. tauto. }
    unfold receivable, max_message. apply N.leb_le.
    destruct G as [<-|[<-|[<-|[]]]]; cbn [smp_data]; eapply N.le_trans; try apply High; rewrite ?L; vm_compute; discriminate.
  - unfold query. rewrite life_of_scan. vm_compute. reflexivity.
  - apply (C110_too_large _ _ _ _ _ _ _ _ _ _ (answer_of r r)); [apply life_of_scan|]. eapply N.lt_le_trans; [|apply Low].
    unfold bulk, answer_of. cbn [entries fold_right snd app flat_map map]. cbn. rewrite L. lia.
Qed.
Example C110_example : exists size, sizes size /\ query_sized size list_impl xxh64 xxh64_zero toy_kvb (after list_impl [] life7) (calm 0) 0 (ask "b" 0 3600) group_columns = AData answer7.
Proof.
  eexists. split; [exact sizes_meet|]. unfold query_sized. rewrite life7_scan. destruct C82_example as (_ & _ & _ & _ & _ & _ & _ & _ & _ & Q). rewrite Q. reflexivity.
Qed.
Print Assumptions C110_answered_partial.
Print Assumptions C110_large_answers_refuted.
