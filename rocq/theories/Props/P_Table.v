(** C93: rows of a stored view. *)
From Verif.Model Require Import Base Labels View Otlp Transform Dataframe Arrow Table.
From Verif.Spec Require Import Messages Tables.
From Verif.Proofs Require Import BaseFacts ArrowFacts ArrowTable.
Open Scope nat_scope.

Lemma mask_only any fs wanted (m : list (fval any)) : forall n, mask any fs (map wanted (seq n (List.length fs))) m = only_from n wanted fs m.
Proof.
  revert m. induction fs as [|f fs IH]; intros [|v m] n; try reflexivity. cbn [List.length seq map mask only_from]. rewrite IH.
  destruct f as [[|] p k]; reflexivity.
Qed.

(** Messages appended in any number of batches, each written behind the columns read back before: no batch panics, the table has
    one row per message, and every row reads as its message, or as any part of it. *)
Theorem C93_rows_read_back : forall any (marshal : any -> option string) (unmarshal : string -> any) (writable : any -> Prop) fs cols first batches,
  (forall a, writable a -> exists s, marshal a = Some s /\ unmarshal s = a) ->
  new_schema fs = Some cols -> fs <> [] -> Forall (Forall (is_message any writable fs)) (first :: batches) ->
  exists record, append_batches any marshal fs None (first :: batches) = Some (Some record) /\ num_rows record = List.length (List.concat (first :: batches)) /\
    forall i m, nth_error (List.concat (first :: batches)) i = Some m ->
      read_message any unmarshal fs record i = Some m /\
      forall wanted, read_chosen any unmarshal fs (map wanted (seq 0 (List.length fs))) record i = Some (only wanted fs m).
Proof.
  intros any marshal unmarshal writable fs cols first batches L N F W.
  assert (W' : Forall (Forall (wfs any writable fs)) (first :: batches)). { eapply Forall_impl; [|exact W]. intros l. apply Forall_impl. intros m. apply wf_msg. }
  inversion W' as [|x y Wf Wb]; subst x y. exists (Es any marshal fs (map Some (List.concat (first :: batches)))). split; [|split].
  - cbn [append_batches]. pose proof (append_messages_Es any marshal unmarshal writable L fs cols None first N Wf) as A. cbn [option_map] in A. rewrite A.
    apply (append_batches_Es any marshal unmarshal writable L fs cols batches N Wb first).
  - rewrite num_rows_Es by exact F. apply map_length.
  - intros i m H. assert (wfs any writable fs m) as Wm.
    { apply nth_error_In in H. apply in_concat in H. destruct H as (l & Hl & Hm). rewrite Forall_forall in W'. specialize (W' l Hl). rewrite Forall_forall in W'. apply W', Hm. }
    split.
    + apply (read_message_good any marshal unmarshal writable); [exact L|apply (all_good_read any marshal unmarshal writable L)|apply map_nth_error, H|exact Wm].
    + intros wanted. rewrite (read_chosen_Es any marshal unmarshal writable L fs _ _ i m); [|rewrite map_length, seq_length; reflexivity|apply map_nth_error, H|exact Wm].
      f_equal. apply mask_only.
Qed.
Print Assumptions C93_rows_read_back.

Section Views.
  Context (any : Type) (marshal : any -> option string) (unmarshal : string -> any) (writable : any -> Prop).
  Context (mf lf tf : list field) (of_metrics : list (resource_group metric) -> list (fval any)) (of_logs : list (resource_group log_record) -> list (fval any))
    (of_traces : list (resource_group span) -> list (fval any)).
  Notation message_of := (data_message any of_metrics of_logs of_traces).
  Notation fields := (data_fields mf lf tf).
  (** The payloads are messages of their types. *)
  Definition payloads_fit : Prop :=
    (forall l, is_message any writable mf (of_metrics l)) /\ (forall l, is_message any writable lf (of_logs l)) /\ (forall l, is_message any writable tf (of_traces l)).

  Lemma message_fits d : payloads_fit -> wfs any writable fields (message_of d).
  Proof. intros (A & B & C). destruct d as [l|l|l|]; cbn; repeat split; (apply A || apply B || apply C || discriminate || auto). Qed.

  (** A view described by rows (Model/Dataframe.v, used by all statements about the store) is what its columns read as: after any
      history of saves, every row read for a signal is the row's own data if it is of that signal, and empty otherwise. *)
  Theorem C93_views_are_their_rows : forall cols first batches, (forall a, writable a -> exists s, marshal a = Some s /\ unmarshal s = a) ->
    new_schema fields = Some cols -> payloads_fit -> first <> [] -> Forall (fun b => b <> []) batches ->
    exists record, append_views_columns any marshal mf lf tf of_metrics of_logs of_traces None (first :: batches) = Some (Some record) /\
      let frame := fold_left (fun f b => append_view (Some f) b) batches (append_view None first) in
      num_rows record = List.length (fr_rows frame) /\
      forall signal id d, signal = RESOURCE_METRICS \/ signal = RESOURCE_TRACES \/ signal = RESOURCE_LOGS -> nth_error (fr_rows frame) id = Some d ->
        read_signal any unmarshal mf lf tf signal record id = Some (message_of (only_signal signal d)).
  Proof.
    intros cols first batches L N P F B.
    assert (forall rows b old, rows <> [] -> old = Es any marshal fields (map Some (map message_of rows)) ->
      append_view_columns any marshal mf lf tf of_metrics of_logs of_traces (Some old) b =
      Some (Es any marshal fields (map Some (map message_of (rows ++ new_rows (N.of_nat (List.length rows) - 1) b))))) as Step.
    { intros rows b old R ->. unfold append_view_columns. rewrite num_rows_Es by discriminate. rewrite !map_length.
      pose proof (append_messages_Es any marshal unmarshal writable L fields cols (Some (map message_of rows))
        (map message_of (new_rows (N.of_nat (List.length rows) - 1) b)) N) as A. cbn [option_map] in A. rewrite A.
      - rewrite <- map_app. reflexivity.
      - apply Forall_forall. intros m Hm. apply in_map_iff in Hm. destruct Hm as (d & <- & _). apply message_fits, P. }
    assert (forall batches f old, Forall (fun b => b <> []) batches -> fr_rows f <> [] -> old = Es any marshal fields (map Some (map message_of (fr_rows f))) ->
      append_views_columns any marshal mf lf tf of_metrics of_logs of_traces (Some old) batches =
      Some (Some (Es any marshal fields (map Some (map message_of (fr_rows (fold_left (fun f b => append_view (Some f) b) batches f))))))) as Run.
    { clear - Step. induction batches as [|b t IH]; intros f old B R ->; [reflexivity|]. inversion B as [|x y Bb Bt]; subst x y. cbn [append_views_columns fold_left].
      rewrite (Step _ b _ R eq_refl). apply IH; [exact Bt| |]; cbn [append_view fr_rows]; [|reflexivity].
      destruct (fr_rows f); [congruence|discriminate]. }
    assert (first_rows : fr_rows (append_view None first) = new_rows 0 first) by reflexivity.
    eexists. split; [|split].
    - cbn [append_views_columns]. unfold append_view_columns at 1. pose proof (append_messages_Es any marshal unmarshal writable L fields cols None (map message_of (new_rows 0 first)) N) as A.
      cbn [option_map] in A. rewrite A; [|apply Forall_forall; intros m Hm; apply in_map_iff in Hm; destruct Hm as (d & <- & _); apply message_fits, P].
      apply (Run batches (append_view None first)); [exact B| |reflexivity].
      rewrite first_rows. destruct first as [|s t]; [congruence|]. cbn [new_rows]. intros X. apply app_eq_nil in X. destruct X as [_ X]. discriminate.
    - rewrite num_rows_Es by discriminate. rewrite !map_length. reflexivity.
    - cbv zeta. intros signal id d S H. unfold read_signal.
      rewrite (read_chosen_Es any marshal unmarshal writable L fields _ _ id (message_of d)); [|reflexivity|apply map_nth_error, map_nth_error, H|apply message_fits, P].
      f_equal. destruct S as [ -> | [ -> | -> ] ]; destruct d; reflexivity.
  Qed.
End Views.
Print Assumptions C93_views_are_their_rows.

(** The leaf columns read for a signal are exactly those below its own field, in a schema whose leaf columns are those of the
    metrics, then of the logs, then of the traces (the order of the fields of Data). *)
Theorem C93_columns_of_a_signal : forall m l t,
  new_columns 0 (map (append "metrics.") m ++ map (append "logs.") l ++ map (append "traces.") t) =
  (seq 0 (List.length m), seq (List.length m) (List.length l), seq (List.length m + List.length l) (List.length t)).
Proof.
  assert (T : forall t i, new_columns i (map (append "traces.") t) = ([], [], seq i (List.length t))).
  { induction t as [|x t IH]; intros i; [reflexivity|]. cbn [map new_columns List.length seq]. rewrite IH.
    replace (has_prefix (append "traces." x) "metrics.") with false by reflexivity. replace (has_prefix (append "traces." x) "logs.") with false by reflexivity.
    rewrite has_prefix_own. reflexivity. }
  assert (L : forall l t i, new_columns i (map (append "logs.") l ++ map (append "traces.") t) = ([], seq i (List.length l), seq (i + List.length l) (List.length t))).
  { induction l as [|x l IH]; intros t i; [cbn [map app List.length]; rewrite T; cbn; do 2 f_equal; lia|]. cbn [map app new_columns List.length seq]. rewrite IH.
    replace (has_prefix (append "logs." x) "metrics.") with false by reflexivity. rewrite has_prefix_own. do 2 f_equal. lia. }
  assert (M : forall m l t i, new_columns i (map (append "metrics.") m ++ map (append "logs.") l ++ map (append "traces.") t) =
    (seq i (List.length m), seq (i + List.length m) (List.length l), seq (i + List.length m + List.length l) (List.length t))).
  { induction m as [|x m IH]; intros l t i; [cbn [map app List.length]; rewrite L; cbn; do 2 f_equal; f_equal; lia|]. cbn [map app new_columns List.length seq]. rewrite IH.
    rewrite has_prefix_own. do 2 f_equal; f_equal; lia. }
  intros m l t. apply (M m l t 0).
Qed.
Print Assumptions C93_columns_of_a_signal.

(** The message type of the stored samples, from the OTLP 1.1 protos: it is not too deep, so the schema exists. *)
Definition t_str := Field false false (KScalar SString).
Definition t_u64 := Field false false (KScalar SUint64).
Definition t_u32 := Field false false (KScalar SUint32).
Definition t_i32 := Field false false (KScalar SInt32).
Definition t_dbl := Field false false (KScalar SDouble).
Definition t_enum := Field false false (KScalar SEnum).
Definition t_bool := Field false false (KScalar SBool).
Definition t_opt := Field false true (KScalar SDouble).
Definition t_bytes := Field false false KBytes.
Definition t_attrs := Field true false (KMsg [t_str; Field false false KAny]).
Definition t_resource := Field false false (KMsg [t_attrs; t_u32]).
Definition t_scope := Field false false (KMsg [t_str; t_str; t_attrs; t_u32]).
Definition t_exemplars := Field true false (KMsg [t_attrs; t_u64; t_opt; Field false true (KScalar SInt64); t_bytes; t_bytes]).
Definition t_numbers := Field true false (KMsg [t_attrs; t_u64; t_u64; t_opt; Field false true (KScalar SInt64); t_exemplars; t_u32]).
Definition t_histograms := Field true false (KMsg [t_attrs; t_u64; t_u64; t_u64; t_opt; Field true false (KScalar SUint64); Field true false (KScalar SDouble); t_exemplars; t_u32; t_opt; t_opt]).
Definition t_buckets := Field false false (KMsg [t_i32; Field true false (KScalar SUint64)]).
Definition t_exponentials := Field true false (KMsg [t_attrs; t_u64; t_u64; t_u64; t_opt; t_i32; t_u64; t_buckets; t_buckets; t_u32; t_exemplars; t_opt; t_opt; t_dbl]).
Definition t_summaries := Field true false (KMsg [t_attrs; t_u64; t_u64; t_u64; t_dbl; Field true false (KMsg [t_dbl; t_dbl]); t_u32]).
Definition t_metric := KMsg [t_str; t_str; t_str; Field false true (KMsg [t_numbers]); Field false true (KMsg [t_numbers; t_enum; t_bool]); Field false true (KMsg [t_histograms; t_enum]);
  Field false true (KMsg [t_exponentials; t_enum]); Field false true (KMsg [t_summaries])].
Definition t_log := KMsg [t_u64; t_u64; t_enum; t_str; Field false false KAny; t_attrs; t_u32; t_u32; t_bytes; t_bytes].
Definition t_span := KMsg [t_bytes; t_bytes; t_str; t_bytes; t_u32; t_str; t_enum; t_u64; t_u64; t_attrs; t_u32;
  Field true false (KMsg [t_u64; t_str; t_attrs; t_u32]); t_u32; Field true false (KMsg [t_bytes; t_bytes; t_str; t_attrs; t_u32; t_u32]); t_u32; Field false false (KMsg [t_str; t_enum])].
Definition t_grouped (k : kind) : list field := [Field true false (KMsg [t_resource; Field true false (KMsg [t_scope; Field true false k; t_str]); t_str])].
Example C93_otlp_fits : exists cols, new_schema (data_fields (t_grouped t_metric) (t_grouped t_log) (t_grouped t_span)) = Some cols /\ List.length cols = 3.
Proof. eexists. split; reflexivity. Qed.

(** A history of three saves of one view, with a gap: the payloads are given by the schema URLs of their resources. *)
Definition urls {A} (l : list (resource_group A)) : list (fval string) := [FList (map (fun g => VMsg [FSingle (if String.eqb (rg_schema g) "" then None else Some (VScalar (ScStr (rg_schema g))))]) l)].
Definition t_urls : list field := [Field true false (KMsg [t_str])].
Definition of_url {A} (u : string) : resource_group A := RGroup u None [].
Definition save1 : list sample := [Sample 0 (DMetrics [of_url "a"; of_url ""]); Sample 1 (DTraces [of_url "b"])].
Definition save2 : list sample := [Sample 4 (DLogs [])].
Definition save3 : list sample := [Sample 5 (DMetrics [of_url "c"])].
Example C93_example :
  payloads_fit string (fun _ => True) t_urls t_urls t_urls urls urls urls /\ (exists cols, new_schema (data_fields t_urls t_urls t_urls) = Some cols) /\
  match append_views_columns string Some t_urls t_urls t_urls urls urls urls None [save1; save2; save3] with
  | Some (Some r) => num_rows r = 6 /\ map (read_signal string (fun s => s) t_urls t_urls t_urls RESOURCE_METRICS r) [0; 1; 3; 5] =
      map (fun d => Some (data_message string urls urls urls d)) [DMetrics [of_url "a"; of_url ""]; DNone; DNone; DMetrics [of_url "c"]]
  | _ => False
  end.
Proof.
  split; [|split; [eexists; reflexivity|]].
  - assert (forall A (l : list (resource_group A)), is_message string (fun _ => True) t_urls (urls l)) as H.
    { intros A l. cbn. split; [|exact Logic.I]. apply Forall_forall. intros v Hv. apply in_map_iff in Hv. destruct Hv as (g & <- & _).
      destruct (String.eqb_spec (rg_schema g) ""); [split; exact Logic.I|]. split; [|exact Logic.I]. split; [exact Logic.I|]. intros _. congruence. }
    repeat split; apply H.
  - vm_compute. repeat split.
Qed.
