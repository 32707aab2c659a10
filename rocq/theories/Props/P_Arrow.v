(** C61: columns give back the messages that were appended (internal/arrow3). *)
From Verif.Model Require Import Base Arrow.
From Verif.Spec Require Import Messages.
From Verif.Proofs Require Import BaseFacts ArrowFacts.
Open Scope nat_scope.

(** Appending messages of a type the package accepts, and making the record, never fails; the record has
    one row per message, and row i read back is message i.  [any], [marshal], [unmarshal] are AnyValue and
    protobuf's own encoding of it, which must give back what it was given. *)
Theorem C61_round_trip : forall any (marshal : any -> option string) (unmarshal : string -> any) (writable : any -> Prop) fs cols ms,
  (forall a, writable a -> exists s, marshal a = Some s /\ unmarshal s = a) ->
  new_schema fs = Some cols -> Forall (is_message any writable fs) ms ->
  exists record, new_record (fold_left (fun cs m => write_message any marshal fs m cs) ms cols) = Some record /\
    List.length record = List.length fs /\ (forall c, In c record -> col_len c = List.length ms) /\
    forall i m, nth_error ms i = Some m -> read_message any unmarshal fs record i = Some m.
Proof.
  intros any marshal unmarshal writable fs cols ms L N W. unfold new_schema in N. destruct (forallb _ fs); [|discriminate]. apply some_inj in N. subst cols.
  assert (W' : Forall (wfs any writable fs) ms). { eapply Forall_impl; [|exact W]. intros m. apply wf_msg. }
  rewrite (build_record any marshal unmarshal writable L fs ms W'). exists (Es any marshal fs (map Some ms)). split; [apply record_ok|].
  split; [clear; generalize (map (@Some (list (fval any))) ms); induction fs as [|[il p k] fs IH]; intros rows; [reflexivity|]; cbn [Es List.length]; f_equal; apply IH|].
  split; [intros c Hc; apply Es_len in Hc; destruct Hc as [-> _]; apply map_length|].
  intros i m H. apply (read_message_good any marshal unmarshal writable); [exact L|apply (all_good_read any marshal unmarshal writable L)|apply map_nth_error, H|].
  rewrite Forall_forall in W'. apply W'. eapply nth_error_In, H.
Qed.
Print Assumptions C61_round_trip.

(** Distinct messages are stored as distinct rows (nothing is lost on the way in). *)
Theorem C61_nothing_lost : forall any marshal unmarshal (writable : any -> Prop) fs cols ms ms',
  (forall a, writable a -> exists s, marshal a = Some s /\ unmarshal s = a) ->
  new_schema fs = Some cols -> Forall (is_message any writable fs) ms -> Forall (is_message any writable fs) ms' -> List.length ms = List.length ms' ->
  fold_left (fun cs m => write_message any marshal fs m cs) ms cols = fold_left (fun cs m => write_message any marshal fs m cs) ms' cols -> ms = ms'.
Proof.
  intros any marshal unmarshal writable fs cols ms ms' L N W W' Len E.
  destruct (C61_round_trip any marshal unmarshal writable fs cols ms L N W) as (r & R & _ & _ & A). destruct (C61_round_trip any marshal unmarshal writable fs cols ms' L N W') as (r' & R' & _ & _ & A').
  rewrite E, R' in R. apply some_inj in R. subst r'. clear - A A' Len.
  assert (G : forall i, nth_error ms i = nth_error ms' i).
  { intros i. destruct (nth_error ms i) as [m|] eqn:E1; destruct (nth_error ms' i) as [m'|] eqn:E2; try reflexivity.
    - rewrite <- (A i m E1), <- (A' i m' E2). reflexivity.
    - apply nth_error_None in E2. assert (nth_error ms i <> None) as X by congruence. apply nth_error_Some in X. lia.
    - apply nth_error_None in E1. assert (nth_error ms' i <> None) as X by congruence. apply nth_error_Some in X. lia. }
  clear A A'. revert ms' Len G. induction ms as [|m ms IH]; intros [|m' ms'] Len G; try discriminate; [reflexivity|]. f_equal.
  - specialize (G 0). apply some_inj in G. exact G.
  - apply IH; [apply eq_add_S, Len|]. intros i. apply (G (S i)).
Qed.
Print Assumptions C61_nothing_lost.

(** A message type like a metric: name, a repeated number, and a oneof of a gauge (points with attributes,
    a time and a oneof value) and a sum (with a flag and an enum). *)
Definition key_value_t : kind := KMsg [Field false false (KScalar SString); Field false false KAny].
Definition point_t : kind := KMsg [Field true false key_value_t; Field false false (KScalar SUint64); Field false true (KScalar SDouble); Field false true (KScalar SInt64); Field false false KBytes].
Definition metric_fields : list field :=
  [Field false false (KScalar SString); Field true false (KScalar SUint64);
   Field false true (KMsg [Field true false point_t]); Field false true (KMsg [Field true false point_t; Field false false (KScalar SBool); Field false false (KScalar SEnum)])].

(** An attribute whose value cannot be marshalled (a string that is not UTF-8) makes the record
    impossible to build: the error is dropped by Schema.Append, the columns are left with different
    lengths, and NewRecord panics, whatever was or will be appended to the same batch is lost. *)
Theorem C61_marshal_failure_refuted : forall any (marshal : any -> option string) (bad : any), marshal bad = None ->
  exists fs cols m, new_schema fs = Some cols /\ is_message any (fun _ => True) fs m /\
    new_record (write_message any marshal fs m cols) = None.
Proof.
  intros any marshal bad B. exists [Field true false key_value_t]. eexists. exists [FList [VMsg [FSingle (Some (VScalar (ScStr "k"))); FSingle (Some (VAny bad))]]]. split; [reflexivity|]. split.
  - cbn. split; [|exact Logic.I]. constructor; [|constructor]. split; [split; [exact Logic.I|intros _; discriminate]|]. split; [|exact Logic.I]. split; [exact Logic.I|intros _; exact Logic.I].
  - cbn. rewrite B. reflexivity.
Qed.
(** The same in a list of such values: what comes after the list in its message is not written either. *)
Theorem C61_list_failure_refuted : forall any (marshal : any -> option string) (bad : any), marshal bad = None ->
  exists fs cols m, new_schema fs = Some cols /\ is_message any (fun _ => True) fs m /\
    map (fun c => match c with ColList _ (ColStruct v cs) => (List.length v, map col_len cs) | _ => (0%nat, []) end) (write_message any marshal fs m cols) = [(1%nat, [1; 0]%nat)] /\
    new_record (write_message any marshal fs m cols) = None.
Proof.
  intros any marshal bad B. exists [Field true false (KMsg [Field true false KAny; Field false false (KScalar SString)])]. eexists.
  exists [FList [VMsg [FList [VAny bad; VAny bad]; FSingle (Some (VScalar (ScStr "after")))]]]. split; [reflexivity|]. split.
  - cbn. split; [|exact Logic.I]. constructor; [|constructor]. split; [repeat constructor|]. split; [|exact Logic.I]. split; [exact Logic.I|intros _; discriminate].
  - split; cbn; rewrite B; reflexivity.
Qed.
Print Assumptions C61_marshal_failure_refuted.

Definition toy_marshal (s : string) : option string := Some s.
Definition msg_a : list (fval string) :=
  [FSingle (Some (VScalar (ScStr "up"))); FList [VScalar (ScNum 7); VScalar (ScNum 0)];
   FSingle (Some (VMsg [FList
      [VMsg [FList [VMsg [FSingle (Some (VScalar (ScStr "k"))); FSingle (Some (VAny "v"))]; VMsg [FSingle None; FSingle None]];
             FSingle (Some (VScalar (ScNum 12))); FSingle None; FSingle (Some (VScalar (ScNum 0))); FSingle None];
       VMsg [FList []; FSingle None; FSingle (Some (VScalar (ScNum 3))); FSingle None; FSingle (Some (VBytes "id"))]]]));
   FSingle None].
Definition msg_b : list (fval string) :=
  [FSingle None; FList []; FSingle None; FSingle (Some (VMsg [FList []; FSingle (Some (VScalar (ScNum 1))); FSingle (Some (VScalar (ScNum (-1))))]))].
Example C61_example :
  (exists cols, new_schema metric_fields = Some cols) /\ Forall (is_message string (fun _ => True) metric_fields) [msg_a; msg_b; msg_a] /\
  (forall a : string, True -> exists s, toy_marshal a = Some s /\ s = a) /\
  match new_schema metric_fields with
  | Some cols => match new_record (fold_left (fun cs m => write_message string toy_marshal metric_fields m cs) [msg_a; msg_b; msg_a] cols) with
                 | Some r => map (read_message string (fun s => s) metric_fields r) [0; 1; 2] = [Some msg_a; Some msg_b; Some msg_a]
                 | None => False
                 end
  | None => False
  end.
Proof.
  split; [eexists; reflexivity|]. split.
  { assert (A : is_message string (fun _ => True) metric_fields msg_a).
    { cbn. repeat first [progress cbn|apply conj|apply Forall_cons|apply Forall_nil|exact Logic.I|lia|intros ?; discriminate|intros _]. }
    apply Forall_cons; [exact A|]. apply Forall_cons; [|apply Forall_cons; [exact A|apply Forall_nil]].
    cbn. repeat first [progress cbn|apply conj|apply Forall_cons|apply Forall_nil|exact Logic.I|lia|right; reflexivity|intros ?; discriminate|intros _]. }
  split; [intros a _; exists a; split; reflexivity|]. vm_compute. reflexivity.
Qed.
(** A type is refused exactly when one of its fields has something ten messages below it; otherwise it gets
    one column per field. *)
Lemma fits_nested : forall n k, fits k n = false <-> nested k n.
Proof.
  induction n as [|n IH]; intros k; [split; [intros _; apply nested_here|intros _; destruct k; reflexivity]|]. destruct k as [s| | |fs].
  1-3: (split; [discriminate|intros H; inversion H]).
  cbn [fits]. split.
  - induction fs as [|[l p k] fs IHf]; [discriminate|]. intros H. apply andb_false_iff in H. destruct H as [H|H].
    + apply (nested_below l p k); [left; reflexivity|]. apply IH, H.
    + specialize (IHf H). inversion IHf as [|l' p' k' fs' n' I N]. subst. apply (nested_below l' p' k'); [right; exact I|exact N].
  - intros H. inversion H as [|l p k fs' n' I N]. subst. clear H. induction fs as [|[l' p' k'] fs IHf]; [destruct I|]. apply andb_false_iff. destruct I as [E|I]; [|right; apply IHf, I].
    left. apply IH. injection E as _ _ ->. exact N.
Qed.
Theorem C61_refused_when_too_deep : forall fs,
  (new_schema fs = None <-> exists l p k, In (Field l p k) fs /\ nested k 10) /\ (forall cols, new_schema fs = Some cols -> List.length cols = List.length fs).
Proof.
  intros fs. unfold new_schema. split.
  - destruct (forallb _ fs) eqn:E.
    + split; [discriminate|]. intros (l & p & k & I & N). rewrite forallb_forall in E. specialize (E _ I). cbn beta iota in E. apply fits_nested in N. change 10 with max_depth in N. congruence.
    + split; [intros _|reflexivity]. induction fs as [|[l p k] fs IH]; [discriminate|]. cbn [forallb] in E. apply andb_false_iff in E. destruct E as [E|E].
      * exists l, p, k. split; [left; reflexivity|]. apply fits_nested, E.
      * destruct (IH E) as (l' & p' & k' & I & N). exists l', p', k'. split; [right; exact I|exact N].
  - destruct (forallb _ fs); [|discriminate]. intros cols E. apply some_inj in E. subst cols. apply map_length.
Qed.
Print Assumptions C61_refused_when_too_deep.
(** A type nested too deep is refused, not truncated. *)
Fixpoint deep (n : nat) : kind := match n with O => KScalar SBool | S n => KMsg [Field false false (deep n)] end.
Example C61_depth : new_schema [Field false false (deep 9)] <> None /\ new_schema [Field false false (deep 10)] = None.
Proof. split; [discriminate|reflexivity]. Qed.
