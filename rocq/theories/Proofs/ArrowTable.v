(** Facts about the columns of a stored view. *)
From Verif.Model Require Import Base Labels View Otlp Transform Dataframe Arrow Table.
From Verif.Spec Require Import Messages.
From Verif.Proofs Require Import BaseFacts ArrowFacts.
Open Scope nat_scope.

Section Facts.
  Variable any : Type.
  Variable marshal : any -> option string.
  Variable unmarshal : string -> any.
  Variable writable : any -> Prop.
  Hypothesis marshal_ok : forall a, writable a -> exists s, marshal a = Some s /\ unmarshal s = a.
  Notation fval := (fval any).
  Notation E := (E any marshal).
  Notation Es := (Es any marshal).
  Notation ecell := (ecell any).
  Notation wfs := (wfs any writable).

  Lemma col_append_struct v cs v' cs' : col_append (ColStruct v cs) (ColStruct v' cs') = ColStruct (v ++ v') (record_append cs cs').
  Proof.
    reflexivity.
  Qed.
  Lemma shift_starts n m (cells : list (option fval)) : map (fun p => (fst p, snd p + n)) (starts_from any m cells) = starts_from any (m + n) cells.
  Proof.
    revert m. induction cells as [|c t IH]; intros m; [reflexivity|]. cbn [starts_from map fst snd]. rewrite IH. do 2 f_equal. lia.
  Qed.
  Lemma append_cell il p k a b : (forall a b, col_append (E k a) (E k b) = E k (a ++ b)) -> col_append (ecell il p k (E k) a) (ecell il p k (E k) b) = ecell il p k (E k) (a ++ b).
  Proof.
    intros H. unfold ArrowFacts.ecell. destruct il.
    - cbn [col_append]. rewrite H, E_len, map_length, shift_starts, starts_app, elems_app, map_app. reflexivity.
    - rewrite H, map_app. reflexivity.
  Qed.
  Lemma append_Es fs a b : Forall (fun f => let '(Field _ _ k) := f in forall a b, col_append (E k a) (E k b) = E k (a ++ b)) fs -> record_append (Es fs a) (Es fs b) = Es fs (a ++ b).
  Proof.
    intros H. revert a b. induction H as [|[il p k] fs Hk _ IH]; intros a b; [reflexivity|]. cbn [ArrowFacts.Es record_append].
    rewrite append_cell by exact Hk. rewrite IH, firsts_app, rests_app. reflexivity.
  Qed.
  Lemma append_E' k : forall a b, col_append (E k a) (E k b) = E k (a ++ b).
  Proof.
    induction k as [sk| | |fs IH] using kind_ind'; intros a b.
    1-3: cbn [ArrowFacts.E col_append]; rewrite map_app; reflexivity.
    rewrite !E_msg, col_append_struct, append_Es by exact IH. rewrite !map_app. reflexivity.
  Qed.
  Lemma append_records fs a b : record_append (Es fs a) (Es fs b) = Es fs (a ++ b).
  Proof. apply append_Es. apply Forall_forall. intros [il p k] _. apply append_E'. Qed.

  Lemma num_rows_Es fs rows : fs <> [] -> num_rows (Es fs rows) = List.length rows.
  Proof. destruct fs as [|[il p k] fs]; [congruence|]. intros _. cbn [ArrowFacts.Es num_rows]. rewrite ecell_len. apply map_length. Qed.

  Lemma append_messages_Es fs cols old ms : new_schema fs = Some cols -> Forall (wfs fs) ms ->
    append_messages any marshal fs (option_map (fun rows => Es fs (map Some rows)) old) ms =
    Some (Es fs (map Some (match old with None => ms | Some rows => rows ++ ms end))).
  Proof.
    intros N W. unfold append_messages. rewrite N. unfold new_schema in N. destruct (forallb _ fs); [|discriminate]. apply some_inj in N. subst cols.
    rewrite (build_record any marshal unmarshal writable marshal_ok fs ms W), record_ok. destruct old as [rows|]; cbn [option_map write_records fold_left]; [|reflexivity].
    rewrite append_records, map_app. reflexivity.
  Qed.
  Lemma append_batches_Es fs cols batches : new_schema fs = Some cols -> Forall (Forall (wfs fs)) batches -> forall old,
    append_batches any marshal fs (Some (Es fs (map Some old))) batches = Some (Some (Es fs (map Some (old ++ List.concat batches)))).
  Proof.
    intros N W. induction W as [|b t Wb _ IH]; intros old; cbn [append_batches List.concat].
    - rewrite app_nil_r. reflexivity.
    - pose proof (append_messages_Es fs cols (Some old) b N Wb) as A. cbn [option_map] in A. rewrite A. rewrite IH, app_assoc. reflexivity.
  Qed.

  (** The chosen fields of a message. *)
  Fixpoint mask (fs : list field) (chosen : list bool) (m : list fval) : list fval :=
    match fs, chosen, m with
    | f :: fs, b :: chosen, v :: m => (if b then v else unset any f) :: mask fs chosen m
    | _, _, _ => []
    end.
  Lemma read_chosen_Es fs chosen rows row l : List.length chosen = List.length fs -> nth_error rows row = Some (Some l) -> wfs fs l ->
    read_chosen any unmarshal fs chosen (Es fs rows) row = Some (mask fs chosen l).
  Proof.
    intros L H W. revert chosen rows l L H W. induction fs as [|[il p k] fs IH]; intros [|b chosen] rows [|fv l] L H W; try discriminate; try (destruct W; fail); [reflexivity|].
    destruct W as [W1 W2]. cbn [ArrowFacts.Es read_chosen mask].
    rewrite (IH chosen (rests any rows) l); [|apply eq_add_S, L|apply (map_nth_err (option_map (@tl _)) _ _ _ H)|exact W2].
    rewrite (read_cell_good any marshal unmarshal writable marshal_ok il p k (firsts any rows) row fv (read_E any marshal unmarshal writable marshal_ok k)) by (try assumption; apply (map_nth_err (option_map (hd (FSingle None))) _ _ _ H)).
    destruct b; reflexivity.
  Qed.
End Facts.

(** ------ the leaf columns of a signal *)
Lemma has_prefix_own p r : has_prefix (append p r) p = true.
Proof. induction p as [|c p IH]; [destruct r; reflexivity|]. cbn [append has_prefix]. rewrite IH. assert (Ascii.eqb c c = true) as -> by apply Ascii.eqb_refl. reflexivity. Qed.
