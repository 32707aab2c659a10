From Verif.Model Require Import Base Arrow.
From Verif.Spec Require Import Messages.
From Verif.Proofs Require Import BaseFacts.
Open Scope nat_scope.

Section KindInd.
  Variable P : kind -> Prop.
  Hypothesis HS : forall sk, P (KScalar sk).
  Hypothesis HB : P KBytes.
  Hypothesis HA : P KAny.
  Hypothesis HM : forall fs, Forall (fun f => let '(Field _ _ k) := f in P k) fs -> P (KMsg fs).
  Fixpoint kind_ind' (k : kind) : P k :=
    match k with
    | KScalar sk => HS sk | KBytes => HB | KAny => HA
    | KMsg fs => HM fs ((fix go fs : Forall (fun f => let '(Field _ _ k) := f in P k) fs :=
        match fs with [] => Forall_nil _ | Field l p k :: t => Forall_cons (Field l p k) (kind_ind' k) (go t) end) fs)
    end.
End KindInd.

Section Facts.
  Variable any : Type.
  Variable marshal : any -> option string.
  Variable unmarshal : string -> any.
  Variable writable : any -> Prop.
  Hypothesis marshal_ok : forall a, writable a -> exists s, marshal a = Some s /\ unmarshal s = a.
  Notation value := (value any).
  Notation fval := (fval any).
  Notation append_value := (append_value any marshal).
  Notation read_value := (read_value any unmarshal).
  Notation write_cell := (write_cell any).
  Notation read_cell := (read_cell any).
  Notation wf := (is_value any writable).

  (* the columns that hold a list of cells; None: the parent is null *)
  Definition fl (c : option fval) : list value := match c with Some (FList l) => l | _ => [] end.
  Definition elems (cells : list (option fval)) : list value := flat_map fl cells.
  Definition nonnil {A} (l : list A) : bool := match l with [] => false | _ => true end.
  Fixpoint starts_from (n : nat) (cells : list (option fval)) : list (bool * nat) :=
    match cells with [] => [] | c :: t => (nonnil (fl c), n) :: starts_from (n + List.length (fl c)) t end.
  Definition cell (presence : bool) (k : kind) (c : option fval) : option value :=
    match c with
    | Some (FSingle (Some v)) => Some v
    | Some (FSingle None) => match k with KScalar sk => if presence then None else Some (VScalar (default_scalar sk)) | _ => None end
    | _ => None
    end.
  Definition ecell (il p : bool) (k : kind) (ev : list (option value) -> col) (cells : list (option fval)) : col :=
    if il then ColList (starts_from 0 cells) (ev (map Some (elems cells))) else ev (map (cell p k) cells).
  Definition msg_of (c : option value) : option (list fval) := match c with Some (VMsg l) => Some l | _ => None end.
  Definition present {A} (c : option A) : bool := match c with Some _ => true | None => false end.
  Definition firsts (rows : list (option (list fval))) : list (option fval) := map (option_map (hd (FSingle None))) rows.
  Definition rests (rows : list (option (list fval))) : list (option (list fval)) := map (option_map (@tl _)) rows.
  Fixpoint E (k : kind) (cells : list (option value)) : col :=
    match k with
    | KScalar sk => ColScalar (map (fun c => match c with Some (VScalar s) => Some (conv sk s) | _ => None end) cells)
    | KBytes => ColBytes (map (fun c => match c with Some (VBytes b) => Some b | _ => None end) cells)
    | KAny => ColBytes (map (fun c => match c with Some (VAny a) => marshal a | _ => None end) cells)
    | KMsg fs => ColStruct (map (fun c => present c) cells)
        ((fix go (fs : list field) (rows : list (option (list fval))) {struct fs} : list col :=
            match fs with [] => [] | Field il p k :: t => ecell il p k (E k) (firsts rows) :: go t (rests rows) end) fs (map msg_of cells))
    end.
  Fixpoint Es (fs : list field) (rows : list (option (list fval))) : list col :=
    match fs with [] => [] | Field il p k :: t => ecell il p k (E k) (firsts rows) :: Es t (rests rows) end.
  Lemma E_msg fs cells : E (KMsg fs) cells = ColStruct (map (fun c => present c) cells) (Es fs (map msg_of cells)).
  Proof. reflexivity. Qed.
  Fixpoint wfs (fs : list field) (l : list fval) : Prop :=
    match fs, l with [], [] => True | Field il p k :: fs, fv :: l => is_field any il p k (wf k) fv /\ wfs fs l | _, _ => False end.
  Lemma wf_msg fs l : wf (KMsg fs) (VMsg l) <-> wfs fs l.
  Proof. cbn [is_value]. revert l. induction fs as [|[il p k] fs IH]; intros [|fv l]; try tauto. cbn [wfs]. rewrite <- IH. tauto. Qed.
  Fixpoint write_fields (fs : list field) (l : list fval) (cs : list col) : list col * bool :=
    match fs, l, cs with
    | Field is_list presence k :: fs, fv :: l, c :: cs =>
        let '(c', ok) := write_cell is_list presence k (append_value k) fv c in
        if ok then let '(cs', ok') := write_fields fs l cs in (c' :: cs', ok') else (c' :: cs, false)
    | _, _, _ => (cs, true)
    end.
  Lemma append_msg fs l valid cs : append_value (KMsg fs) (VMsg l) (ColStruct valid cs) = let '(cs', ok) := write_fields fs l cs in (ColStruct (valid ++ [true]) cs', ok).
  Proof.
    cbn [Arrow.append_value]. set (g := fix go (fs : list field) (l : list fval) (cs : list col) {struct fs} : list col * bool := _).
    assert (H : g fs l cs = write_fields fs l cs); [|rewrite H; reflexivity]. revert l cs. induction fs as [|[il p k] fs IH]; intros [|fv l] [|c cs]; reflexivity.
  Qed.
  Lemma read_msg fs valid cs row : read_value (KMsg fs) (ColStruct valid cs) row = option_map VMsg (read_message any unmarshal fs cs row).
  Proof.
    cbn [Arrow.read_value]. set (g := fix go (fs : list field) (cs : list col) {struct fs} : option (list fval) := _).
    assert (H : g fs cs = read_message any unmarshal fs cs row); [|rewrite H; destruct (read_message any unmarshal fs cs row); reflexivity].
    revert cs. induction fs as [|[il p k] fs IH]; intros [|c cs]; try reflexivity. cbn [read_message]. rewrite <- IH. reflexivity.
  Qed.

  (* ---------- lengths *)
  Lemma starts_len n cells : List.length (starts_from n cells) = List.length cells.
  Proof. revert n. induction cells; intros n; cbn; [reflexivity|]. f_equal. auto. Qed.
  Lemma E_len k cells : col_len (E k cells) = List.length cells.
  Proof. destruct k; [| | |rewrite E_msg]; cbn [E col_len]; apply map_length. Qed.
  Lemma ecell_len il p k cells : col_len (ecell il p k (E k) cells) = List.length cells.
  Proof. unfold ecell. destruct il; [apply starts_len|]. rewrite E_len. apply map_length. Qed.
  Lemma starts_app n a b : starts_from n (a ++ b) = starts_from n a ++ starts_from (n + List.length (elems a)) b.
  Proof.
    revert n. induction a as [|c a IH]; intros n; [cbn; f_equal; lia|]. cbn [app starts_from]. rewrite IH. cbn [elems flat_map]. rewrite app_length. cbn [app]. do 3 f_equal. unfold elems. lia.
  Qed.
  Lemma elems_app a b : elems (a ++ b) = elems a ++ elems b. Proof. apply flat_map_app. Qed.
  Lemma firsts_app a b : firsts (a ++ b) = firsts a ++ firsts b. Proof. apply map_app. Qed.
  Lemma rests_app a b : rests (a ++ b) = rests a ++ rests b. Proof. apply map_app. Qed.

  (* ---------- appending a null *)
  Lemma null_cell il p k cells : (forall cells, append_null (E k cells) = E k (cells ++ [None])) -> append_null (ecell il p k (E k) cells) = ecell il p k (E k) (cells ++ [None]).
  Proof.
    intros H. unfold ecell. destruct il.
    - cbn [append_null]. rewrite starts_app, elems_app, E_len, map_length. cbn [elems flat_map fl starts_from nonnil app]. rewrite app_nil_r. reflexivity.
    - rewrite H, map_app. reflexivity.
  Qed.
  Lemma null_E k : forall cells, append_null (E k cells) = E k (cells ++ [None]).
  Proof.
    induction k as [sk| | |fs IH] using kind_ind'; intros cells; try (cbn [E append_null]; rewrite map_app; reflexivity).
    rewrite !E_msg. cbn [append_null]. rewrite !map_app. f_equal. cbn [map msg_of]. generalize (map msg_of cells). clear cells.
    induction IH as [|[il p k] fs Hk _ IHfs]; intros rows; [reflexivity|]. cbn [Es map]. rewrite firsts_app, rests_app, <- IHfs. f_equal. apply null_cell, Hk.
  Qed.

  (* ---------- appending a value *)
  Lemma conv_id sk s : in_range sk s -> conv sk s = s.
  Proof.
    assert (W : forall z, (- 2 ^ 31 <= z < 2 ^ 31)%Z -> wrap_s 32 z = z).
    { intros z H. unfold wrap_s. change (2 ^ (32 - 1))%Z with 2147483648%Z. change (2 ^ 32)%Z with 4294967296%Z. change (2 ^ 31)%Z with 2147483648%Z in H.
      destruct (Z.le_gt_cases 0 z) as [P|P].
      - rewrite Z.mod_small by lia. destruct (Z.ltb_spec z 2147483648); lia.
      - assert (M : (z mod 4294967296 = z + 4294967296)%Z). { symmetry. apply (Zmod_unique _ _ (-1)); lia. } rewrite M. destruct (Z.ltb_spec (z + 4294967296) 2147483648); lia. }
    destruct sk, s; cbn [in_range conv]; try tauto; intros H; f_equal; try (apply W; exact H). apply Z.mod_small. exact H.
  Qed.
  Definition good_append (k : kind) : Prop := forall v cells, wf k v -> append_value k v (E k cells) = (E k (cells ++ [Some v]), true).
  Lemma append_all_E k l : good_append k -> Forall (wf k) l -> forall cells, append_all any (append_value k) l (E k cells) = (E k (cells ++ map Some l), true).
  Proof.
    intros G. induction 1 as [|v l Hv _ IH]; intros cells; [cbn [append_all map]; rewrite app_nil_r; reflexivity|]. cbn [append_all map]. rewrite (G v cells Hv), IH, <- app_assoc. reflexivity.
  Qed.
  Lemma cell_good il p k fv cells : good_append k -> is_field any il p k (wf k) fv ->
    write_cell il p k (append_value k) fv (ecell il p k (E k) cells) = (ecell il p k (E k) (cells ++ [Some fv]), true).
  Proof.
    intros G W. unfold Arrow.write_cell, is_field in *. destruct il; destruct fv as [o|l]; try (destruct W; fail).
    - destruct l as [|x xs].
      + unfold ecell. cbn [append_null]. rewrite starts_app, elems_app, E_len, map_length. cbn [elems flat_map fl starts_from nonnil app]. rewrite app_nil_r. reflexivity.
      + unfold ecell. rewrite append_all_E by assumption. rewrite starts_app, elems_app, E_len, map_length. cbn [elems flat_map fl starts_from nonnil]. rewrite app_nil_r, map_app. reflexivity.
    - unfold ecell. rewrite map_app. cbn [map cell]. destruct o as [v|].
      + apply G, W.
      + destruct k as [sk| | |fs]; try (rewrite null_E; reflexivity). destruct p; [rewrite null_E; reflexivity|]. cbn [E push_scalar]. rewrite map_app. reflexivity.
  Qed.
  Lemma write_fields_good fs l rows : Forall (fun f => let '(Field _ _ k) := f in good_append k) fs -> wfs fs l ->
    write_fields fs l (Es fs rows) = (Es fs (rows ++ [Some l]), true).
  Proof.
    intros G. revert l rows. induction G as [|[il p k] fs Hk _ IH]; intros [|fv l] rows W; try (destruct W; fail); [reflexivity|]. destruct W as [W1 W2].
    cbn [write_fields Es]. rewrite (cell_good il p k fv (firsts rows) Hk W1). cbn iota. rewrite (IH l (rests rows) W2). rewrite firsts_app, rests_app. reflexivity.
  Qed.
  Lemma append_E k : good_append k.
  Proof.
    induction k as [sk| | |fs IH] using kind_ind'; intros v cells W; destruct v; try (destruct W; fail).
    - cbn [Arrow.append_value E push_scalar]. rewrite map_app. reflexivity.
    - cbn [Arrow.append_value E push_bytes]. rewrite map_app. reflexivity.
    - cbn [Arrow.append_value E]. cbn [is_value] in W. destruct (marshal_ok a W) as (s & Ms & _). rewrite Ms. cbn [push_bytes]. rewrite map_app. cbn [map]. rewrite Ms. reflexivity.
    - rewrite !E_msg, append_msg. apply wf_msg in W. rewrite write_fields_good by assumption. rewrite !map_app. reflexivity.
  Qed.

  (* ---------- the arrays can be made *)
  Lemma array_cell il p k cells : (forall cells, array_ok (E k cells) = true) -> array_ok (ecell il p k (E k) cells) = true.
  Proof. intros H. unfold ecell. destruct il; [cbn [array_ok]|]; apply H. Qed.
  Lemma array_E k : forall cells, array_ok (E k cells) = true.
  Proof.
    induction k as [sk| | |fs IH] using kind_ind'; intros cells; try reflexivity. rewrite E_msg. cbn [array_ok]. rewrite map_length.
    assert (L : List.length cells = List.length (map msg_of cells)) by (rewrite map_length; reflexivity). rewrite L. generalize (map msg_of cells). clear L cells.
    induction IH as [|[il p k] fs Hk _ IHfs]; intros rows; [reflexivity|]. cbn [Es forallb]. rewrite ecell_len. unfold firsts. rewrite map_length, Nat.leb_refl, array_cell by exact Hk. cbn [andb].
    specialize (IHfs (rests rows)). unfold rests in IHfs. rewrite map_length in IHfs. exact IHfs.
  Qed.

  (* ---------- reading *)
  Definition good_read (k : kind) : Prop := forall v cells row, wf k v -> nth_error cells row = Some (Some v) -> read_value k (E k cells) row = Some v.
  Lemma nth_of {A} (l : list A) n x d : nth_error l n = Some x -> nth n l d = x.
  Proof. intros H. apply nth_error_nth with (d := d) in H. exact H. Qed.
  Lemma map_nth_err {A B} (f : A -> B) l n x : nth_error l n = Some x -> nth_error (map f l) n = Some (f x).
  Proof. intros H. apply map_nth_error, H. Qed.
  Lemma starts_nth n cells row c : nth_error cells row = Some c ->
    nth_error (starts_from n cells) row = Some (nonnil (fl c), n + List.length (elems (firstn row cells))).
  Proof.
    revert n row. induction cells as [|c0 cells IH]; intros n [|row] H; try discriminate.
    - apply some_inj in H. subst. cbn. f_equal. f_equal. lia.
    - cbn [nth_error starts_from firstn elems flat_map]. rewrite (IH _ _ H), app_length. do 2 f_equal. unfold elems. lia.
  Qed.
  Lemma firstn_S_nth {A} (l : list A) n x : nth_error l n = Some x -> firstn (S n) l = firstn n l ++ [x].
  Proof. revert n. induction l as [|a l IH]; intros [|n] H; try discriminate; [apply some_inj in H; subst; reflexivity|]. cbn [firstn app]. f_equal. apply IH, H. Qed.
  Lemma starts_next n cells row c d : nth_error cells row = Some c -> d = n + List.length (elems cells) ->
    snd (nth (S row) (starts_from n cells) (false, d)) = n + List.length (elems (firstn row cells)) + List.length (fl c).
  Proof.
    intros H ->. assert (X : List.length (elems (firstn (S row) cells)) = List.length (elems (firstn row cells)) + List.length (fl c)).
    { rewrite (firstn_S_nth _ _ _ H), elems_app, app_length. cbn [elems flat_map]. rewrite app_nil_r. reflexivity. }
    destruct (nth_error cells (S row)) as [c'|] eqn:E'.
    - apply starts_nth with (n := n) in E'. rewrite (nth_of _ _ _ _ E'). cbn [snd]. lia.
    - rewrite nth_overflow; [cbn [snd]|rewrite starts_len; apply nth_error_None, E']. apply nth_error_None in E'. rewrite firstn_all2 in X by exact E'. lia.
  Qed.
  Lemma map_opt_cons {A B} (f : A -> option B) x t : map_opt f (x :: t) = match f x, map_opt f t with Some y, Some ys => Some (y :: ys) | _, _ => None end.
  Proof. reflexivity. Qed.
  Lemma map_opt_read k (l pre post : list value) : good_read k -> Forall (wf k) l ->
    map_opt (read_value k (E k (map Some (pre ++ l ++ post)))) (seq (List.length pre) (List.length l)) = Some l.
  Proof.
    intros G W. revert pre. induction W as [|v l Hv _ IH]; intros pre; [reflexivity|]. cbn [List.length seq]. rewrite map_opt_cons.
    rewrite (G v) by (try assumption; apply map_nth_err; rewrite nth_error_app2, Nat.sub_diag by lia; reflexivity).
    specialize (IH (pre ++ [v])). rewrite app_length in IH. cbn [List.length] in IH. replace (List.length pre + 1) with (S (List.length pre)) in IH by lia.
    rewrite <- app_assoc in IH. cbn [app] in IH |- *. rewrite IH. reflexivity.
  Qed.
  Lemma elems_split cells row c : nth_error cells row = Some c -> elems cells = elems (firstn row cells) ++ fl c ++ elems (skipn (S row) cells).
  Proof.
    revert row. induction cells as [|c0 cells IH]; intros [|row] H; try discriminate; [apply some_inj in H; subst; reflexivity|].
    cbn [firstn skipn elems flat_map]. rewrite <- app_assoc. f_equal. apply IH, H.
  Qed.
  Lemma null_at k cells row c : nth_error cells row = Some c -> (forall v, c = Some v -> wf k v) -> is_null (E k cells) row = negb (present c).
  Proof.
    intros H W. destruct k; [| | |rewrite E_msg]; cbn [E is_null].
    - rewrite (nth_of _ _ _ None (map_nth_err _ _ _ _ H)). destruct c as [v|]; [|reflexivity]. specialize (W v eq_refl). destruct v; try (destruct W; fail). reflexivity.
    - rewrite (nth_of _ _ _ None (map_nth_err _ _ _ _ H)). destruct c as [v|]; [|reflexivity]. specialize (W v eq_refl). destruct v; try (destruct W; fail). reflexivity.
    - rewrite (nth_of _ _ _ None (map_nth_err _ _ _ _ H)). destruct c as [v|]; [|reflexivity]. specialize (W v eq_refl). destruct v; try (destruct W; fail). cbn [is_value] in W. destruct (marshal_ok a W) as (s & -> & _). reflexivity.
    - rewrite (nth_of _ _ _ false (map_nth_err _ _ _ _ H)). reflexivity.
  Qed.
  Lemma default_in_range sk : in_range sk (default_scalar sk). Proof. destruct sk; cbn; try lia; auto. Qed.
  Lemma scalar_eqb_eq a b : scalar_eqb a b = true <-> a = b.
  Proof.
    destruct a, b; cbn [scalar_eqb]; try (split; discriminate).
    - rewrite Z.eqb_eq. split; [congruence|intros H; injection H; auto].
    - rewrite String.eqb_eq. split; [congruence|intros H; injection H; auto].
  Qed.
  Lemma set_single_id (p : bool) k v : wf k v -> (p = false -> not_default any k v) -> set_single any p k v = FSingle (Some v).
  Proof.
    intros W N. unfold set_single. destruct p; [reflexivity|]. specialize (N eq_refl). destruct k as [sk| | |fs]; destruct v; try (destruct W; fail); try reflexivity.
    - assert (D : s <> default_scalar sk) by (destruct sk; exact N). destruct (scalar_eqb s (default_scalar sk)) eqn:Eq; [apply scalar_eqb_eq in Eq; congruence|reflexivity].
    - cbn [not_default] in N. destruct (String.eqb_spec b ""); [congruence|reflexivity].
  Qed.
  Lemma read_cell_good il p k cells row fv : good_read k -> nth_error cells row = Some (Some fv) -> is_field any il p k (wf k) fv ->
    read_cell il p k (read_value k) (ecell il p k (E k) cells) row = Some fv.
  Proof.
    intros G H W. unfold Arrow.read_cell, ecell, is_field in *. destruct il; destruct fv as [o|l]; try (destruct W; fail).
    - cbn [is_null]. pose proof (starts_nth 0 _ _ _ H) as S1. rewrite (nth_of _ _ _ (false, 0) S1). cbn [fst fl]. destruct l as [|x xs]; [reflexivity|]. cbn [nonnil negb]. unfold offsets. rewrite (nth_of _ _ _ (false, 0) S1). cbn [snd].
      rewrite (starts_next 0 cells row _ _ H) by (rewrite E_len, map_length; reflexivity). cbn [fl].
      replace (0 + List.length (elems (firstn row cells)) + List.length (x :: xs) - (0 + List.length (elems (firstn row cells)))) with (List.length (x :: xs)) by lia.
      rewrite (elems_split _ _ _ H). cbn [fl]. rewrite Nat.add_0_l. rewrite (map_opt_read k (x :: xs)) by assumption. reflexivity.
    - pose proof (map_nth_err (cell p k) _ _ _ H) as H'. destruct o as [v|].
      + destruct W as [W N]. rewrite (null_at k _ _ _ H') by (cbn [cell]; intros v' Ev; apply some_inj in Ev; subst; exact W). cbn [cell present negb]. rewrite (G v _ _ W H'). f_equal. apply set_single_id; assumption.
      + cbn [cell] in H'. destruct k as [sk| | |fs]; try (rewrite (null_at _ _ _ _ H') by discriminate; reflexivity).
        destruct p; [rewrite (null_at _ _ _ _ H') by discriminate; reflexivity|].
        rewrite (null_at _ _ _ _ H') by (intros v' Ev; apply some_inj in Ev; subst; apply default_in_range). cbn [present negb].
        rewrite (G (VScalar (default_scalar sk)) _ _ (default_in_range sk) H'). unfold set_single. assert (Q : scalar_eqb (default_scalar sk) (default_scalar sk) = true) by (apply scalar_eqb_eq; reflexivity). rewrite Q. reflexivity.
  Qed.
  Lemma read_message_good fs rows row l : Forall (fun f => let '(Field _ _ k) := f in good_read k) fs -> nth_error rows row = Some (Some l) -> wfs fs l ->
    read_message any unmarshal fs (Es fs rows) row = Some l.
  Proof.
    intros G. revert l rows. induction G as [|[il p k] fs Hk _ IH]; intros [|fv l] rows H W; try (destruct W; fail); [reflexivity|]. destruct W as [W1 W2]. cbn [Es read_message].
    rewrite (read_cell_good il p k (firsts rows) row fv Hk) by (try assumption; apply (map_nth_err (option_map (hd (FSingle None))) _ _ _ H)).
    rewrite (IH l (rests rows)) by (try assumption; apply (map_nth_err (option_map (@tl _)) _ _ _ H)). reflexivity.
  Qed.
  Lemma read_E k : good_read k.
  Proof.
    induction k as [sk| | |fs IH] using kind_ind'; intros v cells row W H; destruct v; try (destruct W; fail).
    - cbn [Arrow.read_value E]. rewrite (map_nth_err _ _ _ _ H), conv_id by exact W. reflexivity.
    - cbn [Arrow.read_value E]. rewrite (map_nth_err _ _ _ _ H). reflexivity.
    - cbn [Arrow.read_value E]. rewrite (map_nth_err _ _ _ _ H). cbn [is_value] in W. destruct (marshal_ok a W) as (s & -> & <-). reflexivity.
    - rewrite E_msg, read_msg. apply wf_msg in W. rewrite (read_message_good fs (map msg_of cells) row l IH) by (try assumption; apply (map_nth_err msg_of _ _ _ H)). reflexivity.
  Qed.

  (* ---------- whole records *)
  Lemma all_good_append fs : Forall (fun f => let '(Field _ _ k) := f in good_append k) fs.
  Proof. apply Forall_forall. intros [il p k] _. apply append_E. Qed.
  Lemma all_good_read fs : Forall (fun f => let '(Field _ _ k) := f in good_read k) fs.
  Proof. apply Forall_forall. intros [il p k] _. apply read_E. Qed.
  Lemma write_message_good fs l rows : wfs fs l -> write_message any marshal fs l (Es fs rows) = Es fs (rows ++ [Some l]).
  Proof.
    revert l rows. induction fs as [|[il p k] fs IH]; intros [|fv l] rows W; try (destruct W; fail); [reflexivity|]. destruct W as [W1 W2].
    cbn [write_message Es]. rewrite (cell_good il p k fv (firsts rows) (append_E k) W1). cbn [fst]. rewrite (IH l (rests rows) W2), firsts_app, rests_app. reflexivity.
  Qed.
  Lemma new_E k : new_col k = E k [].
  Proof.
    induction k as [sk| | |fs IH] using kind_ind'; try reflexivity. rewrite E_msg. cbn [new_col map]. f_equal.
    induction IH as [|[il p k] fs Hk _ IHfs]; [reflexivity|]. cbn [Es firsts rests map]. rewrite <- IHfs. unfold ecell. rewrite Hk. reflexivity.
  Qed.
  Lemma new_Es fs : map new_field fs = Es fs [].
  Proof. induction fs as [|[il p k] fs IH]; [reflexivity|]. cbn [map Es firsts rests]. rewrite <- IH. unfold new_field, ecell. rewrite new_E. reflexivity. Qed.
  Lemma build_record fs ms : Forall (wfs fs) ms -> fold_left (fun cs m => write_message any marshal fs m cs) ms (map new_field fs) = Es fs (map Some ms).
  Proof.
    induction ms as [|m ms IH] using rev_ind; intros W; [apply new_Es|]. apply Forall_app in W. destruct W as [W1 W2]. inversion_clear W2.
    rewrite fold_left_app. cbn [fold_left]. rewrite IH by assumption. rewrite write_message_good, map_app by assumption. reflexivity.
  Qed.
  Lemma Es_len fs rows c : In c (Es fs rows) -> col_len c = List.length rows /\ array_ok c = true.
  Proof.
    revert rows. induction fs as [|[il p k] fs IH]; intros rows; [intros []|]. cbn [Es]. intros [<-|H].
    - split; [rewrite ecell_len; apply map_length|apply array_cell, array_E].
    - destruct (IH _ H) as [A B]. split; [rewrite A; apply map_length|exact B].
  Qed.
  Lemma record_ok fs rows : new_record (Es fs rows) = Some (Es fs rows).
  Proof.
    unfold new_record. destruct (Es fs rows) as [|c cs] eqn:EQ; [reflexivity|]. rewrite <- EQ at 1.
    assert (F : forallb (fun ch => Nat.eqb (col_len ch) (col_len c) && array_ok ch) (Es fs rows) = true).
    { apply forallb_forall. intros ch Hc. destruct (Es_len fs rows ch Hc) as [-> ->]. destruct (Es_len fs rows c) as [-> _]; [rewrite EQ; left; reflexivity|]. rewrite Nat.eqb_refl. reflexivity. }
    rewrite F. reflexivity.
  Qed.
End Facts.
