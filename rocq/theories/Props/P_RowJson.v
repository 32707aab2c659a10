(** C103: the JSON of a row. *)
From Verif.Model Require Import Base Rows RowTable RowJson.
From Verif.Spec Require Import Sets Quoting Json.
From Verif.Proofs Require Import BaseFacts RowsFacts JsonFacts.
From Verif.Props Require Import P_Rows.
Open Scope N_scope.
Local Infix "^^" := append (right associativity, at level 60).

(** What the JSON of a row with these columns and keys says. *)
Definition row_says (columns : list N) (keys : list (list N)) : json :=
  JObject ((word "columns", JList (map JNumber columns)) :: match keys with [] => [] | _ => [(word "keys", JList (map JString keys))] end).

Lemma word_chars s : Forall (fun c => 32 <= N_of_ascii c < 128 /\ N_of_ascii c <> 34 /\ N_of_ascii c <> 92) (list_ascii_of_string s) -> chars s (word s).
Proof.
  induction s as [|c s IH]; intros F; [constructor|]. inversion F as [|? ? (L & Q & B) F']. subst. unfold word. cbn [list_ascii_of_string map].
  assert (E : String c s = utf8 (N_of_ascii c) ^^ s). { unfold utf8. rewrite (proj2 (N.leb_le _ 127)) by lia. unfold byte. rewrite ascii_N_embedding. reflexivity. }
  rewrite E. constructor; [|apply IH, F']. apply CharPlain; try lia. split; [lia|]. intros K. lia.
Qed.
Lemma numbers_say l : says_all (map show_N l) (map JNumber l).
Proof.
  induction l as [|n l IH]; [constructor|]. cbn [map]. constructor; [|exact IH]. destruct (show_decimal n) as (ds & -> & Ne & F & Z & <-). constructor; assumption.
Qed.
Lemma strings_say l : exists us, Forall2 scalars l us /\ says_all (map json_string l) (map JString us).
Proof.
  induction l as [|s l (us & F & S)]; [exists []; split; constructor|]. destruct (string_says s) as (t & u & E & Sc & C).
  exists (u :: us). split; [constructor; assumption|]. cbn [map]. rewrite E. constructor; [constructor; exact C|exact S].
Qed.

(** The JSON of a row is a JSON text that says the columns of the row, in order, and its keys (a byte that belongs to no UTF-8 sequence
    as U+FFFD), and nothing else. *)
Theorem C103_json_says_the_row_partial : forall r, exists text keys, row_json (Some r) = Some text /\ Forall2 scalars (fr_keys r) keys /\
  forall v, says_json text v <-> v = row_says (row_columns (fr_segments r)) keys.
Proof.
  intros r. destruct (strings_say (fr_keys r)) as (us & F & S). eexists _, us. split; [reflexivity|]. split; [exact F|].
  match goal with |- forall v, says_json ?t v <-> _ => assert (K : says_json t (row_says (row_columns (fr_segments r)) us)) end.
  { unfold row_says, json_array. rewrite !elems_commas.
    assert (W1 : chars "columns" (word "columns")) by (apply word_chars; repeat constructor; vm_compute; congruence).
    assert (W2 : chars "keys" (word "keys")) by (apply word_chars; repeat constructor; vm_compute; congruence).
    pose proof (SayList _ _ (numbers_say (row_columns (fr_segments r)))) as Cs. destruct F as [|k u ks us Fk F].
    - pose proof (SayObject _ _ (PartsMore _ _ _ _ _ _ W1 Cs PartsEnd)) as H. cbn [commas] in H. cbn [append] in H |- *. rewrite ?app_assoc_s in H. rewrite ?app_assoc_s. exact H.
    - pose proof (SayList _ _ S) as Ks. pose proof (SayObject _ _ (PartsMore _ _ _ _ _ _ W1 Cs (PartsMore _ _ _ _ _ _ W2 Ks PartsEnd))) as H.
      cbn [commas] in H. cbn [append] in H |- *. rewrite ?elems_commas. rewrite ?app_assoc_s in H. rewrite ?app_assoc_s. cbn [append] in *. rewrite ?app_assoc_s in *. exact H. }
  intros v. split; [intros H; exact (one_meaning _ _ _ H K)|intros ->; exact K].
Qed.
Print Assumptions C103_json_says_the_row_partial.

Lemma numbers_inj l l' : map JNumber l = map JNumber l' -> l = l'.
Proof. revert l'. induction l as [|a l IH]; intros [|a' l'] E; try discriminate; [reflexivity|]. cbn [map] in E. injection E as -> E. f_equal. apply IH, E. Qed.
Lemma strings_inj l l' : map JString l = map JString l' -> l = l'.
Proof. revert l'. induction l as [|a l IH]; intros [|a' l'] E; try discriminate; [reflexivity|]. cbn [map] in E. injection E as -> E. f_equal. apply IH, E. Qed.
Lemma row_says_inj c k c' k' : row_says c k = row_says c' k' -> c = c' /\ k = k'.
Proof.
  unfold row_says. intros E. injection E as E1 E2. split; [apply numbers_inj, E1|]. destruct k as [|a k], k' as [|a' k']; try discriminate E2; [reflexivity|].
  cbn [map] in E2. injection E2 as -> E2. f_equal. apply strings_inj, E2.
Qed.
(** Two rows have the same JSON exactly if they have the same columns in the same order and the same keys, when the keys are UTF-8. *)
Theorem C103_json_determines_the_row : forall r r', Forall is_utf8 (fr_keys r) -> Forall is_utf8 (fr_keys r') ->
  (row_json (Some r) = row_json (Some r') <-> row_columns (fr_segments r) = row_columns (fr_segments r') /\ fr_keys r = fr_keys r').
Proof.
  intros r r' U U'. split.
  - intros E. destruct (C103_json_says_the_row_partial r) as (t & ks & Et & F & K), (C103_json_says_the_row_partial r') as (t' & ks' & Et' & F' & K').
    rewrite Et, Et' in E. apply some_inj in E. subst t'. pose proof (proj1 (K' _) (proj2 (K _) eq_refl)) as E. apply row_says_inj in E as [Ec <-]. split; [exact Ec|].
    clear -F F' U U'. revert F' U U'. generalize (fr_keys r'). induction F as [|k u l us Fk F IH]; intros l' F' U U'; inversion F' as [|k' ? l'' ? Fk' F'']; subst; [reflexivity|].
    inversion U; inversion U'; subst. f_equal; [eapply utf8_determined; eassumption|apply IH; assumption].
  - intros [E1 E2]. unfold row_json. rewrite E1, E2. reflexivity.
Qed.
Print Assumptions C103_json_determines_the_row.
(** Keys that are not UTF-8: any two stray bytes look the same. *)
Theorem C103_other_keys_refuted : forall segments i f n a b, 128 <= N_of_ascii a < 192 -> 128 <= N_of_ascii b < 192 ->
  row_json (Some (FullRow segments [String a ""] i f n)) = row_json (Some (FullRow segments [String b ""] i f n)).
Proof.
  intros segments i f n a b Ha Hb. assert (K : forall c, 128 <= N_of_ascii c < 192 -> json_string (String c "") = """\ufffd""").
  { intros c [H1 H2]. unfold json_string. cbn [String.length json_body]. unfold Quote.decode. rewrite (proj2 (N.ltb_ge _ _) H1). unfold Quote.within.
    rewrite !(proj2 (N.leb_gt _ (N_of_ascii c))) by lia. reflexivity. }
  unfold row_json. cbn [fr_keys fr_segments map]. rewrite (K a Ha), (K b Hb). reflexivity.
Qed.
(** A row is built from columns given in any order and number; its JSON lists them ascending, each once. *)
Example C103_example : exists r, fr_segments r = new_row [1048577; 3; 3] /\ fr_keys r = ["k""<"; String (ascii_of_N 255) "é"] /\
  row_json (Some r) = Some "{""columns"":[3,1048577],""keys"":[""k\""\u003c"",""\ufffdé""]}"%string /\
  row_says (row_columns (fr_segments r)) [word "k""<"; [65533; 233]] = JObject [(word "columns", JList [JNumber 3; JNumber 1048577]); (word "keys", JList [JString [107; 34; 60]; JString [65533; 233]])] /\
  is_utf8 "k""<" /\ 128 <= N_of_ascii (ascii_of_N 128) < 192.
Proof.
  exists (FullRow (new_row [1048577; 3; 3]) ["k""<"; String (ascii_of_N 255) "é"]%string "" "" false). repeat (split; [vm_compute; reflexivity|]).
  split; [|split; vm_compute; congruence]. exists [107; 34; 60]. split; [repeat constructor; try (intros [K _]; vm_compute in K; congruence)|reflexivity].
Qed.
(** Rows built in any way with the same columns and keys have the same JSON. *)
Theorem C103_json_of_the_set : forall r r', built (fr_segments r) -> built (fr_segments r') -> fr_keys r = fr_keys r' ->
  (forall c, In c (row_columns (fr_segments r)) <-> In c (row_columns (fr_segments r'))) -> row_json (Some r) = row_json (Some r').
Proof.
  intros r r' B B' K S. unfold row_json. rewrite K. rewrite (ssorted_ext (row_columns (fr_segments r)) (row_columns (fr_segments r'))); [reflexivity|apply columns_sorted, built_wf, B|apply columns_sorted, built_wf, B'|exact S].
Qed.
Print Assumptions C103_json_of_the_set.
