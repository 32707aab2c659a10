(** The JSON texts of the model, read by the grammar of Spec/Json.v: what they say, and that they say nothing else. *)
From Coq Require Import DecimalString DecimalFacts DecimalPos DecimalN.
From Verif.Model Require Import Base Rows RowTable Quote RowJson.
From Verif.Spec Require Import Durations Quoting Json.
From Verif.Proofs Require Import BaseFacts QuoteFacts QuotingFacts.
Open Scope N_scope.
Local Infix "^^" := append (right associativity, at level 60).

Lemma app_assoc_s (a b c : string) : (a ^^ b) ^^ c = a ^^ b ^^ c.
Proof. induction a as [|x a IH]; [reflexivity|]. cbn [append]. rewrite IH. reflexivity. Qed.
Lemma app_nil_s (a : string) : a ^^ "" = a.
Proof. induction a as [|x a IH]; [reflexivity|]. cbn [append]. rewrite IH. reflexivity. Qed.

(* ------------------------------------------------------------------ numbers *)
Fixpoint uint_list (u : Decimal.uint) : list N :=
  match u with
  | Decimal.Nil => [] | Decimal.D0 t => 0 :: uint_list t | Decimal.D1 t => 1 :: uint_list t | Decimal.D2 t => 2 :: uint_list t
  | Decimal.D3 t => 3 :: uint_list t | Decimal.D4 t => 4 :: uint_list t | Decimal.D5 t => 5 :: uint_list t | Decimal.D6 t => 6 :: uint_list t
  | Decimal.D7 t => 7 :: uint_list t | Decimal.D8 t => 8 :: uint_list t | Decimal.D9 t => 9 :: uint_list t
  end.
Lemma uint_text u : NilEmpty.string_of_uint u = decimal (uint_list u).
Proof. unfold decimal. induction u as [|u IH|u IH|u IH|u IH|u IH|u IH|u IH|u IH|u IH|u IH]; cbn [NilEmpty.string_of_uint uint_list fold_right]; try rewrite <- IH; reflexivity. Qed.
Lemma uint_digits u : Forall (fun d => d < 10) (uint_list u).
Proof. induction u; cbn [uint_list]; constructor; auto; reflexivity. Qed.
Lemma uint_acc u : forall a, fold_left (fun n d => 10 * n + d) (uint_list u) (N.pos a) = N.pos (Pos.of_uint_acc u a).
Proof.
  induction u as [|u IH|u IH|u IH|u IH|u IH|u IH|u IH|u IH|u IH|u IH]; intros a; cbn [uint_list fold_left Pos.of_uint_acc]; [reflexivity|..];
    (rewrite <- IH; f_equal; lia).
Qed.
Lemma uint_number u : number (uint_list u) = Pos.of_uint u.
Proof.
  unfold number. induction u as [|u IH|u IH|u IH|u IH|u IH|u IH|u IH|u IH|u IH|u IH]; cbn [uint_list fold_left Pos.of_uint]; [reflexivity|exact IH|..]; apply uint_acc.
Qed.
Lemma show_decimal n : exists l, show_N n = decimal l /\ l <> [] /\ Forall (fun d => d < 10) l /\ (l = [0] \/ hd 0 l <> 0) /\ number l = n.
Proof.
  destruct n as [|p].
  - exists [0]. repeat split; auto. discriminate. constructor; [reflexivity|constructor].
  - exists (uint_list (Pos.to_uint p)). unfold show_N, show_Z. cbn [Z.of_N Z.to_int NilEmpty.string_of_int].
    assert (Of : Pos.of_uint (Pos.to_uint p) = N.pos p) by apply DecimalPos.Unsigned.of_to.
    split; [apply uint_text|]. split. { destruct (Pos.to_uint p); try discriminate. }
    split; [apply uint_digits|]. split; [right|rewrite uint_number; exact Of].
    pose proof (DecimalN.Unsigned.to_of (Pos.to_uint p)) as T. unfold N.of_uint in T. rewrite Of in T. cbn [N.to_uint] in T.
    unfold Decimal.unorm in T. pose proof (nzhead_nonzero (Pos.to_uint p)) as Z. destruct (Decimal.nzhead (Pos.to_uint p)) eqn:E.
    + rewrite T in Of. discriminate.
    + exfalso. eapply Z. reflexivity.
    + rewrite T; discriminate.
    + rewrite T; discriminate.
    + rewrite T; discriminate.
    + rewrite T; discriminate.
    + rewrite T; discriminate.
    + rewrite T; discriminate.
    + rewrite T; discriminate.
    + rewrite T; discriminate.
    + rewrite T; discriminate.
Qed.

(* ------------------------------------------------------------------ strings: what is written *)
Lemma hex_low d : d < 16 -> hex_digit (String (lowerhex d) "") d.
Proof. intros H. split; [exact H|]. left. symmetry. apply hexdigit_spec, H. Qed.
Lemma piece_character r : scalar r -> character (json_piece (PRune r)) r.
Proof.
  intros S. unfold json_piece. destruct (N.ltb_spec r 128) as [A|A].
  - destruct (html_safe r) eqn:F.
    + unfold html_safe in F. apply andb_true_iff in F as [F1 F2]. unfold within in F1. apply andb_true_iff in F1 as [F1 _]. apply N.leb_le in F1.
      apply negb_true_iff in F2. repeat (apply orb_false_iff in F2 as [F2 ?]).
      repeat match goal with H : (_ =? _) = false |- _ => apply N.eqb_neq in H end.
      assert (E : String (chr r) "" = utf8 r). { rewrite utf8_encode by apply S. unfold encode. rewrite (proj2 (N.ltb_lt r 128)) by lia. reflexivity. }
      rewrite E. apply CharPlain; auto.
    + assert (Small : (r < 32 \/ r = 34 \/ r = 92 \/ r = 38 \/ r = 60 \/ r = 62)%N).
      { unfold html_safe in F. apply andb_false_iff in F as [F|F].
        - left. unfold within in F. apply andb_false_iff in F as [F|F]; apply N.leb_gt in F; lia.
        - apply negb_false_iff in F. repeat (apply orb_true_iff in F as [F|F]); apply N.eqb_eq in F; lia. }
      destruct (N.eqb_spec r 92) as [->|]; [apply CharShort; cbn; tauto|]. destruct (N.eqb_spec r 34) as [->|]; [apply CharShort; cbn; tauto|]. cbn [orb].
      destruct (N.eqb_spec r 8) as [->|]; [apply (CharShort "b"); cbn; tauto|].
      destruct (N.eqb_spec r 12) as [->|]; [apply (CharShort "f"); cbn; tauto|].
      destruct (N.eqb_spec r 10) as [->|]; [apply (CharShort "n"); cbn; tauto|].
      destruct (N.eqb_spec r 13) as [->|]; [apply (CharShort "r"); cbn; tauto|].
      destruct (N.eqb_spec r 9) as [->|]; [apply (CharShort "t"); cbn; tauto|].
      assert (E : r = 4096 * 0 + 256 * 0 + 16 * (r / 16) + r mod 16) by (zify; Z.to_euclidean_division_equations; lia).
      rewrite E at 2. apply (CharHex "0" "0" (String (lowerhex (r / 16)) "") (String (lowerhex (r mod 16)) "")); try (apply hex_low; try reflexivity; zify; Z.to_euclidean_division_equations; lia).
      rewrite <- E. exact S.
  - destruct ((r =? 8232) || (r =? 8233)) eqn:F.
    + apply orb_true_iff in F as [F|F]; apply N.eqb_eq in F; subst r.
      * apply (CharHex "2" "0" "2" "8" 2 0 2 8); try (split; [reflexivity|left; reflexivity]). exact S.
      * apply (CharHex "2" "0" "2" "9" 2 0 2 9); try (split; [reflexivity|left; reflexivity]). exact S.
    + rewrite <- utf8_encode by apply S. apply CharPlain; auto; lia.
Qed.
Lemma bad_character b : character (json_piece (PBad b)) 65533.
Proof.
  apply (CharHex "f" "f" "f" "d" 15 15 15 13); try (split; [reflexivity|left; reflexivity]). split; [reflexivity|]. intros [_ K]. apply K. reflexivity.
Qed.
Lemma body_says : forall n s, (String.length s <= n)%nat -> exists l, scalars s l /\ chars (json_body n s) l.
Proof.
  induction n as [|n IH]; intros s L; destruct s as [|c s]; [exists []; split; constructor|simpl in L; lia|exists []; split; constructor|]. cbn [json_body].
  destruct (decode (N_of_ascii c) s) as [p t] eqn:D. pose proof (decode_spec _ _ _ _ D) as (W & E & Lt). simpl in L.
  destruct (IH t ltac:(lia)) as (l & S1 & C1). destruct p as [r|b]; cbn [well_formed bytes_of] in *.
  - pose proof (decode_scalar _ _ _ _ D) as Sc. exists (r :: l). split; [|constructor; [apply piece_character, Sc|exact C1]].
    rewrite E, <- utf8_encode by exact W. constructor; assumption.
  - cbn [append] in E. injection E as Ec Et. subst t. exists (65533 :: l). split; [|constructor; [apply bad_character|exact C1]].
    apply ScStray; [|exact S1]. intros r s' Sc K. rewrite utf8_encode in K by apply Sc. destruct (decode_encode r s' Sc) as (c' & t' & K1 & K2). rewrite K1 in K. injection K as <- <-. congruence.
Qed.
Lemma string_says s : exists t l, json_string s = """" ^^ t ^^ """" /\ scalars s l /\ chars t l.
Proof. destruct (body_says (String.length s) s ltac:(lia)) as (l & S & C). exists (json_body (String.length s) s), l. auto. Qed.

(* ------------------------------------------------------------------ strings: what is read *)
Lemma utf8_first r s r' s' : scalar r -> scalar r' -> utf8 r ^^ s = utf8 r' ^^ s' -> r = r' /\ s = s'.
Proof.
  intros S S' E. rewrite !utf8_encode in E by (apply S || apply S'). destruct (decode_encode r s S) as (c & t & A & B), (decode_encode r' s' S') as (c' & t' & A' & B').
  rewrite A, A' in E. injection E as <- <-. rewrite B in B'. apply pair_inj in B' as [K ->]. injection K as ->. auto.
Qed.
Lemma utf8_ascii r s c t : scalar r -> utf8 r ^^ s = String c t -> N_of_ascii c < 128 -> r = N_of_ascii c.
Proof.
  intros S E H. rewrite utf8_encode in E by apply S. destruct (decode_encode r s S) as (c' & t' & A & B). rewrite A in E. injection E as -> ->.
  unfold decode in B. rewrite (proj2 (N.ltb_lt _ _) H) in B. apply pair_inj in B as [K _]. injection K as ->. reflexivity.
Qed.
Definition hex_value (c : ascii) : N := let n := N_of_ascii c in if n <? 65 then n - 48 else if n <? 97 then n - 55 else n - 87.
Lemma hex_digit_char t d : hex_digit t d -> exists c, t = String c "" /\ hex_value c = d.
Proof.
  intros [H [ -> |[ -> H2]]].
  - rewrite hexdigit_spec by exact H. eexists. split; [reflexivity|]. apply N.eqb_eq. revert d H. apply (below (fun d => hex_value (lowerhex d) =? d) 16). reflexivity.
  - unfold byte. eexists. split; [reflexivity|]. assert (K : (d <? 10) || (hex_value (ascii_of_N (55 + d)) =? d) = true) by (revert d H H2; intros d H _; revert d H; apply (below (fun d => (d <? 10) || (hex_value (ascii_of_N (55 + d)) =? d)) 16); reflexivity).
    apply orb_true_iff in K as [K|K]; [apply N.ltb_lt in K; lia|apply N.eqb_eq, K].
Qed.
Lemma character_first c r s c' r' s' : character c r -> character c' r' -> c ^^ s = c' ^^ s' -> c = c' /\ r = r' /\ s = s'.
Proof.
  assert (PS : forall r s t s', scalar r -> r <> 92 -> utf8 r ^^ s <> ("\" ^^ t) ^^ s').
  { intros q a b d S N0 K. apply N0. cbn [append] in K. apply utf8_ascii in K; [exact K|exact S|reflexivity]. }
  intros H H'. destruct H as [r S1 L Q B|t r Hin|t1 t2 t3 t4 d1 d2 d3 d4 H1 H2 H3 H4 Sc], H' as [r' S1' L' Q' B'|t' r' Hin'|u1 u2 u3 u4 e1 e2 e3 e4 G1 G2 G3 G4 Sc']; intros E.
  - apply utf8_first in E as [-> ->]; auto.
  - exfalso. eapply PS; [| |exact E]; auto.
  - exfalso. eapply (PS _ _ ("u" ^^ u1 ^^ u2 ^^ u3 ^^ u4)); [| |exact E]; auto.
  - exfalso. symmetry in E. eapply PS; [| |exact E]; auto.
  - cbn in Hin, Hin'. repeat (destruct Hin as [Hin|Hin]; [apply pair_inj in Hin as [<- <-]; repeat (destruct Hin' as [Hin'|Hin']; [apply pair_inj in Hin' as [<- <-]; cbn [append] in E; try discriminate E; injection E as <-; auto|]); destruct Hin'|]). destruct Hin.
  - exfalso. cbn in Hin. repeat (destruct Hin as [Hin|Hin]; [apply pair_inj in Hin as [<- <-]; cbn [append] in E; discriminate E|]). destruct Hin.
  - exfalso. symmetry in E. eapply (PS _ _ ("u" ^^ t1 ^^ t2 ^^ t3 ^^ t4)); [| |exact E]; auto.
  - exfalso. cbn in Hin'. repeat (destruct Hin' as [Hin'|Hin']; [apply pair_inj in Hin' as [<- <-]; cbn [append] in E; discriminate E|]). destruct Hin'.
  - apply hex_digit_char in H1 as (a1 & -> & <-), H2 as (a2 & -> & <-), H3 as (a3 & -> & <-), H4 as (a4 & -> & <-), G1 as (b1 & -> & <-), G2 as (b2 & -> & <-), G3 as (b3 & -> & <-), G4 as (b4 & -> & <-).
    cbn [append] in E. injection E as <- <- <- <- <-. auto.
Qed.
Lemma character_start c r s t : character c r -> c ^^ s <> String """" t.
Proof.
  intros H E. destruct H as [r S L Q B|u r Hin|]; [|discriminate E|discriminate E]. apply utf8_ascii in E; [|exact S|reflexivity]. apply Q. exact E.
Qed.
Lemma chars_first t l t' l' r r' : chars t l -> chars t' l' -> t ^^ """" ^^ r = t' ^^ """" ^^ r' -> t = t' /\ l = l' /\ r = r'.
Proof.
  intros H. revert t' l'. induction H as [|c x t l Hc H IH]; intros t' l' H' E; destruct H' as [|c' x' t' l' Hc' H'].
  - cbn [append] in E. injection E as <-. auto.
  - exfalso. rewrite app_assoc_s in E. symmetry in E. cbn [append] in E. eapply character_start; [exact Hc'|exact E].
  - exfalso. rewrite app_assoc_s in E. cbn [append] in E. eapply character_start; [exact Hc|exact E].
  - rewrite !app_assoc_s in E. apply (character_first c x _ c' x') in E as (<- & <- & E); auto. destruct (IH _ _ H' E) as (<- & <- & <-). auto.
Qed.
Lemma scalars_fun s l l' : scalars s l -> scalars s l' -> l = l'.
Proof.
  intros H. revert l'. induction H as [|r s l Sc H IH|c s l N0 H IH]; intros l' H'.
  - inversion H' as [|r s l0 Sc H0 E1 E2|]; [reflexivity|]. exfalso. rewrite utf8_encode in E1 by apply Sc. destruct (decode_encode r s Sc) as (c & t & K & _). rewrite K in E1. discriminate.
  - remember (utf8 r ^^ s) as w eqn:Ew. destruct H' as [|r' s' l' Sc' H'|c s' l' N' H'].
    + exfalso. rewrite utf8_encode in Ew by apply Sc. destruct (decode_encode r s Sc) as (c & t & K & _). rewrite K in Ew. discriminate.
    + symmetry in Ew. apply utf8_first in Ew as [-> ->]; auto. f_equal. apply IH, H'.
    + exfalso. eapply N'; [exact Sc|exact Ew].
  - remember (String c s) as w eqn:Ew. destruct H' as [|r' s' l' Sc' H'|c' s' l' N' H']; [discriminate| |].
    + exfalso. eapply N0; [exact Sc'|reflexivity].
    + injection Ew as -> ->. f_equal. apply IH, H'.
Qed.
Lemma utf8_scalars l : Forall scalar l -> scalars (fold_right (fun r t => utf8 r ^^ t) "" l) l.
Proof. induction 1 as [|r l S F IH]; cbn [fold_right]; constructor; assumption. Qed.
Lemma utf8_determined s s' l : is_utf8 s -> is_utf8 s' -> scalars s l -> scalars s' l -> s = s'.
Proof.
  intros (a & Fa & ->) (b & Fb & ->) A B. pose proof (scalars_fun _ _ _ A (utf8_scalars a Fa)). pose proof (scalars_fun _ _ _ B (utf8_scalars b Fb)). congruence.
Qed.

(* ------------------------------------------------------------------ values *)
Scheme say_ind := Minimality for says_json Sort Prop with all_ind := Minimality for says_all Sort Prop with parts_ind := Minimality for says_parts Sort Prop.
Combined Scheme say_all_ind from say_ind, all_ind, parts_ind.

Lemma string_inj a s b t : String a s = String b t -> a = b /\ s = t.
Proof. intros E. injection E as -> ->. auto. Qed.
(** What may follow a value. *)
Definition delimiter (c : ascii) : Prop := c = ","%char \/ c = "]"%char \/ c = "}"%char.
Definition followed (r : string) : Prop := match r with EmptyString => True | String c _ => delimiter c end.
Lemma digit_char d : d < 10 -> ~ delimiter (ascii_of_N (48 + d)) /\ ascii_of_N (48 + d) <> """"%char /\ ascii_of_N (48 + d) <> "["%char /\ ascii_of_N (48 + d) <> "{"%char.
Proof.
  intros H. assert (K : existsb (Ascii.eqb (ascii_of_N (48 + d))) (list_ascii_of_string ",]}""[{") = false).
  { apply negb_true_iff. revert d H. apply (below (fun d => negb (existsb (Ascii.eqb (ascii_of_N (48 + d))) (list_ascii_of_string ",]}""[{"))) 10). reflexivity. }
  assert (N0 : forall c, In c (list_ascii_of_string ",]}""[{") -> ascii_of_N (48 + d) <> c).
  { intros c Hc E. rewrite E in K. enough (existsb (Ascii.eqb c) (list_ascii_of_string ",]}""[{") = true) by congruence. apply existsb_exists. exists c. split; [exact Hc|apply Ascii.eqb_refl]. }
  split; [intros [E|[E|E]]; revert E; apply N0; cbn; tauto|repeat split; apply N0; cbn; tauto].
Qed.
Lemma digits_first l l' r r' : Forall (fun d => d < 10) l -> Forall (fun d => d < 10) l' -> followed r -> followed r' ->
  decimal l ^^ r = decimal l' ^^ r' -> l = l' /\ r = r'.
Proof.
  intros F. revert l'. induction F as [|d l Hd F IH]; intros l' F' R R' E; destruct F' as [|d' l' Hd' F']; cbn [decimal fold_right append] in E.
  - auto.
  - exfalso. subst r. cbn in R. destruct (digit_char d' Hd') as (K & _). exact (K R).
  - exfalso. subst r'. cbn in R'. destruct (digit_char d Hd) as (K & _). exact (K R').
  - apply string_inj in E as [E1 E2]. apply (f_equal N_of_ascii) in E1. cbn beta in Hd, Hd'. rewrite !N_ascii_embedding in E1 by (clear -Hd Hd'; lia). assert (d = d') by (clear -E1; lia). subst d'.
    apply IH in E2 as [-> ->]; auto.
Qed.
(** The first letter of a value. *)
Lemma value_start t v : says_json t v -> exists c s, t = String c s /\ ~ delimiter c /\
  match v with JNumber _ => exists d, d < 10 /\ c = ascii_of_N (48 + d) | JString _ => c = """"%char | JList _ => c = "["%char | JObject _ => c = "{"%char end.
Proof.
  intros H. destruct H as [l Ne F _|t l _|ts vs _|ts vs _].
  - destruct F as [|d l Hd F]; [congruence|]. cbn [decimal fold_right]. do 2 eexists. split; [reflexivity|]. split; [apply digit_char, Hd|eauto].
  - do 2 eexists. split; [reflexivity|]. split; [intros [K|[K|K]]; discriminate K|reflexivity].
  - do 2 eexists. split; [reflexivity|]. split; [intros [K|[K|K]]; discriminate K|reflexivity].
  - do 2 eexists. split; [reflexivity|]. split; [intros [K|[K|K]]; discriminate K|reflexivity].
Qed.
(** The rest of a list after its first element. *)
Definition rest_of (ts : list string) (e : string) : string := match ts with [] => e | _ => "," ^^ commas ts ^^ e end.
Lemma commas_rest t ts e : commas (t :: ts) ^^ e = t ^^ rest_of ts e.
Proof. cbn [commas]. destruct ts as [|u ts]; [reflexivity|]. rewrite !app_assoc_s. reflexivity. Qed.
Lemma rest_followed ts e : followed e -> followed (rest_of ts e).
Proof. destruct ts; [auto|]. intros _. cbn. left. reflexivity. Qed.
Lemma rest_inj ts ts' e e' x : (forall c s, e = String c s -> c = x) -> (forall c s, e' = String c s -> c = x) -> e <> "" -> e' <> "" -> x <> ","%char ->
  rest_of ts e = rest_of ts' e' -> (ts = [] /\ ts' = [] /\ e = e') \/ (ts <> [] /\ ts' <> [] /\ commas ts ^^ e = commas ts' ^^ e').
Proof.
  intros He He' Ne Ne' Nx E. destruct ts as [|t ts], ts' as [|t' ts']; cbn [rest_of append] in E.
  - auto.
  - exfalso. destruct e as [|c s]; [congruence|]. injection E as -> _. apply Nx. symmetry. eapply He. reflexivity.
  - exfalso. destruct e' as [|c s]; [congruence|]. injection E as <- _. apply Nx. symmetry. eapply He'. reflexivity.
  - right. injection E as E. repeat split; try discriminate. exact E.
Qed.
Definition one_reading (t : string) (v : json) : Prop := forall t' v' r r', says_json t' v' -> followed r -> followed r' -> t ^^ r = t' ^^ r' -> t = t' /\ v = v' /\ r = r'.
Definition one_list (ts : list string) (vs : list json) : Prop := forall ts' vs' r r', says_all ts' vs' -> commas ts ^^ "]" ^^ r = commas ts' ^^ "]" ^^ r' -> ts = ts' /\ vs = vs' /\ r = r'.
Definition one_object (ts : list string) (vs : list (list N * json)) : Prop := forall ts' vs' r r', says_parts ts' vs' -> commas ts ^^ "}" ^^ r = commas ts' ^^ "}" ^^ r' -> ts = ts' /\ vs = vs' /\ r = r'.
Lemma readings : (forall t v, says_json t v -> one_reading t v) /\ (forall ts vs, says_all ts vs -> one_list ts vs) /\ (forall ts vs, says_parts ts vs -> one_object ts vs).
Proof.
  apply say_all_ind.
  - intros l Ne F _ t' v' r r' H' R R' E. destruct H' as [l' Ne' F' _|t' l' _|ts vs _|ts vs _].
    + apply digits_first in E as [-> ->]; auto.
    + exfalso. destruct F as [|d l Hd F]; [congruence|]. cbn [decimal fold_right append] in E. apply string_inj in E as [E _]. destruct (digit_char d Hd) as (_ & K & _). exact (K E).
    + exfalso. destruct F as [|d l Hd F]; [congruence|]. cbn [decimal fold_right append] in E. apply string_inj in E as [E _]. destruct (digit_char d Hd) as (_ & _ & K & _). exact (K E).
    + exfalso. destruct F as [|d l Hd F]; [congruence|]. cbn [decimal fold_right append] in E. apply string_inj in E as [E _]. destruct (digit_char d Hd) as (_ & _ & _ & K). exact (K E).
  - intros t l C t' v' r r' H' R R' E. destruct H' as [l' Ne' F' _|t' l' C'|ts vs _|ts vs _]; [|..|discriminate E|discriminate E].
    + exfalso. destruct F' as [|d l' Hd F']; [congruence|]. cbn [decimal fold_right append] in E. apply string_inj in E as [E _]. destruct (digit_char d Hd) as (_ & K & _). apply K. symmetry. exact E.
    + cbn [append] in E. injection E as E. rewrite !app_assoc_s in E. destruct (chars_first t l t' l' _ _ C C' E) as (<- & <- & <-). auto.
  - intros ts vs A IH t' v' r r' H' R R' E. destruct H' as [l' Ne' F' _|t' l' C'|ts' vs' A'|ts' vs' _]; [|discriminate E| |discriminate E].
    + exfalso. destruct F' as [|d l' Hd F']; [congruence|]. cbn [decimal fold_right append] in E. apply string_inj in E as [E _]. destruct (digit_char d Hd) as (_ & _ & K & _). apply K. symmetry. exact E.
    + cbn [append] in E. injection E as E. rewrite !app_assoc_s in E. destruct (IH _ _ _ _ A' E) as (<- & <- & <-). auto.
  - intros ts vs A IH t' v' r r' H' R R' E. destruct H' as [l' Ne' F' _|t' l' C'|ts' vs' _|ts' vs' A']; [|discriminate E|discriminate E|].
    + exfalso. destruct F' as [|d l' Hd F']; [congruence|]. cbn [decimal fold_right append] in E. apply string_inj in E as [E _]. destruct (digit_char d Hd) as (_ & _ & _ & K). apply K. symmetry. exact E.
    + cbn [append] in E. injection E as E. rewrite !app_assoc_s in E. destruct (IH _ _ _ _ A' E) as (<- & <- & <-). auto.
  - intros ts' vs' r r' H' E. destruct H' as [|t v ts vs H' A].
    + cbn [commas append] in E. injection E as <-. auto.
    + exfalso. rewrite commas_rest in E. destruct (value_start t v H') as (c & s & -> & K & _). cbn [commas append] in E. injection E as E _. apply K. right. left. symmetry. exact E.
  - intros t v ts vs H IH A IHs ts' vs' r r' H' E. destruct H' as [|t' v' ts' vs' H' A'].
    + exfalso. rewrite commas_rest in E. destruct (value_start t v H) as (c & s & -> & K & _). cbn [commas append] in E. injection E as E _. apply K. right. left. exact E.
    + rewrite !commas_rest in E. destruct (IH t' v' (rest_of ts ("]" ^^ r)) (rest_of ts' ("]" ^^ r'))) as (<- & <- & E1); [exact H'|apply rest_followed; right; left; reflexivity|apply rest_followed; right; left; reflexivity|exact E|]. clear E. rename E1 into E.
      apply (rest_inj _ _ _ _ "]"%char) in E; try discriminate; try (intros c s K; cbn [append] in K; injection K as <-; reflexivity).
      destruct E as [(-> & -> & E)|(N1 & N2 & E)].
      * cbn [append] in E. injection E as <-. inversion A. inversion A'. auto.
      * destruct (IHs _ _ _ _ A' E) as (<- & <- & <-). auto.
  - intros ts' vs' r r' H' E. destruct H' as [|k l t v ts vs C H' A].
    + cbn [commas append] in E. injection E as <-. auto.
    + exfalso. rewrite commas_rest in E. discriminate E.
  - intros k l t v ts vs C H IH A IHs ts' vs' r r' H' E. destruct H' as [|k' l' t' v' ts' vs' C' H' A'].
    + exfalso. rewrite commas_rest in E. discriminate E.
    + rewrite !commas_rest, !app_assoc_s in E. cbn [append] in E. injection E as E. apply (chars_first k l k' l') in E as (<- & <- & E); auto. cbn [append] in E. injection E as E.
      destruct (IH t' v' (rest_of ts ("}" ^^ r)) (rest_of ts' ("}" ^^ r'))) as (<- & <- & E1); [exact H'|apply rest_followed; right; right; reflexivity|apply rest_followed; right; right; reflexivity|exact E|]. clear E. rename E1 into E.
      apply (rest_inj _ _ _ _ "}"%char) in E; try discriminate; try (intros c s K; cbn [append] in K; injection K as <-; reflexivity).
      destruct E as [(-> & -> & E)|(N1 & N2 & E)].
      * cbn [append] in E. injection E as <-. inversion A. inversion A'. auto.
      * destruct (IHs _ _ _ _ A' E) as (<- & <- & <-). auto.
Qed.
(** A text says one thing at most. *)
Lemma one_meaning t v v' : says_json t v -> says_json t v' -> v = v'.
Proof. intros H H'. apply (proj1 readings) in H. destruct (H t v' "" "" H' Logic.I Logic.I eq_refl) as (_ & E & _). exact E. Qed.

Lemma elems_commas l : json_elems l = commas l.
Proof. induction l as [|x [|y l] IH]; [reflexivity|reflexivity|]. cbn [json_elems commas] in *. rewrite IH. reflexivity. Qed.
