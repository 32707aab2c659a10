(** The printed text of attributes: what it is, and that plain attributes can be read back from it. *)
From Verif.Model Require Import Base Quote Calendar Render.
From Verif.Spec Require Import Quoting Texts.
From Verif.Proofs Require Import BaseFacts QuoteFacts QuotingFacts.
Open Scope N_scope.
Local Infix "^^" := append (right associativity, at level 60).

Ltac flat := repeat (progress (rewrite ?append_assoc; cbn [append])).

(** Induction over nested values. *)
Section Ind.
Context (P : aval -> Prop).
Context (HS : forall s, P (VStr s)) (HB : forall b, P (VBool b)) (HI : forall z, P (VInt z)) (HD : forall b, P (VDouble b))
  (HY : forall s, P (VBytes s)) (HU : P VUnset)
  (HA : forall l, Forall P l -> P (VArr l))
  (HK : forall l, Forall (fun kv => forall v, snd kv = Some v -> P v) l -> P (VKv l)).
Fixpoint aval_nest (v : aval) : P v :=
  match v with
  | VStr s => HS s | VBool b => HB b | VInt z => HI z | VDouble b => HD b | VBytes s => HY s | VUnset => HU
  | VArr l => HA l ((fix go l : Forall P l := match l with [] => Forall_nil _ | a :: t => Forall_cons a (aval_nest a) (go t) end) l)
  | VKv l => HK l ((fix go l : Forall (fun kv => forall v, snd kv = Some v -> P v) l :=
      match l with
      | [] => Forall_nil _
      | (k, o) :: t => Forall_cons (P := fun kv => forall v, snd kv = Some v -> P v) (k, o)
          (match o as o0 return forall v, snd (k, o0) = Some v -> P v with
           | None => fun v H => match (eq_ind None (fun e => match e with None => True | Some _ => False end) Logic.I (Some v) H) with end
           | Some a => fun v H => eq_ind (Some a) (fun e => match e with Some w => P w | None => True end) (aval_nest a) (Some v) H
           end) (go t)
      end) l)
  end.
End Ind.

Section Render.
Context (is_print : N -> bool) (show_double : N -> string).
Notation value := (value is_print show_double).
Notation shown := (shown is_print show_double).

Fixpoint members (first : bool) (l : list aval) : option string :=
  match l with
  | [] => Some ""
  | a :: t => match value a with None => None | Some x => match members false t with None => None
      | Some y => Some ((if first then "" else ", ") ^^ x ^^ y) end end
  end.
Fixpoint entries (first : bool) (l : list (string * option aval)) : option string :=
  match l with
  | [] => Some ""
  | (k, o) :: t => match o with None => None | Some a => match value a with None => None | Some x => match entries false t with None => None
      | Some y => Some ((if first then " " else ", ") ^^ k ^^ " = " ^^ x ^^ y) end end end
  end.
Lemma value_arr l : value (VArr l) = match members true l with None => None | Some x => Some ("[" ^^ x ^^ "]") end.
Proof. reflexivity. Qed.
Lemma value_kv l : value (VKv l) = match entries true l with None => None | Some x => Some ("{" ^^ x ^^ (match l with [] => "" | _ => " " end) ^^ "}") end.
Proof. reflexivity. Qed.

(* ---------------------------------------------------------------- the text *)
Definition glue (ts : list string) : string := fold_right (fun t acc => ", " ^^ t ^^ acc) "" ts.
Lemma concat_glue t ts : String.concat ", " (t :: ts) = t ^^ glue ts.
Proof.
  revert t. induction ts as [|u ts IH]; intros t; [cbn; rewrite append_nil_r; reflexivity|].
  change (String.concat ", " (t :: u :: ts)) with (t ^^ ", " ^^ String.concat ", " (u :: ts)).
  rewrite IH. reflexivity.
Qed.

Lemma members_shown l : Forall (fun a => forall t, value a = Some t <-> shown a t) l ->
  forall x, members false l = Some x <-> exists ts, Forall2 shown l ts /\ x = glue ts.
Proof.
  induction 1 as [|a l Ha Hl IH]; intros x; cbn [members].
  - split. { intros H. apply some_inj in H as <-. exists []; split; [constructor|reflexivity]. }
    intros (ts & F & ->). inversion F; reflexivity.
  - split.
    + destruct (value a) as [u|] eqn:E; [|discriminate]. destruct (members false l) as [y|] eqn:M; [|discriminate].
      intros H. apply some_inj in H as <-. destruct (proj1 (IH y) eq_refl) as (ts & F & ->).
      exists (u :: ts). split; [constructor; [apply Ha; reflexivity|exact F]|reflexivity].
    + intros (ts & F & ->). inversion F as [|? u ? ts' Hu F' E1 E2]; subst.
      apply Ha in Hu. rewrite Hu. rewrite (proj2 (IH (glue ts'))) by eauto. reflexivity.
Qed.
Definition entry_shown (kv : string * option aval) (t : string) : Prop :=
  exists v x, snd kv = Some v /\ shown v x /\ t = fst kv ^^ " = " ^^ x.
Lemma entries_shown l : Forall (fun kv => forall v, snd kv = Some v -> forall t, value v = Some t <-> shown v t) l ->
  forall x, entries false l = Some x <-> exists ts, Forall2 entry_shown l ts /\ x = glue ts.
Proof.
  induction 1 as [|[k o] l Ha Hl IH]; intros x; cbn [entries].
  - split. { intros H. apply some_inj in H as <-. exists []; split; [constructor|reflexivity]. }
    intros (ts & F & ->). inversion F; reflexivity.
  - cbn [snd] in Ha. split.
    + destruct o as [a|]; [|discriminate]. destruct (value a) as [u|] eqn:E; [|discriminate].
      destruct (entries false l) as [y|] eqn:M; [|discriminate].
      intros H. apply some_inj in H as <-. destruct (proj1 (IH y) eq_refl) as (ts & F & ->).
      exists ((k ^^ " = " ^^ u) :: ts). split.
      * constructor; [|exact F]. exists a, u. split; [reflexivity|]. split; [apply (Ha a eq_refl); exact E|reflexivity].
      * cbn [glue fold_right]. rewrite !append_assoc. reflexivity.
    + intros (ts & F & ->). inversion F as [|? u ? ts' Hu F' E1 E2]; subst.
      destruct Hu as (v & w & Ev & Sw & ->). cbn [snd fst] in *. subst o.
      apply (Ha v eq_refl) in Sw. rewrite Sw. rewrite (proj2 (IH (glue ts'))) by eauto.
      cbn [glue fold_right]. rewrite !append_assoc. reflexivity.
Qed.

Lemma hex_bytes_spec s : hex_bytes s = String.concat "" (map (fun c => hexdigits 2 (N_of_ascii c)) (list_ascii_of_string s)).
Proof.
  unfold hex_bytes. induction s as [|c s IH]; [reflexivity|]. cbn [Otlp.hex_encode list_ascii_of_string map].
  rewrite IH, hexdigits2 by apply ascii_range. unfold hex2. change Otlp.hex_digit with lowerhex.
  destruct (list_ascii_of_string s); reflexivity.
Qed.
Lemma value_shown : forall v t, value v = Some t <-> shown v t.
Proof.
  apply (aval_nest (fun v => forall t, value v = Some t <-> shown v t)).
  { intros s t. cbn [Render.value]. split.
    - intros H. apply some_inj in H. apply quote_quoted in H as (u & Q & ->). constructor. exact Q.
    - intros H. inversion H as [? u Q| | | | | | | | |]; subst. f_equal. apply quote_quoted. eauto. }
  1-5: intros; split; [intros H; cbn [Render.value] in H; apply some_inj in H as <-; try destruct b; rewrite ?hex_bytes_spec; constructor
                   |intros H; inversion H; subst; cbn [Render.value]; rewrite ?hex_bytes_spec; reflexivity].
  - intros l F t. rewrite value_arr. split.
    + destruct l as [|a l]; cbn [members].
      { intros H. apply some_inj in H as <-. change ("[" ^^ "" ^^ "]") with ("[" ^^ String.concat ", " [] ^^ "]"). constructor. constructor. }
      inversion F as [|? ? Ha Fl]; subst.
      destruct (value a) as [u|] eqn:E; [|discriminate]. destruct (members false l) as [y|] eqn:M; [|discriminate].
      intros H. apply some_inj in H as <-. apply (members_shown l Fl) in M as (ts & F2 & ->).
      change ("" ^^ u ^^ glue ts) with (u ^^ glue ts). rewrite <- concat_glue. constructor. constructor; [apply Ha; reflexivity|exact F2].
    + intros H. inversion H as [| | | | | | |? ts F2| |]; subst.
      inversion F2 as [|a u l' ts' Hu F2']; subst; [reflexivity|]. inversion F as [|? ? Ha Fl]; subst.
      cbn [members]. apply Ha in Hu. rewrite Hu. rewrite (proj2 (members_shown l' Fl (glue ts'))) by eauto.
      rewrite concat_glue. reflexivity.
  - intros l F t. rewrite value_kv. split.
    + destruct l as [|[k o] l]; cbn [entries]. { intros H. apply some_inj in H as <-. constructor. }
      inversion F as [|? ? Ha Fl]; subst. destruct o as [a|]; [|discriminate].
      destruct (value a) as [u|] eqn:E; [|discriminate]. destruct (entries false l) as [y|] eqn:M; [|discriminate].
      intros H. apply some_inj in H as <-. apply (entries_shown l Fl) in M as (ts & F2 & ->).
      match goal with |- shown _ ?x => replace x with ("{ " ^^ String.concat ", " ((k ^^ " = " ^^ u) :: ts) ^^ " }") end.
      * apply ShKv; [discriminate|]. constructor; [|exact F2]. exists a, u. split; [reflexivity|]. split; [apply (Ha a eq_refl); exact E|reflexivity].
      * rewrite concat_glue. flat. reflexivity.
    + intros H. inversion H as [| | | | | | | | |? ts N F2]; subst; [reflexivity|].
      inversion F2 as [|[k o] u l' ts' Hu F2']; subst; [congruence|]. inversion F as [|? ? Ha Fl]; subst.
      destruct Hu as (v & w & Ev & Sw & ->). cbn [snd fst] in *. subst o.
      cbn [entries]. apply (Ha v eq_refl) in Sw. rewrite Sw. rewrite (proj2 (entries_shown l' Fl (glue ts'))) by (exists ts'; split; [exact F2'|reflexivity]).
      rewrite concat_glue. flat. reflexivity.
Qed.

(* ---------------------------------------------------------------- completeness *)
Lemma members_some l : Forall (fun a => value a <> None <-> complete a) l -> forall f, members f l <> None <-> Forall complete l.
Proof.
  induction 1 as [|a l Ha Hl IH]; intros f; cbn [members]. { split; [constructor|discriminate]. }
  split.
  - destruct (value a) eqn:E; [|congruence]. destruct (members false l) eqn:M; [|congruence]. intros _.
    constructor; [apply Ha; congruence|]. apply (IH false). congruence.
  - intros F. inversion F; subst. destruct (value a) eqn:E; [|exfalso; apply Ha in H1; congruence].
    destruct (members false l) eqn:M; [discriminate|]. exfalso. apply (IH false) in H2. congruence.
Qed.
Lemma entries_some l : Forall (fun kv => forall v, snd kv = Some v -> value v <> None <-> complete v) l ->
  forall f, entries f l <> None <-> Forall (fun kv : string * option aval => exists v, snd kv = Some v /\ complete v) l.
Proof.
  induction 1 as [|[k o] l Ha Hl IH]; intros f; cbn [entries]. { split; [constructor|discriminate]. }
  cbn [snd] in Ha. split.
  - destruct o as [a|]; [|congruence]. destruct (value a) eqn:E; [|congruence]. destruct (entries false l) eqn:M; [|congruence]. intros _.
    constructor; [exists a; split; [reflexivity|apply (Ha a eq_refl); congruence]|]. apply (IH false). congruence.
  - intros F. inversion F as [|? ? (v & Ev & Cv) F']; subst. cbn [snd] in Ev. subst o.
    destruct (value v) eqn:E; [|exfalso; apply (Ha v eq_refl) in Cv; congruence].
    destruct (entries false l) eqn:M; [discriminate|]. exfalso. apply (IH false) in F'. congruence.
Qed.
Lemma value_complete : forall v, value v <> None <-> complete v.
Proof.
  apply (aval_nest (fun v => value v <> None <-> complete v)).
  1-6: intros; split; [constructor|discriminate].
  - intros l F. rewrite value_arr. pose proof (members_some l F true) as M. destruct (members true l); split.
    + intros _. constructor. apply M. discriminate.
    + discriminate.
    + congruence.
    + intros C. inversion C; subst. apply M in H0. congruence.
  - intros l F. rewrite value_kv. pose proof (entries_some l F true) as M. destruct (entries true l); split.
    + intros _. constructor. apply M. discriminate.
    + discriminate.
    + congruence.
    + intros C. inversion C; subst. apply M in H0. congruence.
Qed.

(* ---------------------------------------------------------------- reading plain values back *)
Definition stop (r : string) : Prop := match r with EmptyString => True | String c _ => digit_or_minus c = false end.
Definition opens (c : ascii) : Prop := c <> "]"%char /\ c <> ","%char /\ c <> " "%char.

Lemma digits_stop a a' r r' : (forall c, str_mem c a = true -> digit_or_minus c = true) ->
  (forall c, str_mem c a' = true -> digit_or_minus c = true) -> stop r -> stop r' -> a ^^ r = a' ^^ r' -> a = a' /\ r = r'.
Proof.
  revert a'. induction a as [|c a IH]; intros [|c' a'] D D' S S' H; cbn [append] in H.
  - auto.
  - subst r. cbn in S. rewrite (D' c') in S; [discriminate|]. cbn. rewrite Ascii.eqb_refl. reflexivity.
  - subst r'. cbn in S'. rewrite (D c) in S'; [discriminate|]. cbn. rewrite Ascii.eqb_refl. reflexivity.
  - injection H as -> H. destruct (IH a') as [-> ->]; auto.
    + intros d Hd. apply D. cbn. rewrite Hd. apply orb_true_r.
    + intros d Hd. apply D'. cbn. rewrite Hd. apply orb_true_r.
Qed.

Lemma show_Z_head z : exists c s, show_Z z = String c s /\ digit_or_minus c = true.
Proof.
  destruct (show_Z z) as [|c s] eqn:E.
  - exfalso. unfold show_Z in E. destruct (Z.to_int z) as [d|d] eqn:D; [|discriminate E].
    destruct d; cbn in E; try discriminate E.
    assert (Z.of_int (Z.to_int z) = z) by apply DecimalZ.of_to. rewrite D in H. cbn in H. subst z. discriminate D.
  - exists c, s. split; auto. apply (show_Z_digits z). rewrite E. cbn. rewrite Ascii.eqb_refl. reflexivity.
Qed.

Lemma plain_head v x : plain v -> value v = Some x -> exists c s, x = String c s /\ opens c /\
  match v with
  | VStr _ => c = dquote
  | VBool b => c = if b then "t"%char else "f"%char
  | VInt _ => digit_or_minus c = true
  | VArr _ => c = "["%char
  | VKv _ => c = "{"%char
  | _ => False
  end.
Proof.
  intros Pl H. destruct v; inversion Pl; subst.
  - apply some_inj in H as <-. eexists dquote, _. split; [reflexivity|]. split; [repeat split; discriminate|reflexivity].
  - apply some_inj in H as <-. destruct b; (eexists _, _; split; [reflexivity|]; split; [repeat split; discriminate|reflexivity]).
  - apply some_inj in H as <-. destruct (show_Z_head z) as (c & s & E & D). exists c, s. split; [exact E|]. split; [|exact D].
    repeat split; intros ->; discriminate D.
  - rewrite value_arr in H. destruct (members true l); [|discriminate]. apply some_inj in H as <-.
    eexists "["%char, _. split; [reflexivity|]. split; [repeat split; discriminate|reflexivity].
  - rewrite value_kv in H. destruct (entries true l); [|discriminate]. apply some_inj in H as <-.
    eexists "{"%char, _. split; [reflexivity|]. split; [repeat split; discriminate|reflexivity].
Qed.

Lemma no_blank_mem k : no_blank k -> str_mem " " k = false.
Proof.
  intros H. destruct (str_mem " " k) eqn:E; auto. exfalso. apply H. clear H. induction k as [|c k IH]; [discriminate|].
  cbn in E. apply orb_true_iff in E as [E|E]; [left; symmetry; apply Ascii.eqb_eq; exact E|right; auto].
Qed.

Definition readable (v : aval) : Prop := forall v' x x' r r', plain v -> plain v' -> value v = Some x -> value v' = Some x' ->
  stop r -> stop r' -> x ^^ r = x' ^^ r' -> v = v' /\ r = r'.

Lemma stop_members l y r : members false l = Some y -> stop (y ^^ "]" ^^ r).
Proof.
  destruct l as [|a l]; cbn [members]; [intros H; apply some_inj in H as <-; reflexivity|].
  destruct (value a); [|discriminate]. destruct (members false l); [|discriminate].
  intros H; apply some_inj in H as <-. reflexivity.
Qed.
Lemma stop_entries l y r : entries false l = Some y -> stop (y ^^ " }" ^^ r).
Proof.
  destruct l as [|[k [a|]] l]; cbn [entries]; [intros H; apply some_inj in H as <-; reflexivity| |discriminate].
  destruct (value a); [|discriminate]. destruct (entries false l); [|discriminate].
  intros H; apply some_inj in H as <-. reflexivity.
Qed.

Lemma members_inj l : Forall readable l -> forall f l' y y' r r', Forall plain l -> Forall plain l' ->
  members f l = Some y -> members f l' = Some y' -> y ^^ "]" ^^ r = y' ^^ "]" ^^ r' -> l = l' /\ r = r'.
Proof.
  induction 1 as [|a l Ra Rl IH]; intros f l' y y' r r' P P' M M' H.
  - cbn [members] in M. apply some_inj in M as <-. destruct l' as [|a' l']; cbn [members] in M'.
    { apply some_inj in M' as <-. cbn in H. injection H as ->. auto. }
    exfalso. inversion P' as [|? ? Pa Pl]; subst. destruct (value a') as [x'|] eqn:E'; [|discriminate].
    destruct (members false l') as [z'|]; [|discriminate]. apply some_inj in M' as <-.
    destruct f; [|discriminate H]. apply plain_head in E' as (c & s & -> & (O1 & _) & _); [|exact Pa].
    cbn in H. injection H as H _. congruence.
  - inversion P as [|? ? Pa Pl]; subst. cbn [members] in M. destruct (value a) as [x|] eqn:E; [|discriminate].
    destruct (members false l) as [z|] eqn:Z; [|discriminate]. apply some_inj in M as <-.
    destruct l' as [|a' l']; cbn [members] in M'.
    { exfalso. apply some_inj in M' as <-. destruct f; [|discriminate H].
      apply plain_head in E as (c & s & -> & (O1 & _) & _); [|exact Pa]. cbn in H. injection H as H _. congruence. }
    inversion P' as [|? ? Pa' Pl']; subst. destruct (value a') as [x'|] eqn:E'; [|discriminate].
    destruct (members false l') as [z'|] eqn:Z'; [|discriminate]. apply some_inj in M' as <-.
    rewrite !append_assoc in H. apply append_inj_l in H.
    apply (Ra a' x x' _ _ Pa Pa' E E') in H; [|eapply stop_members; eauto|eapply stop_members; eauto].
    destruct H as [-> H]. apply (IH false l' z z' r r' Pl Pl' Z Z') in H as [-> ->]. auto.
Qed.

Definition entry_plain (kv : string * option aval) : Prop := no_blank (fst kv) /\ exists v, snd kv = Some v /\ plain v.
Lemma entries_inj l : Forall (fun kv => forall v, snd kv = Some v -> readable v) l ->
  forall f l' y y' r r', (f = true -> l <> [] /\ l' <> []) -> Forall entry_plain l -> Forall entry_plain l' ->
  entries f l = Some y -> entries f l' = Some y' -> y ^^ " }" ^^ r = y' ^^ " }" ^^ r' -> l = l' /\ r = r'.
Proof.
  induction 1 as [|[k o] l Ra Rl IH]; intros f l' y y' r r' F P P' M M' H.
  - cbn [entries] in M. apply some_inj in M as <-. destruct l' as [|[k' o'] l']; cbn [entries] in M'.
    { apply some_inj in M' as <-. cbn in H. injection H as ->. auto. }
    exfalso. destruct o' as [a'|]; [|discriminate]. destruct (value a') as [x'|] eqn:E'; [|discriminate].
    destruct (entries false l') as [z'|]; [|discriminate]. apply some_inj in M' as <-.
    destruct f; [destruct (F eq_refl); congruence|discriminate H].
  - inversion P as [|? ? (Bk & v & Ev & Pv) Pl]; subst. cbn [fst snd] in *. subst o. cbn [entries] in M.
    destruct (value v) as [x|] eqn:E; [|discriminate].
    destruct (entries false l) as [z|] eqn:Z; [|discriminate]. apply some_inj in M as <-.
    destruct l' as [|[k' o'] l']; cbn [entries] in M'.
    { exfalso. apply some_inj in M' as <-. destruct f; [destruct (F eq_refl); congruence|discriminate H]. }
    inversion P' as [|? ? (Bk' & v' & Ev' & Pv') Pl']; subst. cbn [fst snd] in *. subst o'.
    destruct (value v') as [x'|] eqn:E'; [|discriminate].
    destruct (entries false l') as [z'|] eqn:Z'; [|discriminate]. apply some_inj in M' as <-.
    rewrite !append_assoc in H. apply append_inj_l in H.
    change (k ^^ String " " ("= " ^^ x ^^ z ^^ " }" ^^ r) = k' ^^ String " " ("= " ^^ x' ^^ z' ^^ " }" ^^ r')) in H.
    apply split_sep in H as [-> H]; [|apply no_blank_mem; assumption|apply no_blank_mem; assumption].
    apply append_inj_l in H.
    apply (Ra v eq_refl v' x x' _ _ Pv Pv' E E') in H; [|eapply stop_entries; eauto|eapply stop_entries; eauto].
    destruct H as [-> H]. apply (IH false l' z z' r r') in H as [-> ->]; auto. discriminate.
Qed.

Lemma plain_readable : forall v, readable v.
Proof.
  apply (aval_nest readable); unfold readable.
  1-6: intros; try (match goal with H : plain _ |- _ => solve [inversion H] end).
  - destruct (plain_head _ _ H H1) as (c & t & Hc & _ & K). destruct (plain_head _ _ H0 H2) as (c' & t' & Hc' & _ & K').
    subst x x'. injection H5 as <- H5. subst c.
    destruct v'; try contradiction; try (discriminate K'); try (destruct b; discriminate K').
    cbn [Render.value] in H1, H2. apply some_inj in H1, H2.
    assert (Q : quote is_print s ^^ r = quote is_print s0 ^^ r') by (rewrite H1, H2; cbn [append]; rewrite H5; reflexivity).
    apply quote_inj in Q as [-> ->]. auto.
  - destruct (plain_head _ _ H H1) as (c & t & Hc & _ & K). destruct (plain_head _ _ H0 H2) as (c' & t' & Hc' & _ & K').
    subst x x'. injection H5 as <- H5. subst c.
    destruct v'; try contradiction; try (destruct b; discriminate K').
    cbn [Render.value] in H1, H2. apply some_inj in H1, H2.
    destruct b, b0; try discriminate K'; injection H1 as <-; injection H2 as <-; cbn [append] in H5; injection H5 as ->; auto.
  - destruct (plain_head _ _ H H1) as (c & t & Hc & _ & K). destruct (plain_head _ _ H0 H2) as (c' & t' & Hc' & _ & K').
    subst x x'. injection H5 as <- H5.
    destruct v'; try contradiction; try (subst c; discriminate K); try (subst c; destruct b; discriminate K).
    cbn [Render.value] in H1, H2. apply some_inj in H1, H2.
    assert (Q : show_Z z ^^ r = show_Z z0 ^^ r') by (rewrite H1, H2; cbn [append]; rewrite H5; reflexivity).
    apply digits_stop in Q as [Q ->]; auto; [apply show_Z_inj in Q as ->; auto| |]; intros d; apply show_Z_digits.
  - intros l R v' x x' r r' P P' V V' S S' H.
    destruct (plain_head _ _ P V) as (c & t & Hc & _ & K). destruct (plain_head _ _ P' V') as (c' & t' & Hc' & _ & K').
    subst x x'. injection H as <- H. subst c.
    destruct v'; try contradiction; try (discriminate K'); try (destruct b; discriminate K').
    rewrite value_arr in V, V'. destruct (members true l) as [y|] eqn:M; [|discriminate].
    destruct (members true l0) as [y'|] eqn:M'; [|discriminate]. apply some_inj in V, V'.
    cbn [append] in V, V'. injection V as <-. injection V' as <-. rewrite !append_assoc in H.
    inversion P; inversion P'; subst.
    apply (members_inj l R true l0 y y' r r') in H as [-> ->]; auto.
  - intros l R v' x x' r r' P P' V V' S S' H.
    destruct (plain_head _ _ P V) as (c & t & Hc & _ & K). destruct (plain_head _ _ P' V') as (c' & t' & Hc' & _ & K').
    subst x x'. injection H as <- H. subst c.
    destruct v'; try contradiction; try (discriminate K'); try (destruct b; discriminate K').
    rewrite value_kv in V, V'. destruct (entries true l) as [y|] eqn:M; [|discriminate].
    destruct (entries true l0) as [y'|] eqn:M'; [|discriminate]. apply some_inj in V, V'.
    cbn [append] in V, V'. injection V as <-. injection V' as <-. rewrite !append_assoc in H.
    inversion P as [| | | |? Pl E1]; inversion P' as [| | | |? Pl' E1']; subst.
    destruct l as [|[k o] l], l0 as [|[k' o'] l0].
    + cbn [entries] in M, M'. apply some_inj in M as <-. apply some_inj in M' as <-. cbn [append] in H. injection H as ->. auto.
    + exfalso. inversion Pl' as [|? ? (_ & w & Ew & _) _]; subst. cbn [snd] in Ew. subst o'.
      cbn [entries] in M, M'. apply some_inj in M as <-. destruct (value w); [|discriminate].
      destruct (entries false l0); [|discriminate]. apply some_inj in M' as <-. discriminate H.
    + exfalso. inversion Pl as [|? ? (_ & w & Ew & _) _]; subst. cbn [snd] in Ew. subst o.
      cbn [entries] in M, M'. apply some_inj in M' as <-. destruct (value w); [|discriminate].
      destruct (entries false l); [|discriminate]. apply some_inj in M as <-. discriminate H.
    + apply (entries_inj _ R true ((k', o') :: l0) y y' r r') in H as [H ->]; auto.
      * rewrite H. auto.
      * intros _. split; discriminate.
Qed.

Lemma attr_inj l l' t : plain (VKv l) -> plain (VKv l') -> attr is_print show_double l = Some t -> attr is_print show_double l' = Some t -> l = l'.
Proof.
  unfold attr. intros P P' H H'. destruct (plain_readable (VKv l) (VKv l') t t "" "" P P' H H') as [E _]; cbn; auto.
  injection E as ->. reflexivity.
Qed.
End Render.
