(** The quoting of the model is the one of Spec/Quoting.v. *)
From Verif.Model Require Import Base Quote.
From Verif.Spec Require Import Quoting.
From Verif.Proofs Require Import BaseFacts QuoteFacts.
Open Scope N_scope.
Local Infix "^^" := append (right associativity, at level 60).

Lemma below (P : N -> bool) n : forallb (fun k => P (N.of_nat k)) (seq 0 n) = true -> forall x, x < N.of_nat n -> P x = true.
Proof.
  intros H x L. rewrite forallb_forall in H. specialize (H (N.to_nat x)). rewrite N2Nat.id in H. apply H, in_seq. lia.
Qed.
Lemma lor128 x : x < 64 -> N.lor 128 x = 128 + x.
Proof. intros H. apply N.eqb_eq. revert x H. apply (below (fun x => N.lor 128 x =? 128 + x) 64). reflexivity. Qed.
Lemma lor192 x : x < 32 -> N.lor 192 x = 192 + x.
Proof. intros H. apply N.eqb_eq. revert x H. apply (below (fun x => N.lor 192 x =? 192 + x) 32). reflexivity. Qed.
Lemma lor224 x : x < 16 -> N.lor 224 x = 224 + x.
Proof. intros H. apply N.eqb_eq. revert x H. apply (below (fun x => N.lor 224 x =? 224 + x) 16). reflexivity. Qed.
Lemma lor240 x : x < 8 -> N.lor 240 x = 240 + x.
Proof. intros H. apply N.eqb_eq. revert x H. apply (below (fun x => N.lor 240 x =? 240 + x) 8). reflexivity. Qed.

Lemma six_spec k r : six k r = String (chr (128 + r / 2 ^ (6 * k) mod 64)) "".
Proof.
  unfold six, byte, chr. rewrite N.shiftr_div_pow2. change 63 with (N.ones 6). rewrite N.land_ones. change (2 ^ 6) with 64.
  rewrite lor128 by (apply N.mod_lt; discriminate). reflexivity.
Qed.

Lemma utf8_encode r : r < 1114112 -> utf8 r = encode r.
Proof.
  intros H. unfold utf8, encode. rewrite !six_spec. rewrite !N.shiftr_div_pow2.
  change (2 ^ (6 * 0)) with 1. change (2 ^ (6 * 1)) with 64. change (2 ^ (6 * 2)) with 4096.
  change (2 ^ 6) with 64. change (2 ^ 12) with 4096. change (2 ^ 18) with 262144. rewrite N.div_1_r.
  destruct (N.leb_spec r 127) as [A|A].
  { rewrite (proj2 (N.ltb_lt r 128)) by lia. reflexivity. }
  rewrite (proj2 (N.ltb_ge r 128)) by lia.
  destruct (N.leb_spec r 2047) as [B|B].
  { rewrite (proj2 (N.ltb_lt r 2048)) by lia. rewrite lor192 by (apply N.div_lt_upper_bound; lia). reflexivity. }
  rewrite (proj2 (N.ltb_ge r 2048)) by lia.
  destruct (N.leb_spec r 65535) as [C|C].
  { rewrite (proj2 (N.ltb_lt r 65536)) by lia. rewrite lor224 by (apply N.div_lt_upper_bound; lia). reflexivity. }
  rewrite (proj2 (N.ltb_ge r 65536)) by lia. rewrite lor240 by (apply N.div_lt_upper_bound; lia). reflexivity.
Qed.

Lemma decode_scalar c s r t : decode (N_of_ascii c) s = (PRune r, t) -> scalar r.
Proof.
  intros D. destruct (decode_spec _ _ _ _ D) as (W & _ & _). cbn [well_formed] in W. split; [exact W|]. intros B. revert D.
  pose proof (ascii_range c) as Hc. unfold decode. set (b := N_of_ascii c) in *. clearbody b.
  destruct (b <? 128) eqn:E0. { intros H. apply pair_inj in H as [H _]. injection H as H. rng. lia. }
  destruct (within 194 223 b) eqn:E1.
  { destruct s as [|c1 s1]; [discriminate|]. cbv zeta. destruct (cont (N_of_ascii c1)) eqn:Q; [|discriminate].
    intros H. apply pair_inj in H as [H _]. injection H as H. rng. lia. }
  destruct (within 224 239 b) eqn:E2.
  { destruct s as [|c1 [|c2 s2]]; [discriminate|discriminate|]. cbv zeta.
    destruct (second3 b (N_of_ascii c1) && cont (N_of_ascii c2)) eqn:Q; [|discriminate].
    intros H. apply pair_inj in H as [H _]. injection H as H. set (n1 := N_of_ascii c1) in *. set (n2 := N_of_ascii c2) in *. clearbody n1 n2.
    apply andb_true_iff in Q as [Q Q2]. unfold within in E2. apply andb_true_iff in E2 as [E2 E3]. apply N.leb_le in E2, E3.
    unfold cont, within in Q2. apply andb_true_iff in Q2 as [Q2 Q3]. apply N.leb_le in Q2, Q3.
    unfold second3, within in Q. destruct (N.eqb_spec b 224) as [ -> |NA]; [|destruct (N.eqb_spec b 237) as [ -> |NB]];
      apply andb_true_iff in Q as [Q Q1]; apply N.leb_le in Q, Q1; clear E0 E1; lia. }
  destruct (within 240 244 b) eqn:E3.
  { destruct s as [|c1 [|c2 [|c3 s3]]]; [discriminate|discriminate|discriminate|]. cbv zeta.
    destruct (second4 b (N_of_ascii c1) && cont (N_of_ascii c2) && cont (N_of_ascii c3)) eqn:Q; [|discriminate].
    intros H. apply pair_inj in H as [H _]. injection H as H. set (n1 := N_of_ascii c1) in *. set (n2 := N_of_ascii c2) in *. set (n3 := N_of_ascii c3) in *. clearbody n1 n2 n3.
    clear E0 E1 E2. rng; lia. }
  discriminate.
Qed.

Lemma within_true lo hi b : lo <= b <= hi -> within lo hi b = true.
Proof. intros [A B]. unfold within. apply andb_true_iff. split; apply N.leb_le; assumption. Qed.
Lemma within_above lo hi b : hi < b -> within lo hi b = false.
Proof. intros A. unfold within. apply andb_false_iff. right. apply N.leb_gt. assumption. Qed.

Ltac gl := repeat match goal with
  | |- context [?a mod ?b] => generalize dependent (a mod b); intros
  | H : context [?a mod ?b] |- _ => generalize dependent (a mod b); intros
  | |- context [?a / ?b] => generalize dependent (a / b); intros
  | H : context [?a / ?b] |- _ => generalize dependent (a / b); intros end; lia.
Lemma decode_encode r s : scalar r -> exists c t, encode r ^^ s = String c t /\ decode (N_of_ascii c) t = (PRune r, s).
Proof.
  intros [H NS]. unfold encode. destruct (N.ltb_spec r 128) as [A|A].
  { eexists _, _. split; [reflexivity|]. rewrite of_chr by lia. unfold decode. rewrite (proj2 (N.ltb_lt r 128)) by lia. reflexivity. }
  assert (M : forall x, 128 + x mod 64 < 256) by (intros x; assert (x mod 64 < 64) by (apply N.mod_lt; discriminate); lia).
  assert (C : forall x, cont (128 + x mod 64) = true) by (intros x; assert (x mod 64 < 64) by (apply N.mod_lt; discriminate); unfold cont; apply within_true; generalize dependent (x mod 64); intros; lia).
  destruct (N.ltb_spec r 2048) as [B|B].
  { pose proof (N.div_mod r 64 ltac:(discriminate)) as E. assert (2 <= r / 64 < 32) by (split; [apply N.div_le_lower_bound; lia|apply N.div_lt_upper_bound; lia]).
    pose proof (N.mod_lt r 64 ltac:(discriminate)). eexists _, _. split; [reflexivity|]. rewrite of_chr by gl. unfold decode.
    rewrite (proj2 (N.ltb_ge _ 128)) by gl. rewrite (within_true 194 223) by gl. cbn [append]. rewrite !of_chr by apply M. cbv zeta.
    rewrite C. f_equal. f_equal. gl. }
  destruct (N.ltb_spec r 65536) as [D|D].
  { pose proof (N.div_mod r 64 ltac:(discriminate)) as E. pose proof (N.div_mod (r / 64) 64 ltac:(discriminate)) as E'. pose proof (N.mod_lt r 64 ltac:(discriminate)). pose proof (N.mod_lt (r / 64) 64 ltac:(discriminate)).
    rewrite N.div_div in E' by discriminate. change (64 * 64) with 4096 in E'.
    assert (R : r / 4096 < 16) by (apply N.div_lt_upper_bound; lia).
    eexists _, _. split; [reflexivity|]. rewrite of_chr by gl. unfold decode.
    rewrite (proj2 (N.ltb_ge _ 128)) by gl. rewrite (within_above 194 223) by gl. rewrite (within_true 224 239) by gl. cbn [append].
    rewrite !of_chr by apply M. cbv zeta. rewrite C, andb_true_r.
    assert (S3 : second3 (224 + r / 4096) (128 + r / 64 mod 64) = true).
    { unfold second3. destruct (N.eqb_spec (224 + r / 4096) 224); [apply within_true; gl|].
      destruct (N.eqb_spec (224 + r / 4096) 237); apply within_true; gl. }
    rewrite S3. f_equal. f_equal. gl. }
  pose proof (N.div_mod r 64 ltac:(discriminate)) as E. pose proof (N.div_mod (r / 64) 64 ltac:(discriminate)) as E'. pose proof (N.div_mod (r / 4096) 64 ltac:(discriminate)) as E''.
  pose proof (N.mod_lt r 64 ltac:(discriminate)). pose proof (N.mod_lt (r / 64) 64 ltac:(discriminate)). pose proof (N.mod_lt (r / 4096) 64 ltac:(discriminate)).
  rewrite N.div_div in E', E'' by discriminate. change (64 * 64) with 4096 in E'. change (4096 * 64) with 262144 in E''.
  assert (R : r / 262144 < 5) by (apply N.div_lt_upper_bound; lia).
  eexists _, _. split; [reflexivity|]. rewrite of_chr by gl. unfold decode.
  rewrite (proj2 (N.ltb_ge _ 128)) by gl. rewrite (within_above 194 223), (within_above 224 239) by gl. rewrite (within_true 240 244) by gl. cbn [append].
  rewrite !of_chr by apply M. cbv zeta. rewrite !C, !andb_true_r.
  assert (S4 : second4 (240 + r / 262144) (128 + r / 4096 mod 64) = true).
  { unfold second4. destruct (N.eqb_spec (240 + r / 262144) 240); [apply within_true; gl|].
    destruct (N.eqb_spec (240 + r / 262144) 244); apply within_true; gl. }
  rewrite S4. f_equal. f_equal. gl.
Qed.

Lemma hexdigit_spec d : d < 16 -> hexdigit d = String (lowerhex d) "".
Proof. intros H. apply String.eqb_eq. revert d H. apply (below (fun d => String.eqb (hexdigit d) (String (lowerhex d) "")) 16). reflexivity. Qed.
Lemma hexdigits_step n r : hexdigits (S n) r = hexdigits n (r / 16) ^^ String (lowerhex (r mod 16)) "".
Proof.
  cbn [hexdigits]. rewrite N.shiftr_div_pow2. change 15 with (N.ones 4). rewrite N.land_ones. change (2 ^ 4) with 16.
  rewrite hexdigit_spec by (apply N.mod_lt; discriminate). reflexivity.
Qed.
Lemma hexdigits2 r : r < 256 -> hexdigits 2 r = hex2 r.
Proof.
  intros H. rewrite !hexdigits_step. cbn [hexdigits append]. unfold hex2.
  rewrite (N.mod_small (r / 16)) by (apply N.div_lt_upper_bound; lia). reflexivity.
Qed.
Lemma hexdigits4 r : r < 65536 -> hexdigits 4 r = hex4 r.
Proof.
  intros H. rewrite !hexdigits_step. cbn [hexdigits append]. unfold hex4, hex2. cbn [append]. rewrite !N.div_div by discriminate.
  change (16 * 16 * 16) with 4096. change (16 * 16) with 256. change (256 * 16) with 4096.
  rewrite (N.mod_small (r / 4096)) by (apply N.div_lt_upper_bound; lia).
  replace (r mod 256 / 16) with (r / 16 mod 16) by (zify; Z.to_euclidean_division_equations; lia).
  replace (r mod 256 mod 16) with (r mod 16) by (zify; Z.to_euclidean_division_equations; lia). reflexivity.
Qed.
Lemma hexdigits_app m n r : hexdigits (m + n) r = hexdigits m (r / 16 ^ N.of_nat n) ^^ hexdigits n r.
Proof.
  revert r. induction n as [|n IH]; intros r.
  - rewrite Nat.add_0_r, N.div_1_r. cbn [hexdigits]. rewrite append_nil_r. reflexivity.
  - rewrite Nat.add_succ_r, !hexdigits_step, IH, append_assoc. f_equal. f_equal. rewrite N.div_div by (try apply N.pow_nonzero; discriminate).
    f_equal. rewrite Nat2N.inj_succ, N.pow_succ_r'. reflexivity.
Qed.
Lemma hexdigits_mod n r : hexdigits n (r mod 16 ^ N.of_nat n) = hexdigits n r.
Proof.
  revert r. induction n as [|n IH]; intros r; [reflexivity|]. rewrite !hexdigits_step. rewrite Nat2N.inj_succ, N.pow_succ_r'.
  assert (P : 16 ^ N.of_nat n <> 0) by (apply N.pow_nonzero; discriminate).
  rewrite (N.mod_mul_r r 16) by (auto; discriminate). f_equal.
  - rewrite (N.mul_comm 16), N.div_add by discriminate. rewrite (N.div_small (r mod 16)) by (apply N.mod_lt; discriminate).
    rewrite N.add_0_l. apply IH.
  - rewrite (N.mul_comm 16), N.mod_add by discriminate. rewrite N.mod_mod by discriminate. reflexivity.
Qed.
Lemma hexdigits8 r : r < 4294967296 -> hexdigits 8 r = hex8 r.
Proof.
  intros H. change 8%nat with (4 + 4)%nat. rewrite hexdigits_app. change (16 ^ N.of_nat 4) with 65536.
  rewrite hexdigits4 by (apply N.div_lt_upper_bound; lia). rewrite <- (hexdigits_mod 4 r). change (16 ^ N.of_nat 4) with 65536.
  rewrite hexdigits4 by (apply N.mod_lt; discriminate). reflexivity.
Qed.

Section Quote.
Context (is_print : N -> bool).

Lemma printable_spec r : (if r <? 128 then within 32 126 r else is_print r) = true <-> printable is_print r.
Proof.
  unfold printable, within. destruct (N.ltb_spec r 128) as [A|A].
  - rewrite andb_true_iff, !N.leb_le. split; [auto|]. intros [B|B]; lia.
  - split; [intros B; right; split; [lia|exact B]|]. intros [B|[_ B]]; [lia|exact B].
Qed.
Lemma escape_escaped r : r < 1114112 -> escape is_print r (escaped_rune is_print r).
Proof.
  intros H. unfold escaped_rune.
  destruct (N.eqb_spec r 34) as [->|N1]; [apply EscNamed; cbn; tauto|].
  destruct (N.eqb_spec r 92) as [->|N2]; [apply EscNamed; cbn; tauto|]. cbn [orb].
  destruct (if r <? 128 then within 32 126 r else is_print r) eqn:P.
  { apply printable_spec in P. rewrite <- utf8_encode by exact H. apply EscSelf; [exact P|].
    intros I. cbn in I. destruct P as [P|P]; repeat destruct I as [I|I]; try lia; contradiction. }
  assert (NP : ~ printable is_print r) by (intros Q; apply printable_spec in Q; congruence). clear P.
  repeat match goal with |- context [if r =? ?k then _ else _] => destruct (N.eqb_spec r k) as [->|?]; [apply EscNamed; cbn; tauto|] end.
  assert (NN : ~ In r (map fst named)) by (intros I; cbn in I; repeat destruct I as [I|I]; try lia; contradiction).
  destruct ((r <? 32) || (r =? 127)) eqn:C.
  { apply orb_true_iff in C. assert (r < 128) by (destruct C as [C|C]; [apply N.ltb_lt in C|apply N.eqb_eq in C]; lia).
    rewrite <- hexdigits2 by lia. change (String backslash (String "x" (hexdigits 2 r))) with ("\x" ^^ hexdigits 2 r). apply EscX; auto. }
  apply orb_false_iff in C as [C1 C2]. apply N.ltb_ge in C1. apply N.eqb_neq in C2.
  assert (128 <= r) by (unfold printable in NP; lia).
  destruct (N.ltb_spec r 65536) as [D|D].
  - rewrite <- hexdigits4 by lia. change (String backslash (String "u" (hexdigits 4 r))) with ("\u" ^^ hexdigits 4 r). apply EscLittleU; auto.
  - rewrite <- hexdigits8 by lia. change (String backslash (String "U" (hexdigits 8 r))) with ("\U" ^^ hexdigits 8 r). apply EscBigU; auto.
Qed.
Lemma named_small r : In r (map fst named) -> r < 128.
Proof. cbn. intuition lia. Qed.
Lemma escape_fun r a b : escape is_print r a -> escape is_print r b -> a = b.
Proof.
  assert (NF : forall t t', In (r, t) named -> In (r, t') named -> t = t').
  { intros t t' I I'. cbn in I, I'. repeat destruct I as [I|I]; try contradiction; injection I as I <-; subst r; repeat destruct I' as [I'|I']; try contradiction; congruence. }
  assert (NI : forall t, In (r, t) named -> In r (map fst named)) by (intros t I; apply (in_map fst) in I; exact I).
  intros H H'. inversion H; subst; inversion H'; subst; try reflexivity; try contradiction; try lia; eauto;
    try (exfalso; match goal with I : In (r, _) named |- _ => apply NI in I; try contradiction; apply named_small in I; lia end).
Qed.

Lemma quoted_body_spec : forall n s, (String.length s <= n)%nat -> quoted is_print s (quoted_body is_print n s).
Proof.
  induction n as [|n IH]; intros s L; destruct s as [|c s]; try constructor; [simpl in L; lia|]. cbn [quoted_body].
  destruct (decode (N_of_ascii c) s) as [p t] eqn:D. pose proof (decode_spec _ _ _ _ D) as (W & E & Lt). simpl in L.
  destruct p as [r|b]; cbn [quoted_piece well_formed bytes_of] in *.
  - pose proof (decode_scalar _ _ _ _ D) as Sc. rewrite E, <- utf8_encode by exact W. apply QScalar; [exact Sc|apply escape_escaped, W|apply IH; lia].
  - cbn [append] in E. injection E as Ec Et. subst t.
    change (String backslash (String "x" (hex2 b)) ^^ quoted_body is_print n s) with ("\x" ^^ hex2 b ^^ quoted_body is_print n s).
    assert (Eb : N_of_ascii c = b) by (rewrite Ec; apply of_chr; lia).
    rewrite <- hexdigits2, <- Eb by lia. apply QByte; [|apply IH; lia].
    intros r s' Sc K. rewrite utf8_encode in K by apply Sc. destruct (decode_encode r s' Sc) as (c' & t' & K1 & K2). rewrite K1 in K. injection K as <- <-. congruence.
Qed.
Lemma quoted_fun s t : quoted is_print s t -> forall n, (String.length s <= n)%nat -> quoted_body is_print n s = t.
Proof.
  induction 1 as [|r e s t Sc Es Q IH|c s t NB Q IH]; intros n L.
  - destruct n; reflexivity.
  - rewrite utf8_encode in * by apply Sc. destruct (decode_encode r s Sc) as (c' & t' & K1 & K2). rewrite K1 in *.
    destruct n as [|n]; [simpl in L; lia|]. cbn [quoted_body]. rewrite K2. cbn [quoted_piece]. simpl in L.
    destruct (decode_spec _ _ _ _ K2) as (_ & _ & Lt). rewrite IH by lia. f_equal.
    eapply escape_fun; [apply escape_escaped, Sc|exact Es].
  - destruct n as [|n]; [simpl in L; lia|]. cbn [quoted_body]. simpl in L.
    destruct (decode (N_of_ascii c) s) as [p t'] eqn:D. pose proof (decode_spec _ _ _ _ D) as (W & E & Lt).
    destruct p as [r|b]; cbn [quoted_piece well_formed bytes_of] in *.
    + exfalso. eapply NB; [exact (decode_scalar _ _ _ _ D)|]. rewrite utf8_encode by exact W. exact E.
    + cbn [append] in E. injection E as Ec Et. subst t'. assert (Eb : N_of_ascii c = b) by (rewrite Ec; apply of_chr; lia).
      rewrite IH by lia. rewrite Eb, hexdigits2 by lia. reflexivity.
Qed.
Lemma quote_quoted s q : quote is_print s = q <-> exists t, quoted is_print s t /\ q = """" ^^ t ^^ """".
Proof.
  split.
  - intros <-. exists (quoted_body is_print (String.length s) s). split; [apply quoted_body_spec; lia|reflexivity].
  - intros (t & Q & ->). unfold quote. rewrite (quoted_fun _ _ Q) by lia. reflexivity.
Qed.
End Quote.
