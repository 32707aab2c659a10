(** strconv.Quote loses nothing: what is behind a quoted string, and the string, can be read back. *)
From Verif.Model Require Import Base Quote.
From Verif.Proofs Require Import BaseFacts.

Definition ascii_range c : N_of_ascii c < 256.
Proof. apply N_ascii_bounded. Qed.

Lemma chr_of c : chr (N_of_ascii c) = c.
Proof. apply ascii_N_embedding. Qed.
Lemma of_chr n : n < 256 -> N_of_ascii (chr n) = n.
Proof. apply N_ascii_embedding. Qed.

Definition well_formed (p : piece) : Prop :=
  match p with PRune r => r < 1114112 | PBad b => 128 <= b < 256 end.
Definition bytes_of (p : piece) : string := match p with PRune r => encode r | PBad b => String (chr b) "" end.

Ltac rng := unfold cont, second3, second4, within in *;
  repeat match goal with H : (_ && _) = true |- _ => apply andb_true_iff in H as [? ?]
  | H : context [if ?a =? ?b then _ else _] |- _ => destruct (N.eqb_spec a b)
  | H : (_ <=? _) = true |- _ => apply N.leb_le in H
  | H : (_ <? _) = true |- _ => apply N.ltb_lt in H
  | H : (_ <? _) = false |- _ => apply N.ltb_ge in H end.

Ltac nia' := zify; Z.to_euclidean_division_equations; lia.

Lemma decode_spec c s p t : decode (N_of_ascii c) s = (p, t) ->
  well_formed p /\ String c s = append (bytes_of p) t /\ (String.length t <= String.length s)%nat.
Proof.
  pose proof (ascii_range c) as Hc. unfold decode. set (b := N_of_ascii c) in *.
  assert (Ec : c = chr b) by (unfold b; symmetry; apply chr_of). clearbody b.
  destruct (b <? 128) eqn:E0.
  { intros H; apply pair_inj in H as [<- <-]. rng. cbn [well_formed bytes_of]. unfold encode.
    rewrite (proj2 (N.ltb_lt b 128)) by lia. cbn [append]. rewrite <- Ec. repeat split; auto; lia. }
  assert (Bad : forall s', well_formed (PBad b) /\ String c s' = append (bytes_of (PBad b)) s' /\ (String.length s' <= String.length s')%nat).
  { intros s'. rng. cbn [well_formed bytes_of append]. rewrite Ec. repeat split; auto; lia. }
  destruct (within 194 223 b) eqn:E1.
  { destruct s as [|c1 s1]. { intros H; apply pair_inj in H as [<- <-]; apply Bad. }
    pose proof (ascii_range c1). cbv zeta. destruct (cont (N_of_ascii c1)) eqn:Q.
    2: { intros H'; apply pair_inj in H' as [<- <-]; apply Bad. }
    intros H'; apply pair_inj in H' as [<- <-]. rng. cbn [well_formed bytes_of].
    set (n1 := N_of_ascii c1) in *. assert (E1' : c1 = chr n1) by (unfold n1; symmetry; apply chr_of).
    assert (R : 128 <= (b - 192) * 64 + (n1 - 128) < 2048) by lia.
    split; [lia|]. split; [|simpl; lia].
    unfold encode. rewrite (proj2 (N.ltb_ge _ 128)) by lia. rewrite (proj2 (N.ltb_lt _ 2048)) by lia. cbn [append].
    replace (192 + ((b - 192) * 64 + (n1 - 128)) / 64) with b by nia'.
    replace (128 + ((b - 192) * 64 + (n1 - 128)) mod 64) with n1 by nia'.
    rewrite <- Ec, <- E1'. reflexivity. }
  destruct (within 224 239 b) eqn:E2.
  { destruct s as [|c1 s1]. { intros H; apply pair_inj in H as [<- <-]; apply Bad. }
    destruct s1 as [|c2 s2]. { intros H; apply pair_inj in H as [<- <-]; apply Bad. }
    pose proof (ascii_range c1). pose proof (ascii_range c2). cbv zeta.
    destruct (second3 b (N_of_ascii c1) && cont (N_of_ascii c2)) eqn:Q.
    2: { intros H'; apply pair_inj in H' as [<- <-]; apply Bad. }
    intros H'; apply pair_inj in H' as [<- <-]. cbn [well_formed bytes_of].
    set (n1 := N_of_ascii c1) in *. assert (E1' : c1 = chr n1) by (unfold n1; symmetry; apply chr_of).
    set (n2 := N_of_ascii c2) in *. assert (E2' : c2 = chr n2) by (unfold n2; symmetry; apply chr_of).
    assert (B1 : 128 <= n1 < 192 /\ 128 <= n2 < 192 /\ 224 <= b <= 239 /\ (b = 224 -> 160 <= n1)) by (clear - Q E2; rng; lia).
    clear Q E0 E1 E2 Bad.
    set (r := (b - 224) * 4096 + (n1 - 128) * 64 + (n2 - 128)).
    assert (R : 2048 <= r < 65536) by (unfold r; lia).
    split; [lia|]. split; [|simpl; lia].
    unfold encode. rewrite (proj2 (N.ltb_ge _ 128)) by lia. rewrite (proj2 (N.ltb_ge _ 2048)) by lia.
    rewrite (proj2 (N.ltb_lt _ 65536)) by lia. cbn [append]. unfold r.
    replace (224 + ((b - 224) * 4096 + (n1 - 128) * 64 + (n2 - 128)) / 4096) with b by nia'.
    replace (128 + ((b - 224) * 4096 + (n1 - 128) * 64 + (n2 - 128)) / 64 mod 64) with n1 by nia'.
    replace (128 + ((b - 224) * 4096 + (n1 - 128) * 64 + (n2 - 128)) mod 64) with n2 by nia'.
    rewrite <- Ec, <- E1', <- E2'. reflexivity. }
  destruct (within 240 244 b) eqn:E3.
  { destruct s as [|c1 s1]. { intros H; apply pair_inj in H as [<- <-]; apply Bad. }
    destruct s1 as [|c2 s2]. { intros H; apply pair_inj in H as [<- <-]; apply Bad. }
    destruct s2 as [|c3 s3]. { intros H; apply pair_inj in H as [<- <-]; apply Bad. }
    pose proof (ascii_range c1). pose proof (ascii_range c2). pose proof (ascii_range c3). cbv zeta.
    destruct (second4 b (N_of_ascii c1) && cont (N_of_ascii c2) && cont (N_of_ascii c3)) eqn:Q.
    2: { intros H'; apply pair_inj in H' as [<- <-]; apply Bad. }
    intros H'; apply pair_inj in H' as [<- <-]. cbn [well_formed bytes_of].
    set (n1 := N_of_ascii c1) in *. assert (E1' : c1 = chr n1) by (unfold n1; symmetry; apply chr_of).
    set (n2 := N_of_ascii c2) in *. assert (E2' : c2 = chr n2) by (unfold n2; symmetry; apply chr_of).
    set (n3 := N_of_ascii c3) in *. assert (E3' : c3 = chr n3) by (unfold n3; symmetry; apply chr_of).
    assert (B1 : 128 <= n1 < 192 /\ 128 <= n2 < 192 /\ 128 <= n3 < 192 /\ 240 <= b <= 244 /\ (b = 240 -> 144 <= n1) /\ (b = 244 -> n1 < 144))
      by (clear - Q E3; rng; lia).
    clear Q E0 E1 E2 E3 Bad.
    set (r := (b - 240) * 262144 + (n1 - 128) * 4096 + (n2 - 128) * 64 + (n3 - 128)).
    assert (R : 65536 <= r < 1114112) by (unfold r; lia).
    split; [lia|]. split; [|simpl; lia].
    unfold encode. rewrite (proj2 (N.ltb_ge _ 128)) by lia. rewrite (proj2 (N.ltb_ge _ 2048)) by lia.
    rewrite (proj2 (N.ltb_ge _ 65536)) by lia. cbn [append]. unfold r.
    replace (240 + ((b - 240) * 262144 + (n1 - 128) * 4096 + (n2 - 128) * 64 + (n3 - 128)) / 262144) with b by nia'.
    replace (128 + ((b - 240) * 262144 + (n1 - 128) * 4096 + (n2 - 128) * 64 + (n3 - 128)) / 4096 mod 64) with n1 by nia'.
    replace (128 + ((b - 240) * 262144 + (n1 - 128) * 4096 + (n2 - 128) * 64 + (n3 - 128)) / 64 mod 64) with n2 by nia'.
    replace (128 + ((b - 240) * 262144 + (n1 - 128) * 4096 + (n2 - 128) * 64 + (n3 - 128)) mod 64) with n3 by nia'.
    rewrite <- Ec, <- E1', <- E2', <- E3'. reflexivity. }
  intros H; apply pair_inj in H as [<- <-]; apply Bad.
Qed.

(** Reading one piece back. *)
Definition hexval (c : ascii) : N := let n := N_of_ascii c in if n <? 58 then n - 48 else n - 87.
Definition unquote1 (s : string) : option (string * string) :=
  match s with
  | String c t =>
      let n := N_of_ascii c in
      if n =? 34 then None
      else if n =? 92 then
        match t with
        | String e t1 =>
          let k := N_of_ascii e in
          if k =? 120 then
            match t1 with String h1 (String h0 r) => Some (String (chr (hexval h1 * 16 + hexval h0)) "", r) | _ => None end
          else if k =? 117 then
            match t1 with
            | String h3 (String h2 (String h1 (String h0 r))) =>
                Some (encode ((hexval h3 * 16 + hexval h2) * 256 + (hexval h1 * 16 + hexval h0)), r)
            | _ => None end
          else if k =? 85 then
            match t1 with
            | String h7 (String h6 (String h5 (String h4 (String h3 (String h2 (String h1 (String h0 r))))))) =>
                Some (encode (((hexval h7 * 16 + hexval h6) * 256 + (hexval h5 * 16 + hexval h4)) * 65536
                        + ((hexval h3 * 16 + hexval h2) * 256 + (hexval h1 * 16 + hexval h0))), r)
            | _ => None end
          else if k =? 97 then Some (String (chr 7) "", t1)
          else if k =? 98 then Some (String (chr 8) "", t1)
          else if k =? 102 then Some (String (chr 12) "", t1)
          else if k =? 110 then Some (String (chr 10) "", t1)
          else if k =? 114 then Some (String (chr 13) "", t1)
          else if k =? 116 then Some (String (chr 9) "", t1)
          else if k =? 118 then Some (String (chr 11) "", t1)
          else Some (String e "", t1)
        | _ => None
        end
      else if n <? 128 then Some (String c "", t)
      else if n <? 224 then match t with String c1 r => Some (String c (String c1 ""), r) | _ => None end
      else if n <? 240 then match t with String c1 (String c2 r) => Some (String c (String c1 (String c2 "")), r) | _ => None end
      else match t with String c1 (String c2 (String c3 r)) => Some (String c (String c1 (String c2 (String c3 ""))), r) | _ => None end
  | EmptyString => None
  end.

Lemma hexval_lowerhex d : d < 16 -> hexval (lowerhex d) = d.
Proof.
  intros H. unfold hexval, lowerhex. cbv zeta. destruct (d <? 10) eqn:E; rng.
  - rewrite of_chr by lia. rewrite (proj2 (N.ltb_lt _ 58)) by lia. lia.
  - rewrite of_chr by lia. rewrite (proj2 (N.ltb_ge _ 58)) by lia. lia.
Qed.

Lemma unquote_hex2 b t : b < 256 ->
  unquote1 (append (String backslash (String "x" (hex2 b))) t) = Some (String (chr b) "", t).
Proof.
  intros H. unfold hex2. cbn [append].
  change (unquote1 (String backslash (String "x" (String (lowerhex (b / 16)) (String (lowerhex (b mod 16)) t)))))
    with (Some (String (chr (hexval (lowerhex (b / 16)) * 16 + hexval (lowerhex (b mod 16)))) "", t)).
  rewrite !hexval_lowerhex by nia'. repeat f_equal. nia'.
Qed.
Lemma unquote_hex4 r t : r < 65536 ->
  unquote1 (append (String backslash (String "u" (hex4 r))) t) = Some (encode r, t).
Proof.
  intros H. unfold hex4, hex2. cbn [append].
  match goal with |- unquote1 (String _ (String _ (String ?a (String ?b (String ?c (String ?d t)))))) = _ =>
    change (Some (encode ((hexval a * 16 + hexval b) * 256 + (hexval c * 16 + hexval d)), t) = Some (encode r, t)) end.
  rewrite !hexval_lowerhex by nia'. do 3 f_equal. nia'.
Qed.
Lemma unquote_hex8 r t : r < 1114112 ->
  unquote1 (append (String backslash (String "U" (hex8 r))) t) = Some (encode r, t).
Proof.
  intros H. unfold hex8, hex4, hex2. cbn [append].
  match goal with |- unquote1 (String _ (String _ (String ?a (String ?b (String ?c (String ?d
      (String ?e (String ?f (String ?g (String ?h t)))))))))) = _ =>
    change (Some (encode (((hexval a * 16 + hexval b) * 256 + (hexval c * 16 + hexval d)) * 65536
       + ((hexval e * 16 + hexval f) * 256 + (hexval g * 16 + hexval h))), t) = Some (encode r, t)) end.
  rewrite !hexval_lowerhex by nia'. do 3 f_equal. nia'.
Qed.

Lemma unquote_plain r t : r < 1114112 -> r <> 34 -> r <> 92 -> unquote1 (append (encode r) t) = Some (encode r, t).
Proof.
  intros H N1 N2. unfold encode.
  destruct (r <? 128) eqn:E0; [|destruct (r <? 2048) eqn:E1; [|destruct (r <? 65536) eqn:E2]]; rng; cbn [append];
    unfold unquote1; cbv zeta; rewrite of_chr by nia'.
  - rewrite (proj2 (N.eqb_neq _ 34)) by lia. rewrite (proj2 (N.eqb_neq _ 92)) by lia.
    rewrite (proj2 (N.ltb_lt _ 128)) by lia. reflexivity.
  - rewrite (proj2 (N.eqb_neq _ 34)) by nia'. rewrite (proj2 (N.eqb_neq _ 92)) by nia'.
    rewrite (proj2 (N.ltb_ge _ 128)) by nia'. rewrite (proj2 (N.ltb_lt _ 224)) by nia'. reflexivity.
  - rewrite (proj2 (N.eqb_neq _ 34)) by nia'. rewrite (proj2 (N.eqb_neq _ 92)) by nia'.
    rewrite (proj2 (N.ltb_ge _ 128)) by nia'. rewrite (proj2 (N.ltb_ge _ 224)) by nia'.
    rewrite (proj2 (N.ltb_lt _ 240)) by nia'. reflexivity.
  - rewrite (proj2 (N.eqb_neq _ 34)) by nia'. rewrite (proj2 (N.eqb_neq _ 92)) by nia'.
    rewrite (proj2 (N.ltb_ge _ 128)) by nia'. rewrite (proj2 (N.ltb_ge _ 224)) by nia'.
    rewrite (proj2 (N.ltb_ge _ 240)) by nia'. reflexivity.
Qed.

Section Quote.
Context (is_print : N -> bool).

Lemma unquote_piece p t : well_formed p -> unquote1 (append (quoted_piece is_print p) t) = Some (bytes_of p, t).
Proof.
  destruct p as [r|b]; cbn [well_formed quoted_piece bytes_of]; intros H; [|apply unquote_hex2; lia].
  unfold escaped_rune.
  destruct (N.eqb_spec r 34) as [->|N1]; [reflexivity|].
  destruct (N.eqb_spec r 92) as [->|N2]; [reflexivity|]. cbn [orb].
  destruct (if r <? 128 then within 32 126 r else is_print r) eqn:P; [apply unquote_plain; auto|].
  repeat match goal with |- context [if r =? ?k then _ else _] => destruct (N.eqb_spec r k) as [->|?]; [reflexivity|] end.
  destruct ((r <? 32) || (r =? 127)) eqn:C.
  - apply orb_true_iff in C. assert (r < 128) by (destruct C as [C|C]; [apply N.ltb_lt in C|apply N.eqb_eq in C]; lia).
    rewrite unquote_hex2 by lia. unfold encode. rewrite (proj2 (N.ltb_lt _ 128)) by lia. reflexivity.
  - destruct (r <? 65536) eqn:Q; rng; [apply unquote_hex4|apply unquote_hex8]; lia.
Qed.

Lemma unquote_end r : unquote1 (String dquote r) = None.
Proof. reflexivity. Qed.

Lemma quoted_body_inj : forall n n' s s' r r',
  (String.length s <= n)%nat -> (String.length s' <= n')%nat ->
  append (quoted_body is_print n s) (String dquote r) = append (quoted_body is_print n' s') (String dquote r') ->
  s = s' /\ r = r'.
Proof.
  induction n as [|n IH]; intros n' s s' r r' L L' H.
  - destruct s; [|simpl in L; lia]. destruct s' as [|c' s'].
    + destruct n'; cbn in H; inversion H; auto.
    + destruct n' as [|n']; [simpl in L'; lia|]. cbn [quoted_body append] in H.
      destruct (decode (N_of_ascii c') s') as [p t] eqn:D. apply decode_spec in D as (W & _ & _).
      apply (f_equal unquote1) in H. rewrite append_assoc, unquote_piece in H by auto. discriminate H.
  - destruct s as [|c s].
    + destruct s' as [|c' s'].
      * destruct n'; cbn in H; inversion H; auto.
      * destruct n' as [|n']; [simpl in L'; lia|]. cbn [quoted_body append] in H.
        destruct (decode (N_of_ascii c') s') as [p t] eqn:D. apply decode_spec in D as (W & _ & _).
        apply (f_equal unquote1) in H. rewrite append_assoc, unquote_piece in H by auto. discriminate H.
    + cbn [quoted_body] in H. destruct (decode (N_of_ascii c) s) as [p t] eqn:D. apply decode_spec in D as (W & E & Lt).
      destruct s' as [|c' s'].
      { replace (append (quoted_body is_print n' "") (String dquote r')) with (String dquote r') in H by (destruct n'; reflexivity).
        apply (f_equal unquote1) in H. rewrite append_assoc, unquote_piece in H by auto. discriminate H. }
      destruct n' as [|n']; [simpl in L'; lia|]. cbn [quoted_body] in H.
      destruct (decode (N_of_ascii c') s') as [p' t'] eqn:D'. apply decode_spec in D' as (W' & E' & Lt').
      apply (f_equal unquote1) in H. rewrite !append_assoc, !unquote_piece in H by auto.
      apply some_inj in H. apply pair_inj in H as [H1 H2].
      simpl in L, L'. apply IH in H2; [|lia|lia]. destruct H2 as [-> ->]. rewrite E, E', H1. auto.
Qed.

(** Two quoted strings with something behind them are the same text only if the strings, and what is behind them, are. *)
Lemma quote_inj s s' r r' : append (quote is_print s) r = append (quote is_print s') r' -> s = s' /\ r = r'.
Proof.
  unfold quote. cbn [append]. rewrite !append_assoc. cbn [append]. intros H. inversion H as [H0].
  eapply quoted_body_inj; [| |exact H0]; lia.
Qed.
End Quote.
