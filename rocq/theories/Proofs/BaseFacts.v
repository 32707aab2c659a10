(** Facts about the common vocabulary. *)
From Verif.Model Require Import Base.
From Coq Require Import Decimal DecimalString DecimalZ DecimalFacts.

(* ------------------------------------------------------------------ strings *)
Lemma append_nil_r s : append s "" = s.
Proof. induction s; simpl; congruence. Qed.
Lemma append_assoc a b c : append (append a b) c = append a (append b c).
Proof. induction a; simpl; congruence. Qed.
Lemma append_inj_l p a b : append p a = append p b -> a = b.
Proof. induction p; simpl; [auto|]. intros H; injection H; auto. Qed.
Lemma length_append a b : String.length (append a b) = (String.length a + String.length b)%nat.
Proof. induction a; simpl; auto. Qed.
Lemma append_inj_len a b c d :
  String.length a = String.length c -> append a b = append c d -> a = c /\ b = d.
Proof.
  revert c; induction a as [|x a IH]; intros [|y c] Hl H; simpl in *; try discriminate; auto.
  injection H as -> H. injection Hl as Hl. destruct (IH _ Hl H) as [-> ->]; auto.
Qed.
Lemma append_inj_len_r a b c d :
  String.length b = String.length d -> append a b = append c d -> a = c /\ b = d.
Proof.
  intros Hl H. apply append_inj_len; auto.
  assert (E : String.length (append a b) = String.length (append c d)) by (rewrite H; auto).
  rewrite !length_append in E. lia.
Qed.

Fixpoint str_mem (c : ascii) (s : string) : bool :=
  match s with EmptyString => false | String d t => Ascii.eqb c d || str_mem c t end.

Lemma str_mem_append c a b : str_mem c (append a b) = str_mem c a || str_mem c b.
Proof. induction a; simpl; auto. rewrite IHa. apply orb_assoc. Qed.

(** Splitting at the first occurrence of a separator. *)
Lemma split_sep c a1 b1 a2 b2 :
  str_mem c a1 = false -> str_mem c a2 = false ->
  append a1 (String c b1) = append a2 (String c b2) -> a1 = a2 /\ b1 = b2.
Proof.
  revert a2; induction a1 as [|x a1 IH]; intros [|y a2] H1 H2 H; simpl in *.
  - injection H; auto.
  - injection H as -> _. rewrite Ascii.eqb_refl in H2. discriminate.
  - injection H as -> _. rewrite Ascii.eqb_refl in H1. discriminate.
  - apply orb_false_iff in H1, H2. injection H as -> H.
    destruct (IH a2 (proj2 H1) (proj2 H2) H) as [-> ->]; auto.
Qed.

(** Splitting when one side may lack the separator altogether. *)
Lemma split_sep_none c a1 b2 a2 :
  str_mem c a1 = false -> a1 = append a2 (String c b2) -> False.
Proof.
  intros H ->. rewrite str_mem_append in H. simpl in H. rewrite Ascii.eqb_refl in H.
  rewrite orb_true_r in H. discriminate.
Qed.

(* ------------------------------------------------------------------ decimals *)
Lemma show_Z_inj a b : show_Z a = show_Z b -> a = b.
Proof.
  unfold show_Z; intros H. apply (f_equal NilEmpty.int_of_string) in H.
  rewrite !NilEmpty.isi in H. injection H as H. apply to_int_inj; auto.
Qed.
Lemma show_N_inj a b : show_N a = show_N b -> a = b.
Proof. unfold show_N; intros H. apply show_Z_inj in H. lia. Qed.

Definition digit_or_minus (c : ascii) : bool :=
  let n := N_of_ascii c in (n =? 45) || ((48 <=? n) && (n <=? 57)).

Lemma show_uint_digits u c : str_mem c (NilEmpty.string_of_uint u) = true -> digit_or_minus c = true.
Proof.
  induction u; simpl; try discriminate;
  rewrite orb_true_iff; intros [H|H]; auto; apply Ascii.eqb_eq in H; subst; reflexivity.
Qed.
Lemma show_Z_digits z c : str_mem c (show_Z z) = true -> digit_or_minus c = true.
Proof.
  unfold show_Z. destruct (Z.to_int z); simpl.
  - apply show_uint_digits.
  - rewrite orb_true_iff; intros [H|H]; [apply Ascii.eqb_eq in H; subst; reflexivity|].
    eapply show_uint_digits; eauto.
Qed.
Lemma show_Z_no c z : digit_or_minus c = false -> str_mem c (show_Z z) = false.
Proof.
  intros H. destruct (str_mem c (show_Z z)) eqn:E; auto.
  apply show_Z_digits in E. congruence.
Qed.

(* ------------------------------------------------------------------ big endian *)
Lemma be_bytes_length k n : String.length (be_bytes k n) = k.
Proof. revert n; induction k; intros; simpl; auto. rewrite length_append, IHk. simpl. lia. Qed.

Lemma be_val_acc_append acc a b : be_val_acc acc (append a b) = be_val_acc (be_val_acc acc a) b.
Proof. revert acc; induction a; intros; simpl; auto. Qed.

Lemma be_val_be_bytes k n : n < 256 ^ N.of_nat k -> be_val (be_bytes k n) = n.
Proof.
  unfold be_val. revert n; induction k as [|k IH]; intros n H.
  - simpl in *. lia.
  - cbn [be_bytes]. rewrite be_val_acc_append. rewrite IH.
    + cbn [be_val_acc]. rewrite N_ascii_embedding.
      * rewrite (N.div_mod n 256) at 3 by lia. lia.
      * apply N.mod_lt. lia.
    + rewrite Nat2N.inj_succ, N.pow_succ_r' in H.
      apply N.div_lt_upper_bound; lia.
Qed.
Lemma be_val_u64be n : n < two64 -> be_val (u64be n) = n.
Proof. intros H. apply be_val_be_bytes. exact H. Qed.
Lemma u64be_inj a b : a < two64 -> b < two64 -> u64be a = u64be b -> a = b.
Proof. intros Ha Hb H. rewrite <- (be_val_u64be a), <- (be_val_u64be b) by auto. now rewrite H. Qed.
Lemma u64be_length n : String.length (u64be n) = 8%nat.
Proof. apply be_bytes_length. Qed.

(* ------------------------------------------------------------------ sets *)
Definition ssorted (s : nset) : Prop := StronglySorted N.lt s.

Lemma in_sadd x y s : In x (sadd y s) <-> x = y \/ In x s.
Proof.
  induction s as [|z s IH]; simpl; [intuition|].
  destruct (N.ltb_spec y z); [simpl; intuition|].
  destruct (N.eqb_spec y z); [subst; simpl; intuition|].
  simpl; rewrite IH; intuition.
Qed.
Lemma in_smem x s : smem x s = true <-> In x s.
Proof.
  unfold smem. rewrite existsb_exists. split.
  - intros (y & Hy & E). apply N.eqb_eq in E; subst; auto.
  - intros H; exists x; split; auto. apply N.eqb_refl.
Qed.
Lemma smem_false x s : smem x s = false <-> ~ In x s.
Proof.
  rewrite <- in_smem. destruct (smem x s); intuition; congruence.
Qed.
Lemma in_sunion x a b : In x (sunion a b) <-> In x a \/ In x b.
Proof. unfold sunion; induction b as [|y b IH]; simpl; [intuition|]. rewrite in_sadd, IH; intuition. Qed.
Lemma in_sinter x a b : In x (sinter a b) <-> In x a /\ In x b.
Proof. unfold sinter. rewrite filter_In, in_smem. tauto. Qed.
Lemma in_sdiff x a b : In x (sdiff a b) <-> In x a /\ ~ In x b.
Proof. unfold sdiff. rewrite filter_In, negb_true_iff, smem_false. tauto. Qed.
Lemma in_sxor x a b : In x (sxor a b) <-> (In x a /\ ~ In x b) \/ (In x b /\ ~ In x a).
Proof. unfold sxor. rewrite in_sunion, !in_sdiff. tauto. Qed.
Lemma in_sof_list x l : In x (sof_list l) <-> In x l.
Proof. unfold sof_list; induction l as [|y l IH]; simpl; [tauto|]. rewrite in_sadd, IH; intuition. Qed.

Lemma Forall_filter {A} (P : A -> Prop) f l : Forall P l -> Forall P (filter f l).
Proof. induction 1; simpl; auto. destruct (f x); auto. Qed.

Lemma ssorted_nil : ssorted [].
Proof. constructor. Qed.
Lemma ssorted_sadd x s : ssorted s -> ssorted (sadd x s).
Proof.
  unfold ssorted. induction 1 as [|y s Hs IH Hy]; simpl.
  - constructor; constructor.
  - destruct (N.ltb_spec x y).
    + constructor; [constructor; auto|]. constructor; auto.
      eapply Forall_impl; [|exact Hy]. simpl; intros; lia.
    + destruct (N.eqb_spec x y); [constructor; auto|].
      constructor; auto. rewrite Forall_forall in *. intros z Hz.
      apply in_sadd in Hz as [->|Hz]; [lia|auto].
Qed.
Lemma ssorted_filter f s : ssorted s -> ssorted (filter f s).
Proof.
  unfold ssorted. induction 1 as [|y s Hs IH Hy]; simpl; [constructor|].
  destruct (f y); auto. constructor; auto. apply Forall_filter; auto.
Qed.
Lemma ssorted_sunion a b : ssorted a -> ssorted (sunion a b).
Proof. unfold sunion; intros Ha; induction b; simpl; auto using ssorted_sadd. Qed.
Lemma ssorted_sinter a b : ssorted a -> ssorted (sinter a b).
Proof. apply ssorted_filter. Qed.
Lemma ssorted_sdiff a b : ssorted a -> ssorted (sdiff a b).
Proof. apply ssorted_filter. Qed.
Lemma ssorted_sxor a b : ssorted a -> ssorted (sxor a b).
Proof. intros; apply ssorted_sunion, ssorted_sdiff; auto. Qed.
Lemma ssorted_sof_list l : ssorted (sof_list l).
Proof. unfold sof_list; induction l; simpl; [constructor|apply ssorted_sadd; auto]. Qed.

(** Sets are extensional: a strictly increasing list is determined by its elements. *)
Lemma ssorted_ext a b : ssorted a -> ssorted b -> (forall x, In x a <-> In x b) -> a = b.
Proof.
  intros Ha; revert b; induction Ha as [|x a Ha IH Hx]; intros b Hb E.
  - destruct b as [|y b]; auto. exfalso. apply (E y). now left.
  - destruct Hb as [|y b Hb Hy]; [exfalso; apply (E x); now left|].
    rewrite Forall_forall in Hx, Hy.
    assert (x = y).
    { destruct (proj1 (E x) (or_introl eq_refl)) as [?|H1]; auto.
      destruct (proj2 (E y) (or_introl eq_refl)) as [?|H2]; auto.
      apply Hy in H1. apply Hx in H2. lia. }
    subst y. f_equal. apply IH; auto. intros z. split; intros Hz.
    + destruct (proj1 (E z) (or_intror Hz)) as [<-|]; auto. apply Hx in Hz. lia.
    + destruct (proj2 (E z) (or_intror Hz)) as [<-|]; auto. apply Hy in Hz. lia.
Qed.
Lemma ssorted_nodup s : ssorted s -> NoDup s.
Proof.
  induction 1 as [|x s Hs IH Hx]; constructor; auto.
  rewrite Forall_forall in Hx. intros H; apply Hx in H; lia.
Qed.
Lemma sempty_spec s : sempty s = true <-> s = [].
Proof. destruct s; simpl; intuition congruence. Qed.
Lemma smax_spec s m : ssorted s -> smax s = Some m -> In m s /\ forall x, In x s -> x <= m.
Proof.
  intros Hs; revert m; induction Hs as [|x s Hs IH Hx]; intros m; simpl; [discriminate|].
  destruct s as [|y s].
  - intros [= <-]. split; [now left|]. intros z [<-|[]]; lia.
  - intros H. destruct (IH _ H) as [Hin Hmax]. split; [now right|].
    intros z [<-|Hz]; auto. rewrite Forall_forall in Hx. apply Hx in Hin. lia.
Qed.
Lemma smax_none s : smax s = None <-> s = [].
Proof.
  split; [|intros ->; reflexivity]. induction s as [|x s IH]; auto.
  simpl. destruct s; [discriminate|]. intros H. specialize (IH H). discriminate.
Qed.
Lemma smax_some s : s <> [] -> exists m, smax s = Some m.
Proof. intros H. destruct (smax s) eqn:E; eauto. apply smax_none in E. contradiction. Qed.

(* ------------------------------------------------------------------ maps *)
Section AMapFacts.
  Context {K V : Type} (eqb : K -> K -> bool).
  Hypothesis eqb_spec : forall a b, reflect (a = b) (eqb a b).

  Lemma aget_aset k k' v (m : amap K V) :
    aget eqb k (aset eqb k' v m) = if eqb k k' then Some v else aget eqb k m.
  Proof.
    induction m as [|[k0 v0] m IH]; simpl; auto.
    destruct (eqb_spec k' k0) as [->|N0]; simpl.
    - destruct (eqb_spec k k0); auto.
    - rewrite IH. destruct (eqb_spec k k0) as [->|]; auto.
      destruct (eqb_spec k0 k') as [->|]; auto. congruence.
  Qed.
  Lemma aget_aset_eq k v (m : amap K V) : aget eqb k (aset eqb k v m) = Some v.
  Proof. rewrite aget_aset. destruct (eqb_spec k k); congruence. Qed.
  Lemma aget_aset_ne k k' v (m : amap K V) :
    k <> k' -> aget eqb k (aset eqb k' v m) = aget eqb k m.
  Proof. intros. rewrite aget_aset. destruct (eqb_spec k k'); congruence. Qed.
  Lemma in_aset_keys k k' v (m : amap K V) :
    In k (map fst (aset eqb k' v m)) <-> k = k' \/ In k (map fst m).
  Proof.
    induction m as [|[k0 v0] m IH]; simpl; [intuition|].
    destruct (eqb_spec k' k0) as [->|]; simpl; [intuition|]. rewrite IH; intuition.
  Qed.
  Lemma nodup_aset k v (m : amap K V) :
    NoDup (map fst m) -> NoDup (map fst (aset eqb k v m)).
  Proof.
    induction m as [|[k0 v0] m IH]; simpl; intros H.
    - constructor; auto.
    - inversion H; subst. destruct (eqb_spec k k0) as [->|]; simpl; [constructor; auto|].
      constructor; auto. intros Hin. apply in_aset_keys in Hin as [->|]; auto.
  Qed.
  Lemma aget_in k v (m : amap K V) : aget eqb k m = Some v -> In (k, v) m.
  Proof.
    induction m as [|[k0 v0] m IH]; simpl; [discriminate|].
    destruct (eqb_spec k k0) as [->|]; [intros [= ->]; auto|auto].
  Qed.
  Lemma in_aget k v (m : amap K V) : NoDup (map fst m) -> In (k, v) m -> aget eqb k m = Some v.
  Proof.
    induction m as [|[k0 v0] m IH]; simpl; [tauto|]. intros Hn [E|Hin].
    - injection E as -> ->. destruct (eqb_spec k k); congruence.
    - inversion Hn; subst. destruct (eqb_spec k k0) as [->|]; auto.
      exfalso. apply H1. apply in_map_iff. exists (k0, v); auto.
  Qed.
  Lemma aget_none k (m : amap K V) : aget eqb k m = None <-> ~ In k (map fst m).
  Proof.
    induction m as [|[k0 v0] m IH]; simpl; [intuition|].
    destruct (eqb_spec k k0) as [->|]; [intuition congruence|]. rewrite IH. intuition congruence.
  Qed.
End AMapFacts.

Lemma string_eqb_reflect a b : reflect (a = b) (String.eqb a b).
Proof. apply String.eqb_spec. Qed.
Lemma N_eqb_reflect a b : reflect (a = b) (N.eqb a b).
Proof. apply N.eqb_spec. Qed.

Lemma some_inj {A} (a b : A) : Some a = Some b -> a = b.
Proof. congruence. Qed.
Lemma pair_inj {A B} (a a' : A) (b b' : B) : (a, b) = (a', b') -> a = a' /\ b = b'.
Proof. intros H; split; congruence. Qed.
