(** Facts about rows with shared storage. *)
From Verif.Model Require Import Base View Rows RowHeap.
From Verif.Spec Require Import Sets RowPrograms.
From Verif.Proofs Require Import BaseFacts RowsFacts.
Open Scope N_scope.

(* ------------------------------------------------------------------ memory *)
Lemma put_length {A} (v : A) l : forall p, List.length (put p v l) = List.length l.
Proof. induction l as [|h t IH]; intros [|p]; cbn; auto. Qed.
Lemma nth_put_same {A} (v d : A) l : forall p, (p < List.length l)%nat -> nth p (put p v l) d = v.
Proof. induction l as [|h t IH]; intros [|p] H; cbn in *; try lia; auto. apply IH. lia. Qed.
Lemma nth_put_other {A} (v d : A) l : forall p q, p <> q -> nth q (put p v l) d = nth q l d.
Proof. induction l as [|h t IH]; intros [|p] [|q] H; cbn; auto; try congruence. Qed.
Lemma nth_error_put_same {A} (v : A) l : forall p, (p < List.length l)%nat -> nth_error (put p v l) p = Some v.
Proof. induction l as [|h t IH]; intros [|p] H; cbn in *; try lia; auto. apply IH. lia. Qed.
Lemma nth_error_put_other {A} (v : A) l : forall p q, p <> q -> nth_error (put p v l) q = nth_error l q.
Proof. induction l as [|h t IH]; intros [|p] [|q] H; cbn; auto; try congruence. Qed.

Lemma deref_update_same p b m : (p < List.length m)%nat -> deref (update p b m) p = b.
Proof. apply nth_put_same. Qed.
Lemma deref_update_other p q b m : p <> q -> deref (update p b m) q = deref m q.
Proof. apply nth_put_other. Qed.
Lemma deref_app m e q : (q < List.length m)%nat -> deref (m ++ e) q = deref m q.
Proof. intros H. unfold deref. apply app_nth1, H. Qed.
Lemma deref_new m b : deref (m ++ [b]) (List.length m) = b.
Proof. unfold deref. rewrite app_nth2 by lia. rewrite Nat.sub_diag. reflexivity. Qed.

(** [keeps m m' W]: m' extends m and differs on old places only in W. *)
Definition keeps (m m' : memory) (W : nat -> Prop) : Prop :=
  (List.length m <= List.length m')%nat /\ forall q, (q < List.length m)%nat -> ~ W q -> deref m' q = deref m q.
Lemma keeps_refl m W : keeps m m W. Proof. split; auto. Qed.
Lemma keeps_trans m1 m2 m3 W1 W2 : keeps m1 m2 W1 -> keeps m2 m3 W2 -> keeps m1 m3 (fun q => W1 q \/ W2 q).
Proof.
  intros [L1 H1] [L2 H2]. split; [lia|]. intros q Hq N. rewrite H2 by (lia || tauto). apply H1; [exact Hq|tauto].
Qed.
Lemma keeps_weaken m m' (W W' : nat -> Prop) : keeps m m' W -> (forall q, (q < List.length m)%nat -> W q -> W' q) -> keeps m m' W'.
Proof. intros [L H] I. split; [exact L|]. intros q Hq N. apply H; auto. Qed.
Lemma keeps_app m e W : keeps m (m ++ e) W.
Proof. split; [rewrite app_length; lia|]. intros q Hq _. apply deref_app, Hq. Qed.

Definition valid (m : memory) (r : hrow) : Prop := forall s, In s r -> (h_ptr s < List.length m)%nat.
Definition ptr_in (q : nat) (r : hrow) : Prop := exists s, In s r /\ h_ptr s = q.
(** A segment of [r'] is new, or has pointer and shard of a segment of [r]. *)
Definition stems (m : memory) (r r' : hrow) : Prop :=
  forall s', In s' r' -> (List.length m <= h_ptr s')%nat \/ exists s, In s r /\ h_ptr s' = h_ptr s /\ h_shard s' = h_shard s.

Lemma load_keeps m m' W r : keeps m m' W -> valid m r -> (forall q, ptr_in q r -> ~ W q) -> map (load m') r = map (load m) r.
Proof.
  intros [_ H] V N. apply map_ext_in. intros s I. unfold load. f_equal. apply H; [apply V, I|]. apply N. exists s. auto.
Qed.

(* ------------------------------------------------------------------ one segment *)
Lemma ensure_spec (m : memory) s : (h_ptr s < List.length m)%nat ->
  let '(m', s') := ensure_writable m s in
  load m' s' = load m s /\ h_writable s' = true /\ (h_ptr s' < List.length m')%nat /\
  keeps m m' (fun _ => False) /\ h_shard s' = h_shard s /\
  (h_ptr s' = h_ptr s \/ (List.length m <= h_ptr s')%nat).
Proof.
  intros V. unfold ensure_writable. destruct (h_writable s) eqn:E.
  - repeat (split; [solve [auto using keeps_refl]|]). auto.
  - cbn. unfold load. cbn. rewrite deref_new, app_length. cbn.
    split; [reflexivity|]. split; [reflexivity|]. split; [lia|]. split; [apply keeps_app|]. split; [reflexivity|]. right. lia.
Qed.

Lemma ensure_writable_id m s : h_writable s = true -> ensure_writable m s = (m, s).
Proof. intros E. unfold ensure_writable. rewrite E. reflexivity. Qed.

(** Setting a bit of a writable segment changes its own bitmap only. *)
Lemma hseg_set_writable (m : memory) s i : h_writable s = true -> (h_ptr s < List.length m)%nat ->
  let '(m', s') := hseg_set (m, s) i in
  load m' s' = seg_set (load m s) i /\ h_writable s' = true /\ h_ptr s' = h_ptr s /\ h_shard s' = h_shard s /\
  List.length m' = List.length m /\ keeps m m' (fun q => q = h_ptr s).
Proof.
  intros Ew V. unfold hseg_set. cbn [fst snd]. rewrite (ensure_writable_id _ _ Ew). unfold seg_set. cbn [g_data load].
  destruct (smem i (deref m (h_ptr s))) eqn:E.
  - repeat (split; [solve [auto]|]). apply keeps_refl.
  - unfold load. cbn. rewrite deref_update_same by exact V. split; [reflexivity|]. split; [exact Ew|].
    split; [reflexivity|]. split; [reflexivity|]. unfold update. rewrite put_length. split; [reflexivity|].
    split; [rewrite put_length; lia|]. intros q _ N. apply deref_update_other. congruence.
Qed.
Lemma hseg_set_spec (m : memory) s i : (h_ptr s < List.length m)%nat ->
  let '(m', s') := hseg_set (m, s) i in
  load m' s' = seg_set (load m s) i /\ h_writable s' = true /\ (h_ptr s' < List.length m')%nat /\ h_shard s' = h_shard s /\
  (h_ptr s' = h_ptr s \/ (List.length m <= h_ptr s')%nat) /\ keeps m m' (fun q => q = h_ptr s).
Proof.
  intros V. pose proof (ensure_spec m s V) as H.
  replace (hseg_set (m, s) i) with (hseg_set (ensure_writable m s) i).
  2:{ unfold hseg_set. cbn [fst snd]. destruct (ensure_writable m s) as [m1 s1] eqn:E. destruct H as (_ & W & _).
      cbn [fst snd]. rewrite (ensure_writable_id _ _ W). reflexivity. }
  destruct (ensure_writable m s) as [m1 s1]. destruct H as (L1 & W1 & V1 & K1 & S1 & P1).
  pose proof (hseg_set_writable m1 s1 i W1 V1) as H. destruct (hseg_set (m1, s1) i) as [m2 s2].
  destruct H as (L2 & W2 & P2 & S2 & N2 & K2). rewrite L2, L1. split; [reflexivity|]. split; [exact W2|].
  split; [rewrite P2, N2; exact V1|]. split; [congruence|]. split; [rewrite P2; exact P1|].
  eapply keeps_weaken; [eapply keeps_trans; eauto|]. cbn. intros q Hq [[]|E]. destruct P1 as [P1|P1]; [congruence|lia].
Qed.
Lemma fold_set_writable l : forall (m : memory) s, h_writable s = true -> (h_ptr s < List.length m)%nat ->
  let '(m', s') := fold_left hseg_set l (m, s) in
  load m' s' = fold_left seg_set l (load m s) /\ h_ptr s' = h_ptr s /\ h_shard s' = h_shard s /\
  List.length m' = List.length m /\ keeps m m' (fun q => q = h_ptr s).
Proof.
  induction l as [|i l IH]; intros m s W V; cbn [fold_left].
  - repeat (split; [solve [auto]|]). apply keeps_refl.
  - pose proof (hseg_set_writable m s i W V) as H. destruct (hseg_set (m, s) i) as [m1 s1].
    destruct H as (L1 & W1 & P1 & S1 & N1 & K1). specialize (IH m1 s1 W1). rewrite P1, N1 in IH. specialize (IH V).
    destruct (fold_left hseg_set l (m1, s1)) as [m2 s2]. destruct IH as (L2 & P2 & S2 & N2 & K2).
    rewrite L2, L1. split; [reflexivity|]. split; [congruence|]. split; [congruence|]. split; [congruence|].
    eapply keeps_weaken; [eapply keeps_trans; eauto|]. cbn. tauto.
Qed.
Lemma hseg_merge_spec (m : memory) s o : (h_ptr s < List.length m)%nat -> (h_ptr o < List.length m)%nat ->
  let '(m', s') := hseg_merge m s o in
  load m' s' = seg_merge (load m s) (load m o) /\ (h_ptr s' < List.length m')%nat /\ h_shard s' = h_shard s /\
  (h_ptr s' = h_ptr s \/ (List.length m <= h_ptr s')%nat) /\ keeps m m' (fun q => q = h_ptr s).
Proof.
  intros V Vo. unfold hseg_merge. pose proof (ensure_spec m s V) as H. destruct (ensure_writable m s) as [m1 s1]. cbn [fst].
  destruct H as (L1 & W1 & V1 & K1 & S1 & P1).
  pose proof (fold_set_writable (deref m1 (h_ptr o)) m1 s1 W1 V1) as H. destruct (fold_left hseg_set _ (m1, s1)) as [m2 s2].
  destruct H as (L2 & P2 & S2 & N2 & K2). rewrite L2, L1. unfold seg_merge. cbn [g_data load].
  replace (deref m1 (h_ptr o)) with (deref m (h_ptr o)) by (symmetry; apply K1; [exact Vo|tauto]).
  split; [reflexivity|]. split; [rewrite P2, N2; exact V1|]. split; [congruence|]. split; [rewrite P2; exact P1|].
  eapply keeps_weaken; [eapply keeps_trans; eauto|]. cbn. intros q Hq [[]|E]. destruct P1 as [P1|P1]; [congruence|lia].
Qed.

(* ------------------------------------------------------------------ SetBit, NewRow *)
Lemma hrow_set_in_spec (r : hrow) : forall (m : memory) k i, valid m r -> NoDup (map h_ptr r) ->
  let '(m', r') := hrow_set_in m k i r in
  map (load m') r' = row_set_in k i (map (load m) r) /\ valid m' r' /\ NoDup (map h_ptr r') /\
  stems m r r' /\ keeps m m' (fun q => ptr_in q r).
Proof.
  induction r as [|s r IH]; intros m k i V D.
  - cbn [hrow_set_in]. unfold fresh_seg. cbn [alloc].
    pose proof (hseg_set_spec (m ++ [[]] : memory) (HSeg k (List.length m) true 0) i) as H.
    destruct (hseg_set _ i) as [m1 s1]. cbn [h_ptr h_shard] in H.
    destruct H as (L1 & W1 & V1 & S1 & P1 & K1); [rewrite app_length; cbn; lia|].
    cbn [map row_set_in]. rewrite L1. unfold load at 1. cbn. rewrite deref_new. split; [reflexivity|].
    split; [intros s [<-|[]]; exact V1|]. split; [repeat constructor; intros []|]. split.
    + intros s' [<-|[]]. left. rewrite app_length in P1. cbn in P1. lia.
    + eapply keeps_weaken; [eapply keeps_trans; [apply (keeps_app m [[]] (fun _ => False))|exact K1]|]. cbn. intros q Hq [[]|E]. lia.
  - cbn [hrow_set_in]. cbn [map row_set_in]. cbn [g_shard load].
    assert (Vs : (h_ptr s < List.length m)%nat) by (apply V; left; reflexivity).
    assert (Vr : valid m r) by (intros t It; apply V; right; exact It).
    cbn [map] in D. inversion D as [|? ? Ns Dr]; subst.
    assert (Out : forall t, In t r -> h_ptr t <> h_ptr s).
    { intros t It E. apply Ns. rewrite <- E. apply in_map, It. }
    destruct (k <=? h_shard s).
    + destruct (h_shard s =? k).
      * pose proof (hseg_set_spec m s i Vs) as H. destruct (hseg_set (m, s) i) as [m1 s1].
        destruct H as (L1 & W1 & V1 & S1 & P1 & K1). cbn [map]. rewrite L1. split.
        { f_equal. eapply load_keeps; [exact K1|exact Vr|]. intros q (t & It & <-). apply Out, It. }
        split. { intros t [<-|It]; [exact V1|]. destruct K1 as [K1 _]. specialize (Vr t It). lia. }
        split. { constructor; [|exact Dr]. rewrite in_map_iff. intros (t & E & It). specialize (Out t It). specialize (Vr t It).
                 destruct P1 as [P1|P1]; [congruence|lia]. }
        split. { intros t [<-|It]; [|right; exists t; cbn; auto]. destruct P1 as [P1|P1]; [right; exists s; cbn; auto|left; exact P1]. }
        eapply keeps_weaken; [exact K1|]. cbn. intros q _ ->. exists s. cbn. auto.
      * unfold fresh_seg. cbn [alloc].
        pose proof (hseg_set_spec (m ++ [[]] : memory) (HSeg k (List.length m) true 0) i) as H.
        destruct (hseg_set _ i) as [m1 s1]. cbn [h_ptr h_shard] in H.
        destruct H as (L1 & W1 & V1 & S1 & P1 & K1); [rewrite app_length; cbn; lia|].
        assert (K : keeps m m1 (fun _ => False)).
        { eapply keeps_weaken; [eapply keeps_trans; [apply (keeps_app m [[]] (fun _ => False))|exact K1]|]. cbn. intros q Hq [[]|E]. lia. }
        assert (P : (List.length m <= h_ptr s1)%nat) by (rewrite app_length in P1; cbn in P1; lia).
        cbn [map]. split.
        { f_equal; [rewrite L1; unfold load at 1; cbn; rewrite deref_new; reflexivity|].
          change (map (load m1) (s :: r) = map (load m) (s :: r)). eapply load_keeps; [exact K|exact V|tauto]. }
        split. { intros t [<-|It]; [exact V1|]. destruct K as [K _]. specialize (V t It). lia. }
        split. { constructor; [|constructor; auto]. change (~ In (h_ptr s1) (map h_ptr (s :: r))). rewrite in_map_iff.
                 intros (t & E & It). specialize (V t It). lia. }
        split. { intros t [<-|It]; [left; exact P|right; exists t; auto]. }
        eapply keeps_weaken; [exact K|tauto].
    + specialize (IH m k i Vr Dr). destruct (hrow_set_in m k i r) as [m1 r1]. destruct IH as (L1 & V1 & D1 & S1 & K1).
      cbn [map]. rewrite L1. split.
      { f_equal. unfold load. f_equal. apply K1; [exact Vs|]. intros (t & It & E). apply (Out t It E). }
      split. { intros t [<-|It]; [destruct K1 as [K1 _]; lia|apply V1, It]. }
      split. { constructor; [|exact D1]. rewrite in_map_iff. intros (t & E & It). destruct (S1 t It) as [F|(u & Iu & Eu & _)]; [lia|].
               apply (Out u Iu). congruence. }
      split. { intros t [<-|It]; [right; exists s; cbn; auto|]. destruct (S1 t It) as [F|(u & Iu & Eu)]; [left; exact F|right; exists u; cbn; auto]. }
      eapply keeps_weaken; [exact K1|]. cbn. intros q _ (t & It & E). exists t. cbn. auto.
Qed.
Lemma hrow_set_spec (m : memory) i (r : hrow) : valid m r -> NoDup (map h_ptr r) ->
  let '(m', r') := hrow_set m i r in
  map (load m') r' = row_set i (map (load m) r) /\ valid m' r' /\ NoDup (map h_ptr r') /\
  stems m r r' /\ keeps m m' (fun q => ptr_in q r).
Proof. apply hrow_set_in_spec. Qed.
Lemma hrow_new_gen cols : forall (m0 m : memory) (r : hrow), valid m r -> NoDup (map h_ptr r) -> (forall s, In s r -> (List.length m0 <= h_ptr s)%nat) ->
  keeps m0 m (fun _ => False) ->
  let '(m', r') := fold_left (fun mr i => hrow_set (fst mr) i (snd mr)) cols (m, r) in
  map (load m') r' = fold_left (fun r i => row_set i r) cols (map (load m) r) /\ valid m' r' /\ NoDup (map h_ptr r') /\
  (forall s, In s r' -> (List.length m0 <= h_ptr s)%nat) /\ keeps m0 m' (fun _ => False).
Proof.
  induction cols as [|i cols IH]; intros m0 m r V D F K; cbn [fold_left].
  - split; [reflexivity|]. auto.
  - cbn [fst snd]. pose proof (hrow_set_spec m i r V D) as H. destruct (hrow_set m i r) as [m1 r1].
    destruct H as (L1 & V1 & D1 & S1 & K1). specialize (IH m0 m1 r1 V1 D1). rewrite L1 in IH. apply IH.
    + intros s I. destruct (S1 s I) as [E|(t & It & E & _)]; [destruct K; lia|]. rewrite E. apply F, It.
    + eapply keeps_weaken; [eapply keeps_trans; eauto|]. cbn. intros q Hq [[]|(t & It & E)]. specialize (F t It). lia.
Qed.
Lemma hrow_new_spec (m : memory) cols :
  let '(m', r') := hrow_new m cols in
  map (load m') r' = new_row cols /\ valid m' r' /\ NoDup (map h_ptr r') /\ stems m [] r' /\ keeps m m' (fun _ => False).
Proof.
  pose proof (hrow_new_gen cols m m []) as H.
  change (fold_left (fun (mr : memory * hrow) i => hrow_set (fst mr) i (snd mr)) cols (m, [])) with (hrow_new m cols) in H.
  destruct (hrow_new m cols) as [m' r'].
  destruct H as (L & V & D & F & K); [intros s []|constructor|intros s []|apply keeps_refl|].
  split; [exact L|]. split; [exact V|]. split; [exact D|]. split; [|exact K]. intros s I. left. apply F, I.
Qed.

(* ------------------------------------------------------------------ the iterator *)
Definition oload (m : memory) (p : option hseg * option hseg) := (option_map (load m) (fst p), option_map (load m) (snd p)).
Lemma hmerge_iter_load m r : forall o, map (oload m) (hmerge_iter r o) = merge_iter (map (load m) r) (map (load m) o).
Proof.
  induction r as [|s r IHr]; intros o; induction o as [|t o IHo]; cbn [hmerge_iter merge_iter map]; try reflexivity.
  - f_equal. exact IHo.
  - f_equal. apply (IHr []).
  - cbn [g_shard load]. destruct (h_shard s <? h_shard t); [cbn [map]; f_equal; apply (IHr (t :: o))|].
    destruct (h_shard t <? h_shard s); [cbn [map]; f_equal; exact IHo|]. cbn [map]. f_equal. apply IHr.
Qed.
Lemma hmerge_iter_in r : forall o a b, In (a, b) (hmerge_iter r o) ->
  (forall s, a = Some s -> In s r \/ In s o) /\ (forall s, b = Some s -> In s o) /\
  (forall s t, a = Some s -> b = Some t -> In s r /\ In t o /\ h_shard s = h_shard t).
Proof.
  induction r as [|s r IHr]; intros o; induction o as [|t o IHo]; intros a b H; cbn [hmerge_iter] in H.
  - destruct H.
  - destruct H as [E|H].
    + apply pair_inj in E as [<- <-]. split; [discriminate|]. split; [|discriminate]. intros u E. apply some_inj in E. subst. left; auto.
    + destruct (IHo a b H) as (A & B & C). split; [intros u E; destruct (A u E); cbn; auto|].
      split; [intros u E; right; auto|]. intros u v E1 E2. destruct (C u v E1 E2) as (X & Y & Z). cbn; auto.
  - destruct H as [E|H].
    + apply pair_inj in E as [<- <-]. split; [intros u E; apply some_inj in E; subst; left; left; auto|]. split; discriminate.
    + destruct (IHr [] a b H) as (A & B & C). split; [intros u E; destruct (A u E); cbn; auto|].
      split; [intros u E; auto|]. intros u v E1 E2. destruct (C u v E1 E2) as (X & Y & Z). cbn; auto.
  - destruct (h_shard s <? h_shard t) eqn:L1; [|destruct (h_shard t <? h_shard s) eqn:L2].
    + destruct H as [E|H].
      * apply pair_inj in E as [<- <-]. split; [intros u E; apply some_inj in E; subst; left; left; auto|]. split; discriminate.
      * destruct (IHr (t :: o) a b H) as (A & B & C). split; [intros u E; destruct (A u E); cbn; auto|].
        split; [intros u E; auto|]. intros u v E1 E2. destruct (C u v E1 E2) as (X & Y & Z). cbn; auto.
    + destruct H as [E|H].
      * apply pair_inj in E as [<- <-]. split; [intros u E; apply some_inj in E; subst; right; left; auto|]. split; discriminate.
      * destruct (IHo a b H) as (A & B & C). split; [intros u E; destruct (A u E); cbn; auto|].
        split; [intros u E; right; auto|]. intros u v E1 E2. destruct (C u v E1 E2) as (X & Y & Z). cbn; auto.
    + destruct H as [E|H].
      * apply pair_inj in E as [<- <-]. split; [intros u E; apply some_inj in E; subst; left; left; auto|].
        split; [intros u E; apply some_inj in E; subst; left; auto|]. intros u v E1 E2. apply some_inj in E1, E2. subst.
        apply N.ltb_ge in L1, L2. split; [left; auto|]. split; [left; auto|]. lia.
      * destruct (IHr o a b H) as (A & B & C). split; [intros u E; destruct (A u E); cbn; auto|].
        split; [intros u E; right; auto|]. intros u v E1 E2. destruct (C u v E1 E2) as (X & Y & Z). cbn; auto.
Qed.
(** The shard of a pair, and the pairs come in increasing order of shards. *)
Definition pshard (p : option hseg * option hseg) : N :=
  match p with (Some s, _) => h_shard s | (None, Some s) => h_shard s | (None, None) => 0 end.
Definition hsorted (r : hrow) : Prop := StronglySorted (fun a b => h_shard a < h_shard b) r.
Lemma hmerge_iter_sorted r : forall o, hsorted r -> hsorted o -> StronglySorted (fun p q => pshard p < pshard q) (hmerge_iter r o).
Proof.
  assert (G : forall r o k, (forall s, In s r -> k < h_shard s) -> (forall s, In s o -> k < h_shard s) ->
    Forall (fun q => k < pshard q) (hmerge_iter r o)).
  { clear. intros r. induction r as [|s r IHr]; intros o; induction o as [|t o IHo]; intros k Hr Ho; cbn [hmerge_iter].
    - constructor.
    - constructor; [apply Ho; left; auto|]. apply IHo; [exact Hr|]. intros u I. apply Ho. right; auto.
    - constructor; [apply Hr; left; auto|]. apply IHr; [|intros u []]. intros u I. apply Hr. right; auto.
    - destruct (h_shard s <? h_shard t); [|destruct (h_shard t <? h_shard s)].
      + constructor; [apply Hr; left; auto|]. apply IHr; [|exact Ho]. intros u I. apply Hr. right; auto.
      + constructor; [apply Ho; left; auto|]. apply IHo; [exact Hr|]. intros u I. apply Ho. right; auto.
      + constructor; [apply Hr; left; auto|]. apply IHr; intros u I; [apply Hr|apply Ho]; right; auto. }
  assert (T : forall (s : hseg) r, hsorted (s :: r) -> hsorted r /\ forall t, In t r -> h_shard s < h_shard t).
  { intros s l H. inversion H as [|? ? H1 H2]; subst. split; [exact H1|]. rewrite Forall_forall in H2. exact H2. }
  induction r as [|s r IHr]; intros o; induction o as [|t o IHo]; intros Hr Ho; cbn [hmerge_iter].
  - constructor.
  - apply T in Ho as [Ho Lo]. constructor; [apply IHo; auto|]. apply (G [] o); auto. intros u [].
  - apply T in Hr as [Hr Lr]. constructor; [apply IHr; auto|]. apply G; auto. intros u [].
  - pose proof (T _ _ Hr) as [Hr' Lr]. pose proof (T _ _ Ho) as [Ho' Lo].
    destruct (N.ltb_spec (h_shard s) (h_shard t)); [|destruct (N.ltb_spec (h_shard t) (h_shard s))].
    + constructor; [apply IHr; auto|]. apply G; [exact Lr|]. intros u [<-|I]; [exact H|]. cbn. specialize (Lo u I). lia.
    + constructor; [apply IHo; auto|]. apply (G (s :: r) o); [|exact Lo]. intros u [<-|I]; [exact H0|]. cbn. specialize (Lr u I). lia.
    + constructor; [apply IHr; auto|]. apply G; [exact Lr|]. cbn. intros u I. specialize (Lo u I). lia.
Qed.

(* ------------------------------------------------------------------ Merge *)
Definition psegs (p : option hseg * option hseg) : hrow :=
  (match fst p with Some s => [s] | None => [] end) ++ (match snd p with Some s => [s] | None => [] end).
Definition vmerge (p : option segment * option segment) : list segment :=
  match p with (Some a, Some b) => [seg_merge a b] | (Some a, None) => [a] | (None, Some b) => [b] | (None, None) => [] end.
(** Segments with the same pointer are of the same shard. *)
Definition one_shard (r : hrow) : Prop := forall s t, In s r -> In t r -> h_ptr s = h_ptr t -> h_shard s = h_shard t.
Definition lefts (ps : list (option hseg * option hseg)) : hrow :=
  flat_map (fun p => match p with (Some a, Some _) => [a] | _ => [] end) ps.

Lemma psegs_shard p s : (forall a b, p = (Some a, Some b) -> h_shard a = h_shard b) -> In s (psegs p) -> h_shard s = pshard p.
Proof.
  intros E I. destruct p as [[a|] [b|]]; cbn in I; unfold pshard.
  - destruct I as [<-|[<-|[]]]; [reflexivity|]. symmetry. apply E. reflexivity.
  - destruct I as [<-|[]]. reflexivity.
  - destruct I as [<-|[]]. reflexivity.
  - destruct I.
Qed.
Lemma hmerge_loop_spec ps : forall (m : memory),
  valid m (flat_map psegs ps) -> one_shard (flat_map psegs ps) ->
  StronglySorted (fun p q => pshard p < pshard q) ps ->
  (forall s t, In (Some s, Some t) ps -> h_shard s = h_shard t) ->
  let '(m', out) := hmerge_loop m ps in
  map (load m') out = flat_map vmerge (map (oload m) ps) /\ valid m' out /\
  stems m (flat_map psegs ps) out /\ keeps m m' (fun q => ptr_in q (lefts ps)) /\ one_shard out.
Proof.
  induction ps as [|[a b] ps IH]; intros m V O S E; cbn [hmerge_loop flat_map map].
  - split; [reflexivity|]. split; [intros s []|]. split; [intros s []|]. split; [apply keeps_refl|intros s t []].
  - cbn [flat_map] in V, O. inversion S as [|? ? S' F]; subst. rewrite Forall_forall in F.
    assert (Vt : valid m (flat_map psegs ps)) by (intros s I; apply V, in_or_app; auto).
    assert (Ot : one_shard (flat_map psegs ps)) by (intros s t I J; apply O; apply in_or_app; auto).
    assert (Et : forall s t, In (Some s, Some t) ps -> h_shard s = h_shard t) by (intros s t I; apply E; right; exact I).
    assert (Sep : forall s t, In s (psegs (a, b)) -> In t (flat_map psegs ps) -> h_ptr s <> h_ptr t).
    { intros s t Is It EQ. assert (h_shard s = h_shard t) by (apply O; auto; apply in_or_app; auto).
      apply in_flat_map in It as (p & Ip & It). specialize (F p Ip).
      assert (h_shard s = pshard (a, b)).
      { apply psegs_shard; [|exact Is]. intros c d EQ'. apply E. left. exact EQ'. }
      assert (h_shard t = pshard p).
      { apply psegs_shard; [|exact It]. intros c d EQ'. subst p. apply Et, Ip. }
      lia. }
    assert (Lf : forall q, ptr_in q (lefts ps) -> ptr_in q (flat_map psegs ps)).
    { intros q (t & It & Et'). exists t. split; [|exact Et']. apply in_flat_map in It as (p & Ip & It). apply in_flat_map. exists p.
      split; [exact Ip|]. destruct p as [[c|] [d|]]; cbn in It |- *; try contradiction. destruct It as [<-|[]]; auto. }
    destruct a as [a|], b as [b|].
    + assert (Va : (h_ptr a < List.length m)%nat) by (apply V; cbn; auto).
      assert (Vb : (h_ptr b < List.length m)%nat) by (apply V; cbn; auto).
      pose proof (hseg_merge_spec m a b Va Vb) as H. destruct (hseg_merge m a b) as [m1 s]. destruct H as (L1 & V1 & S1 & P1 & K1).
      specialize (IH m1). destruct (hmerge_loop m1 ps) as [m2 out].
      destruct IH as (L2 & V2 & St2 & K2 & O2); auto.
      { intros t I. specialize (Vt t I). destruct K1. lia. }
      cbn [map]. rewrite L2. cbn [oload fst snd option_map vmerge]. rewrite <- L1.
      split.
      { cbn [app]. f_equal.
        - unfold load. f_equal. apply K2; [exact V1|]. intros Hq. apply Lf in Hq as (t & It & Et'). destruct P1 as [P1|P1].
          + apply (Sep a t); cbn; auto. congruence.
          + specialize (Vt t It). lia.
        - f_equal. apply map_ext_in. intros [c d] Ip. unfold oload. cbn [fst snd].
          assert (X : forall u, In u (psegs (c, d)) -> load m1 u = load m u).
          { intros u Iu. unfold load. f_equal. apply K1; [apply Vt, in_flat_map; eauto|].
            intros EQ. apply (Sep a u); cbn; auto. apply in_flat_map; eauto. }
          destruct c as [c|], d as [d|]; cbn; f_equal; try (f_equal; apply X; cbn; auto). }
      split. { intros t [<-|It]; [destruct K2; lia|apply V2, It]. }
      split. { intros t [<-|It].
        - destruct P1 as [P1|P1]; [right; exists a; cbn; auto|left; exact P1].
        - destruct (St2 t It) as [X|(u & Iu & Eu)]; [left; destruct K1; lia|right; exists u; split; [apply in_or_app; auto|exact Eu]]. }
      split.
      { eapply keeps_weaken; [eapply keeps_trans; eauto|]. cbn. intros q _ [->|(t & It & Et')]; [exists a; cbn; auto|exists t; cbn; auto]. }
      assert (X : forall t, In t out -> h_ptr s <> h_ptr t).
      { intros t It EQ. destruct (St2 t It) as [Fr|(u & Iu & Eu & _)]; [lia|]. destruct P1 as [P1|P1].
        - apply (Sep a u); cbn; auto. congruence.
        - specialize (Vt u Iu). lia. }
      intros t u [<-|It] [<-|Iu] EQ; auto; exfalso; [apply (X u Iu EQ)|apply (X t It); congruence].
    + specialize (IH m). destruct (hmerge_loop m ps) as [m2 out]. destruct IH as (L2 & V2 & St2 & K2 & O2); auto.
      cbn [map]. rewrite L2. cbn [oload fst snd option_map vmerge app]. split.
      { f_equal. unfold load. f_equal. apply K2; [apply V; cbn; auto|]. intros Hq. apply Lf in Hq as (t & It & Et').
        apply (Sep a t); cbn; auto. }
      split. { intros t [<-|It]; [|apply V2, It]. destruct K2. assert ((h_ptr a < List.length m)%nat) by (apply V; cbn; auto). lia. }
      split. { intros t [<-|It]; [right; exists a; cbn; auto|].
        destruct (St2 t It) as [X|(u & Iu & Eu)]; [left; exact X|right; exists u; split; [apply in_or_app; auto|exact Eu]]. }
      split; [exact K2|].
      assert (X : forall t, In t out -> h_ptr a <> h_ptr t).
      { intros t It EQ. assert ((h_ptr a < List.length m)%nat) by (apply V; cbn; auto).
        destruct (St2 t It) as [Fr|(u & Iu & Eu & _)]; [lia|]. apply (Sep a u); cbn; auto. congruence. }
      intros t u [<-|It] [<-|Iu] EQ; auto; exfalso; [apply (X u Iu EQ)|apply (X t It); congruence].
    + specialize (IH m). destruct (hmerge_loop m ps) as [m2 out]. destruct IH as (L2 & V2 & St2 & K2 & O2); auto.
      cbn [map]. rewrite L2. cbn [oload fst snd option_map vmerge app]. split.
      { f_equal. unfold load. f_equal. apply K2; [apply V; cbn; auto|]. intros Hq. apply Lf in Hq as (t & It & Et').
        apply (Sep b t); cbn; auto. }
      split. { intros t [<-|It]; [|apply V2, It]. destruct K2. assert ((h_ptr b < List.length m)%nat) by (apply V; cbn; auto). lia. }
      split. { intros t [<-|It]; [right; exists b; cbn; auto|].
        destruct (St2 t It) as [X|(u & Iu & Eu)]; [left; exact X|right; exists u; split; [apply in_or_app; auto|exact Eu]]. }
      split; [exact K2|].
      assert (X : forall t, In t out -> h_ptr b <> h_ptr t).
      { intros t It EQ. assert ((h_ptr b < List.length m)%nat) by (apply V; cbn; auto).
        destruct (St2 t It) as [Fr|(u & Iu & Eu & _)]; [lia|]. apply (Sep b u); cbn; auto. congruence. }
      intros t u [<-|It] [<-|Iu] EQ; auto; exfalso; [apply (X u Iu EQ)|apply (X t It); congruence].
    + specialize (IH m). destruct (hmerge_loop m ps) as [m2 out]. destruct IH as (L2 & V2 & St2 & K2 & O2); auto.
Qed.

Lemma hsorted_load m r : StronglySorted seg_lt (map (load m) r) -> hsorted r.
Proof.
  induction r as [|s r IH]; intros H; [constructor|]. cbn [map] in H. inversion H as [|? ? H1 H2]; subst.
  constructor; [apply IH, H1|]. rewrite Forall_forall in *. intros t I. apply (H2 (load m t)), in_map, I.
Qed.
Lemma nodup_ptrs r : hsorted r -> one_shard r -> NoDup (map h_ptr r).
Proof.
  induction r as [|s r IH]; intros S O; cbn [map]; constructor.
  - rewrite in_map_iff. intros (t & E & I). inversion S as [|? ? _ F]; subst. rewrite Forall_forall in F. specialize (F t I).
    assert (h_shard t = h_shard s) by (apply O; [right; auto|left; auto|exact E]). lia.
  - apply IH; [inversion S; auto|]. intros a b I J. apply O; right; auto.
Qed.

Lemma hrow_merge_spec (m : memory) (r o : hrow) : valid m (r ++ o) -> one_shard (r ++ o) -> hsorted r -> hsorted o ->
  let '(m', r') := hrow_merge m r o in
  map (load m') r' = row_merge (map (load m) r) (map (load m) o) /\ valid m' r' /\ stems m (r ++ o) r' /\
  keeps m m' (fun q => ptr_in q r) /\ one_shard r'.
Proof.
  intros V O Sr So. unfold hrow_merge.
  assert (I : forall s, In s (flat_map psegs (hmerge_iter r o)) -> In s (r ++ o)).
  { intros s H. apply in_flat_map in H as ([a b] & Ip & H). destruct (hmerge_iter_in r o a b Ip) as (A & B & _). apply in_or_app.
    unfold psegs in H. cbn [fst snd] in H. apply in_app_or in H as [H|H].
    - destruct a as [a|]; [destruct H as [<-|[]]; auto|destruct H].
    - destruct b as [b|]; [destruct H as [<-|[]]; auto|destruct H]. }
  pose proof (hmerge_loop_spec (hmerge_iter r o) m) as H. destruct (hmerge_loop m (hmerge_iter r o)) as [m' out].
  destruct H as (L & V' & St & K & Os).
  { intros s H. apply V, I, H. } { intros s t H1 H2. apply O; apply I; assumption. } { apply hmerge_iter_sorted; auto. }
  { intros s t H. destruct (hmerge_iter_in r o _ _ H) as (_ & _ & C). apply (C s t eq_refl eq_refl). }
  split.
  { unfold row_merge. rewrite <- hmerge_iter_load. unfold vmerge in L. rewrite <- L, !map_map. apply map_ext. intros s. reflexivity. }
  split. { intros s H. apply in_map_iff in H as (t & <- & H). cbn. apply (V' t H). }
  split. { intros s H. apply in_map_iff in H as (t & <- & H). cbn. destruct (St t H) as [X|(u & Iu & Eu)]; [left; exact X|right; exists u; auto]. }
  split. 2:{ intros s t H1 H2. apply in_map_iff in H1 as (s1 & <- & H1). apply in_map_iff in H2 as (s2 & <- & H2). cbn. apply Os; auto. }
  eapply keeps_weaken; [exact K|]. cbn. intros q _ (t & It & <-). apply in_flat_map in It as ([[a|] [b|]] & Ip & It); try contradiction.
  destruct It as [<-|[]]. destruct (hmerge_iter_in r o _ _ Ip) as (_ & _ & C). exists a. split; [apply (C a b eq_refl eq_refl)|reflexivity].
Qed.

(* ------------------------------------------------------------------ results in new rows *)
Definition pload (m : memory) (p : piece) : segment :=
  match p with Shared s => load m s | Fresh k d w n => Seg k d n end.
Definition shares (ps : list piece) : hrow := flat_map (fun p => match p with Shared s => [s] | _ => [] end) ps.
Lemma emit_spec ps : forall (m : memory), valid m (shares ps) ->
  let '(m', r) := emit m ps in
  map (load m') r = map (pload m) ps /\ valid m' r /\ stems m (shares ps) r /\ keeps m m' (fun _ => False) /\
  (forall s t, In s r -> In t r -> h_ptr s = h_ptr t -> (List.length m <= h_ptr s)%nat -> h_shard s = h_shard t).
Proof.
  induction ps as [|p ps IH]; intros m V; cbn [emit].
  - split; [reflexivity|]. split; [intros s []|]. split; [intros s []|]. split; [apply keeps_refl|intros s t []].
  - destruct p as [s|k d w n].
    + cbn [shares flat_map] in V |- *. specialize (IH m). destruct (emit m ps) as [m' r]. destruct IH as (L & V' & S & K & U).
      { intros t I. apply V. right. exact I. }
      assert (Vs : (h_ptr s < List.length m)%nat) by (apply V; left; auto).
      cbn [map]. rewrite L. split; [f_equal; unfold pload, load; f_equal; apply K; auto|].
      split. { intros t [<-|I]; [destruct K; lia|apply V', I]. }
      split. { intros t [<-|I]; [right; exists s; cbn; auto|]. destruct (S t I) as [X|(u & Iu & Eu)]; [left; exact X|right; exists u; cbn; auto]. }
      split; [exact K|]. intros x y [<-|Ix] [<-|Iy] E F; auto; lia.
    + cbn [alloc]. specialize (IH (m ++ [d])). destruct (emit (m ++ [d]) ps) as [m' r]. destruct IH as (L & V' & S & K & U).
      { intros t I. rewrite app_length. cbn. specialize (V t I). lia. }
      destruct K as [K1 K2]. rewrite app_length in K1. cbn [List.length] in K1.
      assert (Fr : forall t, In t r -> h_ptr t <> List.length m).
      { intros t I E. destruct (S t I) as [X|(u & Iu & Eu & _)]; [rewrite app_length in X; cbn in X; lia|].
        specialize (V u Iu). lia. }
      cbn [map]. rewrite L. split.
      { f_equal.
        - unfold load, pload. cbn. f_equal. rewrite K2; [apply deref_new|rewrite app_length; cbn; lia|tauto].
        - apply map_ext_in. intros q Iq. destruct q as [s|]; [|reflexivity]. cbn. unfold load. f_equal. apply deref_app, V.
          apply in_flat_map. exists (Shared s). split; [right; exact Iq|left; auto]. }
      split. { intros t [<-|I]; [cbn; lia|apply V', I]. }
      split. { intros t [<-|I]; [left; cbn; lia|]. destruct (S t I) as [X|X]; [left; rewrite app_length in X; lia|right; exact X]. }
      split. { split; [lia|]. intros q Hq _. rewrite K2; [apply deref_app, Hq|rewrite app_length; lia|tauto]. }
      intros x y [<-|Ix] [<-|Iy] E F; auto.
      * exfalso. cbn in E. apply (Fr y Iy). congruence.
      * exfalso. cbn in E. apply (Fr x Ix). congruence.
      * apply U; auto. rewrite app_length. cbn. specialize (Fr x Ix). lia.
Qed.

Lemma pload_made m k d : pload m (made k d) = seg_of k d. Proof. reflexivity. Qed.
Lemma map_flat_map {A B C} (g : B -> C) (f : A -> list B) l : map g (flat_map f l) = flat_map (fun x => map g (f x)) l.
Proof. induction l as [|x l IH]; [reflexivity|]. cbn. rewrite map_app, IH. reflexivity. Qed.
Lemma flat_map_map {A B C} (g : A -> B) (f : B -> list C) l : flat_map f (map g l) = flat_map (fun x => f (g x)) l.
Proof. induction l as [|x l IH]; [reflexivity|]. cbn. rewrite IH. reflexivity. Qed.
Lemma flat_map_ext' {A B} (f g : A -> list B) l : (forall x, f x = g x) -> flat_map f l = flat_map g l.
Proof. intros H. induction l as [|x l IH]; [reflexivity|]. cbn. rewrite H, IH. reflexivity. Qed.

Lemma intersect_value m r o : map (pload m) (intersect_pieces m r o) = row_intersect (map (load m) r) (map (load m) o).
Proof.
  unfold intersect_pieces, row_intersect. rewrite <- hmerge_iter_load, map_flat_map, flat_map_map. apply flat_map_ext'.
  intros [[a|] [b|]]; reflexivity.
Qed.
Lemma xor_value m r o : map (pload m) (xor_pieces m r o) = row_xor (map (load m) r) (map (load m) o).
Proof.
  unfold xor_pieces, row_xor. rewrite <- hmerge_iter_load, map_flat_map, flat_map_map. apply flat_map_ext'.
  intros [[a|] [b|]]; reflexivity.
Qed.
Lemma xor_shares m r o s : In s (shares (xor_pieces m r o)) -> In s (r ++ o).
Proof.
  intros H. unfold shares, xor_pieces in H. apply in_flat_map in H as (p & Ip & H). apply in_flat_map in Ip as ([a b] & Iq & Ip).
  destruct (hmerge_iter_in r o a b Iq) as (A & B & _). apply in_or_app. destruct a as [a|], b as [b|]; cbn in Ip;
    try contradiction; destruct Ip as [<-|[]]; cbn in H; try contradiction; destruct H as [<-|[]]; auto.
Qed.
Lemma intersect_shares m r o : shares (intersect_pieces m r o) = [].
Proof.
  unfold intersect_pieces. induction (hmerge_iter r o) as [|[[a|] [b|]] l IH]; cbn [flat_map app]; auto.
Qed.
Lemma clone_value m r : map (pload m) (clone_pieces m r) = map (load m) r.
Proof. unfold clone_pieces. rewrite map_map. reflexivity. Qed.
Lemma clone_shares m r : shares (clone_pieces m r) = [].
Proof. unfold clone_pieces. induction r as [|s r IH]; cbn [map shares flat_map app]; auto. Qed.
Lemma bitmap_value m r : map (pload m) (bitmap_pieces r) = r.
Proof. unfold bitmap_pieces. rewrite map_map. rewrite <- map_id. apply map_ext. intros []. reflexivity. Qed.
Lemma bitmap_shares r : shares (bitmap_pieces r) = [].
Proof. unfold bitmap_pieces. induction r as [|s r IH]; cbn [map shares flat_map app]; auto. Qed.

(* union *)
Lemma hheads_min_load m ls : forall d, hheads_min ls d = heads_min (map (map (load m)) ls) d.
Proof.
  unfold hheads_min, heads_min. induction ls as [|l ls IH]; intros d; [reflexivity|]. cbn [fold_left map]. rewrite IH.
  f_equal. destruct l as [|s t]; reflexivity.
Qed.
Lemma hto_process_load m k ls : map (load m) (hto_process k ls) = to_process k (map (map (load m)) ls).
Proof.
  unfold hto_process, to_process. rewrite map_flat_map, flat_map_map. apply flat_map_ext'. intros [|s t]; [reflexivity|].
  cbn. destruct (h_shard s =? k); reflexivity.
Qed.
Lemma hnext_segs_load m k ls : map (map (load m)) (hnext_segs k ls) = next_segs k (map (map (load m)) ls).
Proof.
  unfold hnext_segs, next_segs. rewrite map_flat_map, flat_map_map. apply flat_map_ext'. intros [|s t]; [reflexivity|].
  cbn. destruct (h_shard s =? k); [destruct t; reflexivity|reflexivity].
Qed.
Lemma fold_union_load m t : forall d, fold_left (fun d o => sunion d (deref m (h_ptr o))) t d = fold_left (fun d o => sunion d (g_data o)) (map (load m) t) d.
Proof. induction t as [|s t IH]; intros d; [reflexivity|]. cbn. apply IH. Qed.
Lemma union_loop_value m : forall fuel ls,
  option_map (map (pload m)) (union_pieces_loop m fuel ls) = union_loop fuel (map (map (load m)) ls).
Proof.
  induction fuel as [|f IH]; intros [|l0 ls]; try reflexivity.
  cbn [union_pieces_loop union_loop map].
  assert (E0 : match map (load m) l0 with s :: _ => g_shard s | [] => 0 end = match l0 with s :: _ => h_shard s | [] => 0 end) by (destruct l0; reflexivity).
  rewrite E0. clear E0. set (d := match l0 with s :: _ => h_shard s | [] => 0 end).
  change (map (load m) l0 :: map (map (load m)) ls) with (map (map (load m)) (l0 :: ls)).
  rewrite <- (hheads_min_load m (l0 :: ls) d), <- hto_process_load, <- hnext_segs_load, <- IH.
  set (k := hheads_min (l0 :: ls) d). destruct (union_pieces_loop m f (hnext_segs k (l0 :: ls))) as [ps|]; cbn [option_map]; [|reflexivity].
  f_equal. rewrite map_app. f_equal. destruct (hto_process k (l0 :: ls)) as [|s [|s' t]]; cbn [map]; try reflexivity.
  cbn [fold_left]. rewrite fold_union_load. reflexivity.
Qed.
Lemma union_value m r os : option_map (map (pload m)) (union_pieces m r os) = row_union (map (load m) r) (map (map (load m)) os).
Proof.
  unfold union_pieces, row_union. rewrite union_loop_value.
  match goal with |- union_loop _ ?a = union_loop _ ?b => assert (E : a = b) end.
  { rewrite map_flat_map. change (map (load m) r :: map (map (load m)) os) with (map (map (load m)) (r :: os)).
    rewrite flat_map_map. apply flat_map_ext'. intros [|s t]; reflexivity. }
  rewrite <- E. f_equal. rewrite map_map. f_equal. apply map_ext. intros l. symmetry. apply map_length.
Qed.
Lemma union_loop_shares m : forall fuel ls ps, union_pieces_loop m fuel ls = Some ps ->
  forall s, In s (shares ps) -> exists l, In l ls /\ In s l.
Proof.
  induction fuel as [|f IH]; intros [|l0 ls] ps H s I; cbn [union_pieces_loop] in H; try discriminate;
    try (apply some_inj in H; subst; destruct I).
  set (k := hheads_min (l0 :: ls) match l0 with s :: _ => h_shard s | [] => 0 end) in *. clearbody k.
  destruct (union_pieces_loop m f (hnext_segs k (l0 :: ls))) as [qs|] eqn:E; [|discriminate]. apply some_inj in H. subst ps.
  unfold shares in I. rewrite flat_map_app in I. apply in_app_or in I as [I|I].
  - assert (J : In s (hto_process k (l0 :: ls))).
    { destruct (hto_process k (l0 :: ls)) as [|t [|t' u]]; cbn in I; [destruct I|destruct I as [<-|[]]; left; auto|destruct I]. }
    unfold hto_process in J. apply in_flat_map in J as (l & Il & J). exists l. split; [exact Il|]. destruct l as [|t l]; [destruct J|].
    destruct (h_shard t =? k); [destruct J as [<-|[]]; left; auto|destruct J].
  - destruct (IH _ _ E s I) as (l & Il & Is). unfold hnext_segs in Il. apply in_flat_map in Il as (l' & Il' & J). exists l'. split; [exact Il'|].
    destruct l' as [|t l']; [destruct J|]. cbn zeta in J. destruct (h_shard t =? k).
    + destruct l' as [|u l']; [destruct J|]. destruct J as [<-|[]]. right. exact Is.
    + destruct J as [<-|[]]. exact Is.
Qed.
Lemma union_shares m r os ps : union_pieces m r os = Some ps -> forall s, In s (shares ps) -> exists l, In l (r :: os) /\ In s l.
Proof.
  intros H s I. destruct (union_loop_shares _ _ _ _ H s I) as (l & Il & Is). apply in_flat_map in Il as (l' & Il' & J).
  exists l'. split; [exact Il'|]. destruct l' as [|t l']; [destruct J|]. destruct J as [<-|[]]. exact Is.
Qed.

(* difference *)
Definition mapv {A B} (f : A -> B) (m : amap N A) : amap N B := map (fun kv => (fst kv, f (snd kv))) m.
Lemma aget_mapv {A B} (f : A -> B) k (m : amap N A) : aget N.eqb k (mapv f m) = option_map f (aget N.eqb k m).
Proof. induction m as [|[k' v] m IH]; [reflexivity|]. cbn. destruct (N.eqb k k'); [reflexivity|exact IH]. Qed.
Lemma aset_mapv {A B} (f : A -> B) k v (m : amap N A) : aset N.eqb k (f v) (mapv f m) = mapv f (aset N.eqb k v m).
Proof. induction m as [|[k' u] m IH]; [reflexivity|]. cbn. destruct (N.eqb k k'); [reflexivity|]. cbn. f_equal. exact IH. Qed.
Lemma hdiff_map_gen m l : forall a,
  fold_left (fun m s => aset N.eqb (g_shard s) (match aget N.eqb (g_shard s) m with Some l => l | None => [] end ++ [s]) m)
    (map (load m) l) (mapv (map (load m)) a) =
  mapv (map (load m)) (fold_left (fun m s => aset N.eqb (h_shard s) (match aget N.eqb (h_shard s) m with Some l => l | None => [] end ++ [s]) m) l a).
Proof.
  induction l as [|s l IH]; intros a; [reflexivity|]. cbn [map fold_left]. cbn [g_shard load]. rewrite aget_mapv, <- IH. f_equal.
  rewrite <- aset_mapv. f_equal. rewrite map_app. destruct (aget N.eqb (h_shard s) a); reflexivity.
Qed.
Lemma fold_diff_load m t : forall d, fold_left (fun d o => sdiff d (deref m (h_ptr o))) t d = fold_left (fun d o => sdiff d (g_data o)) (map (load m) t) d.
Proof. induction t as [|s t IH]; intros d; [reflexivity|]. cbn. apply IH. Qed.
Lemma difference_value m r os : map (pload m) (difference_pieces m r os) = row_difference (map (load m) r) (map (map (load m)) os).
Proof.
  unfold difference_pieces, row_difference. rewrite !map_map. apply map_ext. intros s. cbn [g_shard load].
  assert (E : diff_map (map (map (load m)) os) = mapv (map (load m)) (hdiff_map os)).
  { unfold diff_map, hdiff_map. rewrite <- concat_map. apply (hdiff_map_gen m (List.concat os) []). }
  rewrite E, aget_mapv. destruct (aget N.eqb (h_shard s) (hdiff_map os)) as [dest|]; cbn [option_map]; [|reflexivity].
  rewrite pload_made. rewrite fold_diff_load. reflexivity.
Qed.
Lemma difference_shares m r os s : In s (shares (difference_pieces m r os)) -> In s r.
Proof.
  intros H. apply in_flat_map in H as (p & Ip & H). apply in_map_iff in Ip as (t & E & It).
  destruct (aget N.eqb (h_shard t) (hdiff_map os)); subst p; cbn in H; [destruct H|destruct H as [<-|[]]; exact It].
Qed.
