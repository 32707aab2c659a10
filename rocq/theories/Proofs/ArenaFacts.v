From Verif.Model Require Import Base Arena.
From Verif.Proofs Require Import BaseFacts.
Open Scope nat_scope.

Lemma upd_len {A} n (x : A) l : List.length (update_nth n x l) = List.length l.
Proof. revert n. induction l; intros [|n]; cbn; auto. Qed.
Lemma upd_eq {A} n (x : A) l : n < List.length l -> nth_error (update_nth n x l) n = Some x.
Proof. revert n. induction l; intros [|n] H; cbn in *; try lia; auto. apply IHl. lia. Qed.
Lemma upd_ne {A} n m (x : A) l : n <> m -> nth_error (update_nth n x l) m = nth_error l m.
Proof. revert n m. induction l; intros [|n] [|m] H; cbn; try reflexivity; try congruence. apply IHl. congruence. Qed.
Lemma array_upd_eq h i l : i < List.length h -> array (update_nth i l h) i = l.
Proof. unfold array. revert i. induction h; intros [|i] H; cbn in *; try lia; auto. apply IHh. lia. Qed.
Lemma array_upd_ne h i j l : i <> j -> array (update_nth i l h) j = array h j.
Proof. unfold array. revert i j. induction h; intros [|i] [|j] H; cbn; try reflexivity; try congruence. apply IHh. congruence. Qed.
Lemma array_upd_same h i : update_nth i (array h i) h = h.
Proof. unfold array. revert i. induction h; intros [|i]; cbn; f_equal; auto. Qed.
Lemma array_app h l i : i < List.length h -> array (h ++ l) i = array h i. Proof. apply app_nth1. Qed.
Lemma array_new h l : array (h ++ [l]) (List.length h) = l.
Proof. unfold array. rewrite app_nth2, Nat.sub_diag by lia. reflexivity. Qed.
Lemma overwrite_nil l off : overwrite l off [] = l.
Proof. unfold overwrite. cbn [List.length app]. rewrite Nat.add_0_r. apply firstn_skipn. Qed.
Lemma overwrite_len l off bs : off + List.length bs <= List.length l -> List.length (overwrite l off bs) = List.length l.
Proof. intros H. unfold overwrite. rewrite !app_length, firstn_length, skipn_length. lia. Qed.
Lemma overwrite_prefix l off bs : off <= List.length l -> firstn off (overwrite l off bs) = firstn off l.
Proof. intros H. unfold overwrite. rewrite firstn_app, firstn_firstn, Nat.min_id, firstn_length_le, Nat.sub_diag by exact H. cbn [firstn]. apply app_nil_r. Qed.
Lemma overwrite_upto l off bs : off <= List.length l -> firstn (off + List.length bs) (overwrite l off bs) = firstn off l ++ bs.
Proof.
  intros H. unfold overwrite. rewrite app_assoc. rewrite firstn_app. rewrite !app_length, firstn_length_le by exact H. rewrite Nat.sub_diag. cbn [firstn]. rewrite app_nil_r. apply firstn_all2. rewrite app_length, firstn_length_le by exact H. lia.
Qed.
Lemma sub_firstn off n m l : off + n <= m -> sub off n (firstn m l) = sub off n l.
Proof. intros H. unfold sub. rewrite skipn_firstn_comm, firstn_firstn. f_equal. lia. Qed.
Lemma sub_ext off n m l l' : off + n <= m -> firstn m l = firstn m l' -> sub off n l = sub off n l'.
Proof. intros H E. rewrite <- (sub_firstn off n m l H), <- (sub_firstn off n m l' H), E. reflexivity. Qed.
Lemma sub_zero off l : sub off 0 l = []. Proof. reflexivity. Qed.
Lemma sub_to_end off l : sub off (List.length l - off) l = skipn off l.
Proof. unfold sub. apply firstn_all2. rewrite skipn_length. lia. Qed.

Definition wf (h : heap) (a : arena) : Prop :=
  a_off a <= a_len a /\ a_len a <= a_cap a /\ (0 < a_cap a -> a_arr a < List.length h /\ List.length (array h (a_arr a)) = a_cap a).
Definition current (h : heap) (a : arena) : bytes := sub (a_off a) (a_len a - a_off a) (array h (a_arr a)).
(** What a call on an arena may do to the memory. *)
Record grows (h : heap) (a : arena) (h' : heap) (a' : arena) : Prop := {
  g_wf : wf h' a';
  g_heap : List.length h <= List.length h';
  g_other : forall k, k < List.length h -> (k = a_arr a -> a_cap a = 0) -> array h' k = array h k;
  g_own : 0 < a_cap a -> firstn (a_len a) (array h' (a_arr a)) = firstn (a_len a) (array h (a_arr a)) /\ List.length (array h' (a_arr a)) = List.length (array h (a_arr a));
  g_arr : (a_arr a' = a_arr a /\ a_cap a' = a_cap a) \/ (List.length h <= a_arr a' < List.length h');
  g_len : a_len a <= a_len a' }.
Lemma grows_refl h a : wf h a -> grows h a h a.
Proof. intros W. split; auto. Qed.
Lemma grows_same h a a' : wf h a -> a_arr a' = a_arr a -> a_cap a' = a_cap a -> a_len a <= a_len a' -> a_off a' <= a_len a' -> a_len a' <= a_cap a' -> grows h a h a'.
Proof. intros (W1 & W2 & W3) E1 E2 L1 L2 L3. split; auto. split; [exact L2|]. split; [exact L3|]. rewrite E1, E2. exact W3. Qed.
Lemma grows_trans h a h1 a1 h2 a2 : wf h a -> grows h a h1 a1 -> grows h1 a1 h2 a2 -> grows h a h2 a2.
Proof.
  intros W [A1 A2 A3 A4 A5 A6] [B1 B2 B3 B4 B5 B6]. split; auto; try lia.
  - intros k Hk Ek. rewrite <- (A3 k Hk Ek). apply B3; [lia|]. intros E. destruct A5 as [[E1 E2]|E1]; [rewrite E1 in E; rewrite E2; apply Ek, E|lia].
  - intros C. destruct (A4 C) as [F L]. destruct W as (W1 & W2 & W3). destruct (W3 C) as [W4 _]. destruct A5 as [[E1 E2]|E1].
    + rewrite E1, E2 in B4. destruct (B4 C) as [F' L']. split; [|congruence]. rewrite <- F. rewrite <- (Nat.min_l (a_len a) (a_len a1)) at 1 by lia. rewrite <- firstn_firstn, F', firstn_firstn. f_equal. lia.
    + assert (X : array h2 (a_arr a) = array h1 (a_arr a)) by (apply B3; [lia|intros E; lia]). rewrite X. auto.
Qed.
Lemma append_grows h a bs extra h' a' : wf h a -> append_bytes h a bs extra = (h', a') ->
  grows h a h' a' /\ a_off a' = a_off a /\ a_len a' = a_len a + List.length bs /\ firstn (a_len a') (array h' (a_arr a')) = firstn (a_len a) (array h (a_arr a)) ++ bs.
Proof.
  intros (W1 & W2 & W3) E. unfold append_bytes in E. destruct (Nat.leb_spec (a_len a + List.length bs) (a_cap a)) as [Le|Gt]; apply pair_inj in E; destruct E as [<- <-]; cbn [a_arr a_len a_cap a_off].
  - destruct (Nat.eq_dec (a_cap a) 0) as [C|C].
    + assert (L0 : a_len a = 0) by lia. destruct bs as [|b bs]; [|cbn in Le; lia]. rewrite overwrite_nil, array_upd_same. cbn [List.length]. rewrite Nat.add_0_r, app_nil_r.
      split; [|auto]. apply grows_same; cbn; try lia. split; [lia|]. split; [lia|exact W3].
    + destruct (W3 ltac:(lia)) as [W4 W5]. rewrite array_upd_eq by exact W4. split; [|split; [reflexivity|]; split; [reflexivity|apply overwrite_upto; lia]].
      split; cbn [a_arr a_len a_cap a_off]; rewrite ?upd_len; try lia; auto.
      * split; [cbn; lia|]. split; [cbn; lia|]. cbn. intros _. rewrite upd_len, array_upd_eq, overwrite_len by lia. auto.
      * intros k Hk Ek. apply array_upd_ne. intros <-. lia.
      * intros _. rewrite array_upd_eq by exact W4. rewrite overwrite_prefix, overwrite_len by lia. auto.
  - rewrite array_new. assert (F : firstn (a_len a + List.length bs) (firstn (a_len a) (array h (a_arr a)) ++ bs ++ repeat 0%N extra) = firstn (a_len a) (array h (a_arr a)) ++ bs).
    { rewrite app_assoc, firstn_app.
      assert (L : List.length (firstn (a_len a) (array h (a_arr a))) = a_len a). { destruct (Nat.eq_dec (a_cap a) 0); [assert (a_len a = 0) as -> by lia; reflexivity|]. apply firstn_length_le. destruct W3; lia. }
      rewrite !app_length, L, Nat.sub_diag. cbn [firstn]. rewrite app_nil_r. apply firstn_all2. rewrite app_length, L. lia. }
    assert (L : List.length (firstn (a_len a) (array h (a_arr a))) = a_len a). { destruct (Nat.eq_dec (a_cap a) 0); [assert (a_len a = 0) as -> by lia; reflexivity|]. apply firstn_length_le. destruct W3; lia. }
    split; [|auto]. split; cbn [a_arr a_len a_cap a_off]; rewrite ?app_length; cbn [List.length]; try lia.
    + split; [cbn; lia|]. split; [cbn; lia|]. cbn. intros _. rewrite app_length, array_new, !app_length, L, repeat_length. cbn. lia.
    + intros k Hk _. apply array_app, Hk.
    + intros C. destruct (W3 C) as [W4 W5]. rewrite array_app by exact W4. auto.
Qed.
Lemma sub_current_app off len n l l' bs : off <= len -> len <= List.length l -> n = len + List.length bs -> firstn n l' = firstn len l ++ bs -> sub off (n - off) l' = sub off (len - off) l ++ bs.
Proof.
  intros O L -> E. rewrite <- (sub_firstn off _ (len + List.length bs) l') by lia. rewrite E. unfold sub. rewrite skipn_app, firstn_app, !skipn_length, firstn_length_le by exact L.
  rewrite skipn_firstn_comm. replace (off - len) with 0 by lia. cbn [skipn]. rewrite firstn_firstn. f_equal; [f_equal; lia|]. apply firstn_all2. lia.
Qed.
Lemma append_current h a bs extra h' a' : wf h a -> append_bytes h a bs extra = (h', a') -> current h' a' = current h a ++ bs.
Proof.
  intros W E. destruct (append_grows _ _ _ _ _ _ W E) as (_ & O & L & F). unfold current. rewrite O. destruct W as (W1 & W2 & W3).
  destruct (Nat.eq_dec (a_cap a) 0) as [C|C].
  - assert (L0 : a_len a = 0) by lia. assert (O0 : a_off a = 0) by lia. rewrite L0, O0 in *. cbn [Nat.sub firstn app] in *. unfold sub. cbn [firstn skipn app]. rewrite Nat.sub_0_r, F. reflexivity.
  - apply sub_current_app; auto. destruct W3; lia.
Qed.
Lemma chunks_grow l : forall h a h' a', wf h a -> append_chunks h a l = (h', a') -> grows h a h' a' /\ a_off a' = a_off a /\ current h' a' = current h a ++ List.concat (map fst l).
Proof.
  induction l as [|[bs extra] l IH]; intros h a h' a' W E; cbn [append_chunks] in E.
  - apply pair_inj in E. destruct E as [<- <-]. cbn. rewrite app_nil_r. split; [apply grows_refl, W|auto].
  - destruct (append_bytes h a bs extra) as [h1 a1] eqn:E1. destruct (append_grows _ _ _ _ _ _ W E1) as (G & O & _ & _). destruct (IH _ _ _ _ (g_wf _ _ _ _ G) E) as (G' & O' & C').
    split; [exact (grows_trans _ _ _ _ _ _ W G G')|]. split; [congruence|]. rewrite C', (append_current _ _ _ _ _ _ W E1). cbn [map fst List.concat]. rewrite app_assoc. reflexivity.
Qed.
Lemma wf_mark h a : wf h a -> wf h (mark a). Proof. intros (W1 & W2 & W3). unfold wf, mark. cbn. auto. Qed.
Lemma mark_grows h a : wf h a -> grows h a h (mark a).
Proof. intros (W1 & W2 & W3). apply grows_same; cbn; auto. split; auto. Qed.
Lemma current_mark h a : current h (mark a) = []. Proof. unfold current, mark. cbn. rewrite Nat.sub_diag. reflexivity. Qed.
Lemma current_truncate h a : current h (truncate a) = []. Proof. unfold current, truncate. cbn. rewrite Nat.sub_diag. reflexivity. Qed.
(** Marking, growing, and then truncating back. *)
Lemma truncate_grows h a h' a' n : wf h a -> grows h a h' a' -> a_off a' = n -> a_len a <= n -> grows h a h' (truncate a').
Proof.
  intros W [A1 A2 A3 A4 A5 A6] O L. split; auto; unfold truncate; cbn [a_arr a_len a_cap a_off]; try lia; auto. destruct A1 as (X1 & X2 & X3). split; cbn; [lia|]. split; [lia|exact X3].
Qed.

Record winv (w : world) : Prop := {
  i_wf : forall i a l, nth_error (w_arenas w) i = Some (a, l) -> wf (w_heap w) a;
  i_sep : forall i j a b l m, nth_error (w_arenas w) i = Some (a, l) -> nth_error (w_arenas w) j = Some (b, m) -> 0 < a_cap a -> 0 < a_cap b -> a_arr a = a_arr b -> i = j }.
Definition view_ok (w : world) (v : view) (bs : bytes) : Prop :=
  read (w_heap w) v = bs /\ (v_len v = 0 \/ (v_arr v < List.length (w_heap w) /\
    forall j a l, nth_error (w_arenas w) j = Some (a, l) -> 0 < a_cap a -> a_arr a = v_arr v -> j = v_owner v /\ v_off v + v_len v <= a_len a)).

Section OneStep.
  Variables (w : world) (i : nat) (a a' : arena) (h' : heap) (live : bool).
  Hypothesis WI : winv w.
  Hypothesis Hi : nth_error (w_arenas w) i = Some (a, true).
  Hypothesis G : grows (w_heap w) a h' a'.
  Let Wa : wf (w_heap w) a := i_wf w WI _ _ _ Hi.
  Let Li : i < List.length (w_arenas w).
  Proof. apply nth_error_Some. congruence. Qed.
  (** An array that belongs to somebody else is not touched. *)
  Lemma other_array j b m : j <> i -> nth_error (w_arenas w) j = Some (b, m) -> 0 < a_cap b -> array h' (a_arr b) = array (w_heap w) (a_arr b).
  Proof.
    intros N Hj C. assert (Wb := i_wf w WI _ _ _ Hj). destruct Wb as (_ & _ & Wb). destruct (Wb C) as [L _]. apply (g_other _ _ _ _ G); [exact L|].
    intros E. destruct (Nat.eq_dec (a_cap a) 0) as [|Ca]; [assumption|]. exfalso. apply N. eapply (i_sep w WI); [exact Hj|exact Hi|exact C|lia|exact E].
  Qed.
  Lemma step_winv : winv (with_arena w h' i a' live).
  Proof.
    split; unfold with_arena; cbn [w_heap w_arenas].
    - intros j b m Hj. destruct (Nat.eq_dec i j) as [<-|N].
      + rewrite upd_eq in Hj by exact Li. apply some_inj in Hj. apply pair_inj in Hj. destruct Hj as [<- _]. apply (g_wf _ _ _ _ G).
      + rewrite upd_ne in Hj by exact N. assert (Wb := i_wf w WI _ _ _ Hj). destruct Wb as (W1 & W2 & W3). split; [exact W1|]. split; [exact W2|]. intros C. destruct (W3 C) as [L1 L2].
        split; [assert (X := g_heap _ _ _ _ G); lia|]. rewrite (other_array j b m); [exact L2|congruence|exact Hj|exact C].
    - intros j k b c l m Hj Hk Cb Cc E. destruct (Nat.eq_dec i j) as [<-|Nj], (Nat.eq_dec i k) as [<-|Nk]; try reflexivity.
      + rewrite upd_eq in Hj by exact Li. rewrite upd_ne in Hk by exact Nk. apply some_inj in Hj. apply pair_inj in Hj. destruct Hj as [<- _].
        destruct (i_wf w WI _ _ _ Hk) as (_ & _ & W3). destruct (W3 Cc) as [Lc _]. destruct (g_arr _ _ _ _ G) as [[E1 E2]|E1]; [|lia]. eapply (i_sep w WI); [exact Hi|exact Hk|lia|exact Cc|congruence].
      + rewrite upd_eq in Hk by exact Li. rewrite upd_ne in Hj by exact Nj. apply some_inj in Hk. apply pair_inj in Hk. destruct Hk as [<- _].
        destruct (i_wf w WI _ _ _ Hj) as (_ & _ & W3). destruct (W3 Cb) as [Lc _]. destruct (g_arr _ _ _ _ G) as [[E1 E2]|E1]; [|lia]. eapply (i_sep w WI); [exact Hj|exact Hi|exact Cb|lia|congruence].
      + rewrite upd_ne in Hj by exact Nj. rewrite upd_ne in Hk by exact Nk. eapply (i_sep w WI); eassumption.
  Qed.
  Lemma step_view v bs : view_ok w v bs -> view_ok (with_arena w h' i a' live) v bs.
  Proof.
    intros [R [Z|[L O]]]; unfold view_ok, with_arena; cbn [w_heap w_arenas]; [split; [rewrite <- R; unfold read; rewrite Z; reflexivity|left; exact Z]|].
    assert (Hh := g_heap _ _ _ _ G). split; [|right; split; [lia|]].
    - rewrite <- R. unfold read. destruct (Nat.eq_dec (v_arr v) (a_arr a)) as [E|N].
      + destruct (Nat.eq_dec (a_cap a) 0) as [C|C]; [rewrite (g_other _ _ _ _ G) by auto; reflexivity|]. destruct (g_own _ _ _ _ G ltac:(lia)) as [F _]. rewrite E. destruct (O _ _ _ Hi ltac:(lia) (eq_sym E)) as [_ Len]. eapply sub_ext; [exact Len|exact F].
      + rewrite (g_other _ _ _ _ G); [reflexivity|exact L|intros X; congruence].
    - intros j b m Hj C E. destruct (Nat.eq_dec i j) as [<-|Nj].
      + rewrite upd_eq in Hj by exact Li. apply some_inj in Hj. apply pair_inj in Hj. destruct Hj as [<- _]. destruct (g_arr _ _ _ _ G) as [[E1 E2]|E1]; [|lia]. destruct (O _ _ _ Hi ltac:(lia) ltac:(congruence)) as [O1 O2]. split; [exact O1|]. assert (X := g_len _ _ _ _ G). lia.
      + rewrite upd_ne in Hj by exact Nj. exact (O _ _ _ Hj C E).
  Qed.
  Lemma other_current j b m : j <> i -> nth_error (w_arenas w) j = Some (b, m) -> current h' b = current (w_heap w) b.
  Proof.
    intros N Hj. unfold current. destruct (Nat.eq_dec (a_cap b) 0) as [C|C].
    - destruct (i_wf w WI _ _ _ Hj) as (W1 & W2 & _). replace (a_len b - a_off b) with 0 by lia. reflexivity.
    - rewrite (other_array j b m); [reflexivity|exact N|exact Hj|lia].
  Qed.
  Lemma new_view : view_ok (with_arena w h' i a' live) (bytes_view i a') (current h' a').
  Proof.
    split; [reflexivity|]. cbn [v_len v_arr v_owner v_off bytes_view]. destruct (Nat.eq_dec (a_len a' - a_off a') 0) as [|N]; [left; assumption|right]. destruct (g_wf _ _ _ _ G) as (W1 & W2 & W3). unfold with_arena. cbn [w_heap w_arenas].
    split; [destruct W3; lia|]. intros j b m Hj C E. destruct (Nat.eq_dec i j) as [<-|Nj].
    - rewrite upd_eq in Hj by exact Li. apply some_inj in Hj. apply pair_inj in Hj. destruct Hj as [<- _]. split; [reflexivity|lia].
    - exfalso. apply Nj. eapply (i_sep _ step_winv); unfold with_arena; cbn [w_arenas]; [apply upd_eq, Li|exact Hj|lia|exact C|congruence].
  Qed.
End OneStep.

(** Release: zeroes the arena's own bytes. *)
Lemma release_other w i a j b m : winv w -> nth_error (w_arenas w) i = Some (a, true) -> j <> i -> nth_error (w_arenas w) j = Some (b, m) -> 0 < a_cap b ->
  array (update_nth (a_arr a) (overwrite (array (w_heap w) (a_arr a)) 0 (repeat 0%N (a_len a))) (w_heap w)) (a_arr b) = array (w_heap w) (a_arr b).
Proof.
  intros WI Hi N Hj C. destruct (Nat.eq_dec (a_cap a) 0) as [C0|C0].
  - destruct (i_wf w WI _ _ _ Hi) as (W1 & W2 & _). replace (a_len a) with 0 by lia. cbn [repeat]. rewrite overwrite_nil, array_upd_same. reflexivity.
  - apply array_upd_ne. intros E. apply N. eapply (i_sep w WI); [exact Hj|exact Hi|exact C|lia|congruence].
Qed.
Lemma release_array w i a k : winv w -> nth_error (w_arenas w) i = Some (a, true) -> (k = a_arr a -> a_cap a = 0) ->
  array (update_nth (a_arr a) (overwrite (array (w_heap w) (a_arr a)) 0 (repeat 0%N (a_len a))) (w_heap w)) k = array (w_heap w) k.
Proof.
  intros WI Hi N. destruct (Nat.eq_dec (a_cap a) 0) as [C0|C0].
  - destruct (i_wf w WI _ _ _ Hi) as (W1 & W2 & _). replace (a_len a) with 0 by lia. cbn [repeat]. rewrite overwrite_nil, array_upd_same. reflexivity.
  - apply array_upd_ne. intros E. apply C0. apply N. auto.
Qed.

From Verif.Spec Require Import Buffers.
Definition contents (w : world) (p : nat -> bytes) : Prop :=
  (forall i a l, nth_error (w_arenas w) i = Some (a, l) -> current (w_heap w) a = p i) /\ (forall i, List.length (w_arenas w) <= i -> p i = []).
(** The arena [i] of [w] is replaced by [a'], its memory by [h'], and a slice [r] of it is returned. *)
Lemma grow_step w i a h' a' live p q r : winv w -> nth_error (w_arenas w) i = Some (a, true) -> grows (w_heap w) a h' a' ->
  contents w p -> q i = current h' a' -> (forall j, j <> i -> q j = p j) -> (forall v, r = Some v -> v = bytes_view i a') ->
  winv (with_arena w h' i a' live) /\ (forall v bs, view_ok w v bs -> view_ok (with_arena w h' i a' live) v bs) /\
  contents (with_arena w h' i a' live) q /\ (forall v, r = Some v -> view_ok (with_arena w h' i a' live) v (q i)).
Proof.
  intros WI Hi G [C1 C2] Q1 Q2 R. assert (Li : i < List.length (w_arenas w)) by (apply nth_error_Some; congruence).
  split; [apply (step_winv w i a); assumption|]. split; [intros v bs; apply (step_view w i a); assumption|]. split.
  - unfold with_arena. split; cbn [w_heap w_arenas].
    + intros j b m Hj. destruct (Nat.eq_dec i j) as [<-|N].
      * rewrite upd_eq in Hj by exact Li. apply some_inj in Hj. apply pair_inj in Hj. destruct Hj as [<- _]. symmetry. exact Q1.
      * rewrite upd_ne in Hj by exact N. rewrite Q2 by congruence. rewrite <- (C1 _ _ _ Hj). eapply (other_current w i a a' h' WI Hi G j b m); [congruence|exact Hj].
    + intros j. rewrite upd_len. intros L. rewrite Q2 by lia. apply C2, L.
  - intros v E. rewrite (R v E), Q1. apply (new_view w i a); assumption.
Qed.
Lemma step_all w o w' r p : winv w -> contents w p -> step w o = Some (w', r) ->
  winv w' /\ (forall v bs, view_ok w v bs -> o <> ORelease (v_owner v) -> view_ok w' v bs) /\ contents w' (fun i => writes_to i (p i) o) /\
  (forall v, r = Some v -> exists i, subject o = Some i /\ v_owner v = i /\ view_ok w' v (writes_to i (p i) o)).
Proof.
  intros WI C E.
  assert (Grow : forall i a h' a' r', subject o = Some i -> nth_error (w_arenas w) i = Some (a, true) -> grows (w_heap w) a h' a' -> writes_to i (p i) o = current h' a' ->
     (forall v, r' = Some v -> v = bytes_view i a') -> (with_arena w h' i a' true, r') = (w', r) ->
     winv w' /\ (forall v bs, view_ok w v bs -> o <> ORelease (v_owner v) -> view_ok w' v bs) /\ contents w' (fun i => writes_to i (p i) o) /\
     (forall v, r = Some v -> exists i, subject o = Some i /\ v_owner v = i /\ view_ok w' v (writes_to i (p i) o))).
  { intros i a h' a' r' S Hi G Q R X. apply pair_inj in X. destruct X as [<- <-].
    destruct (grow_step w i a h' a' true p (fun i => writes_to i (p i) o) r' WI Hi G C Q) as (A & B & D & F); [|exact R|].
    - intros j Nj. destruct o; cbn [subject] in S; try discriminate; apply some_inj in S; subst; cbn [writes_to]; try reflexivity; match goal with |- context [Nat.eqb ?x ?y] => destruct (Nat.eqb_spec x y); [congruence|reflexivity] end.
    - split; [exact A|]. split; [intros v bs Hv _; apply B, Hv|]. split; [exact D|]. intros v Ev. exists i. split; [exact S|]. split; [rewrite (R v Ev); reflexivity|apply F, Ev]. }
  destruct o as [[i|]|i|i bs extra|i|i enc extra ok|i enc extra ok chunks zok|i]; cbn [step] in E.
  - (* reuse *)
    destruct (nth_error (w_arenas w) i) as [[a [|]]|] eqn:Hi; try discriminate. apply some_inj in E. apply pair_inj in E. destruct E as [<- <-]. assert (Li : i < List.length (w_arenas w)) by (apply nth_error_Some; congruence).
    assert (Same : forall j b m, nth_error (update_nth i (a, true) (w_arenas w)) j = Some (b, m) -> exists m', nth_error (w_arenas w) j = Some (b, m')).
    { intros j b m Hj. destruct (Nat.eq_dec i j) as [<-|N]; [rewrite upd_eq in Hj by exact Li; apply some_inj in Hj; apply pair_inj in Hj; destruct Hj as [<- _]; eauto|rewrite upd_ne in Hj by exact N; eauto]. }
    unfold with_arena. split; [|split; [|split; [|discriminate]]].
    + split; cbn [w_heap w_arenas]; intros; repeat match goal with H : nth_error (update_nth _ _ _) _ = _ |- _ => apply Same in H; destruct H end; [eapply i_wf; eassumption|eapply (i_sep w WI); eassumption].
    + intros v bs [R V] _. split; [exact R|]. cbn [w_heap w_arenas]. destruct V as [V|[V1 V2]]; [left; exact V|right]. split; [exact V1|]. intros j b m Hj. apply Same in Hj. destruct Hj as (m' & Hj). eapply V2, Hj.
    + destruct C as [C1 C2]. split; cbn [w_heap w_arenas writes_to]; [|intros j; rewrite upd_len; apply C2]. intros j b m Hj. apply Same in Hj. destruct Hj as (m' & Hj). eapply C1, Hj.
  - (* a new arena *)
    apply some_inj in E. apply pair_inj in E. destruct E as [<- <-].
    assert (Same : forall j b m, nth_error (w_arenas w ++ [(Arena 0 0 0 0, true)]) j = Some (b, m) -> nth_error (w_arenas w) j = Some (b, m) \/ (j = List.length (w_arenas w) /\ b = Arena 0 0 0 0)).
    { intros j b m Hj. destruct (Nat.lt_ge_cases j (List.length (w_arenas w))) as [L|L]; [rewrite nth_error_app1 in Hj by exact L; auto|]. rewrite nth_error_app2 in Hj by exact L. destruct (j - List.length (w_arenas w)) as [|k] eqn:K; [|destruct k; discriminate]. cbn in Hj. apply some_inj in Hj. apply pair_inj in Hj. destruct Hj as [<- _]. right. split; [lia|reflexivity]. }
    split; [|split; [|split; [|discriminate]]].
    + split; cbn [w_heap w_arenas].
      * intros j b m Hj. apply Same in Hj. destruct Hj as [Hj|[_ ->]]; [eapply i_wf; eassumption|]. unfold wf. cbn. lia.
      * intros j k b c m n Hj Hk Cb Cc X. apply Same in Hj. apply Same in Hk. destruct Hj as [Hj|[_ ->]]; [|cbn in Cb; lia]. destruct Hk as [Hk|[_ ->]]; [|cbn in Cc; lia]. eapply (i_sep w WI); eassumption.
    + intros v bs [R V] _. split; [exact R|]. cbn [w_heap w_arenas]. destruct V as [V|[V1 V2]]; [left; exact V|right]. split; [exact V1|]. intros j b m Hj Cb X. apply Same in Hj. destruct Hj as [Hj|[_ ->]]; [eapply V2; eassumption|cbn in Cb; lia].
    + destruct C as [C1 C2]. split; cbn [w_heap w_arenas writes_to].
      * intros j b m Hj. apply Same in Hj. destruct Hj as [Hj|[-> ->]]; [eapply C1, Hj|]. rewrite C2 by lia. reflexivity.
      * intros j. rewrite app_length. intros L. apply C2. lia.
  - destruct (nth_error (w_arenas w) i) as [[a [|]]|] eqn:Hi; try discriminate. apply some_inj in E. assert (W := i_wf w WI _ _ _ Hi).
    refine (Grow i a _ _ _ eq_refl Hi _ _ _ E); [apply mark_grows, W| |discriminate]. cbn [writes_to]. rewrite Nat.eqb_refl. symmetry. apply current_mark.
  - destruct (nth_error (w_arenas w) i) as [[a [|]]|] eqn:Hi; try discriminate. destruct (append_bytes (w_heap w) a bs extra) as [h' a'] eqn:Ea. apply some_inj in E. assert (W := i_wf w WI _ _ _ Hi).
    refine (Grow i a _ _ _ eq_refl Hi _ _ _ E); [apply (append_grows _ _ _ _ _ _ W Ea)| |discriminate]. cbn [writes_to]. rewrite Nat.eqb_refl. rewrite (append_current _ _ _ _ _ _ W Ea). f_equal. symmetry. eapply C, Hi.
  - destruct (nth_error (w_arenas w) i) as [[a [|]]|] eqn:Hi; try discriminate. apply some_inj in E. assert (W := i_wf w WI _ _ _ Hi).
    assert (Same : with_arena w (w_heap w) i a true = w). { destruct w as [h l]. unfold with_arena. cbn [w_heap w_arenas] in *. f_equal. clear - Hi. revert i Hi. induction l as [|x l IH]; intros [|i] H; cbn in *; [discriminate|discriminate|apply some_inj in H; congruence|f_equal; apply IH, H]. }
    rewrite <- Same in E at 1. refine (Grow i a _ _ _ eq_refl Hi _ _ _ E); [apply grows_refl, W| |congruence]. cbn [writes_to]. symmetry. eapply C, Hi.
  - destruct (nth_error (w_arenas w) i) as [[a [|]]|] eqn:Hi; try discriminate. destruct (append_bytes (w_heap w) (mark a) enc extra) as [h' a'] eqn:Ea. assert (W := i_wf w WI _ _ _ Hi). assert (Wm := wf_mark _ _ W).
    destruct (append_grows _ _ _ _ _ _ Wm Ea) as (G & O & _ & _). assert (G' := grows_trans _ _ _ _ _ _ W (mark_grows _ _ W) G).
    destruct ok; apply some_inj in E; refine (Grow i a _ _ _ eq_refl Hi _ _ _ E); try (exact G'); try congruence; cbn [writes_to]; rewrite ?Nat.eqb_refl.
    + rewrite (append_current _ _ _ _ _ _ Wm Ea), current_mark. reflexivity.
    + eapply truncate_grows; [exact W|exact G'|exact O|cbn; lia].
    + symmetry. apply current_truncate.
  - destruct (nth_error (w_arenas w) i) as [[a [|]]|] eqn:Hi; try discriminate. destruct (append_bytes (w_heap w) (mark a) enc extra) as [h' a'] eqn:Ea. assert (W := i_wf w WI _ _ _ Hi). assert (Wm := wf_mark _ _ W).
    destruct (append_grows _ _ _ _ _ _ Wm Ea) as (G & O & L & _). assert (G' := grows_trans _ _ _ _ _ _ W (mark_grows _ _ W) G). assert (W' := g_wf _ _ _ _ G).
    destruct ok; [|apply some_inj in E; refine (Grow i a _ _ _ eq_refl Hi _ _ _ E); try congruence; cbn [writes_to andb]; rewrite ?Nat.eqb_refl; [eapply truncate_grows; [exact W|exact G'|exact O|cbn; lia]|symmetry; apply current_truncate]].
    destruct (append_chunks h' (mark a') chunks) as [h2 a2] eqn:Ec. destruct (chunks_grow _ _ _ _ _ (wf_mark _ _ W') Ec) as (G2 & O2 & C2).
    assert (G3 := grows_trans _ _ _ _ _ _ W G' (grows_trans _ _ _ _ _ _ W' (mark_grows _ _ W') G2)).
    destruct zok; apply some_inj in E; refine (Grow i a _ _ _ eq_refl Hi _ _ _ E); try (exact G3); try congruence; cbn [writes_to andb]; rewrite ?Nat.eqb_refl.
    + rewrite C2, current_mark. reflexivity.
    + eapply truncate_grows; [exact W|exact G3|exact O2|]. cbn [mark a_off a_len] in *. lia.
    + symmetry. apply current_truncate.
  - (* release *)
    destruct (nth_error (w_arenas w) i) as [[a [|]]|] eqn:Hi; try discriminate. apply some_inj in E. apply pair_inj in E. destruct E as [<- <-]. assert (Li : i < List.length (w_arenas w)) by (apply nth_error_Some; congruence).
    destruct (i_wf w WI _ _ _ Hi) as (W1 & W2 & W3).
    assert (Same : forall j b m, nth_error (update_nth i (Arena (a_arr a) 0 (a_cap a) 0, false) (w_arenas w)) j = Some (b, m) -> (j <> i /\ nth_error (w_arenas w) j = Some (b, m)) \/ (j = i /\ b = Arena (a_arr a) 0 (a_cap a) 0)).
    { intros j b m Hj. destruct (Nat.eq_dec i j) as [<-|N]; [rewrite upd_eq in Hj by exact Li; apply some_inj in Hj; apply pair_inj in Hj; destruct Hj as [<- _]; right; auto|rewrite upd_ne in Hj by exact N; left; auto]. }
    unfold with_arena. split; [|split; [|split; [|discriminate]]].
    + split; cbn [w_heap w_arenas].
      * intros j b m Hj. apply Same in Hj. destruct Hj as [[N Hj]|[-> ->]].
        -- destruct (i_wf w WI _ _ _ Hj) as (X1 & X2 & X3). split; [exact X1|]. split; [exact X2|]. intros Cb. rewrite upd_len, (release_other w i a j b m) by assumption. apply X3, Cb.
        -- unfold wf. cbn [a_off a_len a_cap a_arr]. split; [lia|]. split; [lia|]. intros Ca. destruct (W3 Ca) as [Y1 Y2]. rewrite upd_len, array_upd_eq by exact Y1. split; [exact Y1|]. rewrite overwrite_len; [exact Y2|]. rewrite repeat_length. lia.
      * intros j k b c m n Hj Hk Cb Cc X. apply Same in Hj. apply Same in Hk. destruct Hj as [[Nj Hj]|[-> ->]], Hk as [[Nk Hk]|[-> ->]]; cbn [a_cap a_arr] in *; [eapply (i_sep w WI); eassumption|eapply (i_sep w WI); eassumption|eapply (i_sep w WI); [exact Hi|exact Hk|assumption..]|reflexivity].
    + intros v bs [R V] No. unfold view_ok. cbn [w_heap w_arenas]. destruct V as [V|[V1 V2]]; [split; [rewrite <- R; unfold read; rewrite V; reflexivity|left; exact V]|]. split.
      * rewrite <- R. unfold read. rewrite (release_array w i a); [reflexivity|exact WI|exact Hi|]. intros X. destruct (Nat.eq_dec (a_cap a) 0) as [|Ca]; [assumption|]. exfalso. destruct (V2 _ _ _ Hi ltac:(lia) (eq_sym X)) as [Y _]. apply No. congruence.
      * right. rewrite upd_len. split; [exact V1|]. intros j b m Hj Cb X. apply Same in Hj. destruct Hj as [[Nj Hj]|[-> ->]]; [eapply V2; eassumption|]. cbn [a_cap a_arr] in *. exfalso. destruct (V2 _ _ _ Hi Cb X) as [Y _]. apply No. congruence.
    + destruct C as [C1 C2]. split; cbn [w_heap w_arenas writes_to].
      * intros j b m Hj. apply Same in Hj. destruct Hj as [[Nj Hj]|[-> ->]].
        -- destruct (Nat.eqb_spec i j); [congruence|]. rewrite <- (C1 _ _ _ Hj). unfold current. destruct (Nat.eq_dec (a_cap b) 0) as [Cb|Cb]; [destruct (i_wf w WI _ _ _ Hj) as (X1 & X2 & _); replace (a_len b - a_off b) with 0 by lia; reflexivity|]. rewrite (release_other w i a j b m) by (assumption || lia). reflexivity.
        -- rewrite Nat.eqb_refl. reflexivity.
      * intros j. rewrite upd_len. intros L. rewrite C2 by exact L. destruct (Nat.eqb i j); reflexivity.
Qed.
Lemma start_winv : winv world_new. Proof. split; intros [|i]; intros; discriminate. Qed.
Lemma start_contents : contents world_new (fun _ => []). Proof. split; [intros [|i]; discriminate|reflexivity]. Qed.
Lemma run_all l : forall w w' p, winv w -> contents w p -> run w l = Some w' ->
  winv w' /\ contents w' (fun i => fold_left (writes_to i) l (p i)) /\ (forall v bs, view_ok w v bs -> ~ In (ORelease (v_owner v)) l -> view_ok w' v bs).
Proof.
  induction l as [|o l IH]; intros w w' p WI C E; cbn [run] in E.
  - apply some_inj in E. subst. auto.
  - destruct (step w o) as [[w1 r]|] eqn:S; [|discriminate]. destruct (step_all _ _ _ _ _ WI C S) as (A & B & D & _). destruct (IH _ _ _ A D E) as (A' & D' & B'). split; [exact A'|]. split; [exact D'|].
    intros v bs V N. apply B'; [|intros X; apply N; right; exact X]. apply B; [exact V|]. intros X. apply N. left. exact X.
Qed.
