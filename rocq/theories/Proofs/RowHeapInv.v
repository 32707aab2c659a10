(** Careful programs over rows keep every row equal to its set. *)
From Verif.Model Require Import Base View Rows RowHeap.
From Verif.Spec Require Import Sets RowPrograms.
From Verif.Proofs Require Import BaseFacts RowsFacts RowHeapFacts.
Open Scope N_scope.

(* ------------------------------------------------------------------ partners *)
Lemma in_partners x y l : In y (partners x l) <-> In (x, y) l \/ In (y, x) l.
Proof.
  unfold partners. rewrite in_flat_map. split.
  - intros ([a b] & I & H). apply in_app_or in H as [H|H].
    + destruct (Nat.eqb_spec a x) as [->|]; [|destruct H]. destruct H as [<-|[]]. auto.
    + destruct (Nat.eqb_spec b x) as [->|]; [|destruct H]. destruct H as [<-|[]]. auto.
  - intros [I|I]; [exists (x, y)|exists (y, x)]; (split; [exact I|]); rewrite Nat.eqb_refl; apply in_or_app; cbn; auto.
Qed.
Lemma partners_sym x y l : In y (partners x l) <-> In x (partners y l).
Proof. rewrite !in_partners. tauto. Qed.
Lemma in_from n xs l z y : In z xs -> y = z \/ In y (partners z l) -> In (n, y) (from n xs l).
Proof.
  intros I H. unfold from. apply in_flat_map. exists z. split; [exact I|]. destruct H as [->|H]; [left; reflexivity|].
  right. apply in_map. exact H.
Qed.

(* ------------------------------------------------------------------ the invariant *)
Record inv (w : world) (s : sets) (k : sharing) : Prop := Inv {
  i_rows : List.length (w_rows w) = s_next k;
  i_sets : List.length s = s_next k;
  i_none : forall x, row_at x w = None <-> set_at x s = None;
  i_valid : forall x r, row_at x w = Some r -> valid (w_mem w) r;
  i_wf : forall x r, row_at x w = Some r -> row_wf (map (load (w_mem w)) r);
  i_cols : forall x r p, row_at x w = Some r -> set_at x s = Some p -> forall v, In v (row_columns (map (load (w_mem w)) r)) <-> p v;
  i_live : forall x r, row_at x w = Some r -> ~ In x (s_dropped k);
  i_old : forall x, In x (s_dropped k) -> (x < s_next k)%nat;
  i_share : forall x y r t q, row_at x w = Some r -> row_at y w = Some t -> x <> y -> ptr_in q r -> ptr_in q t -> In y (partners x (s_pairs k));
  i_shard : forall x y r t a b, row_at x w = Some r -> row_at y w = Some t -> In a r -> In b t -> h_ptr a = h_ptr b -> h_shard a = h_shard b }.

Lemma row_at_bound x w r : row_at x w = Some r -> (x < List.length (w_rows w))%nat.
Proof. unfold row_at. destruct (nth_error (w_rows w) x) eqn:E; [|discriminate]. intros _. apply nth_error_Some. congruence. Qed.

Lemma inv_step w s k w' s' k' x r' p' src W :
  inv w s k ->
  keeps (w_mem w) (w_mem w') W ->
  (forall y t q, y <> x -> row_at y w = Some t -> ptr_in q t -> ~ W q) ->
  row_at x w' = Some r' -> (forall y, y <> x -> row_at y w' = row_at y w) ->
  set_at x s' = Some p' -> (forall y, y <> x -> set_at y s' = set_at y s) ->
  List.length (w_rows w') = s_next k' -> List.length s' = s_next k' -> (s_next k <= s_next k')%nat ->
  valid (w_mem w') r' -> row_wf (map (load (w_mem w')) r') ->
  (forall v, In v (row_columns (map (load (w_mem w')) r')) <-> p' v) ->
  (forall a, In a r' -> (List.length (w_mem w) <= h_ptr a)%nat \/
     exists z t b, In z src /\ row_at z w = Some t /\ In b t /\ h_ptr a = h_ptr b /\ h_shard a = h_shard b) ->
  one_shard r' ->
  s_dropped k' = s_dropped k -> ~ In x (s_dropped k) ->
  (forall a b, In (a, b) (s_pairs k) -> In (a, b) (s_pairs k')) ->
  (forall z y, In z src -> y <> x -> y = z \/ In y (partners z (s_pairs k)) -> In y (partners x (s_pairs k'))) ->
  inv w' s' k'.
Proof.
  intros I K HW Rx Ro Sx So L1 L2 Ln V' W' C' St O' D Nx Pm Ps.
  assert (Mono : forall a b, In b (partners a (s_pairs k)) -> In b (partners a (s_pairs k'))).
  { intros a b. rewrite !in_partners. intros [H|H]; [left|right]; apply Pm, H. }
  assert (Ld : forall y t, y <> x -> row_at y w = Some t -> map (load (w_mem w')) t = map (load (w_mem w)) t).
  { intros y t Ny Ht. eapply load_keeps; [exact K|eapply i_valid; eauto|]. intros q Hq. eapply HW; eauto. }
  assert (Src : forall a y t b, In a r' -> y <> x -> row_at y w = Some t -> In b t -> h_ptr a = h_ptr b ->
     exists z u c, In z src /\ row_at z w = Some u /\ In c u /\ h_ptr a = h_ptr c /\ h_shard a = h_shard c).
  { intros a y t b Ia Ny Ht Ib E. destruct (St a Ia) as [F|H]; [|exact H]. pose proof (i_valid _ _ _ I y t Ht b Ib). lia. }
  assert (Sh : forall y t q, y <> x -> row_at y w = Some t -> ptr_in q r' -> ptr_in q t -> In y (partners x (s_pairs k'))).
  { intros y t q Ny Ht (a & Ia & Ea) (b & Ib & Eb). destruct (Src a y t b Ia Ny Ht Ib) as (z & u & c & Iz & Hu & Ic & Ec & _); [congruence|].
    apply (Ps z y Iz Ny). destruct (Nat.eq_dec y z) as [->|Nz]; [auto|]. right.
    apply (i_share _ _ _ I z y u t q); auto; [exists c; split; auto; congruence|exists b; auto]. }
  assert (Sd : forall y t a b, y <> x -> row_at y w = Some t -> In a r' -> In b t -> h_ptr a = h_ptr b -> h_shard a = h_shard b).
  { intros y t a b Ny Ht Ia Ib E. destruct (Src a y t b Ia Ny Ht Ib E) as (z & u & c & Iz & Hu & Ic & Ec & Es).
    rewrite Es. eapply (i_shard _ _ _ I z y u t); eauto. congruence. }
  constructor.
  - exact L1.
  - exact L2.
  - intros y. destruct (Nat.eq_dec y x) as [->|Ny]; [rewrite Rx, Sx; split; discriminate|]. rewrite Ro, So by exact Ny. apply (i_none _ _ _ I).
  - intros y t Ht. destruct (Nat.eq_dec y x) as [->|Ny]; [rewrite Rx in Ht; apply some_inj in Ht; subst; exact V'|].
    rewrite Ro in Ht by exact Ny. intros b Ib. pose proof (i_valid _ _ _ I y t Ht b Ib). destruct K. lia.
  - intros y t Ht. destruct (Nat.eq_dec y x) as [->|Ny]; [rewrite Rx in Ht; apply some_inj in Ht; subst; exact W'|].
    rewrite Ro in Ht by exact Ny. rewrite (Ld y t Ny Ht). eapply i_wf; eauto.
  - intros y t q Ht Hq. destruct (Nat.eq_dec y x) as [->|Ny].
    + rewrite Rx in Ht. rewrite Sx in Hq. apply some_inj in Ht, Hq. subst. exact C'.
    + rewrite Ro in Ht by exact Ny. rewrite So in Hq by exact Ny. rewrite (Ld y t Ny Ht). eapply i_cols; eauto.
  - intros y t Ht. rewrite D. destruct (Nat.eq_dec y x) as [->|Ny]; [exact Nx|]. rewrite Ro in Ht by exact Ny. eapply i_live; eauto.
  - intros y Hy. rewrite D in Hy. pose proof (i_old _ _ _ I y Hy). lia.
  - intros y z u t q Hu Ht N Hqu Hqt. destruct (Nat.eq_dec y x) as [->|Ny]; destruct (Nat.eq_dec z x) as [->|Nz]; try congruence.
    + rewrite Rx in Hu. apply some_inj in Hu. subst. rewrite Ro in Ht by exact Nz. eapply Sh; eauto.
    + rewrite Rx in Ht. apply some_inj in Ht. subst. rewrite Ro in Hu by exact Ny. apply partners_sym. eapply Sh; eauto.
    + rewrite Ro in Hu by exact Ny. rewrite Ro in Ht by exact Nz. apply Mono. eapply (i_share _ _ _ I y z); eauto.
  - intros y z u t a b Hu Ht Ia Ib E. destruct (Nat.eq_dec y x) as [->|Ny]; destruct (Nat.eq_dec z x) as [->|Nz].
    + rewrite Rx in Hu, Ht. apply some_inj in Hu, Ht. subst. apply O'; auto.
    + rewrite Rx in Hu. apply some_inj in Hu. subst. rewrite Ro in Ht by exact Nz. eapply Sd; eauto.
    + rewrite Rx in Ht. apply some_inj in Ht. subst. rewrite Ro in Hu by exact Ny. symmetry. eapply Sd; eauto.
    + rewrite Ro in Hu by exact Ny. rewrite Ro in Ht by exact Nz. eapply (i_shard _ _ _ I y z); eauto.
Qed.

(* ------------------------------------------------------------------ new rows *)
Lemma row_at_new w m' r : row_at (List.length (w_rows w)) (World m' (w_rows w ++ [Some r])) = Some r.
Proof. unfold row_at. cbn [w_rows]. rewrite nth_error_app2 by lia. rewrite Nat.sub_diag. reflexivity. Qed.
Lemma row_at_old w m' r y : y <> List.length (w_rows w) -> row_at y (World m' (w_rows w ++ [Some r])) = row_at y w.
Proof.
  intros N. unfold row_at. cbn [w_rows]. destruct (Nat.lt_ge_cases y (List.length (w_rows w))).
  - rewrite nth_error_app1 by assumption. reflexivity.
  - replace (nth_error (w_rows w) y) with (@None (option hrow)) by (symmetry; apply nth_error_None; lia).
    replace (nth_error (w_rows w ++ [Some r]) y) with (@None (option hrow)); [reflexivity|]. symmetry. apply nth_error_None. rewrite app_length. cbn. lia.
Qed.
Lemma set_at_new (s : sets) p : set_at (List.length s) (s ++ [Some p]) = Some p.
Proof. unfold set_at. rewrite nth_error_app2 by lia. rewrite Nat.sub_diag. reflexivity. Qed.
Lemma set_at_old (s : sets) p y : y <> List.length s -> set_at y (s ++ [Some p]) = set_at y s.
Proof.
  intros Ne. unfold set_at. destruct (Nat.lt_ge_cases y (List.length s)).
  - rewrite nth_error_app1 by assumption. reflexivity.
  - replace (nth_error s y) with (@None (option (N -> Prop))) by (symmetry; apply nth_error_None; lia).
    replace (nth_error (s ++ [Some p]) y) with (@None (option (N -> Prop))); [reflexivity|]. symmetry. apply nth_error_None. rewrite app_length. cbn. lia.
Qed.

Lemma row_wf_hsorted m r : row_wf (map (load m) r) -> hsorted r.
Proof. intros [H _]. eapply hsorted_load; eauto. Qed.

(** A call returning a new row. *)
Lemma inv_new w s k m' r' p' src pairs W :
  inv w s k -> keeps (w_mem w) m' W -> (forall q, ~ W q) ->
  valid m' r' -> row_wf (map (load m') r') -> (forall v, In v (row_columns (map (load m') r')) <-> p' v) ->
  (forall a, In a r' -> (List.length (w_mem w) <= h_ptr a)%nat \/
     exists z t b, In z src /\ row_at z w = Some t /\ In b t /\ h_ptr a = h_ptr b /\ h_shard a = h_shard b) ->
  one_shard r' ->
  (forall a b, In (a, b) (s_pairs k) -> In (a, b) pairs) ->
  (forall z y, In z src -> y = z \/ In y (partners z (s_pairs k)) -> In (s_next k, y) pairs) ->
  inv (World m' (w_rows w ++ [Some r'])) (s ++ [Some p']) (Sharing (S (s_next k)) (s_dropped k) pairs).
Proof.
  intros I K HW V' W' C' St O' Pm Ps. pose proof (i_rows _ _ _ I) as L1. pose proof (i_sets _ _ _ I) as L2.
  eapply (inv_step w s k _ _ _ (s_next k) r' p' src W); cbn [w_mem w_rows s_next s_dropped s_pairs]; auto.
  - rewrite <- L1. apply row_at_new.
  - rewrite <- L1. intros y. apply row_at_old.
  - rewrite <- L2. apply set_at_new.
  - rewrite <- L2. intros y. apply set_at_old.
  - rewrite app_length. cbn. lia.
  - rewrite app_length. cbn. lia.
  - intros H. apply (i_old _ _ _ I) in H. lia.
  - intros z y Iz Ny H. apply in_partners. left. eapply Ps; eauto.
Qed.
(** The same for pieces. *)
Lemma inv_emit w s k ps p' src pairs vr :
  inv w s k -> map (pload (w_mem w)) ps = vr -> row_wf vr -> (forall v, In v (row_columns vr) <-> p' v) ->
  (forall a, In a (shares ps) -> exists z t, In z src /\ row_at z w = Some t /\ In a t) ->
  (forall a b, In (a, b) (s_pairs k) -> In (a, b) pairs) ->
  (forall z y, In z src -> y = z \/ In y (partners z (s_pairs k)) -> In (s_next k, y) pairs) ->
  inv (returned w (emit (w_mem w) ps)) (s ++ [Some p']) (Sharing (S (s_next k)) (s_dropped k) pairs).
Proof.
  intros I E Wf C Sh Pm Ps.
  assert (V : valid (w_mem w) (shares ps)).
  { intros a Ia. destruct (Sh a Ia) as (z & t & _ & Ht & It). apply (i_valid _ _ _ I z t Ht a It). }
  pose proof (emit_spec ps (w_mem w) V) as H. unfold returned. destruct (emit (w_mem w) ps) as [m' r]. cbn [fst snd].
  destruct H as (L & V' & St & K & U). rewrite E in L.
  eapply (inv_new w s k m' r p' src pairs (fun _ => False)); auto; rewrite ?L; auto.
  - intros a Ia. destruct (St a Ia) as [F|(b & Ib & E1 & E2)]; [left; exact F|]. right. destruct (Sh b Ib) as (z & t & Iz & Ht & It).
    exists z, t, b. auto.
  - intros a b Ia Ib EQ. destruct (Nat.lt_ge_cases (h_ptr a) (List.length (w_mem w))) as [Lt|Ge]; [|apply U; auto].
    destruct (St a Ia) as [F|(c & Ic & E1 & E2)]; [lia|]. destruct (St b Ib) as [F|(d & Id & E3 & E4)]; [lia|].
    destruct (Sh c Ic) as (z1 & t1 & _ & H1 & I1). destruct (Sh d Id) as (z2 & t2 & _ & H2 & I2). rewrite E2, E4.
    eapply (i_shard _ _ _ I z1 z2); eauto. congruence.
Qed.

Lemma rows_at_sets w s k ys rs qs : inv w s k -> rows_at ys w = Some rs -> all_at ys s = Some qs ->
  Forall row_wf (map (map (load (w_mem w))) rs) /\
  (forall v, (exists o, In o (map (map (load (w_mem w))) rs) /\ In v (row_columns o)) <-> exists q, In q qs /\ q v) /\
  (forall r, In r rs -> exists y, In y ys /\ row_at y w = Some r).
Proof.
  intros I. revert rs qs. induction ys as [|y ys IH]; intros rs qs Hr Hs; cbn [rows_at all_at] in Hr, Hs.
  - apply some_inj in Hr, Hs. subst. split; [constructor|]. split; [|intros r []]. intros v. split; intros (o & [] & _).
  - destruct (row_at y w) as [r|] eqn:Er; [|discriminate]. destruct (rows_at ys w) as [rs'|]; [|discriminate]. apply some_inj in Hr. subst rs.
    destruct (set_at y s) as [p|] eqn:Ep; [|discriminate]. destruct (all_at ys s) as [qs'|]; [|discriminate]. apply some_inj in Hs. subst qs.
    destruct (IH rs' qs' eq_refl eq_refl) as (A & B & D). split; [|split].
    + cbn [map]. constructor; [eapply i_wf; eauto|exact A].
    + intros v. cbn [map]. split.
      * intros (o & [<-|Io] & Hv); [exists p; split; [left; auto|]; apply (i_cols _ _ _ I y r p Er Ep), Hv|].
        destruct (proj1 (B v)) as (q & Iq & Hq); [eauto|]. exists q. split; [right; auto|exact Hq].
      * intros (q & [<-|Iq] & Hq); [exists (map (load (w_mem w)) r); split; [left; auto|]; apply (i_cols _ _ _ I y r p Er Ep), Hq|].
        destruct (proj2 (B v)) as (o & Io & Ho); [eauto|]. exists o. split; [right; auto|exact Ho].
    + intros t [<-|It]; [exists y; cbn; auto|]. destruct (D t It) as (z & Iz & Hz). exists z. cbn; auto.
Qed.
Lemma rows_at_defined w s k ys : inv w s k -> (rows_at ys w = None <-> all_at ys s = None).
Proof.
  intros I. induction ys as [|y ys IH]; cbn [rows_at all_at]; [split; discriminate|].
  pose proof (i_none _ _ _ I y) as N. destruct (row_at y w), (set_at y s); try (destruct N as [N1 N2]; now (discriminate (N1 eq_refl) || discriminate (N2 eq_refl))).
  - destruct (rows_at ys w), (all_at ys s); try tauto; destruct IH as [N1 N2]; (discriminate (N1 eq_refl) || discriminate (N2 eq_refl) || tauto || (split; discriminate)).
  - tauto.
Qed.

(* ------------------------------------------------------------------ changes in place *)
Lemma put_row_same w m' x r : (x < List.length (w_rows w))%nat -> row_at x (World m' (put x (Some r) (w_rows w))) = Some r.
Proof. intros H. unfold row_at. cbn [w_rows]. rewrite nth_error_put_same by exact H. reflexivity. Qed.
Lemma put_row_other w m' x o y : y <> x -> row_at y (World m' (put x o (w_rows w))) = row_at y w.
Proof. intros H. unfold row_at. cbn [w_rows]. rewrite nth_error_put_other by congruence. reflexivity. Qed.
Lemma put_set_same (s : sets) x p : (x < List.length s)%nat -> set_at x (put x p s) = p.
Proof. intros H. unfold set_at. rewrite nth_error_put_same by exact H. reflexivity. Qed.
Lemma put_set_other (s : sets) x p y : y <> x -> set_at y (put x p s) = set_at y s.
Proof. intros H. unfold set_at. rewrite nth_error_put_other by congruence. reflexivity. Qed.

Lemma inv_change w s k x r m' r' p' src pairs :
  inv w s k -> row_at x w = Some r ->
  (forall z, In z (partners x (s_pairs k)) -> z = x \/ In z (s_dropped k)) ->
  keeps (w_mem w) m' (fun q => ptr_in q r) ->
  valid m' r' -> row_wf (map (load m') r') -> (forall v, In v (row_columns (map (load m') r')) <-> p' v) ->
  (forall a, In a r' -> (List.length (w_mem w) <= h_ptr a)%nat \/
     exists z t b, In z (x :: src) /\ row_at z w = Some t /\ In b t /\ h_ptr a = h_ptr b /\ h_shard a = h_shard b) ->
  NoDup (map h_ptr r') \/ one_shard r' ->
  (forall a b, In (a, b) (s_pairs k) -> In (a, b) pairs) ->
  (forall z y, In z src -> y = z \/ In y (partners z (s_pairs k)) -> In (x, y) pairs) ->
  inv (World m' (put x (Some r') (w_rows w))) (put x (Some p') s) (Sharing (s_next k) (s_dropped k) pairs).
Proof.
  intros I Hr Al K V' W' C' St O' Pm Ps. pose proof (row_at_bound _ _ _ Hr) as B.
  pose proof (i_rows _ _ _ I) as L1. pose proof (i_sets _ _ _ I) as L2.
  assert (OS : one_shard r').
  { destruct O' as [D|O']; [|exact O']. intros a b Ia Ib E. f_equal.
    clear - D Ia Ib E. induction r' as [|c r' IH]; [destruct Ia|]. cbn [map] in D. inversion D as [|? ? N D']; subst.
    destruct Ia as [<-|Ia], Ib as [<-|Ib]; auto; exfalso; apply N; [rewrite E|rewrite <- E]; apply in_map; assumption. }
  eapply (inv_step w s k _ _ _ x r' p' (x :: src) (fun q => ptr_in q r)); cbn [w_mem w_rows s_next s_dropped s_pairs]; auto.
  - intros y t q Ny Ht Hq1 Hq2. pose proof (i_share _ _ _ I x y r t q Hr Ht (not_eq_sym Ny) Hq2 Hq1) as H.
    destruct (Al y H) as [H'|H']; [congruence|]. exact (i_live _ _ _ I y t Ht H').
  - apply put_row_same, B.
  - intros y. apply put_row_other.
  - apply put_set_same. lia.
  - intros y. apply put_set_other.
  - rewrite put_length. exact L1.
  - rewrite put_length. exact L2.
  - eapply i_live; eauto.
  - intros z y [<-|Iz] Ny H; apply in_partners.
    + destruct H as [H|H]; [congruence|]. apply in_partners in H as [H|H]; [left|right]; apply Pm, H.
    + left. eapply Ps; eauto.
Qed.

Lemma one_shard_stems w s k m0 x y r o r' :
  inv w s k -> m0 = w_mem w -> row_at x w = Some r -> row_at y w = Some o -> stems m0 (r ++ o) r' ->
  forall a, In a r' -> (List.length (w_mem w) <= h_ptr a)%nat \/
     exists z t b, In z [x; y] /\ row_at z w = Some t /\ In b t /\ h_ptr a = h_ptr b /\ h_shard a = h_shard b.
Proof.
  intros I -> Hr Ho St a Ia. destruct (St a Ia) as [F|(b & Ib & E1 & E2)]; [left; exact F|right].
  apply in_app_or in Ib as [Ib|Ib]; [exists x, r, b|exists y, o, b]; cbn; auto.
Qed.

(* ------------------------------------------------------------------ one call *)
Lemma two20 : shard_width = 2 ^ 20. Proof. reflexivity. Qed.
Lemma perform_inv c w s k : inv w s k -> sensible c -> allowed c k ->
  match perform c w, meaning c s with
  | Some w', Some s' => inv w' s' (track c k)
  | None, None => True
  | _, _ => False
  end.
Proof.
  intros I Sn Al. destruct c as [cols|cols|sh cols|x i|x y|x y|x ys|x ys|x y|x|x|x]; cbn [perform meaning track].
  - (* new *) unfold returned. pose proof (hrow_new_spec (w_mem w) cols) as H. destruct (hrow_new (w_mem w) cols) as [m' r']. cbn [fst snd].
    destruct H as (L & V & D & St & K). destruct (new_row_spec cols) as [Wf C]. rewrite <- L in Wf, C.
    eapply (inv_new w s k m' r' _ [] (s_pairs k) (fun _ => False)); auto.
    + intros a Ia. destruct (St a Ia) as [F|(b & [] & _)]. left; exact F.
    + intros a b Ia Ib E. f_equal. clear - D Ia Ib E. induction r' as [|c r' IH]; [destruct Ia|]. cbn [map] in D. inversion D as [|? ? N D']; subst.
      destruct Ia as [<-|Ia], Ib as [<-|Ib]; auto; exfalso; apply N; [rewrite E|rewrite <- E]; apply in_map; assumption.
    + intros z y [].
  - (* bitmap *) cbn [sensible] in Sn. destruct Sn as [S1 S2]. destruct (new_row_from_bitmap_spec cols S1 S2) as (r & E & Wf & C). rewrite E.
    eapply (inv_emit w s k _ _ [] (s_pairs k) r); auto.
    + apply bitmap_value.
    + intros v. rewrite C. tauto.
    + rewrite bitmap_shares. intros a [].
    + intros z y [].
  - (* segment *) destruct Sn as [S1 S2].
    eapply (inv_emit w s k [Fresh sh cols true (scard cols)] _ [] (s_pairs k) [seg_of sh cols]); auto.
    + split; [repeat constructor|]. constructor; [|constructor]. apply seg_of_wf; auto.
    + intros v. rewrite cols_one. tauto.
    + intros a [].
    + intros z y [].
  - (* set *) pose proof (i_none _ _ _ I x) as Nn. destruct (row_at x w) as [r|] eqn:Hr; destruct (set_at x s) as [p|] eqn:Hp;
      [|destruct Nn as [_ N2]; discriminate (N2 eq_refl)|destruct Nn as [N1 _]; discriminate (N1 eq_refl)|exact Logic.I].
    pose proof (i_valid _ _ _ I x r Hr) as V. pose proof (i_wf _ _ _ I x r Hr) as Wf.
    assert (D : NoDup (map h_ptr r)).
    { apply nodup_ptrs; [eapply row_wf_hsorted; eauto|]. intros a b Ia Ib. apply (i_shard _ _ _ I x x r r a b); auto. }
    pose proof (hrow_set_spec (w_mem w) i r V D) as H. unfold changed. destruct (hrow_set (w_mem w) i r) as [m' r']. cbn [fst snd].
    destruct H as (L & V' & D' & St & K). destruct (row_set_spec i _ Wf) as [Wf' C]. rewrite <- L in Wf', C.
    replace k with (Sharing (s_next k) (s_dropped k) (s_pairs k)) by (destruct k; reflexivity).
    eapply (inv_change w s k x r m' r' _ [] (s_pairs k)); auto.
    + intros v. rewrite C, (i_cols _ _ _ I x r p Hr Hp v). tauto.
    + intros a Ia. destruct (St a Ia) as [F|(b & Ib & E1 & E2)]; [left; exact F|right]. exists x, r, b. cbn; auto.
    + intros z y [].
  - (* merge *) pose proof (i_none _ _ _ I x) as Nx. pose proof (i_none _ _ _ I y) as Ny.
    destruct (row_at x w) as [r|] eqn:Hr; destruct (set_at x s) as [p|] eqn:Hp;
      [|destruct Nx as [_ N2]; discriminate (N2 eq_refl)|destruct Nx as [N1 _]; discriminate (N1 eq_refl)|exact Logic.I].
    destruct (row_at y w) as [o|] eqn:Ho; destruct (set_at y s) as [q|] eqn:Hq;
      [|destruct Ny as [_ N2]; discriminate (N2 eq_refl)|destruct Ny as [N1 _]; discriminate (N1 eq_refl)|exact Logic.I].
    pose proof (i_wf _ _ _ I x r Hr) as Wr. pose proof (i_wf _ _ _ I y o Ho) as Wo.
    assert (V : valid (w_mem w) (r ++ o)).
    { intros a Ia. apply in_app_or in Ia as [Ia|Ia]; [apply (i_valid _ _ _ I x r Hr a Ia)|apply (i_valid _ _ _ I y o Ho a Ia)]. }
    assert (O : one_shard (r ++ o)).
    { intros a b Ia Ib. apply in_app_or in Ia as [Ia|Ia]; apply in_app_or in Ib as [Ib|Ib].
      - apply (i_shard _ _ _ I x x r r); auto. - apply (i_shard _ _ _ I x y r o); auto.
      - apply (i_shard _ _ _ I y x o r); auto. - apply (i_shard _ _ _ I y y o o); auto. }
    pose proof (hrow_merge_spec (w_mem w) r o V O (row_wf_hsorted _ _ Wr) (row_wf_hsorted _ _ Wo)) as H. unfold changed.
    destruct (hrow_merge (w_mem w) r o) as [m' r']. cbn [fst snd]. destruct H as (L & V' & St & K & Os).
    destruct (row_merge_spec _ _ Wr Wo) as [Wf' C]. rewrite <- L in Wf', C.
    eapply (inv_change w s k x r m' r' _ [y] (from x [y] (s_pairs k) ++ s_pairs k)); auto.
    + intros v. rewrite C, (i_cols _ _ _ I x r p Hr Hp v), (i_cols _ _ _ I y o q Ho Hq v). tauto.
    + eapply one_shard_stems; eauto.
    + intros a b Iab. apply in_or_app. right. exact Iab.
    + intros z v Iz Hz. apply in_or_app. left. eapply in_from; eauto.
  - (* intersect *) pose proof (i_none _ _ _ I x) as Nx. pose proof (i_none _ _ _ I y) as Ny.
    destruct (row_at x w) as [r|] eqn:Hr; destruct (set_at x s) as [p|] eqn:Hp;
      [|destruct Nx as [_ N2]; discriminate (N2 eq_refl)|destruct Nx as [N1 _]; discriminate (N1 eq_refl)|exact Logic.I].
    destruct (row_at y w) as [o|] eqn:Ho; destruct (set_at y s) as [q|] eqn:Hq;
      [|destruct Ny as [_ N2]; discriminate (N2 eq_refl)|destruct Ny as [N1 _]; discriminate (N1 eq_refl)|exact Logic.I].
    destruct (row_intersect_spec _ _ (i_wf _ _ _ I x r Hr) (i_wf _ _ _ I y o Ho)) as [Wf C].
    eapply (inv_emit w s k _ _ [] (s_pairs k)); eauto using intersect_value.
    + intros v. rewrite C, (i_cols _ _ _ I x r p Hr Hp v), (i_cols _ _ _ I y o q Ho Hq v). tauto.
    + rewrite intersect_shares. intros a [].
    + intros z v [].
  - (* union *) pose proof (i_none _ _ _ I x) as Nx. destruct (row_at x w) as [r|] eqn:Hr; destruct (set_at x s) as [p|] eqn:Hp;
      [|destruct Nx as [_ N2]; discriminate (N2 eq_refl)|destruct Nx as [N1 _]; discriminate (N1 eq_refl)|exact Logic.I].
    pose proof (rows_at_defined w s k ys I) as Ny. destruct (rows_at ys w) as [os|] eqn:Ho; destruct (all_at ys s) as [qs|] eqn:Hq;
      [|destruct Ny as [_ N2]; discriminate (N2 eq_refl)|destruct Ny as [N1 _]; discriminate (N1 eq_refl)|exact Logic.I].
    destruct (rows_at_sets w s k ys os qs I Ho Hq) as (Wo & Co & So).
    destruct (row_union_spec _ _ (i_wf _ _ _ I x r Hr) Wo) as (out & E & Wf & C). rewrite <- union_value in E.
    destruct (union_pieces (w_mem w) r os) as [ps|] eqn:U; [|discriminate]. cbn [option_map] in E. apply some_inj in E.
    eapply (inv_emit w s k ps _ (x :: ys) (from (s_next k) (x :: ys) (s_pairs k) ++ s_pairs k) out); auto.
    + intros v. rewrite C, (i_cols _ _ _ I x r p Hr Hp v), Co. tauto.
    + intros a Ia. destruct (union_shares _ _ _ _ U a Ia) as (l & [<-|Il] & Is); [exists x, r; cbn; auto|].
      destruct (So l Il) as (z & Iz & Hz). exists z, l. cbn; auto.
    + intros a b Iab. apply in_or_app. right. exact Iab.
    + intros z v Iz Hz. apply in_or_app. left. eapply in_from; eauto.
  - (* difference *) pose proof (i_none _ _ _ I x) as Nx. destruct (row_at x w) as [r|] eqn:Hr; destruct (set_at x s) as [p|] eqn:Hp;
      [|destruct Nx as [_ N2]; discriminate (N2 eq_refl)|destruct Nx as [N1 _]; discriminate (N1 eq_refl)|exact Logic.I].
    pose proof (rows_at_defined w s k ys I) as Ny. destruct (rows_at ys w) as [os|] eqn:Ho; destruct (all_at ys s) as [qs|] eqn:Hq;
      [|destruct Ny as [_ N2]; discriminate (N2 eq_refl)|destruct Ny as [N1 _]; discriminate (N1 eq_refl)|exact Logic.I].
    destruct (rows_at_sets w s k ys os qs I Ho Hq) as (Wo & Co & So).
    destruct (row_difference_spec _ _ (i_wf _ _ _ I x r Hr) Wo) as (Wf & C).
    eapply (inv_emit w s k _ _ [x] (from (s_next k) [x] (s_pairs k) ++ s_pairs k)); eauto using difference_value.
    + intros v. rewrite C, (i_cols _ _ _ I x r p Hr Hp v), Co. split; intros [H1 H2]; (split; [exact H1|]).
      * intros q Iq Hv. apply H2. eauto. * intros (q & Iq & Hv). exact (H2 q Iq Hv).
    + intros a Ia. apply difference_shares in Ia. exists x, r. cbn; auto.
    + intros a b Iab. apply in_or_app. right. exact Iab.
    + intros z v Iz Hz. apply in_or_app. left. eapply in_from; eauto.
  - (* xor *) pose proof (i_none _ _ _ I x) as Nx. pose proof (i_none _ _ _ I y) as Ny.
    destruct (row_at x w) as [r|] eqn:Hr; destruct (set_at x s) as [p|] eqn:Hp;
      [|destruct Nx as [_ N2]; discriminate (N2 eq_refl)|destruct Nx as [N1 _]; discriminate (N1 eq_refl)|exact Logic.I].
    destruct (row_at y w) as [o|] eqn:Ho; destruct (set_at y s) as [q|] eqn:Hq;
      [|destruct Ny as [_ N2]; discriminate (N2 eq_refl)|destruct Ny as [N1 _]; discriminate (N1 eq_refl)|exact Logic.I].
    destruct (row_xor_spec _ _ (i_wf _ _ _ I x r Hr) (i_wf _ _ _ I y o Ho)) as [Wf C].
    eapply (inv_emit w s k _ _ [x; y] (from (s_next k) [x; y] (s_pairs k) ++ s_pairs k)); eauto using xor_value.
    + intros v. rewrite C, (i_cols _ _ _ I x r p Hr Hp v), (i_cols _ _ _ I y o q Ho Hq v). tauto.
    + intros a Ia. apply xor_shares, in_app_or in Ia as [Ia|Ia]; [exists x, r|exists y, o]; cbn; auto.
    + intros a b Iab. apply in_or_app. right. exact Iab.
    + intros z v Iz Hz. apply in_or_app. left. eapply in_from; eauto.
  - (* clone *) pose proof (i_none _ _ _ I x) as Nx. destruct (row_at x w) as [r|] eqn:Hr; destruct (set_at x s) as [p|] eqn:Hp;
      [|destruct Nx as [_ N2]; discriminate (N2 eq_refl)|destruct Nx as [N1 _]; discriminate (N1 eq_refl)|exact Logic.I].
    eapply (inv_emit w s k _ _ [] (s_pairs k)); eauto using clone_value.
    + eapply i_wf; eauto.
    + eapply i_cols; eauto.
    + rewrite clone_shares. intros a [].
    + intros z v [].
  - (* freeze *) pose proof (i_none _ _ _ I x) as Nx. destruct (row_at x w) as [r|] eqn:Hr; destruct (set_at x s) as [p|] eqn:Hp;
      [exact I|destruct Nx as [_ N2]; discriminate (N2 eq_refl)|destruct Nx as [N1 _]; discriminate (N1 eq_refl)|exact Logic.I].
  - (* drop *) pose proof (i_none _ _ _ I x) as Nx. destruct (row_at x w) as [r|] eqn:Hr; destruct (set_at x s) as [p|] eqn:Hp;
      [|destruct Nx as [_ N2]; discriminate (N2 eq_refl)|destruct Nx as [N1 _]; discriminate (N1 eq_refl)|exact Logic.I].
    pose proof (row_at_bound _ _ _ Hr) as B. pose proof (i_rows _ _ _ I) as L1. pose proof (i_sets _ _ _ I) as L2.
    assert (Rx : row_at x (World (w_mem w) (put x None (w_rows w))) = None).
    { unfold row_at. cbn [w_rows]. rewrite nth_error_put_same by exact B. reflexivity. }
    assert (G : forall y t, row_at y (World (w_mem w) (put x None (w_rows w))) = Some t -> y <> x /\ row_at y w = Some t).
    { intros y t H. destruct (Nat.eq_dec y x) as [->|Ny]; [rewrite Rx in H; discriminate|]. rewrite put_row_other in H by exact Ny. auto. }
    constructor; cbn [w_mem w_rows s_next s_dropped s_pairs].
    + rewrite put_length. exact L1.
    + rewrite put_length. exact L2.
    + intros y. destruct (Nat.eq_dec y x) as [->|Ny]; [rewrite Rx, put_set_same by lia; tauto|].
      rewrite put_row_other, put_set_other by exact Ny. apply (i_none _ _ _ I).
    + intros y t H. apply G in H as [Ny H]. eapply i_valid; eauto.
    + intros y t H. apply G in H as [Ny H]. eapply i_wf; eauto.
    + intros y t q H Hq. apply G in H as [Ny H]. rewrite put_set_other in Hq by exact Ny. eapply i_cols; eauto.
    + intros y t H [E|E]; apply G in H as [Ny H]; [congruence|]. eapply i_live; eauto.
    + intros y [<-|H]; [lia|]. eapply i_old; eauto.
    + intros y z t u q Ht Hu. apply G in Ht as [_ Ht]. apply G in Hu as [_ Hu]. eapply i_share; eauto.
    + intros y z t u a b Ht Hu. apply G in Ht as [_ Ht]. apply G in Hu as [_ Hu]. eapply i_shard; eauto.
Qed.
