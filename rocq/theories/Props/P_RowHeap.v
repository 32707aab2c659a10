(** C89: rows and the storage they share (internal/rows/row.go). *)
From Verif.Model Require Import Base View Rows RowHeap.
From Verif.Spec Require Import Sets RowPrograms.
From Verif.Proofs Require Import BaseFacts RowsFacts RowHeapFacts RowHeapInv.
Open Scope N_scope.

Definition nothing := World [] [].
(** What reading every row shows is exactly its set. *)
Definition shows (w : world) (s : sets) : Prop := forall x,
  match set_at x s with
  | Some p => exists l, columns_of x w = Some l /\ lists_exactly l p /\ count_of x w = Some (N.of_nat (List.length l)) /\
              forall c, exists b, includes_of x c w = Some b /\ (b = true <-> p c)
  | None => columns_of x w = None /\ count_of x w = None
  end.

Lemma inv_shows w s k : inv w s k -> shows w s.
Proof.
  intros I x. pose proof (i_none _ _ _ I x) as Nn. unfold columns_of, count_of, includes_of.
  destruct (set_at x s) as [p|] eqn:Hp.
  - destruct (row_at x w) as [r|] eqn:Hr; [|destruct Nn as [N1 _]; discriminate (N1 eq_refl)].
    pose proof (i_wf _ _ _ I x r Hr) as W. cbn [option_map]. eexists. split; [reflexivity|]. split.
    + split; [apply columns_sorted, W|]. eapply i_cols; eauto.
    + split; [f_equal; apply row_count_spec, W|]. intros c. eexists. split; [reflexivity|].
      rewrite row_includes_spec by exact W. eapply i_cols; eauto.
  - destruct (row_at x w); [destruct Nn as [_ N2]; discriminate (N2 eq_refl)|]. auto.
Qed.
Lemma performs_inv cs : forall w s k, inv w s k -> careful_from cs k ->
  match performs cs w, meanings cs s with
  | Some w', Some s' => exists k', inv w' s' k'
  | None, None => True
  | _, _ => False
  end.
Proof.
  induction cs as [|c cs IH]; intros w s k I C; cbn [performs meanings]; [exists k; exact I|].
  destruct C as (Sn & Al & C). pose proof (perform_inv c w s k I Sn Al) as H.
  destruct (perform c w) as [w1|], (meaning c s) as [s1|]; try contradiction; [|exact Logic.I]. apply (IH w1 s1 (track c k) H C).
Qed.
Lemma inv_nothing : inv nothing [] (Sharing 0 [] []).
Proof.
  assert (G : forall x, row_at x nothing = None) by (intros [|x]; reflexivity).
  constructor; cbn [s_next s_dropped s_pairs w_rows w_mem nothing]; try reflexivity.
  - intros x. rewrite G. split; auto. intros _. destruct x; reflexivity.
  - intros x r H. rewrite G in H. discriminate.
  - intros x r H. rewrite G in H. discriminate.
  - intros x r p H. rewrite G in H. discriminate.
  - intros x r H. rewrite G in H. discriminate.
  - intros x [].
  - intros x y r t q H. rewrite G in H. discriminate.
  - intros x y r t a b H. rewrite G in H. discriminate.
Qed.

(** Every program that changes a row in place only while no other row in use may share parts with it reads, in every
    row, exactly the set it computed there; and it runs exactly when it only uses rows that exist. *)
Theorem C89_rows_are_values_partial cs : careful cs ->
  match performs cs nothing, meanings cs [] with
  | Some w, Some s => shows w s
  | None, None => True
  | _, _ => False
  end.
Proof.
  intros C. pose proof (performs_inv cs nothing [] _ inv_nothing C) as H.
  destruct (performs cs nothing), (meanings cs []); try contradiction; [|exact Logic.I]. destruct H as (k & H). eapply inv_shows; eauto.
Qed.

(* ------------------------------------------------------------------ the general claim is false *)
(** Row 0 is read wrongly: its set is {1}, its columns are 1 and 2, its count is still 1. *)
Definition spoils (cs : list call) : Prop := all_sensible cs /\
  exists w s p, performs cs nothing = Some w /\ meanings cs [] = Some s /\ set_at 0 s = Some p /\ (forall v, p v <-> v = 1) /\
    columns_of 0 w = Some [1; 2] /\ includes_of 0 2 w = Some true /\ count_of 0 w = Some 1.
Lemma spoils_intro cs : all_sensible cs -> (exists s, meanings cs [] = Some s /\ set_at 0 s = Some (fun v => In v [1])) ->
  option_map (fun w => (columns_of 0 w, includes_of 0 2 w, count_of 0 w)) (performs cs nothing) = Some (Some [1; 2], Some true, Some 1) -> spoils cs.
Proof.
  intros A (s & Hs & Hp) H. split; [exact A|]. destruct (performs cs nothing) as [w|] eqn:E; [|discriminate].
  cbn [option_map] in H. apply some_inj in H. apply pair_inj in H as [H H3]. apply pair_inj in H as [H1 H2].
  exists w, s, (fun v => In v [1]). repeat (split; [solve [auto]|]). split; [|auto].
  intros v. cbn. split; [intros [H|[]]; auto|auto].
Qed.
Ltac spoil := apply spoils_intro; [repeat constructor|eexists; split; [reflexivity|reflexivity]|vm_compute; reflexivity].
Theorem C89_union_shares_refuted : spoils [CNew [1]; CNew [2^20 + 1]; CUnion 0 [1%nat]; CSet 2 2].
Proof. spoil. Qed.
Theorem C89_xor_shares_refuted : spoils [CNew [1]; CNew [2^20 + 1]; CXor 1 0; CSet 2 2].
Proof. spoil. Qed.
Theorem C89_difference_shares_refuted : spoils [CNew [1]; CNew [2^20 + 1]; CDifference 0 [1%nat]; CSet 2 2].
Proof. spoil. Qed.
Theorem C89_merge_shares_refuted : spoils [CNew [1]; CNew []; CMerge 1 0; CSet 1 2].
Proof. spoil. Qed.
(** Freeze does not help. *)
Theorem C89_freeze_does_not_protect_refuted : spoils [CNew [1]; CFreeze 0; CNew []; CMerge 1 0; CFreeze 0; CFreeze 1; CSet 1 2].
Proof. spoil. Qed.

(* ------------------------------------------------------------------ programs that are careful *)
Lemma careful_app cs ds : forall k, careful_from (cs ++ ds) k <-> careful_from cs k /\ careful_from ds (fold_left (fun k c => track c k) cs k).
Proof. induction cs as [|c cs IH]; intros k; cbn [app careful_from fold_left]; [tauto|]. rewrite IH. tauto. Qed.
Definition bounded (k : sharing) := forall a b, In (a, b) (s_pairs k) -> (a < s_next k /\ b < s_next k)%nat.
Lemma set_at_bound x s p : set_at x s = Some p -> (x < List.length s)%nat.
Proof. unfold set_at. destruct (nth_error s x) eqn:E; [|discriminate]. intros _. apply nth_error_Some. congruence. Qed.
Lemma all_at_bound ys s qs : all_at ys s = Some qs -> forall y, In y ys -> (y < List.length s)%nat.
Proof.
  revert qs. induction ys as [|y ys IH]; intros qs H z I; [destruct I|]. cbn [all_at] in H.
  destruct (set_at y s) eqn:E; [|discriminate]. destruct (all_at ys s) eqn:F; [|discriminate].
  destruct I as [<-|I]; [eapply set_at_bound; eauto|eauto].
Qed.
Lemma from_bounded n m xs k : bounded k -> (n < m)%nat -> (s_next k <= m)%nat -> (forall x, In x xs -> (x < s_next k)%nat) ->
  forall a b, In (a, b) (from n xs (s_pairs k) ++ s_pairs k) -> (a < m /\ b < m)%nat.
Proof.
  intros B Hn Hm Hx a b I. apply in_app_or in I as [I|I]; [|specialize (B a b I); lia]. unfold from in I.
  apply in_flat_map in I as (x & Ix & I). specialize (Hx x Ix). destruct I as [E|I].
  - apply pair_inj in E as [<- <-]. lia.
  - apply in_map_iff in I as (z & E & Iz). apply pair_inj in E as [<- <-]. apply in_partners in Iz as [Iz|Iz]; specialize (B _ _ Iz); lia.
Qed.
Lemma track_bounded cs : forall k s s', bounded k -> List.length s = s_next k -> meanings cs s = Some s' ->
  bounded (fold_left (fun k c => track c k) cs k) /\ List.length s' = s_next (fold_left (fun k c => track c k) cs k).
Proof.
  induction cs as [|c cs IH]; intros k s s' B L H; cbn [meanings fold_left] in *; [apply some_inj in H; subst; auto|].
  destruct (meaning c s) as [s1|] eqn:E; [|discriminate].
  assert (G : bounded (track c k) /\ List.length s1 = s_next (track c k)).
  { destruct c as [cols|cols|sh cols|x i|x y|x y|x ys|x ys|x y|x|x|x]; cbn [meaning] in E; cbn [track].
    1-3: apply some_inj in E; subst s1; rewrite app_length; cbn [List.length s_next]; split; [intros a b I; specialize (B a b I); cbn; lia|lia].
    - destruct (set_at x s); [|discriminate]. apply some_inj in E; subst s1. rewrite put_length. auto.
    - destruct (set_at x s) eqn:Ex; [|discriminate]. destruct (set_at y s) eqn:Ey; [|discriminate]. apply some_inj in E; subst s1.
      apply set_at_bound in Ex, Ey. rewrite put_length. split; [|exact L]. unfold bounded. cbn [s_next s_pairs].
      apply (from_bounded x (s_next k) [y] k B); [lia|lia|]. intros z [<-|[]]. lia.
    - destruct (set_at x s); [|discriminate]. destruct (set_at y s); [|discriminate]. apply some_inj in E; subst s1. rewrite app_length. cbn.
      split; [intros a b I; specialize (B a b I); cbn; lia|lia].
    - destruct (set_at x s) eqn:Ex; [|discriminate]. destruct (all_at ys s) eqn:Ey; [|discriminate]. apply some_inj in E; subst s1.
      apply set_at_bound in Ex. pose proof (all_at_bound _ _ _ Ey) as Hy. rewrite app_length. split; [|cbn; lia]. unfold bounded. cbn [s_next s_pairs].
      apply (from_bounded (s_next k) (S (s_next k)) (x :: ys) k B); [lia|lia|]. intros z [<-|I]; [lia|]. specialize (Hy z I). lia.
    - destruct (set_at x s) eqn:Ex; [|discriminate]. destruct (all_at ys s) eqn:Ey; [|discriminate]. apply some_inj in E; subst s1.
      apply set_at_bound in Ex. rewrite app_length. split; [|cbn; lia]. unfold bounded. cbn [s_next s_pairs].
      apply (from_bounded (s_next k) (S (s_next k)) [x] k B); [lia|lia|]. intros z [<-|[]]. lia.
    - destruct (set_at x s) eqn:Ex; [|discriminate]. destruct (set_at y s) eqn:Ey; [|discriminate]. apply some_inj in E; subst s1.
      apply set_at_bound in Ex, Ey. rewrite app_length. split; [|cbn; lia]. unfold bounded. cbn [s_next s_pairs].
      apply (from_bounded (s_next k) (S (s_next k)) [x; y] k B); [lia|lia|]. intros z [<-|[<-|[]]]; lia.
    - destruct (set_at x s); [|discriminate]. apply some_inj in E; subst s1. rewrite app_length. cbn.
      split; [intros a b I; specialize (B a b I); cbn; lia|lia].
    - destruct (set_at x s); [|discriminate]. apply some_inj in E; subst s1. auto.
    - destruct (set_at x s); [|discriminate]. apply some_inj in E; subst s1. rewrite put_length. auto. }
  destruct G as [B1 L1]. eapply IH; eauto.
Qed.
Lemma careful_sets n is : forall k, partners n (s_pairs k) = [] -> careful_from (map (CSet n) is) k.
Proof.
  induction is as [|i is IH]; intros k H; cbn [map careful_from]; [exact Logic.I|]. split; [exact Logic.I|]. split; [|apply IH, H].
  cbn [allowed]. rewrite H. intros z [].
Qed.
(** A clone, an intersection and a row made from columns may be changed in place at once: they share with nothing. *)
Lemma fresh_rows_are_free cs s c is : careful cs -> meanings cs [] = Some s ->
  (match c with CClone _ | CIntersect _ _ | CNew _ => True | _ => False end) ->
  careful (cs ++ c :: map (CSet (List.length s)) is).
Proof.
  intros C M Hc. unfold careful in *. apply careful_app. split; [exact C|].
  destruct (track_bounded cs (Sharing 0 [] []) [] s) as [B L]; [intros a b []|reflexivity|exact M|].
  set (k := fold_left (fun k c => track c k) cs (Sharing 0 [] [])) in *. clearbody k.
  assert (P : partners (List.length s) (s_pairs k) = []).
  { destruct (partners (List.length s) (s_pairs k)) as [|z l] eqn:E; [reflexivity|]. exfalso.
    assert (I : In z (partners (List.length s) (s_pairs k))) by (rewrite E; left; auto).
    apply in_partners in I as [I|I]; specialize (B _ _ I); lia. }
  destruct c; try contradiction; (split; [exact Logic.I|]; split; [exact Logic.I|]; apply careful_sets; exact P).
Qed.
Theorem C89_clones_are_independent cs s x p is : careful cs -> meanings cs [] = Some s -> set_at x s = Some p ->
  exists w s', performs (cs ++ CClone x :: map (CSet (List.length s)) is) nothing = Some w /\
    meanings (cs ++ CClone x :: map (CSet (List.length s)) is) [] = Some s' /\ shows w s' /\
    (forall y, (y < List.length s)%nat -> set_at y s' = set_at y s) /\
    exists q, set_at (List.length s) s' = Some q /\ forall v, q v <-> p v \/ In v is.
Proof.
  intros C M Hx.
  assert (MA : forall ds s0, meanings (cs ++ ds) s0 = match meanings cs s0 with Some s1 => meanings ds s1 | None => None end).
  { intros ds. clear. induction cs as [|c cs IH]; intros s0; [reflexivity|]. cbn [app meanings]. destruct (meaning c s0); [apply IH|reflexivity]. }
  assert (G : forall is (s0 : sets) q, set_at (List.length s) s0 = Some q -> (List.length s0 = S (List.length s)) ->
     exists s1 q', meanings (map (CSet (List.length s)) is) s0 = Some s1 /\ (forall y, (y < List.length s)%nat -> set_at y s1 = set_at y s0) /\
       set_at (List.length s) s1 = Some q' /\ forall v, q' v <-> q v \/ In v is).
  { clear. intros is. induction is as [|i is IH]; intros s0 q Hq L; cbn [map meanings].
    - exists s0, q. split; [reflexivity|]. split; [auto|]. split; [exact Hq|]. intros v. cbn. tauto.
    - cbn [meaning]. rewrite Hq.
      destruct (IH (put (List.length s) (Some (fun v => v = i \/ q v)) s0) (fun v => v = i \/ q v)) as (s1 & q' & A & B & D & E).
      { apply put_set_same. lia. } { rewrite put_length. exact L. }
      exists s1, q'. split; [exact A|]. split; [|split; [exact D|]].
      + intros y Hy. rewrite B by exact Hy. apply put_set_other. lia.
      + intros v. rewrite E. cbn. split; [intros [[H|H]|H]|intros [H|[H|H]]]; auto. }
  pose proof (C89_rows_are_values_partial _ (fresh_rows_are_free cs s (CClone x) is C M Logic.I)) as H.
  rewrite MA, M in H |- *. cbn [meanings meaning] in *. rewrite Hx in *.
  destruct (G is (s ++ [Some p]) p) as (s1 & q & A & B & D & E); [apply set_at_new|rewrite app_length; cbn; lia|].
  rewrite A in *. destruct (performs _ nothing) as [w|]; [|contradiction]. exists w, s1. split; [reflexivity|]. split; [reflexivity|].
  split; [exact H|]. split; [|exists q; split; [exact D|exact E]]. intros y Hy. rewrite B by exact Hy. apply set_at_old. lia.
Qed.

(** The server's own use (internal/shards/shards.go:168-199): an empty row, into which the row of every shard is merged
    and then forgotten. *)
Fixpoint shard_rows (n : nat) (parts : list (N * list N)) : list call :=
  match parts with
  | [] => []
  | (k, cols) :: t => CSegment k cols :: CMerge 0 n :: CDrop n :: shard_rows (S n) t
  end.
Theorem C89_server_rows_are_careful parts :
  (forall k cols, In (k, cols) parts -> StronglySorted N.lt cols /\ forall v, In v cols -> v / 2^20 = k) ->
  exists w l, performs (CNew [] :: shard_rows 1 parts) nothing = Some w /\ columns_of 0 w = Some l /\
    lists_exactly l (fun v => exists k cols, In (k, cols) parts /\ In v cols) /\ count_of 0 w = Some (N.of_nat (List.length l)).
Proof.
  intros H.
  assert (C : forall parts k, (forall q cols, In (q, cols) parts -> StronglySorted N.lt cols /\ forall v, In v cols -> v / 2^20 = q) ->
     (1 <= s_next k)%nat -> bounded k ->
     (forall z, In z (partners 0 (s_pairs k)) -> In z (s_dropped k)) -> (forall n, (1 <= n < s_next k)%nat -> In n (s_dropped k)) ->
     careful_from (shard_rows (s_next k) parts) k).
  { clear. induction parts as [|[q cols] parts IH]; intros k H L B P D; cbn [shard_rows careful_from]; [exact Logic.I|].
    split; [apply H; left; reflexivity|]. split; [exact Logic.I|]. split; [exact Logic.I|]. split.
    - cbn [track allowed s_pairs s_dropped]. intros z I. right. apply P, I.
    - split; [exact Logic.I|]. split; [exact Logic.I|]. cbn [track s_next s_dropped s_pairs].
      apply (IH (Sharing (S (s_next k)) (s_next k :: s_dropped k) (from 0 [s_next k] (s_pairs k) ++ s_pairs k))); cbn [s_next s_dropped s_pairs].
      + intros q' c' I. apply H. right; exact I.
      + lia.
      + intros a b I. apply in_app_or in I as [I|I]; [|specialize (B a b I); cbn; lia]. unfold from in I. cbn [flat_map] in I. rewrite app_nil_r in I.
        destruct I as [E|I]; [apply pair_inj in E as [<- <-]; cbn; lia|]. apply in_map_iff in I as (z & E & Iz).
        apply in_partners in Iz as [Iz|Iz]; specialize (B _ _ Iz); lia.
      + intros z I. apply in_partners in I. rewrite !in_app_iff in I.
        assert (F : forall a b, In (a, b) (from 0 [s_next k] (s_pairs k)) -> a = 0%nat /\ b = s_next k).
        { intros a b J. unfold from in J. cbn [flat_map] in J. rewrite app_nil_r in J. destruct J as [E|J]; [apply pair_inj in E as [<- <-]; auto|].
          apply in_map_iff in J as (y & E & Iy). apply in_partners in Iy as [Iy|Iy]; specialize (B _ _ Iy); lia. }
        destruct I as [[I|I]|[I|I]].
        * apply F in I as [_ ->]. left; reflexivity.
        * right. apply P, in_partners. auto.
        * apply F in I as [-> E]. lia.
        * right. apply P, in_partners. auto.
      + intros n Hn. destruct (Nat.eq_dec n (s_next k)) as [->|]; [left; auto|right; apply D; lia]. }
  assert (M : forall parts n s p, set_at 0 s = Some p -> List.length s = n -> (1 <= n)%nat ->
     exists s' p', meanings (shard_rows n parts) s = Some s' /\ set_at 0 s' = Some p' /\
       forall v, p' v <-> p v \/ exists k cols, In (k, cols) parts /\ In v cols).
  { clear. induction parts as [|[q cols] parts IH]; intros n s p Hp L Hn; cbn [shard_rows meanings].
    - exists s, p. split; [reflexivity|]. split; [exact Hp|]. intros v. split; [auto|]. intros [X|(k & c & [] & _)]; exact X.
    - cbn [meaning]. rewrite set_at_old by lia. rewrite Hp. rewrite <- L, set_at_new.
      rewrite put_set_other, set_at_new by lia.
      destruct (IH (S (List.length s)) (put (List.length s) None (put 0 (Some (fun v => p v \/ In v cols)) (s ++ [Some (fun v => In v cols)]))) (fun v => p v \/ In v cols)) as (s' & p' & A & B & E).
      { rewrite put_set_other by lia. apply put_set_same. rewrite app_length. cbn. lia. }
      { rewrite !put_length, app_length. cbn. lia. } { lia. }
      exists s', p'. split; [exact A|]. split; [exact B|]. intros v. rewrite E. split.
      + intros [[X|X]|(k & c & I & X)]; [auto|right; exists q, cols; cbn; auto|right; exists k, c; cbn; auto].
      + intros [X|(k & c & [I|I] & X)]; [auto| |right; eauto]. apply pair_inj in I as [<- <-]. auto. }
  assert (Ca : careful (CNew [] :: shard_rows 1 parts)).
  { split; [exact Logic.I|]. split; [exact Logic.I|]. apply (C parts (track (CNew []) (Sharing 0 [] []))); cbn [track s_next s_dropped s_pairs]; auto.
    - intros a b [].
    - intros n Hn. lia. }
  pose proof (C89_rows_are_values_partial _ Ca) as R. cbn [meanings meaning app] in R.
  destruct (M parts 1%nat [Some (fun v : N => In v [])] (fun v => In v [])) as (s' & p' & A & B & E); [reflexivity|reflexivity|lia|].
  rewrite A in R. destruct (performs _ nothing) as [w|]; [|contradiction]. specialize (R 0%nat). rewrite B in R.
  destruct R as (l & H1 & H2 & H3 & _). exists w, l. split; [reflexivity|]. split; [exact H1|]. split; [|exact H3].
  destruct H2 as [S2 H2]. split; [exact S2|]. intros v. rewrite H2, E. cbn. tauto.
Qed.

(** A careful program of some size: what is shared is dropped before it is changed. *)
Definition ex_program := [CNew [1; 2^20 + 5]; CNew [2; 2^21]; CUnion 0 [1%nat]; CIntersect 2 0; CSet 3 9; CDrop 0; CDrop 1;
  CSet 2 7; CClone 2; CMerge 2 4; CSegment 3 [3 * 2^20]; CDrop 4; CMerge 2 5; CDifference 2 [3%nat]; CXor 6 3; CBitmap [4; 5]; CMerge 8 3].
Ltac alone := intros z Hz; cbn in Hz; repeat destruct Hz as [<-|Hz]; try destruct Hz; cbn; auto 12.
Example ex_careful : careful ex_program.
Proof.
  unfold careful, ex_program. cbn [careful_from].
  repeat match goal with |- _ /\ _ => split end; try exact Logic.I.
  all: lazymatch goal with
       | |- StronglySorted _ _ => repeat constructor
       | |- forall v, In v _ -> _ => intros v Hv; repeat destruct Hv as [<-|Hv]; try reflexivity; destruct Hv
       | |- allowed _ _ => alone
       | |- sensible _ => split; [repeat constructor|intros v Hv; repeat destruct Hv as [<-|Hv]; try reflexivity; destruct Hv] end.
Qed.
Example ex_columns : option_map (fun w => map (fun x => columns_of x w) (seq 0 9)) (performs ex_program nothing) =
  Some [None; None; Some [1; 2; 7; 2^20 + 5; 2^21; 3 * 2^20]; Some [1; 9; 2^20 + 5]; None; Some [3 * 2^20];
        Some [2; 7; 2^21; 3 * 2^20]; Some [1; 2; 7; 9; 2^20 + 5; 2^21; 3 * 2^20]; Some [1; 4; 5; 9; 2^20 + 5]].
Proof. vm_compute. reflexivity. Qed.
