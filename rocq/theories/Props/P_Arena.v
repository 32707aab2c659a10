(** C60: byte buffers from the arena pool (internal/arena). *)
From Verif.Model Require Import Base Arena.
From Verif.Spec Require Import Buffers.
From Verif.Proofs Require Import BaseFacts ArenaFacts.
Open Scope nat_scope.

(** Whatever was called before, on this and on any other arena, in any order, with any growth policy of
    append: the slice a call returns holds what was written through the arena's current writer, and no
    slice is returned by a failed call. *)
Theorem C60_slice_exact : forall ops w o w' v, run world_new ops = Some w -> step w o = Some (w', Some v) ->
  exists i, subject o = Some i /\ v_owner v = i /\ read (w_heap w') v = written i (ops ++ [o]).
Proof.
  intros ops w o w' v R S. destruct (run_all ops _ _ _ start_winv start_contents R) as (WI & C & _).
  destruct (step_all _ _ _ _ _ WI C S) as (_ & _ & _ & N). destruct (N v eq_refl) as (i & Hs & Ho & V & _). exists i. split; [exact Hs|]. split; [exact Ho|].
  rewrite V. unfold written. rewrite fold_left_app. reflexivity.
Qed.
Print Assumptions C60_slice_exact.

(** It keeps those bytes, whatever is called later on this and on other arenas, until its arena is released. *)
Theorem C60_slice_stable : forall before w o w' v after w'', run world_new before = Some w -> step w o = Some (w', Some v) ->
  run w' after = Some w'' -> ~ In (ORelease (v_owner v)) after -> read (w_heap w'') v = read (w_heap w') v.
Proof.
  intros before w o w' v after w'' R S R' N. destruct (run_all before _ _ _ start_winv start_contents R) as (WI & C & _).
  destruct (step_all _ _ _ _ _ WI C S) as (WI' & _ & C' & V). destruct (V v eq_refl) as (i & _ & _ & Vi).
  destruct (run_all after _ _ _ WI' C' R') as (_ & _ & K). rewrite (proj1 (K v _ Vi N)), (proj1 Vi). reflexivity.
Qed.
Print Assumptions C60_slice_stable.

(** What an arena taken from the pool contained before it was released never reappears: whatever it is
    asked for, the answer depends only on the calls after the latest release. *)
Theorem C60_release_forgets : forall before i after w o w' v, run world_new (before ++ ORelease i :: after) = Some w -> step w o = Some (w', Some v) ->
  v_owner v = i -> read (w_heap w') v = written i (after ++ [o]).
Proof.
  intros before i after w o w' v R S E. destruct (C60_slice_exact _ _ _ _ _ R S) as (j & _ & Ej & Rd). rewrite E in Ej. subst j. rewrite Rd. unfold written.
  rewrite <- app_assoc, fold_left_app. cbn [app fold_left writes_to]. rewrite Nat.eqb_refl. reflexivity.
Qed.
Print Assumptions C60_release_forgets.

(** The calls of the dataframe (dataframe.go:165-190): an arena is taken, a frame is written in chunks, its
    bytes are handed to the store and read by it before the release: they are the frame, whatever other
    goroutines do with other arenas meanwhile. *)
Theorem C60_dataframe_use : forall before i during w v w' w1, run world_new (before ++ [ONewWriter i]) = Some w1 ->
  (forall o, In o during -> subject o = Some i -> exists bs extra, o = OWrite i bs extra) ->
  run w1 during = Some w -> step w (OBytes i) = Some (w', Some v) ->
  read (w_heap w') v = List.concat (map (fun o => match o with OWrite j bs _ => if Nat.eqb j i then bs else [] | _ => [] end) during).
Proof.
  intros before i during w v w' w1 R1 Only R S.
  assert (R0 : run world_new (before ++ [ONewWriter i] ++ during) = Some w).
  { clear - R1 R. rewrite app_assoc. revert R1 R. generalize (before ++ [ONewWriter i]) as l. generalize world_new as w0. intros w0 l. revert w0. induction l as [|o l IH]; intros w0 E1 E2; cbn [run app] in *.
    - apply some_inj in E1. subst. exact E2.
    - destruct (step w0 o) as [[w2 r]|]; [|discriminate]. eapply IH; eassumption. }
  destruct (C60_slice_exact _ _ _ _ _ R0 S) as (j & Ej & _ & Rd). cbn [subject] in Ej. apply some_inj in Ej. subst j. rewrite Rd. unfold written.
  rewrite <- !app_assoc, fold_left_app. cbn [app fold_left writes_to]. rewrite Nat.eqb_refl. rewrite fold_left_app. cbn [fold_left writes_to].
  clear - Only. assert (G : forall l p, (forall o, In o l -> subject o = Some i -> exists bs extra, o = OWrite i bs extra) ->
    fold_left (writes_to i) l p = p ++ List.concat (map (fun o => match o with OWrite j bs _ => if Nat.eqb j i then bs else [] | _ => [] end) l)); [|apply (G during []); exact Only].
  induction l as [|o l IH]; intros p H; cbn [fold_left map List.concat]; [symmetry; apply app_nil_r|]. rewrite IH by (intros x Hx; apply H; right; exact Hx). rewrite app_assoc. f_equal.
  destruct o as [[k|]|k|k bs extra|k|k enc extra ok|k enc extra ok ch zok|k]; cbn [writes_to]; try (symmetry; apply app_nil_r);
    try (destruct (Nat.eqb_spec k i) as [ -> |]; [destruct (H _ (or_introl eq_refl) eq_refl) as (? & ? & X); discriminate X|symmetry; apply app_nil_r]).
  destruct (Nat.eqb k i); [reflexivity|symmetry; apply app_nil_r].
Qed.
Print Assumptions C60_dataframe_use.

(** Two interleaved arenas, a reallocation in between, and a reused one: the hypotheses are met. *)
Example C60_nonvacuous :
  let ops := [ONew None; ONew None; ONewWriter 0; OWrite 0 [1%N;2%N] 0; ONewWriter 1; OWrite 1 [9%N] 4; OWrite 0 [3%N] 5; ORelease 1; ONew (Some 1); OMarshal 1 [7%N;7%N] 0 true] in
  match run world_new ops with
  | Some w => match step w (OBytes 0), step w (OBytes 1) with
              | Some (w1, Some v), Some (w2, Some u) => read (w_heap w1) v = [1%N;2%N;3%N] /\ read (w_heap w2) u = [7%N;7%N] /\ v_arr v <> v_arr u
              | _, _ => False
              end
  | None => False
  end.
Proof. cbn. repeat split; try reflexivity. discriminate. Qed.

(** Two writers of one arena are one writer: what was written through the first is not what Bytes
    returns after a second one was asked for. *)
Theorem C60_two_writers_refuted : ~ (forall i p q e e' w w' v, run world_new [ONew None; ONewWriter i; OWrite i p e; ONewWriter i; OWrite i q e'; OWrite i p e] = Some w ->
  step w (OBytes i) = Some (w', Some v) -> read (w_heap w') v = p ++ p).
Proof. intros H. specialize (H 0 [1%N] [2%N] 0 0 _ _ _ eq_refl eq_refl). cbn in H. discriminate H. Qed.
Print Assumptions C60_two_writers_refuted.
(** A slice kept past the release reads zeros, and the next user's bytes after that. *)
Theorem C60_after_release_refuted : ~ (forall before w o w' v after w'', run world_new before = Some w -> step w o = Some (w', Some v) ->
  run w' after = Some w'' -> read (w_heap w'') v = read (w_heap w') v).
Proof.
  intros H. specialize (H [ONew None] _ (OMarshal 0 [5%N] 0 true) _ _ [ORelease 0; ONew (Some 0); OWrite 0 [6%N] 0] _ eq_refl eq_refl eq_refl). cbn in H. discriminate H.
Qed.
Print Assumptions C60_after_release_refuted.
