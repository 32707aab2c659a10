(** C76: the databases of the shards are opened once (internal/shards). *)
From Verif.Model Require Import Base OpenShards.
From Verif.Proofs Require Import BaseFacts.
Open Scope N_scope.

Lemma set_pc_same f i p : set_pc f i p i = p. Proof. unfold set_pc. rewrite Nat.eqb_refl. reflexivity. Qed.
Lemma set_pc_other f i p j : j <> i -> set_pc f i p j = f j. Proof. unfold set_pc. destruct (Nat.eqb_spec j i); congruence. Qed.
Lemma aset_new {A} k (v : A) m : aget N.eqb k m = None -> aset N.eqb k v m = m ++ [(k, v)].
Proof. induction m as [|[k' v'] m IH]; cbn; [reflexivity|]. destruct (N.eqb k k') eqn:E; [discriminate|]. intros H. rewrite IH by exact H. reflexivity. Qed.
Lemma aget_absent {A} k (m : amap N A) : aget N.eqb k m = None <-> ~ In k (map fst m).
Proof.
  induction m as [|[k' v'] m IH]; cbn; [tauto|]. destruct (N.eqb_spec k k') as [->|N]; [split; [discriminate|intros H; exfalso; auto]|]. rewrite IH. intuition congruence.
Qed.
Lemma NoDup_app_single {A} (l : list A) x : NoDup l -> ~ In x l -> NoDup (l ++ [x]).
Proof. intros H N. apply (Permutation_NoDup (l := x :: l)); [apply Permutation_cons_append|constructor; assumption]. Qed.
(** Everything opened is in the map but what the one active call is about to enter. *)
Definition pending (m : opener) : list (N * nat) -> Prop := fun l =>
  (l = [] /\ forall i, match o_pc m i with PCEntering _ _ => False | _ => True end) \/
  exists i shard h, l = [(shard, h)] /\ o_pc m i = PCEntering shard h /\ forall j, j <> i -> o_pc m j = PCIdle.
Record OInv (m : opener) : Prop := {
  O_all : exists l, pending m l /\ o_opened m = o_map m ++ l;
  O_once : NoDup (map fst (o_opened m));
  O_num : map snd (o_opened m) = seq 0 (List.length (o_opened m));
  O_pc : forall i s, o_pc m i = PCOpening s -> ~ In s (map fst (o_opened m)) /\ forall j, j <> i -> o_pc m j = PCIdle;
  O_res : forall s h, In (s, Some h) (o_results m) -> In (s, h) (o_opened m) }.
Lemma new_oinv : OInv opener_new.
Proof.
  constructor; cbn; try discriminate.
  - exists []. split; [left; cbn; auto|reflexivity].
  - constructor.
  - reflexivity.
  - intros s h [].
Qed.
Lemma step_oinv m m' i : OInv m -> one_at_a_time m i -> open_step i m m' -> OInv m'.
Proof.
  intros [(l & P & EA) OO ON OP OR] One St.
  assert (Idle : o_pc m i = PCIdle -> l = []).
  { intros Hi. destruct P as [[-> _]|(k & s & h & -> & Hk & Hj)]; [reflexivity|]. destruct (Nat.eq_dec k i) as [->|N]; [congruence|]. rewrite (One k N) in Hk. discriminate. }
  destruct St as [m shard h Hi G|m shard Hi G|m shard Hi|m shard Hi|m shard h Hi].
  - pose proof (Idle Hi). subst l. rewrite app_nil_r in EA. constructor; cbn [o_map o_opened o_results o_pc]; try assumption.
    + exists []. split; [|rewrite app_nil_r; exact EA]. destruct P as [[_ P]|(k & s & h' & P & _)]; [|discriminate]. left. split; [reflexivity|exact P].
    + intros s h' Hin. apply in_app_iff in Hin as [Hin|[Hin|[]]]; [apply OR, Hin|]. apply pair_inj in Hin as [<- Hin]. apply some_inj in Hin. subst h'. rewrite EA. apply (aget_in N.eqb N_eqb_reflect _ _ _ G).
  - pose proof (Idle Hi). subst l. rewrite app_nil_r in EA. constructor; cbn [o_map o_opened o_results o_pc]; try assumption.
    + exists []. split; [|rewrite app_nil_r; exact EA]. left. split; [reflexivity|]. intros j. cbn [o_pc]. destruct (Nat.eq_dec j i) as [->|N]; [rewrite set_pc_same; exact I|rewrite set_pc_other, One by exact N; exact I].
    + intros j s. destruct (Nat.eq_dec j i) as [->|N]; [rewrite set_pc_same|rewrite set_pc_other, One by exact N; discriminate]. intros E. injection E as <-.
      split; [rewrite EA; apply aget_absent, G|]. intros k Nk. rewrite set_pc_other by exact Nk. apply One, Nk.
  - destruct (OP i shard Hi) as [New _]. destruct P as [[-> P]|(k & s & h & -> & Hk & _)].
    2: { exfalso. destruct (Nat.eq_dec k i) as [->|N]; [congruence|]. rewrite (One k N) in Hk. discriminate. }
    rewrite app_nil_r in EA. constructor; cbn [o_map o_opened o_results o_pc].
    + exists [(shard, List.length (o_opened m))]. split; [|rewrite EA; reflexivity]. right. exists i, shard, (List.length (o_opened m)). split; [reflexivity|]. cbn [o_pc]. rewrite set_pc_same. split; [reflexivity|]. intros j N. rewrite set_pc_other by exact N. apply One, N.
    + rewrite map_app. cbn [map fst]. apply NoDup_app_single; assumption.
    + rewrite map_app, app_length, ON. cbn [map snd List.length]. rewrite seq_app. reflexivity.
    + intros j s. destruct (Nat.eq_dec j i) as [->|N]; [rewrite set_pc_same; discriminate|rewrite set_pc_other, One by exact N; discriminate].
    + intros s h Hin. apply in_app_iff. left. apply OR, Hin.
  - destruct P as [[-> P]|(k & s & h & -> & Hk & _)].
    2: { exfalso. destruct (Nat.eq_dec k i) as [->|N]; [congruence|]. rewrite (One k N) in Hk. discriminate. }
    constructor; cbn [o_map o_opened o_results o_pc]; try assumption.
    + exists []. split; [|exact EA]. left. split; [reflexivity|]. intros j. cbn [o_pc]. destruct (Nat.eq_dec j i) as [->|N]; [rewrite set_pc_same; exact I|rewrite set_pc_other, One by exact N; exact I].
    + intros j s. destruct (Nat.eq_dec j i) as [->|N]; [rewrite set_pc_same; discriminate|rewrite set_pc_other, One by exact N; discriminate].
    + intros s h Hin. apply in_app_iff in Hin as [Hin|[Hin|[]]]; [apply OR, Hin|]. discriminate.
  - destruct P as [[-> P]|(k & s & h' & -> & Hk & _)]; [specialize (P i); rewrite Hi in P; destruct P|].
    assert (k = i). { destruct (Nat.eq_dec k i) as [->|N]; [reflexivity|]. rewrite (One k N) in Hk. discriminate. } subst k. rewrite Hi in Hk. injection Hk as <- <-.
    assert (New : aget N.eqb shard (o_map m) = None). { apply aget_absent. rewrite EA, map_app in OO. cbn [map fst] in OO. apply NoDup_remove_2 in OO. rewrite app_nil_r in OO. exact OO. }
    constructor; cbn [o_map o_opened o_results o_pc]; try assumption.
    + exists []. split; [|rewrite (aset_new _ _ _ New), app_nil_r; exact EA]. left. split; [reflexivity|]. intros j. cbn [o_pc]. destruct (Nat.eq_dec j i) as [->|N]; [rewrite set_pc_same; exact I|rewrite set_pc_other, One by exact N; exact I].
    + intros j s. destruct (Nat.eq_dec j i) as [->|N]; [rewrite set_pc_same; discriminate|rewrite set_pc_other, One by exact N; discriminate].
    + intros s h' Hin. apply in_app_iff in Hin as [Hin|[Hin|[]]]; [apply OR, Hin|]. apply pair_inj in Hin as [<- Hin]. apply some_inj in Hin. subst h'. rewrite EA. apply in_app_iff. right. left. reflexivity.
Qed.

(** Calls made one at a time, in any number, any of which may fail to open: every shard's database is opened
    at most once, every call of a shard is given that one, and closing closes every open database once. *)
Theorem C76_opened_once_partial : forall m, open_steps one_at_a_time opener_new m ->
  NoDup (map fst (o_opened m)) /\
  (forall s h, In (s, Some h) (o_results m) -> In (s, h) (o_opened m)) /\
  (forall s h h', In (s, Some h) (o_results m) -> In (s, Some h') (o_results m) -> h = h') /\
  ((forall i, o_pc m i = PCIdle) -> Permutation (close_all m) (map snd (o_opened m)) /\ NoDup (close_all m)).
Proof.
  intros m S. assert (V : OInv m).
  { remember opener_new as m0 eqn:E0. induction S as [m0|m0 m1 m2 i S IH W St]; [rewrite E0; exact new_oinv|]. eapply step_oinv; [apply IH, E0|exact W|exact St]. }
  split; [apply V|]. split; [apply V|]. split.
  - intros s h h' H1 H2. apply (O_res _ V) in H1, H2. apply (in_aget N.eqb N_eqb_reflect _ _ _ (O_once _ V)) in H1, H2. congruence.
  - intros Id. destruct (O_all _ V) as (l & [[-> _]|(i & s & h & _ & Hi & _)] & EA); [|rewrite Id in Hi; discriminate]. rewrite app_nil_r in EA. unfold close_all. rewrite <- EA. split; [apply Permutation_refl|]. rewrite (O_num _ V). apply seq_NoDup.
Qed.
(** Two goroutines at once can both find the shard missing and open its database twice; the handle entered
    first is never closed. *)
Theorem C76_two_callers_refuted : exists m, open_steps anyone opener_new m /\ (forall i, o_pc m i = PCIdle) /\
  o_opened m = [(7, 0%nat); (7, 1%nat)] /\ In (7, Some 0%nat) (o_results m) /\ In (7, Some 1%nat) (o_results m) /\ close_all m = [1%nat].
Proof.
  eexists. split.
  - eapply (opens_more _ _ _ _ 1); [eapply (opens_more _ _ _ _ 0); [eapply (opens_more _ _ _ _ 1); [eapply (opens_more _ _ _ _ 0); [eapply (opens_more _ _ _ _ 1); [eapply (opens_more _ _ _ _ 0); [apply opens_none|exact I|apply (open_unknown 0 _ 7); reflexivity]|exact I|apply (open_unknown 1 _ 7); reflexivity]|exact I|apply (open_db 0 _ 7); reflexivity]|exact I|apply (open_db 1 _ 7); reflexivity]|exact I|apply (open_enter 0 _ 7); reflexivity]|exact I|apply (open_enter 1 _ 7); reflexivity].
  - split; [intros [|[|i]]; reflexivity|]. cbn. auto 6.
Qed.
(** A sequential life: shard 7 fails to open, is opened, is asked for again; shard 9 is opened. *)
Example C76_example : exists m, open_steps one_at_a_time opener_new m /\ o_results m = [(7, None); (7, Some 0%nat); (7, Some 0%nat); (9, Some 1%nat)] /\ close_all m = [0%nat; 1%nat].
Proof.
  assert (A : forall m, (forall i, o_pc m i = PCIdle) -> one_at_a_time m 0) by (intros m H j _; apply H).
  eexists. split.
  - eapply (opens_more _ _ _ _ 0); [eapply (opens_more _ _ _ _ 0); [eapply (opens_more _ _ _ _ 0); [eapply (opens_more _ _ _ _ 0); [eapply (opens_more _ _ _ _ 0); [eapply (opens_more _ _ _ _ 0); [eapply (opens_more _ _ _ _ 0); [eapply (opens_more _ _ _ _ 0); [eapply (opens_more _ _ _ _ 0); [apply opens_none| |apply (open_unknown 0 _ 7); reflexivity]| |apply (open_fails 0 _ 7); reflexivity]| |apply (open_unknown 0 _ 7); reflexivity]| |apply (open_db 0 _ 7); reflexivity]| |apply (open_enter 0 _ 7); reflexivity]| |apply (open_known 0 _ 7); reflexivity]| |apply (open_unknown 0 _ 9); reflexivity]| |apply (open_db 0 _ 9); reflexivity]| |apply (open_enter 0 _ 9); reflexivity]; intros [|j] N; (contradiction || reflexivity).
  - split; reflexivity.
Qed.
