(** The persistent translator of internal/translate is an instance of the interface. *)
From Verif.Model Require Import Base KV Slice Sequence Translate Labels.
From Verif.Spec Require Import Translator.
From Verif.Proofs Require Import BaseFacts SequenceFacts TranslateFacts.

Section KvInstance.
Variable (p : string) (grow : nat -> nat).
Hypothesis grow_ok : forall n, (n <= grow n)%nat.
Notation cfg := (TrConfig grow p (String.length p)).
Notation bw := translate_bandwidth.

Definition kv_find (s : tr_state) (k : string) : option N :=
  match ts_proc s with Some t => snd (tr_find grow t (ts_db s) k) | None => None end.
Definition kv_impl : tr_impl := TrImpl tr_state
  (fun s k => match tr_step cfg s (TKey k FNone) with (s', OKey _ n) => (s', n) | (s', _) => (s', 0) end)
  kv_find
  (fun s n => match ts_proc s with Some t => translate_id t (ts_db s) n | None => None end)
  (fun s => fst (tr_step cfg (fst (tr_step cfg s TCrash)) (TOpen false))).

Definition kv_inv (b : nat) (s : tr_state) : Prop :=
  exists lo hi t, ts_proc s = Some t /\ ts_inv p s lo hi /\ lo <= two64 /\ hi + bw * N.of_nat b < two64 - bw.

Lemma budget_step hi b : hi + bw * N.of_nat (S b) < two64 - bw ->
  hi + bw < two64 /\ (hi + bw) + bw * N.of_nat b < two64 - bw /\ hi + bw * N.of_nat b < two64 - bw.
Proof.
  change bw with 4096. change two64 with 18446744073709551616. rewrite Nat2N.inj_succ. lia.
Qed.

Lemma kv_find_assoc b s k n : kv_inv b s -> (kv_find s k = Some n <-> assoc p (ts_db s) k n).
Proof.
  intros (lo & hi & t & Hp & [Hdb Hi] & Hlo & Hb). unfold kv_find. rewrite Hp in *. destruct Hi as [(W & K & _) _].
  destruct (tr_find grow t (ts_db s) k) as [t' r] eqn:E. apply tr_find_spec in E; auto.
  destruct E as (_ & _ & _ & _ & _ & _ & _ & _ & ->). rewrite K. cbn [snd]. unfold assoc.
  destruct (kvget (append (append p "keys") k) (ts_db s)) as [v|] eqn:Ev.
  - destruct (proj1 Hdb _ _ Ev) as (m & -> & Hm & _). rewrite be_val_u64be by lia. split.
    + intros H. apply some_inj in H. subst m. split; [lia|reflexivity].
    + intros [H1 H2]. apply some_inj in H2. apply u64be_inj in H2; [congruence|lia|lia].
  - split; [discriminate|intros [_ H]; discriminate].
Qed.

Lemma kv_find_ext b b' s s' k : kv_inv b s -> kv_inv b' s' ->
  (forall n, assoc p (ts_db s') k n <-> assoc p (ts_db s) k n) -> kv_find s' k = kv_find s k.
Proof.
  intros H H' E. destruct (kv_find s k) as [n|] eqn:F.
  - apply (kv_find_assoc _ _ _ _ H') . apply E. apply (kv_find_assoc _ _ _ _ H). exact F.
  - destruct (kv_find s' k) as [n|] eqn:F'; [|reflexivity].
    apply (kv_find_assoc _ _ _ _ H'), E, (kv_find_assoc _ _ _ _ H) in F'. congruence.
Qed.

Lemma seq_next_nofail key b d q : exists d' q' n, seq_next false key b d q = (d', q', Some n).
Proof.
  unfold seq_next, update_lease. destruct (q_leased q <=? q_next q); cbn; eauto.
Qed.

Lemma kv_key_out s t k : ts_proc s = Some t -> exists s' n t', tr_step cfg s (TKey k FNone) = (s', OKey k n) /\ ts_proc s' = Some t'.
Proof.
  intros Hp. unfold tr_step. rewrite Hp. unfold translate_key. cbv beta iota zeta.
  destruct (kvget (append (keys_prefix t) k) (ts_db s)) as [v|] eqn:Ev; [do 3 eexists; split; reflexivity|].
  destruct (seq_next_nofail (seq_key t) bw (ts_db s) (t_seq t)) as (d' & q' & n & ->). do 3 eexists; split; reflexivity.
Qed.

Theorem kv_laws : tr_laws kv_impl kv_inv.
Proof.
  apply tr_laws_intro.
  - intros b s k s' n Hinv E. cbn [kv_impl ti_translate ti_find] in *.
    pose proof Hinv as (lo & hi & t & Hp & Hi & Hlo & Hb).
    destruct (kv_key_out s t k Hp) as (s1 & n1 & t1 & E1 & Hp1). rewrite E1 in E.
    apply pair_inj in E as [<- <-].
    destruct (tr_step_inv p grow grow_ok _ _ _ _ _ _ Hi Hlo (proj1 (budget_step _ _ Hb)) E1) as (lo' & L1 & L2 & I1 & A1 & A2 & O1).
    assert (Hinv1 : kv_inv b s1).
    { exists lo', (hi + bw), t1. split; [exact Hp1|split; [exact I1|split; [exact L2|]]]. apply (budget_step _ _ Hb). }
    destruct O1 as [_ O1].
    split; [exact Hinv1|]. split; [apply (kv_find_assoc _ _ _ _ Hinv1); exact O1|]. split.
    + intros k' Hk. apply (kv_find_ext _ _ _ _ _ Hinv Hinv1). intros m. split; [|apply A1].
      intros H. apply A2 in H as [H|(f & H)]; [exact H|]. congruence.
    + intros m F. apply (kv_find_assoc _ _ _ _ Hinv) in F. apply A1 in F. eapply assoc_fun; eauto.
  - intros b s k1 k2 n H F1 F2. apply (kv_find_assoc _ _ _ _ H) in F1, F2.
    destruct H as (lo & hi & t & Hp & [Hdb _] & Hlo & Hb). eapply assoc_inj; eauto.
  - intros b s k n H F. apply (kv_find_assoc _ _ _ _ H) in F. cbn [kv_impl ti_back].
    destruct H as (lo & hi & t & Hp & [Hdb Hi] & Hlo & Hb). rewrite Hp in *. destruct Hi as [(_ & _ & HI & _) _].
    unfold translate_id. rewrite HI. apply (assoc_back p _ lo) in F; auto. apply F.
  - intros b s Hinv. cbn [kv_impl ti_reopen ti_find]. pose proof Hinv as (lo & hi & t & Hp & Hi & Hlo & Hb).
    change (fst (tr_step cfg s TCrash)) with (TrState (ts_db s) None).
    assert (Hi0 : ts_inv p (TrState (ts_db s) None) lo hi).
    { destruct Hi as [H1 H2]. split; [exact H1|]. cbn. rewrite Hp in H2. eapply seq_closed_of_inv. apply H2. }
    destruct (tr_step cfg (TrState (ts_db s) None) (TOpen false)) as [s1 r] eqn:E1.
    destruct (tr_step_inv p grow grow_ok _ _ _ _ _ _ Hi0 Hlo (proj1 (budget_step _ _ Hb)) E1) as (lo' & L1 & L2 & I1 & A1 & A2 & O1).
    assert (Hp1 : exists t1, ts_proc s1 = Some t1).
    { revert E1. unfold tr_step. cbn [ts_proc ts_db]. unfold tr_new.
      destruct (sappend (c_grow cfg) (prefix_heap cfg) (prefix_slice cfg) "seq") as [h1 sk].
      unfold get_sequence, update_lease. cbv beta iota.
      destruct (sappend _ h1 _ "keys") as [h2 ks]. destruct (sappend _ h2 _ "ids") as [h3 is].
      intros H. apply pair_inj in H as [<- _]. cbn. eauto. }
    destruct Hp1 as [t1 Hp1]. cbn [fst ts_db] in *.
    assert (Hinv1 : kv_inv b s1).
    { exists lo', (hi + bw), t1. split; [exact Hp1|split; [exact I1|split; [exact L2|]]]. apply (budget_step _ _ Hb). }
    split; [exact Hinv1|]. intros k. apply (kv_find_ext _ _ _ _ _ Hinv Hinv1). intros m. split; [|apply A1].
    intros H. apply A2 in H as [H|(f & H)]; [exact H|discriminate].
  - intros b s k n H F. apply (kv_find_assoc _ _ _ _ H) in F. exact (proj1 F).
  - intros b s (lo & hi & t & Hp & Hi & Hlo & Hb). exists lo, hi, t. split; [exact Hp|split; [exact Hi|split; [exact Hlo|]]]. apply (budget_step _ _ Hb).
Qed.

(** A freshly opened store has room for any realistic number of operations. *)
Lemma kv_fresh d b : (forall x, kvget (append p x) d = None) -> N.of_nat b < 2 ^ 50 ->
  kv_inv b (fst (tr_step cfg (TrState d None) (TOpen false))).
Proof.
  intros Hd Hb.
  destruct (tr_step cfg (TrState d None) (TOpen false)) as [s1 r] eqn:E1.
  assert (Hi0 : ts_inv p (TrState d None) 0 0).
  { split.
    - split; [intros k v H|intros n k _ H]; cbn [ts_db] in H; rewrite append_assoc, Hd in H; discriminate.
    - cbn [ts_proc ts_db]. unfold seq_closed_inv, stored. rewrite Hd. lia. }
  destruct (tr_step_inv p grow grow_ok _ _ _ _ _ _ Hi0 (N.le_0_l _) ltac:(reflexivity) E1) as (lo' & L1 & L2 & I1 & A1 & A2 & O1).
  assert (Hp1 : exists t1, ts_proc s1 = Some t1).
  { revert E1. unfold tr_step. cbn [ts_proc ts_db]. unfold tr_new.
    destruct (sappend (c_grow cfg) (prefix_heap cfg) (prefix_slice cfg) "seq") as [h1 sk].
    unfold get_sequence, update_lease. cbv beta iota.
    destruct (sappend _ h1 _ "keys") as [h2 ks]. destruct (sappend _ h2 _ "ids") as [h3 is].
    intros H. apply pair_inj in H as [<- _]. cbn. eauto. }
  destruct Hp1 as [t1 Hp1]. cbn [fst]. exists lo', (0 + bw), t1. split; [exact Hp1|]. split; [exact I1|]. split; [exact L2|].
  unfold bw, two64. change (2 ^ 50) with 1125899906842624 in Hb. change (2 ^ 64) with 18446744073709551616.
  change (4 * 2 ^ 10) with 4096. lia.
Qed.
End KvInstance.
