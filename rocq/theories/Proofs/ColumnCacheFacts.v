From Verif.Model Require Import Base KV Slice Sequence Translate ColumnCache.
From Verif.Proofs Require Import BaseFacts LabelsFacts SequenceFacts TranslateFacts.

Section Cache.
  Variable hash : string -> N.
  Variable p : string.
  Variable grow : nat -> nat.
  Hypothesis grow_ok : forall n, (n <= grow n)%nat.
  Variable used : string -> Prop.
  Hypothesis hash_inj : forall a b, used a -> used b -> hash a = hash b -> a = b.
  Notation cfg := (TrConfig grow p (String.length p)).
  Notation bw := translate_bandwidth.

  Definition cache_ok (d : kv) (c : cache) : Prop :=
    forall h n, In (h, n) c -> exists k, used k /\ hash k = h /\ assoc p d k n.

  Lemma in_aset_entries h n (c : cache) k v : In (h, n) (aset N.eqb k v c) -> (h = k /\ n = v) \/ In (h, n) c.
  Proof.
    induction c as [|[k0 v0] c IH]; simpl.
    - intros [[= <- <-]|[]]; auto.
    - destruct (N.eqb_spec k k0); simpl; intros [E|H]; auto; [injection E as <- <-; auto|].
      destruct (IH H); auto.
  Qed.

  Definition op_used (o : c_op) : Prop := match o with CTranslate k _ _ => used k | _ => True end.

  Lemma c_step_sim s o s' r lo hi :
    ts_inv p (cs_tr s) lo hi -> lo <= two64 -> hi + bw < two64 ->
    cache_ok (ts_db (cs_tr s)) (cs_cache s) -> op_used o ->
    c_step hash cfg s o = (s', r) ->
    exists lo' , lo' <= two64 /\ ts_inv p (cs_tr s') lo' (hi + bw) /\
      cache_ok (ts_db (cs_tr s')) (cs_cache s') /\
      tr_run cfg (cs_tr s) (uncached [o]) = (cs_tr s', match r with Some x => [x] | None => [] end).
  Proof.
    intros Hinv Hlo Hhi Hc Hu E.
    assert (Hmono : ts_inv p (cs_tr s) lo (hi + bw)).
    { destruct Hinv as [A B]; split; auto. destruct (ts_proc (cs_tr s)); [destruct B; split; auto|];
      eauto using seq_inv_mono, seq_closed_mono, N.le_add_r. }
    destruct o as [k f keep|keep|o]; cbn [c_step uncached tr_run] in *.
    - destruct (ts_proc (cs_tr s)) as [t|] eqn:Hp;
        [destruct (aget N.eqb (hash k) (cs_cache s)) as [v|] eqn:Hg|].
      + apply aget_in in Hg; [|apply N.eqb_spec].
        destruct (Hc _ _ Hg) as (k' & Hu' & Hh & Ha).
        apply hash_inj in Hh; auto; subst k'.
        pose proof (proj2 Hinv) as HP. rewrite Hp in HP. destruct HP as [(W & HK & HI & HS) _].
        assert (Et : tr_step cfg (cs_tr s) (TKey k f) =
                     match f with FLost => (TrState (ts_db (cs_tr s)) None, OErr)
                                | _ => (cs_tr s, OKey k v) end).
        { destruct (cs_tr s) as [d pr] eqn:Es. cbn [ts_proc ts_db] in *. subst pr.
          unfold tr_step, translate_key. cbn [ts_proc ts_db]. rewrite HK.
          destruct Ha as [Hv Ha]. rewrite Ha, be_val_u64be by auto. destruct f; reflexivity. }
        rewrite Et. destruct f; injection E as <- <-.
        1-3: exists lo; auto.
        exists lo. split; [auto|]. split; [|split; [|reflexivity]].
        * split; [apply Hinv|]. cbn [ts_proc ts_db cs_tr]. eapply seq_closed_of_inv.
          destruct Hmono as [_ Hm]. rewrite Hp in Hm. apply Hm.
        * intros h n [].
      + destruct (tr_step cfg (cs_tr s) (TKey k f)) as [s1 r1] eqn:Es. injection E as <- <-.
        destruct (tr_step_inv p grow grow_ok _ _ _ _ _ _ Hinv Hlo Hhi Es) as (lo' & L1 & L2 & I1 & M1 & B1 & O1).
        exists lo'. split; [auto|]. split; [auto|]. cbn [cs_tr cs_cache]. split; [|reflexivity].
        unfold cache_after. destruct (ts_proc s1); [|intros h n []].
        intros h n Hin.
        assert (Hold : In (h, n) (cs_cache s) -> exists k0, used k0 /\ hash k0 = h /\ assoc p (ts_db s1) k0 n).
        { intros Hx. destruct (Hc _ _ Hx) as (k0 & ? & ? & ?). exists k0; auto. }
        destruct r1; auto. destruct keep; auto.
        apply in_aset_entries in Hin as [[-> ->]|Hin]; auto.
        destruct O1 as [[f' Ef] O1]. injection Ef as -> _. exists k0; auto.
      + destruct (tr_step cfg (cs_tr s) (TKey k f)) as [s1 r1] eqn:Es. injection E as <- <-.
        destruct (tr_step_inv p grow grow_ok _ _ _ _ _ _ Hinv Hlo Hhi Es) as (lo' & L1 & L2 & I1 & M1 & B1 & O1).
        exists lo'. split; [auto|]. split; [auto|]. cbn [cs_tr cs_cache]. split; [|reflexivity].
        unfold cache_after. destruct (ts_proc s1); [|intros h n []].
        intros h n Hin.
        assert (Hold : In (h, n) (cs_cache s) -> exists k0, used k0 /\ hash k0 = h /\ assoc p (ts_db s1) k0 n).
        { intros Hx. destruct (Hc _ _ Hx) as (k0 & ? & ? & ?). exists k0; auto. }
        destruct r1; auto. destruct keep; auto.
        apply in_aset_entries in Hin as [[-> ->]|Hin]; auto.
        destruct O1 as [[f' Ef] O1]. injection Ef as -> _. exists k0; auto.
    - injection E as <- <-. exists lo. split; [auto|]. split; [auto|]. split; [|reflexivity].
      cbn [cs_tr cs_cache]. intros h n Hin. apply filter_In in Hin as [Hin _]. auto.
    - destruct (tr_step cfg (cs_tr s) o) as [s1 r1] eqn:Es. injection E as <- <-.
      destruct (tr_step_inv p grow grow_ok _ _ _ _ _ _ Hinv Hlo Hhi Es) as (lo' & L1 & L2 & I1 & M1 & B1 & O1).
      exists lo'. split; [auto|]. split; [auto|]. cbn [cs_tr cs_cache]. split; [|reflexivity].
      unfold cache_after. destruct (ts_proc s1); [|intros h n []].
      intros h n Hin. destruct (Hc _ _ Hin) as (k0 & ? & ? & ?). exists k0; auto.
  Qed.

  Lemma uncached_cons o ops : uncached (o :: ops) = uncached [o] ++ uncached ops.
  Proof. destruct o; reflexivity. Qed.

  Lemma c_run_sim ops : forall s lo hi,
    ts_inv p (cs_tr s) lo hi -> lo <= two64 -> hi + N.of_nat (List.length ops) * bw < two64 ->
    cache_ok (ts_db (cs_tr s)) (cs_cache s) -> Forall op_used ops ->
    tr_run cfg (cs_tr s) (uncached ops) = (cs_tr (fst (c_run hash cfg s ops)), snd (c_run hash cfg s ops)).
  Proof.
    induction ops as [|o ops IH]; intros s lo hi Hinv Hlo Hb Hc Hu.
    - reflexivity.
    - rewrite uncached_cons, tr_run_app. cbn [c_run].
      cbn [List.length] in Hb. rewrite Nat2N.inj_succ, N.mul_succ_l in Hb. inversion Hu; subst.
      destruct (c_step hash cfg s o) as [s1 r] eqn:E1.
      destruct (c_step_sim _ _ _ _ _ _ Hinv Hlo ltac:(lia) Hc H1 E1) as (lo' & L & I & C & ->).
      rewrite (IH s1 lo' (hi + bw) I L ltac:(lia) C H2).
      destruct (c_run hash cfg s1 ops) as [s2 l]. cbn [fst snd]. destruct r; reflexivity.
  Qed.

  Lemma cache_transparent d ops :
    fresh_db p d -> N.of_nat (List.length ops) < 2 ^ 52 -> Forall op_used ops ->
    snd (c_run hash cfg (CState (TrState d None) []) ops) =
    snd (tr_run cfg (TrState d None) (uncached ops)).
  Proof.
    intros Hd Hl Hu.
    change (TrState d None) with (cs_tr (CState (TrState d None) [])) at 2.
    rewrite (c_run_sim ops (CState (TrState d None) []) 0 0); auto.
    - apply fresh_inv; auto.
    - unfold two64; lia.
    - change two64 with (2 ^ 52 * bw). rewrite N.add_0_l.
      apply N.mul_lt_mono_pos_r; [reflexivity|exact Hl].
    - intros h n [].
  Qed.
End Cache.

(* ------------------------------------------------------------------ pigeonhole *)
Fixpoint upto (n : nat) : list N := match n with O => [] | S n' => N.of_nat n' :: upto n' end.
Lemma in_upto n x : In x (upto n) <-> x < N.of_nat n.
Proof.
  induction n as [|n IH].
  - simpl. lia.
  - rewrite Nat2N.inj_succ. cbn [upto In]. rewrite IH. lia.
Qed.
Lemma nodup_upto n : NoDup (upto n).
Proof. induction n; cbn [upto]; constructor; auto. rewrite in_upto. lia. Qed.
Lemma length_upto n : List.length (upto n) = n.
Proof. induction n; simpl; auto. Qed.

Lemma nodup_map_inj {A B} (f : A -> B) l : (forall a b, In a l -> In b l -> f a = f b -> a = b) -> NoDup l -> NoDup (map f l).
Proof.
  intros Hf Hn. induction Hn as [|x l Hx Hn IH]; simpl; constructor.
  - rewrite in_map_iff. intros (y & E & Hy). apply Hf in E; simpl; auto. subst; auto.
  - apply IH. intros; apply Hf; simpl; auto.
Qed.

Lemma collision_dec (h : string -> N) l :
  NoDup l -> NoDup (map h l) \/ exists a b, In a l /\ In b l /\ a <> b /\ h a = h b.
Proof.
  induction 1 as [|x l Hx Hn IH]; simpl; [left; constructor|].
  destruct IH as [IH|(a & b & Ha & Hb & Hab & E)]; [|right; exists a, b; auto].
  destruct (in_dec N.eq_dec (h x) (map h l)) as [Hi|Hi].
  - right. apply in_map_iff in Hi as (y & E & Hy). exists x, y. repeat split; auto. intros ->; auto.
  - left. constructor; auto.
Qed.

Lemma hash_collision (h : string -> N) (m : N) : (forall k, h k < m) -> exists a b, a <> b /\ h a = h b.
Proof.
  intros Hm. set (n := S (N.to_nat m)).
  assert (Hn : NoDup (map show_N (upto n))).
  { apply nodup_map_inj; [|apply nodup_upto]. intros; apply show_N_inj; auto. }
  destruct (collision_dec h _ Hn) as [H|(a & b & _ & _ & Hab & E)]; [|eauto].
  exfalso. assert (L : (List.length (map h (map show_N (upto n))) <= List.length (upto (N.to_nat m)))%nat).
  { apply NoDup_incl_length; auto. intros x Hx. apply in_map_iff in Hx as (k & <- & _).
    apply in_upto. rewrite N2Nat.id. apply Hm. }
  rewrite !map_length, !length_upto in L. unfold n in L. lia.
Qed.

Lemma cache_collision (hash : string -> N) p grow :
  (forall n, n <= grow n)%nat -> (forall k, hash k < two64) ->
  exists k1 k2, k1 <> k2 /\
    snd (c_run hash (TrConfig grow p (String.length p)) (CState (TrState [] None) [])
           [COther (TOpen false); CTranslate k1 FNone true; CTranslate k2 FNone true])
    = [ONone; OKey k1 0; OKey k2 0].
Proof.
  intros Hg Hh. destruct (hash_collision hash two64 Hh) as (k1 & k2 & Hne & E).
  exists k1, k2. split; auto. cbn [c_run c_step].
  unfold tr_step at 1. cbn [ts_proc ts_db cs_tr c_grow].
  destruct (tr_new grow false (prefix_heap (TrConfig grow p (String.length p)))
     (prefix_slice (TrConfig grow p (String.length p))) []) as [d ot] eqn:G.
  assert (Hot : exists t, ot = Some t).
  { revert G. unfold tr_new. destruct (sappend _ _ _ "seq") as [h1 sk]. unfold get_sequence, update_lease.
    destruct (sappend _ h1 _ "keys") as [h2 ks]. destruct (sappend _ h2 _ "ids") as [h3 is].
    intros H. apply pair_inj in H as [_ <-]. eauto. }
  destruct Hot as [t ->]. apply tr_new_exact in G; auto. destruct G as (W & HK & HI & HS & GQ).
  cbn [cs_tr cs_cache cache_after ts_proc aget].
  unfold tr_step, translate_key. cbn [ts_proc ts_db]. rewrite HK, HI, HS.
  revert GQ. unfold get_sequence, update_lease. cbn [kvget aget].
  set (lease := (0 + translate_bandwidth) mod two64). assert (Hlease : lease = 4096) by reflexivity.
  clearbody lease. intros GQ. apply pair_inj in GQ as [<- Hq]. apply some_inj in Hq.
  assert (Hnone : kvget (append (append p "keys") k1) (kvset (append p "seq") (u64be lease) []) = None).
  { rewrite kvget_set_ne; [reflexivity|]. apply KK_KS. }
  rewrite Hnone. unfold seq_next. rewrite <- Hq, Hlease. cbn [q_next q_leased N.leb N.compare].
  cbn [cs_tr cs_cache ts_proc aget aset]. unfold cache_after. cbn [ts_proc].
  rewrite E. cbn [aget aset]. rewrite N.eqb_refl. reflexivity.
Qed.
