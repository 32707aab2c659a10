(** Within its limits, the translator as the server wires it gives and finds the ids that a translator with separate
    key prefixes and no cache gives. *)
From Verif.Model Require Import Base KV Slice Sequence Translate ColumnCache Wiring Labels.
From Verif.Spec Require Import Translator.
From Verif.Proofs Require Import BaseFacts LabelsFacts SequenceFacts TranslateFacts ColumnCacheFacts TranslatorFacts.

Section Wiring.
Context (grow : nat -> nat) (hash : string -> N) (world : nat -> around).
Hypothesis grow_ok : forall n, (n <= grow n)%nat.
Notation cfg := (production_config grow).
Notation ecfg := (TrConfig grow "5" (String.length "5")).
Notation ideal := (kv_impl "5" grow).
Notation bw := translate_bandwidth.
Notation assoc := (assoc "5").
Notation PK k := (append "5idss" k).
Notation PI n := (append "5ids" (u64be n)).
Notation EK k := (append (append "5" "keys") k).

Definition prod_ok (t : translator) : Prop :=
  tr_wf t /\ keys_prefix t = "5idss" /\ ids_prefix t = "5ids" /\ seq_key t = "5ids".
Definition db_alike (ds dt : kv) : Prop :=
  (forall k, kvget (PK k) ds = kvget (EK k) dt) /\ (forall n, n < 2^56 -> kvget (PI n) ds = kvget (PI n) dt) /\
  kvget "5seq" ds = kvget "5seq" dt /\ kvget "5ids" ds = None.

(** [P]: the labels of this process; [b]: operations the ids leave room for. *)
Record good (P : string -> Prop) (t : tr_state) (ts : translator) (tt : translator) (lo hi : N) (cs : cache) : Prop := {
  g_inv : ts_inv "5" t lo hi;
  g_lo : lo <= two64;
  g_hi : hi < 2^56;
  g_pok : prod_ok ts;
  g_seq : t_seq ts = t_seq tt;
  g_hash : forall k k', P k -> P k' -> hash k = hash k' -> k = k';
  g_room : exists V, (forall k, P k -> (forall n, ~ assoc (ts_db t) k n) -> In k V) /\ N.of_nat (List.length V) <= q_leased (t_seq tt) - q_next (t_seq tt);
  g_cache : forall h n, In (h, n) cs -> exists k, P k /\ hash k = h /\ assoc (ts_db t) k n }.
Definition like (b : nat) (P : string -> Prop) (s : wired) (t : tr_state) : Prop :=
  exists ts tt lo hi, ts_proc (cs_tr (w_state s)) = Some ts /\ ts_proc t = Some tt /\ hi + bw * N.of_nat b < 2^56 /\
    good P t ts tt lo hi (cs_cache (w_state s)) /\ db_alike (ts_db (cs_tr (w_state s))) (ts_db t).

Lemma like_le b b' P s t : (b' <= b)%nat -> like b P s t -> like b' P s t.
Proof.
  intros H (ts & tt & lo & hi & A & B & C & D). exists ts, tt, lo, hi. split; [exact A|]. split; [exact B|]. split; [|exact D]. clear -C H. change bw with 4096 in *. lia.
Qed.
Lemma assoc_none d lo k : lo <= two64 -> db_inv "5" d lo -> (forall n, ~ assoc d k n) <-> kvget (EK k) d = None.
Proof.
  intros Hlo [A _]. split.
  - intros H. destruct (kvget (EK k) d) as [v|] eqn:E; [|reflexivity]. destruct (A _ _ E) as (n & -> & Hn & _). exfalso. apply (H n). split; [lia|exact E].
  - intros E n [_ H]. congruence.
Qed.

(* ------------------------------------------------------------------ looking up, evicting *)
Lemma look_good b P s t keys n : like b P (Wired s n) t -> like b P (Wired (w_look grow hash s keys) n) t.
Proof.
  revert s. induction keys as [|k keys IH]; intros s H; [exact H|]. unfold w_look. cbn [fold_left]. apply IH. clear IH.
  destruct H as (ts & tt & lo & hi & A & B & C & G & D). cbn [w_state] in *. unfold c_step. destruct s as [[d pr] c]. cbn [cs_tr ts_proc cs_cache ts_db] in *. subst pr.
  unfold tr_step. cbn [ts_proc ts_db c_grow production_config]. destruct (tr_find grow ts d k) as [ts' r] eqn:E. cbn [fst]. unfold cache_after. cbn [ts_proc].
  pose proof (g_pok _ _ _ _ _ _ _ G) as (W & K & Ik & Sk). apply tr_find_spec in E as (W' & K' & I' & S' & _ & _ & _ & Q & _); [|exact W].
  exists ts', tt, lo, hi. cbn [w_state cs_tr ts_proc cs_cache ts_db]. split; [reflexivity|]. split; [exact B|]. split; [exact C|]. split; [|exact D].
  destruct G. split; auto; [|congruence]. split; [exact W'|]. split; [congruence|split; congruence].
Qed.
Lemma evict_good b P s t keep n : like b P (Wired s n) t -> like b P (Wired (fst (c_step hash cfg s (CEvict keep))) n) t.
Proof.
  intros (ts & tt & lo & hi & A & B & C & G & D). exists ts, tt, lo, hi. cbn [c_step fst w_state cs_tr cs_cache] in *. split; [exact A|]. split; [exact B|]. split; [exact C|]. split; [|exact D].
  destruct G. split; auto. intros h m Hin. apply filter_In in Hin as [Hin _]. auto.
Qed.
Lemma calls_like b P s t n m : like b P (Wired s n) t -> like b P (Wired s m) t.
Proof. intros H. exact H. Qed.

(* ------------------------------------------------------------------ translating *)
Lemma remove_length (k : string) V : In k V -> (List.length (remove string_dec k V) < List.length V)%nat.
Proof. apply remove_length_lt. Qed.
Lemma lease_room n l : l < 2^56 -> n < l -> (n + 1) mod two64 = n + 1.
Proof. intros. apply N.mod_small. change two64 with (2^64). lia. Qed.
Lemma translate_like b (P : string -> Prop) s t k keep n : P k -> like (S b) P (Wired s n) t ->
  exists s' t' m, c_step hash cfg s (CTranslate k FNone keep) = (s', Some (OKey k m)) /\ tr_step ecfg t (TKey k FNone) = (t', OKey k m) /\
    like b P (Wired s' (S n)) t'.
Proof.
  intros Pk H. pose proof H as (ts & tt & lo & hi & A & B & C & G & D). cbn [w_state] in *. destruct s as [[ds pr] cs]. destruct t as [dt pt]. cbn [cs_tr ts_proc ts_db cs_cache] in *. subst pr pt.
  assert (C1 : hi + bw < two64 /\ hi + bw + bw * N.of_nat b < 2^56) by (clear -C; change bw with 4096 in *; change two64 with (2^64); lia). destruct C1 as [C1 C2].
  destruct (tr_step ecfg (TrState dt (Some tt)) (TKey k FNone)) as [t' r] eqn:Et.
  destruct (tr_step_inv "5" grow grow_ok _ _ _ _ _ _ (g_inv _ _ _ _ _ _ _ G) (g_lo _ _ _ _ _ _ _ G) C1 Et) as (lo' & L1 & L2 & I1 & A1 & A2 & O1). cbn [ts_db] in A1, A2.
  pose proof (g_inv _ _ _ _ _ _ _ G) as [Hdb Hpr]. cbn [ts_db ts_proc] in Hdb, Hpr. destruct Hpr as [(Wt & Kt & It & St) Sq].
  pose proof (g_pok _ _ _ _ _ _ _ G) as (Ws & Ks & Is & Ss). destruct D as (D1 & D2 & D3 & D4).
  assert (Known : forall v, kvget (EK k) dt = Some v -> exists m, m < lo /\ v = u64be m /\ be_val v = m /\ t' = TrState dt (Some tt) /\ r = OKey k m).
  { intros v E. destruct (proj1 Hdb _ _ E) as (m & -> & Hm & _). exists m. assert (Bv : be_val (u64be m) = m) by (apply be_val_u64be; pose proof (g_lo _ _ _ _ _ _ _ G); lia).
    split; [exact Hm|]. split; [reflexivity|]. split; [exact Bv|]. revert Et. unfold tr_step, translate_key. cbn [ts_proc ts_db]. rewrite Kt, E, Bv. intros X. apply pair_inj in X as [<- <-]. auto. }
  unfold c_step. cbn [cs_tr ts_proc]. destruct (aget N.eqb (hash k) (cs_cache (CState (TrState ds (Some ts)) cs))) as [v|] eqn:Eg; cbn [cs_cache] in Eg.
  - (* a cached column *)
    apply aget_in in Eg; [|apply N.eqb_spec]. destruct (g_cache _ _ _ _ _ _ _ G _ _ Eg) as (k' & Pk' & Hh & Ha). apply (g_hash _ _ _ _ _ _ _ G) in Hh; auto. subst k'.
    cbn [ts_db] in Ha. destruct (Known _ (proj2 Ha)) as (m & Hm & Em & Bm & -> & ->). assert (Ev : v = m) by (apply u64be_inj in Em; [congruence|apply Ha|pose proof (g_lo _ _ _ _ _ _ _ G); lia]). clear Em Bm. subst v.
    do 3 eexists. split; [reflexivity|]. split; [reflexivity|]. apply (like_le (S b)); [lia|]. exact H.
  - destruct (kvget (EK k) dt) as [v|] eqn:Ev.
    + (* known to the database *)
      destruct (Known v eq_refl) as (m & Hm & Em & Bm & -> & ->). unfold tr_step, translate_key. cbn [ts_proc ts_db]. rewrite Ks, D1, Ev, Bm. cbn [cache_after ts_proc].
      do 3 eexists. split; [reflexivity|]. split; [reflexivity|]. apply (like_le (S b)); [lia|]. exists ts, tt, lo, hi. cbn [w_state cs_tr ts_proc cs_cache ts_db].
      split; [reflexivity|]. split; [reflexivity|]. split; [exact C|]. split; [|exact (conj D1 (conj D2 (conj D3 D4)))]. destruct G. split; auto.
      intros h n0 Hin. unfold cache_after in Hin. cbn [ts_proc] in Hin. destruct keep; [|eauto]. apply in_aset_entries in Hin as [[-> ->]|Hin]; [|eauto].
      exists k. split; [exact Pk|]. split; [reflexivity|]. split; [lia|]. cbn [ts_db]. congruence.
    + (* new *)
      destruct (g_room _ _ _ _ _ _ _ G) as (V & HV & LV). cbn [ts_db] in HV.
      assert (Unk : forall m, ~ assoc dt k m) by (apply (assoc_none dt lo); auto; apply (g_lo _ _ _ _ _ _ _ G)).
      pose proof (HV k Pk Unk) as InV. pose proof (remove_length k V InV) as RL.
      destruct Sq as (Q1 & Q2 & Q3 & Q4 & Q5). set (q := t_seq tt) in *.
      assert (Lt : q_next q < q_leased q) by (clear -LV RL; lia).
      assert (Lm : q_leased q < 2^56) by (pose proof (g_hi _ _ _ _ _ _ _ G); clear -Q2 Q5 H0; lia).
      assert (SN : forall key d, seq_next false key bw d q = (d, Seq (q_next q + 1) (q_leased q), Some (q_next q))).
      { intros key d. unfold seq_next. destruct (N.leb_spec (q_leased q) (q_next q)) as [X|X]; [clear -X Lt; lia|]. rewrite (lease_room _ _ Lm Lt). reflexivity. }
      revert Et. unfold tr_step at 1. unfold translate_key at 1. cbn [ts_proc ts_db]. rewrite Kt, Ev. fold q. rewrite SN. intros X. apply pair_inj in X as [<- <-].
      unfold tr_step, translate_key. cbn [ts_proc ts_db]. rewrite Ks, D1, Ev, (g_seq _ _ _ _ _ _ _ G). fold q. rewrite SN. cbn [cache_after ts_proc].
      do 3 eexists. split; [reflexivity|]. split; [reflexivity|].
      eexists. eexists. exists lo', (hi + bw). cbn [w_state cs_tr ts_proc cs_cache ts_db]. split; [reflexivity|]. split; [reflexivity|]. split; [exact C2|].
      assert (New : assoc (ts_db (TrState (kvset (append (ids_prefix tt) (u64be (q_next q))) k (kvset (EK k) (u64be (q_next q)) dt)) (Some tt))) k (q_next q)).
      { destruct O1 as [_ O1]. exact O1. }
      cbn [ts_db] in *. assert (QN : q_next q < 2^56) by (clear -Lt Lm; lia). split.
      * split; auto.
        -- clear -C2. change bw with 4096 in *. lia.
        -- split; [exact Ws|]. split; [exact Ks|]. split; assumption.
        -- apply (g_hash _ _ _ _ _ _ _ G).
        -- exists (remove string_dec k V). split.
           ++ intros k' Pk' N'. apply in_in_remove; [intros ->; apply (N' (q_next q)), New|]. apply HV; [exact Pk'|]. intros m Hm. apply (N' m), A1, Hm.
           ++ cbn [t_seq q_next q_leased]. clear -LV RL Lt. lia.
        -- intros h n0 Hin. unfold cache_after in Hin. cbn [ts_proc] in Hin. destruct keep; [apply in_aset_entries in Hin as [[-> ->]|Hin]; [exists k; auto|]|];
             destruct (g_cache _ _ _ _ _ _ _ G _ _ Hin) as (k0 & X & Y & Z); exists k0; auto.
      * rewrite Is, It. split; [|split; [|split]].
        -- intros k'. rewrite (kvget_set_ne (PK k')) by (apply not_eq_sym, prod_KI_KK, QN). rewrite (kvget_set_ne (EK k')) by (intros X; discriminate X).
           rewrite !kvget_set, D1. destruct (String.eqb_spec (PK k') (PK k)) as [X|X], (String.eqb_spec (EK k') (EK k)) as [Y|Y]; auto.
           ++ apply append_inj_l in X. subst k'. congruence.
           ++ apply append_inj_l in Y. subst k'. congruence.
        -- intros m Hm. change (append (append "5" "ids") (u64be (q_next q))) with (PI (q_next q)). rewrite !kvget_set. rewrite D2 by exact Hm.
           destruct (String.eqb (PI m) (PI (q_next q))); [reflexivity|]. destruct (String.eqb_spec (PI m) (PK k)) as [X|_]; [exfalso; exact (prod_KI_KK _ _ Hm X)|].
           destruct (String.eqb_spec (PI m) (EK k)) as [X|_]; [discriminate X|reflexivity].
        -- rewrite !kvget_set_ne; [exact D3|discriminate..].
        -- rewrite (kvget_set_ne "5ids") by (apply not_eq_sym, prod_KI_seq). rewrite kvget_set_ne; [exact D4|discriminate].
Qed.

Theorem wired_step b (P : string -> Prop) s t k : P k -> like (S b) P s t ->
  exists s' t' m, ti_translate (wired_impl grow hash world) s k = (s', m) /\ ti_translate ideal t k = (t', m) /\ like b P s' t'.
Proof.
  intros Pk H. destruct s as [s n]. cbn [wired_impl kv_impl ti_translate]. unfold w_translate. cbn [w_calls w_state].
  set (a := world n). pose proof (evict_good _ _ _ _ (w_left a) _ (look_good _ _ _ _ (w_scans a) _ H)) as H2.
  destruct (translate_like _ _ _ _ _ (w_admit a) _ Pk H2) as (s' & t' & m & E1 & E2 & H3). rewrite E1, E2. eauto 10.
Qed.

Theorem wired_find b P s t k : like b P s t -> ti_find (wired_impl grow hash world) s k = ti_find ideal t k.
Proof.
  intros (ts & tt & lo & hi & A & B & C & G & D1 & _). cbn [wired_impl kv_impl ti_find]. unfold w_find, kv_find. rewrite A, B.
  destruct (tr_find grow ts _ k) as [x r] eqn:E. destruct (tr_find grow tt _ k) as [x' r'] eqn:E'.
  pose proof (g_pok _ _ _ _ _ _ _ G) as (Ws & Ks & _). pose proof (g_inv _ _ _ _ _ _ _ G) as [_ Hp]. rewrite B in Hp. destruct Hp as [(Wt & Kt & _) _].
  apply tr_find_spec in E; [|exact Ws]. apply tr_find_spec in E'; [|exact Wt]. destruct E as (_ & _ & _ & _ & _ & _ & _ & _ & ->). destruct E' as (_ & _ & _ & _ & _ & _ & _ & _ & ->).
  cbn [snd]. rewrite Ks, Kt, D1. reflexivity.
Qed.
Theorem wired_back b P s t k n : like b P s t -> ti_find ideal t k = Some n -> ti_back (wired_impl grow hash world) s n = ti_back ideal t n.
Proof.
  intros H F. pose proof H as (ts & tt & lo & hi & A & B & C & G & _ & D2 & _). cbn [wired_impl kv_impl ti_back ti_find] in *. unfold w_back. rewrite A, B. unfold translate_id.
  pose proof (g_pok _ _ _ _ _ _ _ G) as (Ws & Ks & Is & _). pose proof (g_inv _ _ _ _ _ _ _ G) as [Hdb Hp]. rewrite B in Hp. destruct Hp as [(Wt & Kt & It & _) Sq].
  rewrite Is, It. apply D2. clear D2.
  assert (KI : kv_inv "5" 0 t) by (exists lo, hi, tt; split; [exact B|]; split; [apply (g_inv _ _ _ _ _ _ _ G)|]; split; [apply (g_lo _ _ _ _ _ _ _ G)|]; pose proof (g_hi _ _ _ _ _ _ _ G); change bw with 4096; change two64 with (2^64); lia).
  apply (kv_find_assoc "5" grow 0) in F; [|exact KI]. destruct F as [Hn F]. destruct (proj1 Hdb _ _ F) as (m & E & Hm & _). pose proof (g_lo _ _ _ _ _ _ _ G) as L.
  apply u64be_inj in E; [|exact Hn|lia]. subst m. destruct Sq as (_ & Q2 & Q3 & Q4 & Q5). pose proof (g_hi _ _ _ _ _ _ _ G). lia.
Qed.

(* ------------------------------------------------------------------ starting *)
Lemma open_like (P : string -> Prop) ds dt lo hi b :
  ts_inv "5" (TrState dt None) lo hi -> lo <= two64 -> hi + bw * N.of_nat (S b) < 2^56 -> db_alike ds dt ->
  (forall k k', P k -> P k' -> hash k = hash k' -> k = k') ->
  (exists V, (forall k, P k -> (forall n, ~ assoc dt k n) -> In k V) /\ (List.length V <= 4096)%nat) -> forall n,
  like b P (Wired (fst (c_step hash cfg (CState (TrState ds None) []) (COther (TOpen false)))) n) (fst (tr_step ecfg (TrState dt None) (TOpen false))) /\
  (forall k m, assoc (ts_db (fst (tr_step ecfg (TrState dt None) (TOpen false)))) k m <-> assoc dt k m).
Proof.
  intros Hi Hlo Hb D Hh (V & HV & LV) n.
  assert (C1 : hi + bw < two64 /\ hi + bw < 2^56 /\ hi + bw + bw * N.of_nat b < 2^56) by (clear -Hb; change bw with 4096 in *; change two64 with (2^64); lia). destruct C1 as (C1 & C2 & C3).
  destruct (tr_step ecfg (TrState dt None) (TOpen false)) as [t1 r] eqn:Et.
  destruct (tr_step_inv "5" grow grow_ok _ _ _ _ _ _ Hi Hlo C1 Et) as (lo' & L1 & L2 & I1 & A1 & A2 & _). cbn [ts_db fst] in *.
  revert Et. unfold tr_step. cbn [ts_proc ts_db c_grow]. destruct (tr_new grow false (prefix_heap ecfg) (prefix_slice ecfg) dt) as [dt' [tt|]] eqn:En.
  2:{ intros X. exfalso. revert En. unfold tr_new. destruct (sappend _ _ _ "seq") as [h1 sk]. unfold get_sequence, update_lease. destruct (sappend _ h1 _ "keys") as [h2 ks]. destruct (sappend _ h2 _ "ids") as [h3 is]. discriminate. }
  intros X. apply pair_inj in X as [<- _]. apply tr_new_exact in En as (_ & _ & _ & _ & Gq); [|exact grow_ok]. cbn [ts_db] in *.
  split; [|intros k m; split; [intros Hm; apply A2 in Hm as [Hm|(f & Hm)]; [exact Hm|discriminate]|apply A1]].
  unfold c_step. cbn [cs_tr cs_cache]. unfold tr_step. cbn [ts_proc ts_db c_grow production_config].
  change (TrConfig grow "5" 8) with cfg. rewrite prod_new. destruct D as (D1 & D2 & D3 & D4).
  change (append "5" "seq") with "5seq" in Gq. unfold get_sequence, update_lease in *. rewrite D3. set (next := match kvget "5seq" dt with Some v => be_val v | None => 0 end) in *.
  apply pair_inj in Gq as [Gd Gq]. apply some_inj in Gq.
  assert (Ne : next <= hi) by (destruct Hi as [_ [_ X]]; exact X). assert (Md : (next + bw) mod two64 = next + bw) by (apply N.mod_small; clear -Ne C1; lia). rewrite Md in *.
  cbn [fst cache_after ts_proc]. exists (prod_tr (Seq next (next + bw))), tt, lo', (hi + bw). cbn [w_state cs_tr ts_proc cs_cache ts_db]. split; [reflexivity|]. split; [reflexivity|]. split; [exact C3|]. split.
  - split; auto.
    + split; [|repeat split]. unfold tr_wf, slice_ok, prod_tr; simpl. repeat split; auto; lia.
    + exists V. split; [intros k Pk N0; apply HV; [exact Pk|]; intros m Hm; apply (N0 m); cbn [ts_db]; apply A1, Hm|]. rewrite <- Gq. cbn [q_next q_leased]. clear -LV. change bw with 4096. lia.
    + intros h m [].
  - rewrite <- Gd. split; [|split; [|split]].
    + intros k. rewrite !kvget_set_ne; [apply D1|discriminate..].
    + intros m Hm. rewrite !kvget_set_ne; [apply D2, Hm|discriminate..].
    + rewrite !kvget_set_eq. reflexivity.
    + rewrite kvget_set_ne; [exact D4|discriminate].
Qed.

Theorem wired_reopen b (P P' : string -> Prop) s t : like (S b) P s t ->
  (forall k k', P' k -> P' k' -> hash k = hash k' -> k = k') ->
  (exists V, (forall k, P' k -> ti_find ideal t k = None -> In k V) /\ (List.length V <= 4096)%nat) ->
  like b P' (ti_reopen (wired_impl grow hash world) s) (ti_reopen ideal t).
Proof.
  intros H Hh (V & HV & LV). destruct s as [s n]. cbn [wired_impl kv_impl ti_reopen]. unfold w_reopen. cbn [w_calls w_state]. set (a := world n).
  apply (look_good _ _ _ _ (w_scans a)) in H. set (s1 := w_look grow hash s (w_scans a)) in *. destruct H as (ts & tt & lo & hi & A & B & C & G & D). cbn [w_state] in *.
  destruct s1 as [[ds pr] cs]. destruct t as [dt pt]. cbn [cs_tr ts_proc ts_db cs_cache] in *. subst pr pt. destruct G as [Gi Glo Ghi Gp Gs _ _ _].
  assert (Cl : fst (c_step hash cfg (if w_close a then fst (c_step hash cfg (CState (TrState ds (Some ts)) cs) (COther (TClose false))) else CState (TrState ds (Some ts)) cs) (COther TCrash)) = CState (TrState ds None) []).
  { destruct (w_close a); [|reflexivity]. cbn [c_step cs_tr tr_step ts_proc]. destruct Gp as (_ & _ & _ & ->). unfold seq_release. cbn [ts_db]. destruct D as (_ & _ & _ & ->). reflexivity. }
  rewrite Cl. change (fst (tr_step ecfg (TrState dt (Some tt)) TCrash)) with (TrState dt None).
  assert (Gi0 : ts_inv "5" (TrState dt None) lo hi).
  { destruct Gi as [H1 H2]. split; [exact H1|]. cbn [ts_proc ts_db] in *. eapply seq_closed_of_inv. apply H2. }
  apply (open_like P' ds dt lo hi b Gi0 Glo C D Hh). exists V. split; [|exact LV]. intros k Pk N0. apply HV; [exact Pk|].
  destruct (ti_find ideal (TrState dt (Some tt)) k) as [m|] eqn:F; [|reflexivity]. exfalso. apply (N0 m).
  assert (KI : kv_inv "5" 0 (TrState dt (Some tt))) by (exists lo, hi, tt; split; [reflexivity|]; split; [exact Gi|]; split; [exact Glo|]; clear -Ghi; change bw with 4096; change two64 with (2^64); lia).
  apply (kv_find_assoc "5" grow 0) in F; [exact F|exact KI].
Qed.

Theorem wired_starts (P : string -> Prop) d b : (forall x, kvget (append "5" x) d = None) -> N.of_nat b < 2^43 ->
  (forall k k', P k -> P k' -> hash k = hash k' -> k = k') ->
  (exists V, (forall k, P k -> In k V) /\ (List.length V <= 4096)%nat) ->
  like b P (wired_start grow hash d) (fst (tr_step ecfg (TrState d None) (TOpen false))).
Proof.
  intros Hd Hb Hh (V & HV & LV). apply (open_like P d d 0 0 b); auto.
  - split.
    + split; [intros k v H|intros n k _ H]; cbn [ts_db] in H; rewrite append_assoc, Hd in H; discriminate.
    + cbn [ts_proc ts_db]. unfold seq_closed_inv, stored. rewrite Hd. lia.
  - apply N.le_0_l.
  - change bw with 4096. rewrite Nat2N.inj_succ. change (2^43) with 8796093022208 in Hb. change (2^56) with 72057594037927936. lia.
  - assert (Q : forall y, kvget (append "5" y) d = None) by exact Hd. split; [|split; [|split]].
    + intros k. rewrite (Q (append "idss" k) : kvget (PK k) d = None). symmetry. rewrite append_assoc. apply Q.
    + reflexivity.
    + reflexivity.
    + apply (Q "ids").
  - exists V. split; [intros k Pk _; apply HV, Pk|exact LV].
Qed.
End Wiring.
