(** The translator as the server wires it, with any number of labels: a label keeps the column it was given, whatever
    other labels come and however often the server restarts (two labels may get the same column, see C09); and the cache
    makes no difference as long as the hashes of the labels of a process differ. *)
From Verif.Model Require Import Base KV Slice Sequence Translate ColumnCache Wiring Labels.
From Verif.Spec Require Import Translator.
From Verif.Proofs Require Import BaseFacts LabelsFacts SequenceFacts TranslateFacts ColumnCacheFacts WiringFacts.

Section Many.
Context (grow : nat -> nat) (hash : string -> N).
Notation cfg := (production_config grow).
Notation bw := translate_bandwidth.
Notation PK k := (append "5idss" k).
Notation PI n := (append "5ids" (u64be n)).

Definition counter (key : string) (d : kv) : N := match kvget key d with None => 0 | Some v => be_val v end.
(** Columns are 8 bytes of small numbers, and so are the counters. *)
Record tidy (d : kv) (hi : N) : Prop := {
  td_vals : forall k v, kvget (PK k) d = Some v -> exists n, v = u64be n /\ n < 2^56;
  td_seq : counter "5seq" d <= hi;
  td_ids : counter "5ids" d <= hi }.
Record sound (b : nat) (t : translator) (d : kv) : Prop := {
  sd_ok : prod_ok t;
  sd_hi : exists hi, hi + bw * N.of_nat b < 2^56 /\ q_next (t_seq t) <= hi /\ q_leased (t_seq t) <= hi /\ tidy d hi }.

Lemma be_small n : n < 2^56 -> be_val (u64be n) = n.
Proof. intros H. apply be_val_u64be. change two64 with (2^64). lia. Qed.
Lemma sound_le b b' t d : (b' <= b)%nat -> sound b t d -> sound b' t d.
Proof. intros H [A (hi & B & C)]. split; [exact A|]. exists hi. split; [|exact C]. clear -B H. change bw with 4096 in *. lia. Qed.
Lemma tidy_le d hi hi' : hi <= hi' -> tidy d hi -> tidy d hi'.
Proof. intros H [A B C]. split; [exact A|lia|lia]. Qed.
Lemma ids_not_keys k : "5ids" <> PK k. Proof. discriminate. Qed.
Lemma seq_not_keys k : "5seq" <> PK k. Proof. discriminate. Qed.

(** Storing a column for a label that has none, under a small id. *)
Lemma tidy_store d hi k n : n < 2^56 -> tidy d hi -> tidy (kvset (PI n) k (kvset (PK k) (u64be n) d)) hi /\
  kvget (PK k) (kvset (PI n) k (kvset (PK k) (u64be n) d)) = Some (u64be n) /\
  (forall k', k' <> k -> kvget (PK k') (kvset (PI n) k (kvset (PK k) (u64be n) d)) = kvget (PK k') d).
Proof.
  intros Hn [A B C]. assert (Same : kvget (PK k) (kvset (PI n) k (kvset (PK k) (u64be n) d)) = Some (u64be n)).
  { rewrite kvget_set_ne by (apply not_eq_sym, prod_KI_KK, Hn). apply kvget_set_eq. }
  assert (Other : forall k', k' <> k -> kvget (PK k') (kvset (PI n) k (kvset (PK k) (u64be n) d)) = kvget (PK k') d).
  { intros k' Hk. rewrite kvget_set_ne by (apply not_eq_sym, prod_KI_KK, Hn). apply kvget_set_ne. intros E. apply append_inj_l in E. congruence. }
  split; [|auto]. split.
  - intros k' v E. destruct (string_dec k' k) as [->|Hk]; [rewrite Same in E; apply some_inj in E; eauto|]. rewrite (Other k' Hk) in E. eauto.
  - unfold counter. rewrite !kvget_set_ne; [exact B|discriminate|discriminate].
  - unfold counter. rewrite (kvget_set_ne "5ids") by (apply not_eq_sym, prod_KI_seq). rewrite kvget_set_ne; [exact C|discriminate].
Qed.
Lemma tidy_counter key d hi hi' m : key = "5seq" \/ key = "5ids" -> m <= hi' -> hi <= hi' -> m < 2^56 -> tidy d hi -> tidy (kvset key (u64be m) d) hi' /\
  (forall k, kvget (PK k) (kvset key (u64be m) d) = kvget (PK k) d).
Proof.
  intros K Hm Hh Hs [A B C]. assert (Other : forall k, kvget (PK k) (kvset key (u64be m) d) = kvget (PK k) d) by (intros k; apply kvget_set_ne; destruct K as [-> | ->]; discriminate).
  split; [|exact Other]. split.
  - intros k v. rewrite Other. apply A.
  - unfold counter in *. rewrite kvget_set. destruct (String.eqb "5seq" key); [rewrite (be_small _ Hs); exact Hm|lia].
  - unfold counter in *. rewrite kvget_set. destruct (String.eqb "5ids" key); [rewrite (be_small _ Hs); exact Hm|lia].
Qed.

(** One call of the translator. *)
Lemma key_sound b t d k : sound (S b) t d -> exists d' t' n,
  tr_step cfg (TrState d (Some t)) (TKey k FNone) = (TrState d' (Some t'), OKey k n) /\ sound b t' d' /\
  kvget (PK k) d' = Some (u64be n) /\ n < 2^56 /\ (forall k', k' <> k -> kvget (PK k') d' = kvget (PK k') d) /\
  (forall v, kvget (PK k) d = Some v -> v = u64be n /\ d' = d /\ t' = t) /\
  (forall u, prod_ok u -> t_seq u = t_seq t -> exists u', tr_step cfg (TrState d (Some u)) (TKey k FNone) = (TrState d' (Some u'), OKey k n) /\ prod_ok u' /\ t_seq u' = t_seq t').
Proof.
  intros S0. pose proof S0 as [(W & K & Ik & Sk) (hi & Hb & Q1 & Q2 & T)].
  destruct (kvget (PK k) d) as [v|] eqn:E.
  - destruct (td_vals _ _ T _ _ E) as (n & -> & Hn). exists d, t, n. unfold tr_step, translate_key. cbn [ts_proc ts_db]. rewrite K, E, (be_small n Hn).
    split; [reflexivity|]. split; [eapply sound_le; [|exact S0]; lia|]. split; [first [exact E|reflexivity]|]. split; [exact Hn|]. split; [reflexivity|]. split; [intros v X; apply some_inj in X; auto|].
    intros u (Wu & Ku & Iu & Su) Eq. exists u. rewrite Ku, E, (be_small n Hn). split; [reflexivity|]. split; [exact (conj Wu (conj Ku (conj Iu Su)))|exact Eq].
  - assert (SN : exists d1 q n, (forall key, key = "5ids" -> seq_next false key bw d (t_seq t) = (d1, q, Some n)) /\ n < 2^56 /\ (forall k', kvget (PK k') d1 = kvget (PK k') d) /\
        tidy d1 (hi + bw) /\ q_next q <= hi + bw /\ q_leased q <= hi + bw).
    { assert (B : hi + bw < 2^56) by (clear -Hb; change bw with 4096 in *; lia). unfold seq_next. destruct (N.leb_spec (q_leased (t_seq t)) (q_next (t_seq t))) as [X|X].
      - set (c := counter "5ids" d). pose proof (td_ids _ _ T) as Hc. fold c in Hc.
        assert (M : (c + bw) mod two64 = c + bw) by (apply N.mod_small; clear -B Hc; change bw with 4096 in *; change two64 with (2^64); lia).
        assert (M1 : (c + 1) mod two64 = c + 1) by (apply N.mod_small; clear -B Hc; change bw with 4096 in *; change two64 with (2^64); lia).
        destruct (tidy_counter "5ids" d hi (hi + bw) (c + bw) (or_intror eq_refl)) as [T1 O1]; [clear -Hc; lia|clear; lia|clear -B Hc; lia|exact T|].
        exists (kvset "5ids" (u64be (c + bw)) d), (Seq (c + 1) (c + bw)), c. split.
        + intros key ->. unfold update_lease. fold (counter "5ids" d). fold c. rewrite M. cbn [q_next q_leased]. rewrite M1. reflexivity.
        + split; [clear -B Hc; change bw with 4096 in *; lia|]. split; [exact O1|]. split; [exact T1|]. cbn [q_next q_leased]. clear -Hc. change bw with 4096. lia.
      - assert (M1 : (q_next (t_seq t) + 1) mod two64 = q_next (t_seq t) + 1) by (apply N.mod_small; clear -B Q2 X; change bw with 4096 in *; change two64 with (2^64); lia).
        exists d, (Seq (q_next (t_seq t) + 1) (q_leased (t_seq t))), (q_next (t_seq t)). split; [intros key _; rewrite M1; reflexivity|].
        split; [clear -B Q2 X; lia|]. split; [reflexivity|]. split; [apply (tidy_le _ hi); [lia|exact T]|]. cbn [q_next q_leased]. clear -X Q2. lia. }
    destruct SN as (d1 & q & n & SN & Hn & O1 & T1 & N1 & N2). destruct (tidy_store d1 (hi + bw) k n Hn T1) as (T2 & Same & Other).
    exists (kvset (PI n) k (kvset (PK k) (u64be n) d1)), (Tr (t_heap t) (t_keys t) (t_ids t) (t_seqkey t) q), n.
    assert (Run : forall u, prod_ok u -> t_seq u = t_seq t -> tr_step cfg (TrState d (Some u)) (TKey k FNone) = (TrState (kvset (PI n) k (kvset (PK k) (u64be n) d1)) (Some (Tr (t_heap u) (t_keys u) (t_ids u) (t_seqkey u) q)), OKey k n)).
    { intros u (Wu & Ku & Iu & Su) Eq. unfold tr_step, translate_key. cbn [ts_proc ts_db]. rewrite Ku, E, Su, Eq, (SN _ eq_refl), Iu. reflexivity. }
    split; [apply Run; [exact (conj W (conj K (conj Ik Sk)))|reflexivity]|]. split; [|split; [exact Same|split; [exact Hn|split; [|split; [discriminate|]]]]].
    + split; [exact (conj W (conj K (conj Ik Sk)))|]. exists (hi + bw). cbn [t_seq]. split; [clear -Hb; change bw with 4096 in *; lia|]. auto.
    + intros k' Hk. rewrite (Other k' Hk). apply O1.
    + intros u Pu Eq. eexists. split; [apply Run; assumption|]. split; [exact Pu|reflexivity].
Qed.

(** The end of a process and the start of the next one. *)
Definition db_closed (close : bool) (t : translator) (d : kv) : kv := if close then fst (fst (seq_release false (seq_key t) d (t_seq t))) else d.
Lemma closed_tidy close b t d : sound (S b) t d -> exists hi, hi + bw * N.of_nat (S b) < 2^56 /\ tidy (db_closed close t d) hi /\ (forall k, kvget (PK k) (db_closed close t d) = kvget (PK k) d).
Proof.
  intros [(W & K & Ik & Sk) (hi & Hb & Q1 & Q2 & T)]. exists hi. split; [exact Hb|]. unfold db_closed. destruct close; [|split; [exact T|reflexivity]]. rewrite Sk. unfold seq_release.
  destruct (kvget "5ids" d) as [v|] eqn:E; [|split; [exact T|reflexivity]]. cbn [fst]. destruct (be_val v =? q_leased (t_seq t)); [|split; [exact T|reflexivity]].
  apply (tidy_counter "5ids" d hi hi); auto; [lia|]. clear -Hb Q1. change bw with 4096 in *. lia.
Qed.
Lemma open_sound b d hi : hi + bw * N.of_nat (S b) < 2^56 -> tidy d hi -> exists d' t, tr_step cfg (TrState d None) (TOpen false) = (TrState d' (Some t), ONone) /\ sound b t d' /\
  (forall k, kvget (PK k) d' = kvget (PK k) d).
Proof.
  intros Hb T. unfold tr_step. cbn [ts_proc ts_db c_grow production_config]. change (TrConfig grow "5" 8) with cfg. rewrite prod_new. unfold get_sequence, update_lease.
  set (c := match kvget "5seq" d with Some v => be_val v | None => 0 end). pose proof (td_seq _ _ T) as Hc. unfold counter in Hc. fold c in Hc.
  assert (B : hi + bw < 2^56) by (clear -Hb; change bw with 4096 in *; lia).
  assert (M : (c + bw) mod two64 = c + bw) by (apply N.mod_small; clear -B Hc; change bw with 4096 in *; change two64 with (2^64); lia). rewrite M.
  destruct (tidy_counter "5seq" d hi (hi + bw) (c + bw) (or_introl eq_refl)) as [T1 O1]; [clear -Hc; lia|clear; lia|clear -B Hc; lia|exact T|].
  do 2 eexists. split; [reflexivity|]. split; [|exact O1]. split.
  - split; [|repeat split]. unfold tr_wf, slice_ok, prod_tr; simpl. repeat split; auto; lia.
  - exists (hi + bw). cbn [prod_tr t_seq q_next q_leased]. split; [clear -Hb; change bw with 4096 in *; lia|]. split; [clear -Hc; lia|]. split; [clear -Hc; lia|exact T1].
Qed.

(* ------------------------------------------------------------------ without the cache *)
(** The same server, its cache admitting nothing, without scans. *)
Definition no_cache (world : nat -> around) (n : nat) : around := Around [] (fun _ => false) false (w_close (world n)).
Definition bare (b : nat) (s : wired) : Prop := exists t d, w_state s = CState (TrState d (Some t)) [] /\ sound b t d.
Context (world : nat -> around).
Notation I := (wired_impl grow hash world).
Notation J := (wired_impl grow hash (no_cache world)).

Lemma bare_find b s k : bare b s -> exists d, ts_db (cs_tr (w_state s)) = d /\ ti_find J s k = option_map be_val (kvget (PK k) d).
Proof.
  intros (t & d & E & [(W & K & _) _]). exists d. cbn [wired_impl ti_find]. unfold w_find. rewrite E. cbn [cs_tr ts_proc ts_db]. split; [reflexivity|].
  destruct (tr_find grow t d k) as [t' r] eqn:F. apply tr_find_spec in F as (_ & _ & _ & _ & _ & _ & _ & _ & ->); [|exact W]. rewrite K. cbn [snd]. destruct (kvget _ d); reflexivity.
Qed.
Lemma bare_translate b s k : bare (S b) s -> exists d d' t' n, w_state s = CState (TrState d (ts_proc (cs_tr (w_state s)))) [] /\
  ti_translate J s k = (Wired (CState (TrState d' (Some t')) []) (S (w_calls s)), n) /\ sound b t' d' /\
  kvget (PK k) d' = Some (u64be n) /\ n < 2^56 /\ (forall k', k' <> k -> kvget (PK k') d' = kvget (PK k') d) /\ (forall v, kvget (PK k) d = Some v -> v = u64be n).
Proof.
  intros (t & d & E & S0). destruct (key_sound b t d k S0) as (d' & t' & n & Et & S1 & A & B & C & D & _). exists d, d', t', n.
  rewrite E. split; [reflexivity|]. split; [|split; [exact S1|split; [exact A|split; [exact B|split; [exact C|intros v Hv; apply (D v Hv)]]]]].
  cbn [wired_impl ti_translate]. unfold w_translate, no_cache. cbn [w_scans w_left w_admit]. rewrite E. cbn [w_look fold_left c_step fst cs_tr cs_cache filter]. unfold c_step. cbn [cs_tr ts_proc cs_cache aget].
  rewrite Et. cbn [cache_after ts_proc]. reflexivity.
Qed.
Lemma bare_reopen b s : bare (S b) s -> bare b (ti_reopen J s) /\ (forall k, ti_find J (ti_reopen J s) k = ti_find J s k).
Proof.
  intros H. pose proof H as (t & d & E & S0). destruct (closed_tidy (w_close (world (w_calls s))) b t d S0) as (hi & Hb & T & O1).
  destruct (open_sound b _ hi Hb T) as (d' & t' & Eo & S1 & O2).
  assert (R : ti_reopen J s = Wired (CState (TrState d' (Some t')) []) (S (w_calls s))).
  { cbn [wired_impl ti_reopen]. unfold w_reopen, no_cache. cbn [w_scans w_close]. rewrite E. cbn [w_look fold_left].
    assert (Cl : fst (c_step hash cfg (if w_close (world (w_calls s)) then fst (c_step hash cfg (CState (TrState d (Some t)) []) (COther (TClose false))) else CState (TrState d (Some t)) []) (COther TCrash))
      = CState (TrState (db_closed (w_close (world (w_calls s))) t d) None) []).
    { unfold db_closed. destruct (w_close (world (w_calls s))); [|reflexivity]. cbn [c_step cs_tr tr_step ts_proc ts_db]. destruct (seq_release false (seq_key t) d (t_seq t)) as [[d2 q] r]. reflexivity. }
    rewrite Cl. cbn [c_step cs_tr]. rewrite Eo. reflexivity. }
  assert (Bn : bare b (ti_reopen J s)) by (rewrite R; exists t', d'; split; [reflexivity|exact S1]). split; [exact Bn|].
  intros k. destruct (bare_find _ _ k Bn) as (d1 & E1 & ->). destruct (bare_find _ _ k H) as (d2 & E2 & ->). rewrite R in E1. cbn [w_state cs_tr ts_db] in E1. rewrite E in E2. cbn [cs_tr ts_db] in E2. subst d1 d2. rewrite O2, O1. reflexivity.
Qed.

Theorem many_labels_stable : tr_stable J bare.
Proof.
  split.
  - intros b s k s' n H E. destruct (bare_translate b s k H) as (d & d' & t' & n' & Es & Et & S1 & A & B & C & D). rewrite E in Et. apply pair_inj in Et as [-> ->].
    assert (Bn : bare b (Wired (CState (TrState d' (Some t')) []) (S (w_calls s)))) by (exists t', d'; split; [reflexivity|exact S1]).
    assert (F' : forall k', ti_find J (Wired (CState (TrState d' (Some t')) []) (S (w_calls s))) k' = option_map be_val (kvget (PK k') d')) by (intros k'; destruct (bare_find _ _ k' Bn) as (x & <- & ->); reflexivity).
    assert (F : forall k', ti_find J s k' = option_map be_val (kvget (PK k') d)) by (intros k'; destruct (bare_find _ _ k' H) as (x & <- & ->); rewrite Es; reflexivity).
    split; [exact Bn|]. split; [rewrite F', A; cbn [option_map]; rewrite (be_small _ B); reflexivity|]. split; [intros k' Hk; rewrite F', F, (C k' Hk); reflexivity|].
    intros m. rewrite F. destruct (kvget (PK k) d) as [v|] eqn:Ev; [|discriminate]. cbn [option_map]. intros X. apply some_inj in X. rewrite (D v eq_refl), (be_small _ B) in X. congruence.
  - exact bare_reopen.
  - intros b s k n H. destruct (bare_find _ _ k H) as (d & Ed & ->). destruct H as (t & d' & E & [_ (hi & _ & _ & _ & T)]). rewrite E in Ed. cbn [cs_tr ts_db] in Ed. subst d'.
    destruct (kvget (PK k) d) as [v|] eqn:Ev; [|discriminate]. destruct (td_vals _ _ T _ _ Ev) as (m & -> & Hm). cbn [option_map]. rewrite (be_small _ Hm). intros X. apply some_inj in X. subst n. change two64 with (2^64). clear -Hm. lia.
  - intros b s (t & d & E & S0). exists t, d. split; [exact E|]. eapply sound_le; [|exact S0]. lia.
Qed.

(* ------------------------------------------------------------------ with the cache *)
Definition differ (P : string -> Prop) : Prop := forall k k', P k -> P k' -> hash k = hash k' -> k = k'.
Definition follows (b : nat) (P : string -> Prop) (s t : wired) : Prop :=
  exists ts tt d, ts_proc (cs_tr (w_state s)) = Some ts /\ ts_db (cs_tr (w_state s)) = d /\ w_state t = CState (TrState d (Some tt)) [] /\ w_calls s = w_calls t /\
    prod_ok ts /\ t_seq ts = t_seq tt /\ sound b tt d /\ differ P /\
    (forall h n, In (h, n) (cs_cache (w_state s)) -> exists k, P k /\ hash k = h /\ kvget (PK k) d = Some (u64be n) /\ n < 2^56).

Lemma follows_le b b' P s t : (b' <= b)%nat -> follows b P s t -> follows b' P s t.
Proof. intros H (ts & tt & d & A & B & C & D & E & F & G & X). exists ts, tt, d. repeat (split; [assumption|]). split; [eapply sound_le; eauto|exact X]. Qed.
Lemma follows_bare b P s t : follows b P s t -> bare b t.
Proof. intros (ts & tt & d & A & B & C & D & E & F & G & X). exists tt, d. auto. Qed.
Lemma look_follows b P s n t keys : follows b P (Wired s n) t -> follows b P (Wired (w_look grow hash s keys) n) t.
Proof.
  revert s. induction keys as [|k keys IH]; intros s H; [exact H|]. unfold w_look. cbn [fold_left]. apply IH. clear IH.
  destruct H as (ts & tt & d & A & B & C & D & E & F & G & X & Y). cbn [w_state] in *. unfold c_step. destruct s as [[d0 pr] c]. cbn [cs_tr ts_proc cs_cache ts_db] in *. subst pr d0.
  unfold tr_step. cbn [ts_proc ts_db c_grow production_config]. destruct (tr_find grow ts d k) as [ts' r] eqn:Ef. cbn [fst]. unfold cache_after. cbn [ts_proc].
  destruct E as (W & K & Ik & Sk). apply tr_find_spec in Ef as (W' & K' & I' & S' & _ & _ & _ & Q & _); [|exact W].
  exists ts', tt, d. cbn [w_state cs_tr ts_proc cs_cache ts_db]. split; [reflexivity|]. split; [reflexivity|]. split; [exact C|]. split; [exact D|]. split; [split; [exact W'|split; [congruence|split; congruence]]|]. split; [congruence|]. auto.
Qed.
Lemma evict_follows b P s n t keep : follows b P (Wired s n) t -> follows b P (Wired (fst (c_step hash cfg s (CEvict keep))) n) t.
Proof.
  intros (ts & tt & d & A & B & C & D & E & F & G & X & Y). exists ts, tt, d. cbn [c_step fst w_state cs_tr cs_cache] in *. repeat (split; [assumption|]). intros h m Hin. apply filter_In in Hin as [Hin _]. auto.
Qed.
Lemma follows_step b (P : string -> Prop) s t k : P k -> follows (S b) P s t ->
  exists s' t' m, ti_translate I s k = (s', m) /\ ti_translate J t k = (t', m) /\ follows b P s' t'.
Proof.
  intros Pk H. destruct s as [s n]. cbn [wired_impl ti_translate]. unfold w_translate at 1. cbn [w_calls w_state]. set (a := world n).
  apply (look_follows _ _ _ _ _ (w_scans a)) in H. apply (evict_follows _ _ _ _ _ (w_left a)) in H. set (s2 := fst (c_step hash cfg (w_look grow hash s (w_scans a)) (CEvict (w_left a)))) in *. clearbody s2.
  pose proof H as (ts & tt & d & A & B & C & D & E & F & G & X & Y). cbn [w_state w_calls] in *. destruct s2 as [[d0 pr] cs]. cbn [cs_tr ts_proc ts_db cs_cache] in *. subst pr d0.
  destruct (bare_translate b t k (follows_bare _ _ _ _ H)) as (d0 & d' & t' & m & Et0 & Et & S1 & V & Sm & O1 & Kn). cbn [wired_impl ti_translate] in Et. rewrite Et.
  rewrite C in Et0. injection Et0 as Ed. subst d0.
  destruct (key_sound b tt d k G) as (d2 & t2 & m2 & Ek & S2 & V2 & Sm2 & O2 & K2 & U2).
  assert (Eq : d2 = d' /\ t2 = t' /\ m2 = m).
  { revert Et. unfold w_translate, no_cache. cbn [w_scans w_left w_admit]. rewrite C. cbn [w_look fold_left c_step fst cs_tr cs_cache filter]. unfold c_step. cbn [cs_tr ts_proc cs_cache aget]. rewrite Ek. cbn [cache_after ts_proc].
    intros Z. apply pair_inj in Z as [Z1 Z2]. injection Z1 as Z1 Z3. auto. }
  destruct Eq as (-> & -> & ->).
  unfold c_step. cbn [cs_tr ts_proc cs_cache]. destruct (aget N.eqb (hash k) cs) as [v|] eqn:Eg.
  - apply aget_in in Eg; [|apply N.eqb_spec]. destruct (Y _ _ Eg) as (k' & Pk' & Hh & Kv & Hv). apply X in Hh; auto. subst k'.
    destruct (K2 _ Kv) as (Ev & -> & ->). apply u64be_inj in Ev; [|change two64 with (2^64); clear -Hv; lia|change two64 with (2^64); clear -Sm; lia]. subst v.
    do 3 eexists. split; [reflexivity|]. split; [reflexivity|]. exists ts, tt, d. cbn [w_state w_calls cs_tr ts_proc ts_db cs_cache]. rewrite D. repeat (split; [auto; fail|]). exact Y.
  - destruct (U2 ts E F) as (u' & Eu & Pu & Qu). rewrite Eu. cbn [cache_after ts_proc].
    do 3 eexists. split; [reflexivity|]. split; [reflexivity|]. exists u', t', d'. cbn [w_state w_calls cs_tr ts_proc ts_db cs_cache]. rewrite D. repeat (split; [auto; fail|]).
    intros h n0 Hin. unfold cache_after in Hin. cbn [ts_proc] in Hin.
    assert (Old : In (h, n0) cs -> exists k0, P k0 /\ hash k0 = h /\ kvget (PK k0) d' = Some (u64be n0) /\ n0 < 2^56).
    { intros Ho. destruct (Y _ _ Ho) as (k0 & P0 & H0 & V0 & B0). exists k0. split; [exact P0|]. split; [exact H0|]. split; [|exact B0].
      destruct (string_dec k0 k) as [->|Hk]; [|rewrite (O1 k0 Hk); exact V0]. rewrite V. f_equal. symmetry. apply (Kn _ V0). }
    destruct (w_admit a); [|auto]. apply in_aset_entries in Hin as [[-> ->]|Hin]; [|auto]. exists k. auto.
Qed.
Lemma follows_reopen b (P P' : string -> Prop) s t : follows (S b) P s t -> differ P' -> follows b P' (ti_reopen I s) (ti_reopen J t).
Proof.
  intros H Df. destruct s as [s n]. cbn [wired_impl ti_reopen]. unfold w_reopen at 1. cbn [w_calls w_state]. set (a := world n).
  apply (look_follows _ _ _ _ _ (w_scans a)) in H. set (s1 := w_look grow hash s (w_scans a)) in *. clearbody s1. destruct H as (ts & tt & d & A & B & C & D & E & F & G & X & Y). cbn [w_state w_calls] in *.
  destruct s1 as [[d0 pr] cs]. cbn [cs_tr ts_proc ts_db cs_cache] in *. subst pr d0.
  assert (Cl : forall u cc, prod_ok u -> t_seq u = t_seq tt -> fst (c_step hash cfg (if w_close a then fst (c_step hash cfg (CState (TrState d (Some u)) cc) (COther (TClose false))) else CState (TrState d (Some u)) cc) (COther TCrash))
      = CState (TrState (db_closed (w_close a) tt d) None) []).
  { intros u cc (_ & _ & _ & Su) Eq. destruct G as [(_ & _ & _ & St) _]. unfold db_closed. destruct (w_close a); [|reflexivity]. cbn [c_step cs_tr tr_step ts_proc ts_db]. rewrite Su, St, Eq.
    destruct (seq_release false "5ids" d (t_seq tt)) as [[d2 q] r]. reflexivity. }
  rewrite (Cl ts cs E F). unfold w_reopen, no_cache. cbn [w_scans w_close]. rewrite <- D, C. cbn [w_look fold_left]. fold a. rewrite (Cl tt []); [|apply G|reflexivity].
  destruct (closed_tidy (w_close a) b tt d G) as (hi & Hb & T & O1). destruct (open_sound b _ hi Hb T) as (d' & t' & Eo & S1 & O2).
  cbn [c_step cs_tr cs_cache]. rewrite Eo. cbn [fst cache_after ts_proc]. exists t', t', d'. cbn [w_state w_calls cs_tr ts_proc ts_db cs_cache].
  repeat (split; [auto; fail|]). split; [exact (sd_ok _ _ _ S1)|]. repeat (split; [auto; fail|]). intros h m [].
Qed.
Theorem follows_find b P s t k : follows b P s t -> ti_find I s k = ti_find J t k.
Proof.
  intros H. destruct (bare_find _ _ k (follows_bare _ _ _ _ H)) as (d0 & E0 & ->). destruct H as (ts & tt & d & A & B & C & D & E & F & G & X & Y). rewrite C in E0. cbn [cs_tr ts_db] in E0. subst d0.
  cbn [wired_impl ti_find]. unfold w_find. rewrite A, B. destruct (tr_find grow ts d k) as [x r] eqn:Ef. apply tr_find_spec in Ef as (_ & _ & _ & _ & _ & _ & _ & _ & ->); [|apply E].
  destruct E as (_ & -> & _). cbn [snd]. destruct (kvget _ d); reflexivity.
Qed.
Lemma start_tidy d : (forall x, kvget (append "5" x) d = None) -> tidy d 0.
Proof.
  intros H. split; [intros k v E; rewrite (H (append "idss" k) : kvget (PK k) d = None) in E; discriminate|..]; unfold counter.
  - rewrite (H "seq" : kvget "5seq" d = None). lia.
  - rewrite (H "ids" : kvget "5ids" d = None). lia.
Qed.
Theorem follows_start (P : string -> Prop) d b : (forall x, kvget (append "5" x) d = None) -> N.of_nat b < 2^43 -> differ P -> follows b P (wired_start grow hash d) (wired_start grow hash d).
Proof.
  intros Hd Hb Df. destruct (open_sound b d 0) as (d' & t & E & S0 & _).
  - change bw with 4096. rewrite Nat2N.inj_succ. change (2^43) with 8796093022208 in Hb. change (2^56) with 72057594037927936. lia.
  - apply start_tidy, Hd.
  - unfold wired_start. cbn [c_step cs_tr cs_cache]. rewrite E. cbn [fst cache_after ts_proc]. exists t, t, d'. cbn [w_state w_calls cs_tr ts_proc ts_db cs_cache]. repeat (split; [auto; fail|]). split; [exact (sd_ok _ _ _ S0)|]. repeat (split; [auto; fail|]).
    intros h m [].
Qed.
Lemma bare_start d b : (forall x, kvget (append "5" x) d = None) -> N.of_nat b < 2^43 -> bare b (wired_start grow hash d).
Proof. intros Hd Hb. apply (follows_bare b (fun _ => False) (wired_start grow hash d)). apply follows_start; [exact Hd|exact Hb|intros k k' []]. Qed.
End Many.
Print Assumptions many_labels_stable.
