(** C03 and C06-C10: label <-> column id translation. *)
From Verif.Model Require Import Base KV Slice Sequence Translate ColumnCache KeySpace.
From Verif.Proofs Require Import BaseFacts LabelsFacts SequenceFacts TranslateFacts ColumnCacheFacts KeySpaceFacts.

(** Configuration of the theorems: any prefix, any growth policy of the Go runtime, and a prefix slice
    without spare capacity. *)
Definition exact_config (grow : nat -> nat) (p : string) : tr_config := TrConfig grow p (String.length p).

(** C03 for the key layout the source code intends, and for the layout the server really uses (see
    C09): whatever label, id or view, two different entries never share a key. *)
Theorem C03_keyspaces_disjoint : forall e1 e2 : db_entry,
  (forall n, e1 = EId n -> n < 2 ^ 64) -> (forall n, e2 = EId n -> n < 2 ^ 64) ->
  entry_key "5keys" "5ids" "5seq" e1 = entry_key "5keys" "5ids" "5seq" e2 -> e1 = e2.
Proof.
  intros e1 e2 H1 H2. apply keyspace_disjoint; [destruct e1|destruct e2]; simpl; auto.
Qed.
Print Assumptions C03_keyspaces_disjoint.

Theorem C03_keyspaces_disjoint_production : forall (grow : nat -> nat) q (e1 e2 : db_entry),
  let t := prod_tr q in
  (forall f d, tr_new grow f (prefix_heap (production_config grow)) (prefix_slice (production_config grow)) d =
     match get_sequence f "5seq" translate_bandwidth d with
     | (d', Some q) => (d', Some (prod_tr q))
     | (d', None) => (d', None)
     end) /\
  ((forall n, e1 = EId n -> n < 2 ^ 56) -> (forall n, e2 = EId n -> n < 2 ^ 56) ->
   entry_key (keys_prefix t) (ids_prefix t) (seq_key t) e1 =
   entry_key (keys_prefix t) (ids_prefix t) (seq_key t) e2 -> e1 = e2).
Proof.
  intros grow q e1 e2 t. split; [intros; apply prod_new|]. intros H1 H2.
  apply keyspace_disjoint_production; [destruct e1|destruct e2]; simpl; auto.
Qed.
Print Assumptions C03_keyspaces_disjoint_production.
Example C03_nonvacuous :
  entry_key "5keys" "5ids" "5seq" (ELabel "1:0:") = "5keys1:0:" /\
  entry_key "5keys" "5ids" "5seq" (ESet SigLogs "2024") = "sets_logs_std_2024".
Proof. split; reflexivity. Qed.

(** C06: over every history (opens, translations with any fault, look-ups, reverse look-ups, closes,
    crashes anywhere, foreign writes) two answers carry the same id exactly when they are about the
    same label. *)
Theorem C06_column_ids_stable_and_distinct :
  forall grow p d ops s' outs k1 n1 k2 n2,
  (forall n, n <= grow n)%nat ->
  (forall x, kvget (append p x) d = None) ->
  N.of_nat (List.length ops) < 2 ^ 52 ->
  tr_run (exact_config grow p) (TrState d None) ops = (s', outs) ->
  In (OKey k1 n1) outs \/ In (OFind k1 (Some n1)) outs ->
  In (OKey k2 n2) outs \/ In (OFind k2 (Some n2)) outs ->
  (k1 = k2 <-> n1 = n2).
Proof. intros grow p d ops s' outs k1 n1 k2 n2 Hg. apply (ids_stable_and_distinct p grow Hg). Qed.
Print Assumptions C06_column_ids_stable_and_distinct.

(** C07. *)
Theorem C07_ids_translate_back :
  forall grow p d ops s' outs t k n,
  (forall n, n <= grow n)%nat ->
  (forall x, kvget (append p x) d = None) ->
  N.of_nat (List.length ops) < 2 ^ 52 ->
  tr_run (exact_config grow p) (TrState d None) ops = (s', outs) ->
  ts_proc s' = Some t ->
  In (OKey k n) outs -> translate_id t (ts_db s') n = Some k.
Proof. intros grow p d ops s' outs t k n Hg. apply (id_back p grow Hg). Qed.
Print Assumptions C07_ids_translate_back.

(** Reverse look-up knows exactly the pairs forward look-up knows; in particular ids nobody was given
    are not found. *)
Theorem C07_reverse_lookup_exact :
  forall grow p d ops s' outs t k n,
  (forall n, n <= grow n)%nat ->
  (forall x, kvget (append p x) d = None) ->
  N.of_nat (List.length ops) < 2 ^ 52 ->
  tr_run (exact_config grow p) (TrState d None) ops = (s', outs) ->
  ts_proc s' = Some t -> n < 2 ^ 64 ->
  (translate_id t (ts_db s') n = Some k <-> snd (tr_find grow t (ts_db s') k) = Some n).
Proof. intros grow p d ops s' outs t k n Hg. apply (id_back_iff_find p grow Hg). Qed.
Print Assumptions C07_reverse_lookup_exact.

(** A list of ids is translated at once, in order; it fails if one of them was never given. *)
Theorem C07_many_ids_translate_back :
  forall grow p d ops s' outs t ks ns,
  (forall n, n <= grow n)%nat ->
  (forall x, kvget (append p x) d = None) ->
  N.of_nat (List.length ops) < 2 ^ 52 ->
  tr_run (exact_config grow p) (TrState d None) ops = (s', outs) ->
  ts_proc s' = Some t ->
  Forall2 (fun k n => In (OKey k n) outs) ks ns -> translate_bulk t (ts_db s') ns = (ks, true).
Proof.
  intros grow p d ops s' outs t ks ns Hg Hd Hl Hr Ht F. induction F as [|k n ks ns H F IH]; [reflexivity|].
  cbn [translate_bulk]. rewrite (C07_ids_translate_back grow p d ops s' outs t k n Hg Hd Hl Hr Ht H), IH. reflexivity.
Qed.
Theorem C07_unknown_id_is_an_error : forall t d n ns, In n ns -> translate_id t d n = None -> snd (translate_bulk t d ns) = false.
Proof.
  intros t d n ns. induction ns as [|m ns IH]; intros I N; [destruct I|]. cbn [translate_bulk]. destruct I as [->|I].
  - rewrite N. reflexivity.
  - specialize (IH I N). destruct (translate_id t d m); [|reflexivity]. destruct (translate_bulk t d ns). exact IH.
Qed.

(** C08: Find agrees with TranslateKey, and inserting a Find anywhere in a history changes nothing but
    adding its own answer. Holds for the production wiring too. *)
Theorem C08_find_agrees_with_translate :
  forall grow p d ops s' outs t k,
  (forall n, n <= grow n)%nat ->
  (forall x, kvget (append p x) d = None) ->
  N.of_nat (List.length ops) < 2 ^ 52 ->
  tr_run (exact_config grow p) (TrState d None) ops = (s', outs) ->
  ts_proc s' = Some t ->
  (forall n, In (OKey k n) outs -> snd (tr_find grow t (ts_db s') k) = Some n) /\
  (forall n, snd (tr_find grow t (ts_db s') k) = Some n -> exists f, In (TKey k f) ops).
Proof. intros grow p d ops s' outs t k Hg. apply (find_iff_translated p grow Hg). Qed.
Print Assumptions C08_find_agrees_with_translate.

Theorem C08_find_has_no_effect :
  forall c d ops1 ops2 k,
  (exists grow p, (forall n, n <= grow n)%nat /\ c = exact_config grow p) \/
  (exists grow, c = production_config grow) ->
  exists o1 o2 r,
    List.length o1 = List.length ops1 /\
    snd (tr_run c (TrState d None) (ops1 ++ ops2)) = o1 ++ o2 /\
    snd (tr_run c (TrState d None) (ops1 ++ TFind k :: ops2)) = o1 ++ r :: o2 /\
    ts_db (fst (tr_run c (TrState d None) (ops1 ++ TFind k :: ops2))) =
    ts_db (fst (tr_run c (TrState d None) (ops1 ++ ops2))).
Proof.
  intros c d ops1 ops2 k H. apply find_no_effect. destruct H as [(grow & p & Hg & ->)|(grow & ->)].
  - intros f d0 d' t H. apply tr_new_exact in H; auto. tauto.
  - intros f d0 d' t H. cbn [c_grow production_config] in H.
    change (TrConfig grow "5" 8) with (production_config grow) in H. rewrite prod_new in H.
    destruct (get_sequence f "5seq" translate_bandwidth d0) as [d1 [q|]]; [|discriminate].
    injection H as <- <-. unfold tr_wf, slice_ok, prod_tr; simpl. repeat split; auto; lia.
Qed.
Print Assumptions C08_find_has_no_effect.

Example C06_history :
  snd (tr_run (exact_config (fun n => n) "5") (TrState [] None)
    [TOpen false; TKey "1:0:" FNone; TKey "1:6:up" FLost; TOpen false; TKey "1:6:up" FNone;
     TFind "2:0:"; TKey "2:0:" FNone; TClose false; TCrash; TOpen false; TFind "2:0:"; TId 0; TId 7])
  = [ONone; OKey "1:0:" 0; OErr; ONone; OKey "1:6:up" 1; OFind "2:0:" None; OKey "2:0:" 4096;
     ONone; ONone; ONone; OFind "2:0:" (Some 4096); OBack 0 (Some "1:0:"); OBack 7 None].
Proof. vm_compute. reflexivity. Qed.

(** C09 is false: in the server's own configuration the three appends in New share one backing array,
    the lease of the sequence is renewed under the key of the id table prefix, and the 4097th new
    label of a process receives id 0 again.  This is for ANY 4097 distinct labels. *)
Theorem C09_production_ids_repeat : forall grow k1 ls k2,
  NoDup (k1 :: ls ++ [k2]) -> N.of_nat (List.length ls) = 4095 ->
  exists outs,
    snd (tr_run (production_config grow) (TrState [] None)
          (TOpen false :: TKey k1 FNone :: map (fun k => TKey k FNone) ls ++ [TKey k2 FNone]))
    = ONone :: OKey k1 0 :: outs ++ [OKey k2 0].
Proof. exact prod_collision. Qed.
Print Assumptions C09_production_ids_repeat.

Theorem C09_production_ids_distinct_refuted : forall grow,
  exists ops k1 k2 n, k1 <> k2 /\
    In (OKey k1 n) (snd (tr_run (production_config grow) (TrState [] None) ops)) /\
    In (OKey k2 n) (snd (tr_run (production_config grow) (TrState [] None) ops)).
Proof.
  intros grow.
  assert (Hd : forall m c, digit_or_minus c = false -> show_N m <> String c "").
  { intros m c Hc E.
    assert (D : digit_or_minus c = true)
      by (apply (show_Z_digits (Z.of_N m)); fold (show_N m); rewrite E; simpl; rewrite Ascii.eqb_refl; reflexivity).
    congruence. }
  destruct (C09_production_ids_repeat grow "x" (map show_N (upto (N.to_nat 4095))) "y") as [outs Ho].
  - apply Permutation_NoDup with (l := "x" :: "y" :: map show_N (upto (N.to_nat 4095))).
    + constructor. apply Permutation_cons_append.
    + generalize (N.to_nat 4095) as n; intros n. constructor; [|constructor].
      * simpl. rewrite in_map_iff. intros [E|(m & E & _)]; [discriminate|]. revert E. apply Hd. reflexivity.
      * rewrite in_map_iff. intros (m & E & _). revert E. apply Hd. reflexivity.
      * apply nodup_map_inj; [|apply nodup_upto]. intros; apply show_N_inj; auto.
  - rewrite map_length, length_upto. apply N2Nat.id.
  - eexists _, "x", "y", 0. split; [discriminate|]. rewrite Ho.
    split; [right; now left|]. right. right. apply in_or_app. right. now left.
Qed.
Print Assumptions C09_production_ids_distinct_refuted.

(** C10: with the cache in front, for every admission and eviction behaviour, the answers are those of
    the translator alone, provided the hash separates the labels used. *)
Theorem C10_cache_transparent_partial :
  forall (hash : string -> N) grow p d ops,
  (forall n, n <= grow n)%nat ->
  (forall x, kvget (append p x) d = None) ->
  N.of_nat (List.length ops) < 2 ^ 52 ->
  (forall k1 f1 b1 k2 f2 b2, In (CTranslate k1 f1 b1) ops -> In (CTranslate k2 f2 b2) ops ->
     hash k1 = hash k2 -> k1 = k2) ->
  snd (c_run hash (exact_config grow p) (CState (TrState d None) []) ops) =
  snd (tr_run (exact_config grow p) (TrState d None) (uncached ops)).
Proof.
  intros hash grow p d ops Hg Hd Hl Hh.
  apply (cache_transparent hash p grow Hg (fun k => exists f b, In (CTranslate k f b) ops)); auto.
  - intros a b (fa & ba & Ha) (fb & bb & Hb). eauto.
  - apply Forall_forall. intros [k f b|ev|o] Ho; simpl; eauto.
Qed.
Print Assumptions C10_cache_transparent_partial.
Example C10_nonvacuous :
  snd (c_run (fun k => N.of_nat (String.length k)) (exact_config (fun n => n) "5") (CState (TrState [] None) [])
    [COther (TOpen false); CTranslate "a" FNone true; CTranslate "bb" FNone false; CTranslate "a" FNone true;
     CEvict (fun h => negb (h =? 1)); CTranslate "bb" FNone true; CTranslate "a" FNone false])
  = [ONone; OKey "a" 0; OKey "bb" 1; OKey "a" 0; OKey "bb" 1; OKey "a" 0].
Proof. vm_compute. reflexivity. Qed.

(** C10 without that proviso is false for every 64 bit hash: some two labels end up with one id. *)
Theorem C10_cache_transparent_refuted :
  forall (hash : string -> N) grow p,
  (forall n, n <= grow n)%nat -> (forall k, hash k < 2 ^ 64) ->
  exists k1 k2, k1 <> k2 /\
    snd (c_run hash (exact_config grow p) (CState (TrState [] None) [])
           [COther (TOpen false); CTranslate k1 FNone true; CTranslate k2 FNone true])
    = [ONone; OKey k1 0; OKey k2 0].
Proof. intros hash grow p. exact (cache_collision hash p grow). Qed.
Print Assumptions C10_cache_transparent_refuted.
