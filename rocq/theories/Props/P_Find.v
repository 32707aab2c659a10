(** C75: concurrent label look-ups (internal/translate). *)
From Coq Require Import DecimalString DecimalPos.
From Verif.Model Require Import Base Labels KV Slice Sequence Translate ConcurrentFind.
From Verif.Proofs Require Import BaseFacts LabelsFacts TranslateFacts.

Definition begin (t : translator) (d : kv) : finds := Finds (t_heap t) d (fun _ => None) [].
(** The answer a look-up of [key] alone would have got from the database contents [d]. *)
Definition answer (prefix : string) (d : kv) (key : string) : option N := option_map be_val (kvget (append prefix key) d).

(** No spare capacity for the keys asked for: every look-up, in every interleaving, is answered as if it ran
    alone at the moment it read the database. *)
Theorem C75_lookups_do_not_interfere_partial : forall grow (t : translator) d0 asked m,
  (forall n, n <= grow n)%nat -> tr_wf t ->
  (forall i, s_cap (t_keys t) < s_len (t_keys t) + String.length (asked i))%nat ->
  find_steps grow (t_keys t) asked (begin t d0) m ->
  forall i d r, In (i, d, r) (f_log m) -> r = answer (keys_prefix t) d (asked i).
Proof.
  intros grow t d0 asked m Hg Wf Full S.
  assert (V : slice_ok (f_heap m) (t_keys t) /\ sread (f_heap m) (t_keys t) = keys_prefix t /\
    (forall i s, f_key m i = Some s -> slice_ok (f_heap m) s /\ sread (f_heap m) s = append (keys_prefix t) (asked i)) /\
    forall i d r, In (i, d, r) (f_log m) -> r = answer (keys_prefix t) d (asked i)).
  { remember (begin t d0) as m0 eqn:E0. induction S as [m|m m' m'' S IH St].
    - subst m. cbn. split; [apply Wf|]. split; [reflexivity|]. split; [discriminate|intros i d r []].
    - destruct (IH E0) as (K1 & K2 & K3 & K4). clear IH. destruct St as [m' i h s N A|m' i s E|m' d]; cbn [f_heap f_db f_key f_log] in *.
      + destruct (sappend_preserves _ _ _ _ _ _ _ K1 K1 (or_intror (Nat.le_refl _)) A) as [P1 P2].
        split; [exact P2|]. split; [rewrite P1; exact K2|]. split; [|exact K4]. intros j x. unfold set_key. destruct (Nat.eqb_spec j i) as [->|Nj].
        * intros Q. apply some_inj in Q. subst x. split; [exact (sappend_ok grow (f_heap m') (t_keys t) (asked i) h s Hg K1 A)|]. rewrite (sappend_read _ _ _ _ _ _ K1 A), K2. reflexivity.
        * intros Q. destruct (K3 j x Q) as [X1 X2]. pose proof A as A'. unfold sappend in A'. specialize (Full i). destruct (Nat.leb_spec (s_len (t_keys t) + String.length (asked i)) (s_cap (t_keys t))) as [C|C]; [lia|].
          apply pair_inj in A' as [<- <-]. unfold slice_ok, sread in *. destruct X1 as (Y1 & Y2 & Y3). rewrite app_length, app_nth1 by exact Y1. split; [repeat split; try assumption; lia|exact X2].
      + split; [exact K1|]. split; [exact K2|]. split; [exact K3|]. intros j d r Hin. apply in_app_iff in Hin as [Hin|[Hin|[]]]; [apply K4, Hin|].
        apply pair_inj in Hin as [Hin <-]. apply pair_inj in Hin as [<- <-]. destruct (K3 i s E) as [_ X]. rewrite X. reflexivity.
      + auto. }
  apply V.
Qed.
(** The server's own translator has three spare bytes, and every encoded label is longer: all concurrent
    look-ups of labels are safe. *)
Lemma show_Z_long z : (1 <= String.length (show_Z z))%nat.
Proof.
  unfold show_Z, Z.to_int. destruct z as [|p|p]; [cbn; lia| |].
  - cbn [NilEmpty.string_of_int]. pose proof (DecimalPos.Unsigned.to_uint_nonnil p) as H. destruct (Pos.to_uint p); [congruence|cbn; lia..].
  - cbn [NilEmpty.string_of_int String.length]. lia.
Qed.
Lemma encode_long l : (4 <= String.length (encode l))%nat.
Proof.
  unfold encode. rewrite !length_append. cbn [String.length]. pose proof (show_Z_long (l_resource l)). pose proof (show_Z_long (l_prefix l)). lia.
Qed.
Theorem C75_production_lookups_do_not_interfere : forall grow fail d0 d1 t d2 asked m,
  (forall n, n <= grow n)%nat ->
  tr_new grow fail (prefix_heap (production_config grow)) (prefix_slice (production_config grow)) d0 = (d1, Some t) ->
  find_steps grow (t_keys t) (fun i => encode (asked i)) (begin t d2) m ->
  forall i d r, In (i, d, r) (f_log m) -> r = snd (tr_find grow t d (encode (asked i))).
Proof.
  intros grow fail d0 d1 t d2 asked m Hg New S i d r Hin. rewrite prod_new in New. destruct (get_sequence fail "5seq" translate_bandwidth d0) as [d' [q|]]; [|discriminate].
  apply pair_inj in New as [_ New]. apply some_inj in New. subst t.
  assert (Wf : tr_wf (prod_tr q)) by (unfold tr_wf, slice_ok, prod_tr; simpl; repeat split; auto; lia).
  assert (Full : forall i, (s_cap (t_keys (prod_tr q)) < s_len (t_keys (prod_tr q)) + String.length (encode (asked i)))%nat) by (intros j; change (8 < 5 + String.length (encode (asked j)))%nat; pose proof (encode_long (asked j)); lia).
  rewrite (C75_lookups_do_not_interfere_partial grow (prod_tr q) d2 _ m Hg Wf Full S i d r Hin).
  destruct (tr_find grow (prod_tr q) d (encode (asked i))) as [t' r'] eqn:F. apply (tr_find_spec _ _ _ _ _ _ Wf) in F as (_ & _ & _ & _ & _ & _ & _ & _ & ->). cbn [snd]. unfold answer. destruct (kvget _ d); reflexivity.
Qed.
(** With another prefix it is false: five bytes of prefix and "keys" make nine, the runtime rounds the array
    up to sixteen, and a label of up to seven bytes is written into the shared array.  The look-up of "1:0:"
    is answered with the column of "2:0:". *)
Definition go_grow (n : nat) : nat := if Nat.leb n 8 then 8%nat else if Nat.leb n 16 then 16%nat else (2 * n)%nat.
Theorem C75_spare_capacity_refuted : exists d0 d t asked m r, tr_new go_grow false (prefix_heap (TrConfig go_grow "trans" 5)) (prefix_slice (TrConfig go_grow "trans" 5)) d0 = (d, Some t) /\
  find_steps go_grow (t_keys t) (fun i => encode (asked i)) (begin t d) m /\ In (0%nat, f_db m, r) (f_log m) /\ r <> answer (keys_prefix t) (f_db m) (encode (asked 0%nat)).
Proof.
  set (d0 := [("transkeys1:0:", u64be 3); ("transkeys2:0:", u64be 4)]).
  destruct (tr_new go_grow false (prefix_heap (TrConfig go_grow "trans" 5)) (prefix_slice (TrConfig go_grow "trans" 5)) d0) as [d [t|]] eqn:E; [|vm_compute in E; discriminate].
  set (asked := fun i => match i with 0%nat => Label 1 0 "" "" | _ => Label 2 0 "" "" end).
  exists d0, d, t, asked. vm_compute in E. apply pair_inj in E as [<- E]. apply some_inj in E. subst t.
  eexists _, _. split; [vm_compute; reflexivity|]. split.
  - eapply finds_more; [eapply finds_more; [eapply finds_more; [apply finds_none|eapply (find_append _ _ _ _ 0); [reflexivity|vm_compute; reflexivity]]|eapply (find_append _ _ _ _ 1); [reflexivity|vm_compute; reflexivity]]|eapply (find_get _ _ _ _ 0); reflexivity].
  - split; [left; reflexivity|]. vm_compute. discriminate.
Qed.
(** Three look-ups of the production server, interleaved, one asking for a label stored in between. *)
Example C75_example : exists m, let t := prod_tr (Seq 0 0) in
  find_steps go_grow (t_keys t) (fun i => encode (Label 1 0 "" "")) (begin t []) m /\ f_log m = [(0%nat, [], None); (1%nat, [("5idss1:0:", u64be 9)], Some 9)].
Proof.
  eexists. cbv zeta. split.
  - eapply finds_more; [eapply finds_more; [eapply finds_more; [eapply finds_more; [eapply finds_more; [apply finds_none|eapply (find_append _ _ _ _ 0); [reflexivity|vm_compute; reflexivity]]|eapply (find_append _ _ _ _ 1); [reflexivity|vm_compute; reflexivity]]|eapply (find_get _ _ _ _ 0); reflexivity]|eapply (find_other _ _ _ _ [("5idss1:0:", u64be 9)])]|eapply (find_get _ _ _ _ 1); reflexivity].
  - vm_compute. reflexivity.
Qed.
