(** Facts about the trimming model. *)
From Verif.Model Require Import Base Labels View Otlp Transform Store Visit XxHash.
From Verif.Spec Require Import Trim.
From Verif.Proofs Require Import BaseFacts.
From Coq Require Import Btauto.
Open Scope N_scope.

(** The conditions on a payload: the hash tells asked texts from tested ones, attribute conditions are
    short and keys have no equals sign, attributes have values. *)
Definition asked (fs : list scan_filter) (a : string) : Prop :=
  (exists p v, In (FBase p v) fs /\ (a = v \/ hex_encode a = lower v)) \/ (exists p k v, In (FAttr p k v) fs /\ a = pair_text k v).
Definition tells_apart (h : string -> N) (fs : list scan_filter) (ws : list string) : Prop :=
  forall a b, asked fs a -> In b ws -> h a = h b -> a = b.
Definition agree_short (h h0 : string -> N) : Prop := forall s, (String.length s < 32)%nat -> h0 s = h s.
Definition eq_sign : ascii := "="%char.
Definition plain_conditions (fs : list scan_filter) : Prop :=
  forall p k v, In (FAttr p k v) fs -> (String.length (pair_text k v) < 32)%nat /\ str_mem eq_sign k = false.
Definition plain_attr (a : key_value) : Prop := str_mem eq_sign (kv_key a) = false /\ kv_val a <> None.
(** Needed only when an attribute is asked for. *)
Definition plain_attrs (fs : list scan_filter) (ls : list key_value) : Prop := (exists p k v, In (FAttr p k v) fs) -> Forall plain_attr ls.

Lemma bytes_of_length s : List.length (bytes_of s) = String.length s.
Proof. induction s; cbn; congruence. Qed.
Lemma xxhash_agree_short : agree_short xxh64 xxh64_zero.
Proof.
  intros s H. unfold xxh64, xxh64_zero, xxh64_from. rewrite bytes_of_length.
  assert (Nat.leb 32 (String.length s) = false) as -> by (apply PeanoNat.Nat.leb_gt; exact H). reflexivity.
Qed.

(** ------ hexadecimal *)
Lemma hex_val_spec : forall a, hex_val a = None -> is_hex_ascii a = false.
Proof. intros a. unfold hex_val, is_hex_ascii. destruct (_ && _); [discriminate|]. destruct (_ && _); [discriminate|]. destruct (_ && _); [discriminate|reflexivity]. Qed.
Lemma hex_val_digit : forall a x, hex_val a = Some x -> is_hex_ascii a = true /\ x < 16 /\ lower_ascii a = hex_digit x.
Proof.
  intros a x H. assert (x = match hex_val a with Some x => x | None => 0 end) as -> by (rewrite H; reflexivity).
  clear -H. destruct a as [b0 b1 b2 b3 b4 b5 b6 b7].
  destruct b0, b1, b2, b3, b4, b5, b6, b7; try discriminate H; vm_compute; repeat split; reflexivity.
Qed.
Lemma hex_digit_inj a b : a < 16 -> b < 16 -> hex_digit a = hex_digit b -> a = b.
Proof.
  intros Ha Hb E. assert (N_of_ascii (hex_digit a) = N_of_ascii (hex_digit b)) as E' by congruence.
  unfold hex_digit in E'. destruct (N.ltb_spec a 10), (N.ltb_spec b 10); rewrite !N_ascii_embedding in E' by lia; lia.
Qed.
Lemma hex_digit_is_hex a : a < 16 -> is_hex_ascii (hex_digit a) = true.
Proof.
  intros H. unfold is_hex_ascii, hex_digit. destruct (N.ltb_spec a 10); rewrite N_ascii_embedding by lia.
  - replace (48 <=? 48 + a) with true by (symmetry; apply N.leb_le; lia). replace (48 + a <=? 57) with true by (symmetry; apply N.leb_le; lia). reflexivity.
  - replace (97 <=? 87 + a) with true by (symmetry; apply N.leb_le; lia). replace (87 + a <=? 102) with true by (symmetry; apply N.leb_le; lia).
    cbn [andb]. apply orb_true_iff. left. apply orb_true_iff. right. reflexivity.
Qed.
Lemma lower_is_hex a : is_hex_ascii (lower_ascii a) = true -> is_hex_ascii a = true.
Proof. destruct a as [b0 b1 b2 b3 b4 b5 b6 b7]. destruct b0, b1, b2, b3, b4, b5, b6, b7; vm_compute; auto. Qed.
Lemma byte_split c : ascii_of_N (N_of_ascii c / 16 * 16 + N_of_ascii c mod 16) = c.
Proof. rewrite N.mul_comm, <- N.div_mod by lia. apply ascii_N_embedding. Qed.
Lemma hex_decode_spec a b : hex_decode a = Some b <-> lower a = hex_encode b.
Proof.
  revert b. induction a as [a IH] using (well_founded_induction (Wf_nat.well_founded_ltof _ String.length)). intros b.
  destruct a as [|x a]; [cbn; split; [intros [= <-]; reflexivity|destruct b; [reflexivity|discriminate]]|].
  destruct a as [|y a].
  - split; [discriminate|]. cbn. destruct b as [|c b]; discriminate.
  - cbn [hex_decode lower]. split.
    + destruct (hex_val x) as [n|] eqn:Hx; [|discriminate]. destruct (hex_val y) as [m|] eqn:Hy; [|discriminate].
      destruct (hex_decode a) as [r|] eqn:Ha; [|discriminate]. intros [= <-].
      destruct (hex_val_digit _ _ Hx) as (_ & Hn & ->), (hex_val_digit _ _ Hy) as (_ & Hm & ->).
      cbn [hex_encode]. rewrite N_ascii_embedding by lia.
      replace ((n * 16 + m) / 16) with n by (rewrite N.div_add_l by lia; rewrite N.div_small by lia; lia).
      replace ((n * 16 + m) mod 16) with m by (rewrite N.add_comm, N.mod_add by lia; rewrite N.mod_small by lia; lia).
      do 2 f_equal. apply IH; [|exact Ha]. unfold Wf_nat.ltof. cbn. lia.
    + destruct b as [|c b]; [discriminate|]. cbn [hex_encode]. intros E. injection E as E1 E2 E3.
      pose proof (N_ascii_bounded c) as Hc.
      assert (N_of_ascii c / 16 < 16) as B1 by (apply N.div_lt_upper_bound; lia). assert (N_of_ascii c mod 16 < 16) as B2 by (apply N.mod_lt; lia).
      assert (hex_val x = Some (N_of_ascii c / 16)) as ->.
      { destruct (hex_val x) as [n|] eqn:Hx.
        - destruct (hex_val_digit _ _ Hx) as (_ & Hn & Hl). f_equal. apply hex_digit_inj; congruence.
        - apply hex_val_spec in Hx. pose proof (hex_digit_is_hex _ B1) as K. rewrite <- E1 in K. apply lower_is_hex in K. congruence. }
      assert (hex_val y = Some (N_of_ascii c mod 16)) as ->.
      { destruct (hex_val y) as [n|] eqn:Hx.
        - destruct (hex_val_digit _ _ Hx) as (_ & Hn & Hl). f_equal. apply hex_digit_inj; congruence.
        - apply hex_val_spec in Hx. pose proof (hex_digit_is_hex _ B2) as K. rewrite <- E2 in K. apply lower_is_hex in K. congruence. }
      assert (hex_decode a = Some b) as -> by (apply IH; [unfold Wf_nat.ltof; cbn; lia|exact E3]).
      rewrite byte_split. reflexivity.
Qed.
Lemma is_hex_decode a : is_hex a = true <-> exists b, hex_decode a = Some b.
Proof.
  induction a as [a IH] using (well_founded_induction (Wf_nat.well_founded_ltof _ String.length)).
  destruct a as [|x a]; [cbn; split; eauto|]. destruct a as [|y a]; [cbn; split; [discriminate|intros (b & Hb); discriminate]|].
  cbn [is_hex hex_decode]. rewrite !andb_true_iff, IH by (unfold Wf_nat.ltof; cbn; lia). split.
  - intros ((Hx & Hy) & b & ->). destruct (hex_val x) eqn:E; [|apply hex_val_spec in E; congruence].
    destruct (hex_val y) eqn:E'; [|apply hex_val_spec in E'; congruence]. eauto.
  - intros (b & Hb). destruct (hex_val x) as [n|] eqn:E; [|discriminate]. destruct (hex_val y) as [m|] eqn:E'; [|discriminate].
    destruct (hex_decode a) eqn:E''; [|discriminate]. split; [split|]; [apply (hex_val_digit _ _ E)|apply (hex_val_digit _ _ E')|eauto].
Qed.

(** ------ compiling conditions *)
Definition sadds (l : list N) (s : nset) : nset := fold_left (fun s x => sadd x s) l s.
Lemma in_sadds x l : forall s, In x (sadds l s) <-> In x l \/ In x s.
Proof. induction l as [|y l IH]; intros s; cbn; [tauto|]. fold (sadds l (sadd y s)). rewrite IH, in_sadd. intuition. Qed.
Lemma ssorted_sadds l : forall s, ssorted s -> ssorted (sadds l s).
Proof. induction l as [|y l IH]; intros s Hs; cbn; [exact Hs|]. apply IH, ssorted_sadd, Hs. Qed.
Lemma sadds_app a b s : sadds (a ++ b) s = sadds b (sadds a s).
Proof. apply fold_left_app. Qed.

Section V.
Context (h h0 : string -> N).
Definition id_hashes (l : list string) : list N := flat_map (fun a => match hex_decode a with Some b => [h b] | None => [] end) l.
Definition pair_hashes (l : list (string * string)) : list N := map (fun kv => h0 (pair_text (fst kv) (snd kv))) l.

(** Scope attribute conditions and record attribute conditions in the order they come. *)
Definition scope_pairs (fs : list scan_filter) : list (string * string) :=
  flat_map (fun f => match f with FAttr q k v => if (Z.eqb q PREFIX_SCOPE_ATTRIBUTES || Z.eqb q PREFIX_ATTRIBUTES)%bool then [(k, v)] else [] | _ => [] end) fs.

Lemma compile_all_spec fs : forall o, compile_all h h0 fs o =
  Visitor (sadds (map h (texts fs PREFIX_RESOURCE_SCHEMA)) (v_resource_schema o)) (sadds (pair_hashes (pairs fs PREFIX_RESOURCE_ATTRIBUTES)) (v_resource_attr o))
    (sadds (map h (texts fs PREFIX_SCOPE_SCHEMA)) (v_scope_schema o)) (sadds (map h (texts fs PREFIX_SCOPE_NAME)) (v_scope_name o))
    (sadds (map h (texts fs PREFIX_SCOPE_VERSION)) (v_scope_version o)) (sadds (pair_hashes (scope_pairs fs)) (v_scope_attr o)) (v_attr o)
    (sadds (map h (texts fs PREFIX_NAME)) (v_name o)) (sadds (id_hashes (texts fs PREFIX_TRACE_ID)) (v_trace o))
    (sadds (id_hashes (texts fs PREFIX_SPAN_ID)) (v_span o)) (sadds (id_hashes (texts fs PREFIX_PARENT_SPAN_ID)) (v_parent o))
    (sadds (map h (texts fs PREFIX_LOGS_LEVEL)) (v_level o)) (v_start o) (v_end o).
Proof.
  induction fs as [|f fs IH]; intros o; [destruct o; reflexivity|].
  unfold compile_all in *. cbn [fold_left]. rewrite IH. clear IH.
  destruct o as [rs ra ss sn sv sa at_ n t sp p l st en]. unfold texts, pairs, scope_pairs. cbn [flat_map].
  destruct f as [q v|q k v|]; cbn [compile_filter]; [| |reflexivity].
  - repeat match goal with |- context [Z.eqb q ?P] => destruct (Z.eqb_spec q P) as [->|?] end; try reflexivity;
      try (unfold add_id; cbn [id_hashes app flat_map]; destruct (hex_decode v); reflexivity).
  - repeat match goal with |- context [Z.eqb q ?P] => destruct (Z.eqb_spec q P) as [->|?] end; reflexivity.
Qed.

(** ------ acceptance *)
Lemma sempty_sadds l : sempty (sadds l []) = match l with [] => true | _ => false end.
Proof.
  destruct l as [|x l]; [reflexivity|]. destruct (sempty _) eqn:E; [|reflexivity].
  apply sempty_spec in E. assert (In x (sadds (x :: l) [])) as H by (apply in_sadds; left; left; reflexivity). rewrite E in H. destruct H.
Qed.
Lemma accept_text_spec l x : (forall a, In a l -> h a = h x -> a = x) -> accept_text h (sadds (map h l) []) x = one_of l x.
Proof.
  intros H. unfold accept_text. rewrite sempty_sadds. destruct l as [|a l]; [reflexivity|]. cbn [map orb one_of].
  apply eq_true_iff_eq. rewrite in_smem, in_sadds, existsb_exists. change (h a :: map h l) with (map h (a :: l)). split.
  - intros [Hx|[]]. apply in_map_iff in Hx. destruct Hx as (b & Hb & Hin). exists b. split; [exact Hin|]. apply String.eqb_eq. symmetry. apply H; [exact Hin|congruence].
  - intros (b & Hin & Hb). apply String.eqb_eq in Hb. subst b. left. apply in_map_iff. exists x. split; [reflexivity|exact Hin].
Qed.
Lemma id_hashes_hex l : id_hashes l = id_hashes (hex_only l).
Proof.
  induction l as [|a l IH]; [reflexivity|]. unfold hex_only. cbn [id_hashes flat_map filter]. destruct (is_hex a) eqn:E.
  - cbn [flat_map id_hashes]. fold (id_hashes l). rewrite IH. reflexivity.
  - destruct (hex_decode a) as [b|] eqn:D; [|exact IH]. assert (is_hex a = true) by (apply is_hex_decode; eauto). congruence.
Qed.
Lemma accept_id_spec l b : (forall a w, In a l -> lower a = hex_encode w -> h w = h (the_id b) -> w = the_id b) ->
  accept_text h (sadds (id_hashes l) []) (id_bytes b) = id_one_of (hex_only l) b.
Proof.
  intros H. change (id_bytes b) with (the_id b). rewrite id_hashes_hex.
  assert (forall a w, In a (hex_only l) -> lower a = hex_encode w -> h w = h (the_id b) -> w = the_id b) as H' by
    (intros a w Ha; apply H; apply filter_In in Ha; apply Ha).
  assert (forall a, In a (hex_only l) -> exists w, hex_decode a = Some w) as Hx by (intros a Ha; apply is_hex_decode; apply filter_In in Ha; apply Ha).
  clear H. set (l' := hex_only l) in *. clearbody l'. unfold accept_text. rewrite sempty_sadds. unfold id_one_of.
  destruct l' as [|a l']; [reflexivity|].
  assert (exists w t, id_hashes (a :: l') = w :: t) as (w & t & E).
  { destruct (Hx a) as (w & Hw); [left; reflexivity|]. cbn [id_hashes flat_map]. rewrite Hw. cbn. eauto. }
  rewrite E. cbn [orb]. rewrite <- E. clear E. apply eq_true_iff_eq. rewrite in_smem, in_sadds, existsb_exists. split.
  - intros [Hi|[]]. apply in_flat_map in Hi. destruct Hi as (x & Hin & Hi). destruct (hex_decode x) as [y|] eqn:D; [|destruct Hi]. destruct Hi as [Hi|[]].
    exists x. split; [exact Hin|]. apply String.eqb_eq. apply hex_decode_spec. rewrite D. f_equal. apply (H' x); [exact Hin|apply hex_decode_spec; exact D|exact Hi].
  - intros (x & Hin & Hl). apply String.eqb_eq, hex_decode_spec in Hl. left. apply in_flat_map. exists x. split; [exact Hin|]. rewrite Hl. left. reflexivity.
Qed.

Lemma attr_hashes_spec ls : Forall (fun a => kv_val a <> None) ls -> forall b, exists b', attr_hashes h ls b = Some b' /\
  (ssorted b -> ssorted b') /\ forall x, In x b' <-> In x b \/ exists w, In w (attr_words ls) /\ x = h w.
Proof.
  induction 1 as [|a ls Ha _ IH]; intros b; [exists b; split; [reflexivity|]; split; [auto|]; intros x; split; [tauto|intros [?|(w & [] & _)]; assumption]|].
  cbn [attr_hashes attr_words flat_map]. destruct (kv_val a) as [[v|raw]|]; [| |contradiction].
  - destruct (IH (sadd (h (attr_text (kv_key a) v)) b)) as (b' & E & Hs & Hm). exists b'. split; [exact E|]. split; [intros; apply Hs, ssorted_sadd; assumption|].
    intros x. rewrite Hm, in_sadd. split.
    + intros [[->|?]|(w & Hw & ->)]; [right; exists (pair_text (kv_key a) v); split; [left; reflexivity|reflexivity]|left; assumption|right; exists w; split; [right; exact Hw|reflexivity]].
    + intros [?|(w & [<-|Hw] & ->)]; [left; right; assumption|left; left; reflexivity|right; eauto].
  - destruct (IH b) as (b' & E & Hs & Hm). exists b'. split; [exact E|]. split; [exact Hs|]. intros x. rewrite Hm. reflexivity.
Qed.
Lemma card_subset a b : ssorted a -> ssorted b -> (scard (sinter b a) =? scard a) = true <-> forall x, In x a -> In x b.
Proof.
  intros Sa Sb. unfold scard. rewrite N.eqb_eq. split.
  - intros E x Hx. assert (In x (sinter b a)) as H; [|apply in_sinter in H; tauto].
    revert x Hx. change (incl a (sinter b a)). apply NoDup_length_incl; [apply ssorted_nodup, ssorted_sinter, Sb|lia|].
    intros x Hx. apply in_sinter in Hx. tauto.
  - intros H. f_equal. f_equal. apply ssorted_ext; [apply ssorted_sinter, Sb|exact Sa|]. intros x. rewrite in_sinter. split; [tauto|auto].
Qed.

Lemma pair_text_inj k v k' v' : str_mem eq_sign k = false -> str_mem eq_sign k' = false -> pair_text k v = pair_text k' v' -> k = k' /\ v = v'.
Proof. intros H H' E. unfold pair_text in E. exact (split_sep eq_sign _ _ _ _ H H' E). Qed.

Lemma existsb_attr k v ls : Forall plain_attr ls -> str_mem eq_sign k = false ->
  existsb (is_attr (k, v)) ls = true <-> In (pair_text k v) (attr_words ls).
Proof.
  intros Hp Hk. rewrite existsb_exists. unfold attr_words. rewrite in_flat_map. split.
  - intros (a & Hin & Ha). exists a. split; [exact Hin|]. unfold is_attr in Ha. apply andb_true_iff in Ha. destruct Ha as [E1 E2].
    apply String.eqb_eq in E1. cbn in E1, E2. destruct (kv_val a) as [[w|]|]; try discriminate. apply String.eqb_eq in E2. subst. left. reflexivity.
  - intros (a & Hin & Ha). exists a. split; [exact Hin|]. rewrite Forall_forall in Hp. destruct (Hp _ Hin) as [Hn _].
    unfold is_attr. cbn. destruct (kv_val a) as [[w|]|]; [|destruct Ha|destruct Ha]. destruct Ha as [Ha|[]].
    apply pair_text_inj in Ha; [|exact Hn|exact Hk]. destruct Ha as [-> ->]. rewrite !String.eqb_refl. reflexivity.
Qed.

Lemma match_attr_spec l ls : agree_short h h0 ->
  (l <> [] -> Forall plain_attr ls) -> (forall k v, In (k, v) l -> (String.length (pair_text k v) < 32)%nat /\ str_mem eq_sign k = false) ->
  (forall k v w, In (k, v) l -> In w (attr_words ls) -> h (pair_text k v) = h w -> pair_text k v = w) ->
  match_attr h (sadds (pair_hashes l) []) ls = Some (all_there l ls).
Proof.
  intros Hag Hp Hl Hc. unfold match_attr. rewrite sempty_sadds. destruct l as [|kv l]; [reflexivity|]. specialize (Hp ltac:(discriminate)).
  cbn [pair_hashes map]. change (h0 (pair_text (fst kv) (snd kv)) :: map (fun kv => h0 (pair_text (fst kv) (snd kv))) l) with (pair_hashes (kv :: l)).
  destruct (attr_hashes_spec ls) with (b := @nil N) as (b & -> & Hs & Hm); [eapply Forall_impl; [|exact Hp]; intros a [_ Ha]; exact Ha|].
  f_equal. apply eq_true_iff_eq. rewrite card_subset; [|apply ssorted_sadds, ssorted_nil|apply Hs, ssorted_nil].
  unfold all_there. rewrite forallb_forall. split.
  - intros H (k, v) Hin. destruct (Hl _ _ Hin) as [Hlen Hk]. apply existsb_attr; [exact Hp|exact Hk|].
    destruct (proj1 (Hm (h (pair_text k v)))) as [[]|(w & Hw & E)].
    { apply H. apply in_sadds. left. rewrite <- Hag by exact Hlen. unfold pair_hashes. apply in_map_iff. exists (k, v). split; [reflexivity|exact Hin]. }
    rewrite (Hc _ _ _ Hin Hw E). exact Hw.
  - intros H x Hx. apply in_sadds in Hx. destruct Hx as [Hx|[]]. unfold pair_hashes in Hx. apply in_map_iff in Hx. destruct Hx as ((k, v) & <- & Hin).
    destruct (Hl _ _ Hin) as [Hlen Hk]. specialize (H _ Hin). apply existsb_attr in H; [|exact Hp|exact Hk].
    apply Hm. right. exists (pair_text k v). split; [exact H|]. cbn. apply Hag, Hlen.
Qed.
End V.

(** ------ traversal *)
Definition opt_list {A} (o : option A) : list A := match o with Some a => [a] | None => [] end.
Lemma keep_map_spec {A B X} (f : A -> option (option B)) (E : B -> list X) (W : A -> list X) (Q : B -> Prop) l :
  (forall a, In a l -> exists r, f a = Some r /\ flat_map E (opt_list r) = W a /\ Forall Q (opt_list r)) ->
  exists out, keep_map f l = Some out /\ flat_map E out = flat_map W l /\ Forall Q out.
Proof.
  induction l as [|a l IH]; intros H; [exists []; repeat split; constructor|].
  destruct (H a) as (r & Hr & He & Hq); [left; reflexivity|]. destruct IH as (out & Ho & He' & Hq'); [intros; apply H; right; assumption|].
  cbn [keep_map]. rewrite Hr, Ho. exists (opt_list r ++ out). split; [destruct r; reflexivity|]. split.
  - rewrite flat_map_app, He, He'. reflexivity.
  - apply Forall_app. split; assumption.
Qed.
Lemma keep_filter {A} (f : A -> option bool) (g : A -> bool) l : (forall a, In a l -> f a = Some (g a)) -> keep f l = Some (filter g l).
Proof.
  induction l as [|a l IH]; intros H; [reflexivity|]. cbn [keep filter]. rewrite (H a) by (left; reflexivity).
  rewrite IH by (intros; apply H; right; assumption). destruct (g a); reflexivity.
Qed.
Lemma filter_map {A B} (f : A -> B) p l : filter p (map f l) = map f (filter (fun a => p (f a)) l).
Proof. induction l as [|a l IH]; [reflexivity|]. cbn. destruct (p (f a)); cbn; rewrite IH; reflexivity. Qed.
Lemma filter_flat_map {A B} (f : A -> list B) p l : filter p (flat_map f l) = flat_map (fun a => filter p (f a)) l.
Proof. induction l as [|a l IH]; [reflexivity|]. cbn. rewrite filter_app, IH. reflexivity. Qed.
Lemma map_flat_map {A B C} (g : B -> C) (f : A -> list B) l : map g (flat_map f l) = flat_map (fun a => map g (f a)) l.
Proof. induction l as [|a l IH]; [reflexivity|]. cbn. rewrite map_app, IH. reflexivity. Qed.
Lemma filter_false {A} (l : list A) : filter (fun _ => false) l = [].
Proof. induction l; [reflexivity|assumption]. Qed.

Section Walk.
Context {A : Type} (parts : A -> list full_record) (full : A -> Prop) (item : A -> option (option A)).
Context (rec_ok : full_record -> bool) (scope_ok : string -> option scope -> bool) (res_ok : string -> option resource -> bool).
Context (h : string -> N) (o : visitor).
Definition scope_entries (s : scope_group A) : list ((string * option scope) * full_record) :=
  flat_map (fun a => map (fun r => ((sg_schema s, sg_scope s), r)) (parts a)) (sg_items s).
Definition res_entries (g : resource_group A) : list entry :=
  flat_map (fun s => map (fun x => ((rg_schema g, rg_resource g), fst x, snd x)) (scope_entries s)) (rg_scopes g).
Definition scope_pass (x : (string * option scope) * full_record) : bool := scope_ok (fst (fst x)) (snd (fst x)) && rec_ok (snd x).
Definition scope_forget (x : (string * option scope) * full_record) : (string * option scope) * full_record := (("", snd (fst x)), forget_record (snd x)).
Definition res_pass (e : entry) : bool := let '((rs, r), (ss, s), x) := e in res_ok rs r && scope_ok ss s && rec_ok x.
Definition item_good (a : A) : Prop := exists r, item a = Some r /\ flat_map parts (opt_list r) = map forget_record (filter rec_ok (parts a)) /\ Forall full (opt_list r).
Definition scope_full (s : scope_group A) : Prop := sg_items s <> [] /\ Forall full (sg_items s).

Lemma visit_scope_spec s : accept_scope h o s = Some (scope_ok (sg_schema s) (sg_scope s)) -> (forall a, In a (sg_items s) -> item_good a) ->
  exists r, visit_scope h item o s = Some r /\ flat_map scope_entries (opt_list r) = map scope_forget (filter scope_pass (scope_entries s)) /\ Forall scope_full (opt_list r).
Proof.
  intros Ha Hi. unfold visit_scope. rewrite Ha.
  assert (filter scope_pass (scope_entries s) =
          if scope_ok (sg_schema s) (sg_scope s) then flat_map (fun a => map (fun r => ((sg_schema s, sg_scope s), r)) (filter rec_ok (parts a))) (sg_items s) else []) as ->.
  { unfold scope_entries. rewrite filter_flat_map. destruct (scope_ok _ _) eqn:E.
    - apply flat_map_ext. intros a. rewrite filter_map. f_equal. apply filter_ext. intros r. unfold scope_pass. cbn. rewrite E. reflexivity.
    - induction (sg_items s) as [|a l IH]; [reflexivity|]. cbn. rewrite IH by (intros; apply Hi; right; assumption). rewrite app_nil_r, filter_map.
      erewrite filter_ext; [rewrite filter_false; reflexivity|]. intros r. unfold scope_pass. cbn. rewrite E. reflexivity. }
  destruct (scope_ok _ _); [|exists None; repeat split; constructor].
  destruct (keep_map_spec item parts (fun a => map forget_record (filter rec_ok (parts a))) full (sg_items s)) as (l & -> & He & Hq); [exact Hi|].
  assert (map scope_forget (flat_map (fun a => map (fun r => ((sg_schema s, sg_scope s), r)) (filter rec_ok (parts a))) (sg_items s)) =
          map (fun r => (("", sg_scope s), r)) (flat_map parts l)) as ->.
  { rewrite He, !map_flat_map. apply flat_map_ext. intros a. rewrite !map_map. reflexivity. }
  destruct l as [|a l].
  - exists None. repeat split. constructor.
  - eexists. split; [reflexivity|]. split.
    + generalize (a :: l) as L. intros L. cbn [opt_list flat_map]. rewrite app_nil_r. unfold scope_entries. cbn [sg_schema sg_scope sg_items]. rewrite map_flat_map. reflexivity.
    + constructor; [|constructor]. split; [discriminate|exact Hq].
Qed.

Lemma visit_resource_spec g : accept_resource h o g = Some (res_ok (rg_schema g) (rg_resource g)) ->
  (forall s, In s (rg_scopes g) -> accept_scope h o s = Some (scope_ok (sg_schema s) (sg_scope s)) /\ forall a, In a (sg_items s) -> item_good a) ->
  exists r, visit_resource h item o g = Some r /\ flat_map res_entries (opt_list r) = map forget (filter res_pass (res_entries g)) /\
    Forall (fun g => rg_scopes g <> [] /\ Forall scope_full (rg_scopes g)) (opt_list r).
Proof.
  intros Ha Hs. unfold visit_resource. rewrite Ha. set (gh := (rg_schema g, rg_resource g)).
  assert (filter res_pass (res_entries g) =
          if res_ok (rg_schema g) (rg_resource g) then flat_map (fun s => map (fun x => (gh, fst x, snd x)) (filter scope_pass (scope_entries s))) (rg_scopes g) else []) as ->.
  { unfold res_entries. rewrite filter_flat_map. destruct (res_ok _ _) eqn:E.
    - apply flat_map_ext. intros a. rewrite filter_map. fold gh. f_equal. apply filter_ext. intros [[ss sc] x]. unfold res_pass, scope_pass. cbn. rewrite E. reflexivity.
    - induction (rg_scopes g) as [|a l IH]; [reflexivity|]. cbn. rewrite IH by (intros; apply Hs; right; assumption). rewrite app_nil_r, filter_map.
      erewrite filter_ext; [rewrite filter_false; reflexivity|]. intros [[ss sc] x]. unfold res_pass. cbn. rewrite E. reflexivity. }
  destruct (res_ok _ _); [|exists None; repeat split; constructor].
  destruct (keep_map_spec (visit_scope h item o) scope_entries (fun s => map scope_forget (filter scope_pass (scope_entries s))) scope_full (rg_scopes g)) as (l & -> & He & Hq).
  { intros s Hin. destruct (Hs _ Hin). apply visit_scope_spec; assumption. }
  assert (map forget (flat_map (fun s => map (fun x => (gh, fst x, snd x)) (filter scope_pass (scope_entries s))) (rg_scopes g)) =
          map (fun x => (gh, fst x, snd x)) (flat_map scope_entries l)) as ->.
  { rewrite He, !map_flat_map. apply flat_map_ext. intros s. rewrite !map_map. apply map_ext. intros [[ss sc] x]. reflexivity. }
  destruct l as [|s l].
  - exists None. repeat split. constructor.
  - eexists. split; [reflexivity|]. split.
    + generalize (s :: l) as L. intros L. cbn [opt_list flat_map]. rewrite app_nil_r. unfold res_entries. cbn [rg_schema rg_resource rg_scopes]. rewrite map_flat_map. reflexivity.
    + constructor; [|constructor]. split; [discriminate|exact Hq].
Qed.

Lemma entries_of_res gs : entries_of parts gs = flat_map res_entries gs.
Proof.
  unfold entries_of, res_entries, scope_entries. apply flat_map_ext. intros g. apply flat_map_ext. intros s.
  rewrite map_flat_map. apply flat_map_ext. intros a. rewrite map_map. reflexivity.
Qed.
Lemma walk_spec gs : (forall g, In g gs -> accept_resource h o g = Some (res_ok (rg_schema g) (rg_resource g)) /\
    forall s, In s (rg_scopes g) -> accept_scope h o s = Some (scope_ok (sg_schema s) (sg_scope s)) /\ forall a, In a (sg_items s) -> item_good a) ->
  exists out, keep_map (visit_resource h item o) gs = Some out /\ entries_of parts out = map forget (filter res_pass (entries_of parts gs)) /\ no_empty_group full out.
Proof.
  intros H. destruct (keep_map_spec (visit_resource h item o) res_entries (fun g => map forget (filter res_pass (res_entries g)))
    (fun g => rg_scopes g <> [] /\ Forall scope_full (rg_scopes g)) gs) as (out & Ho & He & Hq).
  { intros g Hin. destruct (H _ Hin). apply visit_resource_spec; assumption. }
  exists out. split; [exact Ho|]. split; [|exact Hq]. rewrite !entries_of_res, He, filter_flat_map, map_flat_map. reflexivity.
Qed.
End Walk.

(** ------ the whole *)
Lemma all_there_scope_pairs fs ls : all_there (scope_pairs fs) ls = (all_there (pairs fs PREFIX_SCOPE_ATTRIBUTES) ls && all_there (pairs fs PREFIX_ATTRIBUTES) ls)%bool.
Proof.
  unfold all_there, scope_pairs, pairs. induction fs as [|f fs IH]; [reflexivity|]. cbn [flat_map]. rewrite !forallb_app, IH.
  destruct f as [q v|q k v|]; [reflexivity| |reflexivity].
  destruct (Z.eqb_spec q PREFIX_SCOPE_ATTRIBUTES) as [->|?]; [cbn; btauto|]. destruct (Z.eqb_spec q PREFIX_ATTRIBUTES) as [->|?]; cbn; btauto.
Qed.
Lemma in_texts fs p v : In v (texts fs p) -> In (FBase p v) fs.
Proof. unfold texts. rewrite in_flat_map. intros (f & Hf & Hv). destruct f as [q w|q k w|]; [|destruct Hv|destruct Hv]. destruct (Z.eqb_spec q p) as [->|?]; [|destruct Hv]. destruct Hv as [<-|[]]. exact Hf. Qed.
Lemma in_pairs fs p k v : In (k, v) (pairs fs p) -> In (FAttr p k v) fs.
Proof. unfold pairs. rewrite in_flat_map. intros (f & Hf & Hv). destruct f as [q w|q k' w|]; [destruct Hv| |destruct Hv]. destruct (Z.eqb_spec q p) as [->|?]; [|destruct Hv]. destruct Hv as [[= <- <-]|[]]. exact Hf. Qed.
Lemma in_scope_pairs fs k v : In (k, v) (scope_pairs fs) -> exists p, In (FAttr p k v) fs.
Proof. unfold scope_pairs. rewrite in_flat_map. intros (f & Hf & Hv). destruct f as [q w|q k' w|]; [destruct Hv| |destruct Hv]. destruct (_ || _)%bool; [|destruct Hv]. destruct Hv as [[= <- <-]|[]]. eauto. Qed.

Section Top.
Context (h h0 : string -> N) (fs : list scan_filter) (st en : N).
Hypothesis Hag : agree_short h h0.
Hypothesis Hpc : plain_conditions fs.
Definition the_visitor : visitor := compile_all h h0 fs (set_time_range st en visitor_new).

Lemma accept_text_ok l p x ws : l = texts fs p -> tells_apart h fs ws -> In x ws -> accept_text h (sadds (map h l) []) x = one_of (texts fs p) x.
Proof. intros -> Ht Hx. apply accept_text_spec. intros a Ha E. apply Ht; [|exact Hx|exact E]. left. exists p, a. split; [apply in_texts, Ha|left; reflexivity]. Qed.
Lemma accept_id_ok p b ws : tells_apart h fs ws -> In (the_id b) ws -> accept_text h (sadds (id_hashes h (texts fs p)) []) (id_bytes b) = id_one_of (hex_only (texts fs p)) b.
Proof. intros Ht Hx. apply accept_id_spec. intros a w Ha El E. apply Ht; [|exact Hx|exact E]. left. exists p, a. split; [apply in_texts, Ha|right; symmetry; exact El]. Qed.
Lemma match_ok l ls ws : (forall k v, In (k, v) l -> exists p, In (FAttr p k v) fs) -> tells_apart h fs ws -> plain_attrs fs ls -> incl (attr_words ls) ws ->
  match_attr h (sadds (pair_hashes h0 l) []) ls = Some (all_there l ls).
Proof.
  intros Hl Ht Hp Hi. apply match_attr_spec; [exact Hag| | |].
  - intros Hne. apply Hp. destruct l as [|[k v] l]; [contradiction|]. destruct (Hl k v) as (p & Hf); [left; reflexivity|]. eauto.
  - intros k v Hk. destruct (Hl _ _ Hk) as (p & Hf). exact (Hpc _ _ _ Hf).
  - intros k v w Hk Hw E. destruct (Hl _ _ Hk) as (p & Hf). apply Ht; [|apply Hi, Hw|exact E]. right. exists p, k, v. split; [exact Hf|reflexivity].
Qed.

Lemma accept_resource_ok {A} (g : resource_group A) ws : tells_apart h fs ws -> plain_attrs fs (attrs_of_resource (rg_resource g)) ->
  In (rg_schema g) ws -> incl (attr_words (attrs_of_resource (rg_resource g))) ws ->
  accept_resource h the_visitor g = Some (wanted_resource fs (rg_schema g) (rg_resource g)).
Proof.
  intros Ht Hp Hs Ha. unfold accept_resource, the_visitor. rewrite compile_all_spec. cbn [v_resource_schema v_resource_attr set_time_range visitor_new].
  rewrite (accept_text_ok _ PREFIX_RESOURCE_SCHEMA _ ws eq_refl Ht Hs). unfold and_then, wanted_resource.
  change (match rg_resource g with Some r => r_attrs r | None => [] end) with (attrs_of_resource (rg_resource g)).
  rewrite (match_ok _ _ ws); [|intros k v Hk; eexists; apply in_pairs, Hk|exact Ht|exact Hp|exact Ha]. destruct (one_of _ _); reflexivity.
Qed.
Lemma accept_scope_ok {A} (s : scope_group A) ws : tells_apart h fs ws -> plain_attrs fs (attrs_of_scope (sg_scope s)) ->
  In (sg_schema s) ws -> In (name_of_scope (sg_scope s)) ws -> In (version_of_scope (sg_scope s)) ws -> incl (attr_words (attrs_of_scope (sg_scope s))) ws ->
  accept_scope h the_visitor s = Some (executed_scope fs (sg_schema s) (sg_scope s)).
Proof.
  intros Ht Hp Hs Hn Hv Ha. unfold accept_scope, the_visitor. rewrite compile_all_spec. cbn [v_scope_schema v_scope_name v_scope_version v_scope_attr set_time_range visitor_new].
  rewrite (accept_text_ok _ PREFIX_SCOPE_SCHEMA _ ws eq_refl Ht Hs).
  change (match sg_scope s with Some x => s_name x | None => "" end) with (name_of_scope (sg_scope s)).
  change (match sg_scope s with Some x => s_version x | None => "" end) with (version_of_scope (sg_scope s)).
  rewrite (accept_text_ok _ PREFIX_SCOPE_NAME _ ws eq_refl Ht Hn), (accept_text_ok _ PREFIX_SCOPE_VERSION _ ws eq_refl Ht Hv).
  change (match sg_scope s with Some x => s_attrs x | None => [] end) with (attrs_of_scope (sg_scope s)).
  rewrite (match_ok _ _ ws); [|intros k v Hk; apply in_scope_pairs, Hk|exact Ht|exact Hp|exact Ha].
  unfold and_then, executed_scope, wanted_scope. rewrite all_there_scope_pairs.
  destruct (one_of _ (sg_schema s)), (one_of _ (name_of_scope _)), (one_of _ (version_of_scope _)); cbn; reflexivity.
Qed.

Lemma v_attr_empty : v_attr the_visitor = [].
Proof. unfold the_visitor. rewrite compile_all_spec. reflexivity. Qed.
Lemma accept_time_ok t : accept_time the_visitor t = in_window (Z.of_N st) (Z.of_N en) t.
Proof.
  unfold accept_time, the_visitor. rewrite compile_all_spec. cbn. unfold in_window. f_equal; apply eq_true_iff_eq.
  - rewrite N.leb_le, Z.leb_le. lia.
  - rewrite N.ltb_lt, Z.ltb_lt. lia.
Qed.
Let ok := executed_record fs (Z.of_N st) (Z.of_N en).

Lemma item_metric m ws : tells_apart h fs ws -> In (m_name m) ws ->
  item_good metric_parts (fun m => metric_parts m <> []) (visit_metric h the_visitor) ok m.
Proof.
  intros Ht Hn. unfold item_good, visit_metric. unfold the_visitor at 1. rewrite compile_all_spec. cbn [v_name set_time_range visitor_new].
  rewrite (accept_text_ok _ PREFIX_NAME _ ws eq_refl Ht Hn). unfold metric_parts at 2. destruct (m_data m) as [d|] eqn:Ed.
  - rewrite filter_map. subst ok. cbn [executed_record]. destruct (one_of (texts fs PREFIX_NAME) (m_name m)); cbn [andb].
    + rewrite (keep_filter _ (fun p => in_window (Z.of_N st) (Z.of_N en) (p_time p))).
      2:{ intros p _. unfold accept_point. rewrite v_attr_empty, accept_time_ok. destruct (in_window _ _ _); reflexivity. }
      set (l := filter _ _). clearbody l. destruct l as [|p l]; [exists None; repeat split; constructor|].
      eexists. split; [reflexivity|]. generalize (p :: l) at 1 2 as L. intros L. split.
      * cbn [opt_list flat_map]. rewrite app_nil_r, map_map. unfold metric_parts. cbn [m_data m_name m_desc m_unit].
        unfold trimmed_data. destruct d as [k t mo ps]. destruct k; cbn; reflexivity.
      * constructor; [|constructor]. unfold metric_parts. cbn [m_data]. destruct d as [k t mo ps]. destruct k; cbn; discriminate.
    + exists None. split; [reflexivity|]. split; [|constructor]. rewrite filter_false. reflexivity.
  - exists None. split; [destruct (one_of _ _); reflexivity|]. split; [reflexivity|constructor].
Qed.
Lemma item_log l ws : tells_apart h fs ws -> In (lr_severity l) ws -> item_good log_parts (fun _ => True) (visit_log h the_visitor) ok l.
Proof.
  intros Ht Hn. unfold item_good, visit_log. rewrite v_attr_empty, accept_time_ok. unfold the_visitor. rewrite compile_all_spec. cbn [v_level set_time_range visitor_new].
  rewrite (accept_text_ok _ PREFIX_LOGS_LEVEL _ ws eq_refl Ht Hn). unfold log_parts at 2. subst ok. cbn [filter executed_record].
  destruct (one_of _ _); cbn [andb and_then]; [|exists None; repeat split; constructor].
  destruct (in_window _ _ _); [exists (Some l)|exists None]; repeat split; constructor; auto.
Qed.
Lemma item_span s ws : tells_apart h fs ws -> In (sp_name s) ws -> In (the_id (sp_trace s)) ws -> In (the_id (sp_span s)) ws ->
  item_good span_parts (fun _ => True) (visit_span h the_visitor) ok s.
Proof.
  intros Ht Hn Htr Hsp. unfold item_good, visit_span. rewrite v_attr_empty, accept_time_ok. unfold the_visitor. rewrite compile_all_spec.
  cbn [v_name v_trace v_parent set_time_range visitor_new].
  rewrite (accept_text_ok _ PREFIX_NAME _ ws eq_refl Ht Hn), (accept_id_ok PREFIX_TRACE_ID _ ws Ht Htr), (accept_id_ok PREFIX_PARENT_SPAN_ID _ ws Ht Hsp).
  unfold span_parts at 2. subst ok. cbn [filter executed_record]. cbn [match_attr sempty].
  destruct (one_of _ _ && in_window _ _ _ && id_one_of _ _ && id_one_of _ _)%bool; cbn [and_then]; [exists (Some s)|exists None]; repeat split; constructor; auto.
Qed.

Lemma heads_ok {A} (iw : A -> list string) (good : A -> Prop) gs : tells_apart h fs (words_of iw gs) -> plain_attrs fs (attrs_in gs) ->
  (forall a, incl (iw a) (words_of iw gs) -> good a) ->
  forall g, In g gs -> accept_resource h the_visitor g = Some (wanted_resource fs (rg_schema g) (rg_resource g)) /\
    forall s, In s (rg_scopes g) -> accept_scope h the_visitor s = Some (executed_scope fs (sg_schema s) (sg_scope s)) /\ forall a, In a (sg_items s) -> good a.
Proof.
  intros Ht Hp Hi g Hg. unfold plain_attrs in Hp. rewrite Forall_forall in Hp.
  assert (forall x, In x (rg_schema g :: attr_words (attrs_of_resource (rg_resource g)) ++
    flat_map (fun s => sg_schema s :: name_of_scope (sg_scope s) :: version_of_scope (sg_scope s) :: attr_words (attrs_of_scope (sg_scope s)) ++
      flat_map iw (sg_items s)) (rg_scopes g)) -> In x (words_of iw gs)) as Hw by (intros x Hx; unfold words_of; apply in_flat_map; exists g; split; assumption).
  split.
  - apply accept_resource_ok with (ws := words_of iw gs); [exact Ht| | |].
    + intros Hex. apply Forall_forall. intros a Ha. apply (Hp Hex). unfold attrs_in. apply in_flat_map. exists g. split; [exact Hg|]. apply in_or_app. left. exact Ha.
    + apply Hw. left. reflexivity.
    + intros x Hx. apply Hw. right. apply in_or_app. left. exact Hx.
  - intros s Hs.
    assert (forall x, In x (sg_schema s :: name_of_scope (sg_scope s) :: version_of_scope (sg_scope s) :: attr_words (attrs_of_scope (sg_scope s)) ++
      flat_map iw (sg_items s)) -> In x (words_of iw gs)) as Hw' by (intros x Hx; apply Hw; right; apply in_or_app; right; apply in_flat_map; exists s; split; assumption).
    split.
    + apply accept_scope_ok with (ws := words_of iw gs); [exact Ht| | | | |].
      * intros Hex. apply Forall_forall. intros a Ha. apply (Hp Hex). unfold attrs_in. apply in_flat_map. exists g. split; [exact Hg|]. apply in_or_app. right.
        apply in_flat_map. exists s. split; assumption.
      * apply Hw'. left. reflexivity.
      * apply Hw'. right. left. reflexivity.
      * apply Hw'. right. right. left. reflexivity.
      * intros x Hx. apply Hw'. do 3 right. apply in_or_app. left. exact Hx.
    + intros a Ha. apply Hi. intros x Hx. apply Hw'. do 3 right. apply in_or_app. right. apply in_flat_map. exists a. split; assumption.
Qed.

Lemma visit_executed d : tells_apart h fs (words d) -> plain_attrs fs (head_attrs d) ->
  exists out, visit h the_visitor d = Some out /\ same_signal d out /\
    entries out = map forget (filter (executed fs (Z.of_N st) (Z.of_N en)) (entries d)) /\ no_empty out.
Proof.
  intros Ht Hp. destruct d as [gs|gs|gs|]; cbn [words head_attrs] in Ht, Hp.
  - destruct (walk_spec metric_parts (fun m => metric_parts m <> []) (visit_metric h the_visitor) ok (executed_scope fs) (wanted_resource fs) h the_visitor gs) as (out & Ho & He & Hn).
    { apply (heads_ok (fun m => [m_name m]) _ gs Ht Hp). intros a Ha. apply item_metric with (ws := words_of (fun m => [m_name m]) gs); [exact Ht|apply Ha; left; reflexivity]. }
    exists (DMetrics out). cbn [visit]. rewrite Ho. repeat split; [exact He|exact Hn].
  - destruct (walk_spec span_parts (fun _ => True) (visit_span h the_visitor) ok (executed_scope fs) (wanted_resource fs) h the_visitor gs) as (out & Ho & He & Hn).
    { apply (heads_ok (fun s => [sp_name s; the_id (sp_trace s); the_id (sp_span s)]) _ gs Ht Hp). intros a Ha.
      eapply item_span; [exact Ht|apply Ha; left; reflexivity|apply Ha; right; left; reflexivity|apply Ha; do 2 right; left; reflexivity]. }
    exists (DTraces out). cbn [visit]. rewrite Ho. repeat split; [exact He|exact Hn].
  - destruct (walk_spec log_parts (fun _ => True) (visit_log h the_visitor) ok (executed_scope fs) (wanted_resource fs) h the_visitor gs) as (out & Ho & He & Hn).
    { apply (heads_ok (fun l => [lr_severity l]) _ gs Ht Hp). intros a Ha. eapply item_log; [exact Ht|apply Ha; left; reflexivity]. }
    exists (DLogs out). cbn [visit]. rewrite Ho. repeat split; [exact He|exact Hn].
  - exists DNone. repeat split.
Qed.
End Top.

(** ------ supported conditions *)
Definition no_cond_on (p : Z) (fs : list scan_filter) : Prop := texts fs p = [] /\ pairs fs p = [].
Definition is_logs (d : data) : bool := match d with DLogs _ => true | _ => false end.
Definition supported (fs : list scan_filter) (d : data) : Prop :=
  no_cond_on PREFIX_ATTRIBUTES fs /\ no_cond_on PREFIX_SPAN_ID fs /\ no_cond_on PREFIX_PARENT_SPAN_ID fs /\
  Forall (fun v => is_hex v = true) (texts fs PREFIX_TRACE_ID) /\ (is_logs d = true -> no_cond_on PREFIX_TRACE_ID fs).
Lemma hex_only_all l : Forall (fun v => is_hex v = true) l -> hex_only l = l.
Proof. induction 1 as [|a l Ha _ IH]; [reflexivity|]. unfold hex_only. cbn. rewrite Ha. f_equal. exact IH. Qed.

Definition record_is_log (e : entry) : bool := match snd e with RLog _ => true | _ => false end.
Lemma not_log_entries d e : In e (entries d) -> record_is_log e = is_logs d.
Proof.
  destruct d as [gs|gs|gs|]; cbn [entries is_logs]; [| | |intros []]; unfold entries_of; rewrite in_flat_map;
    intros (g & _ & H); apply in_flat_map in H; destruct H as (s & _ & H); apply in_flat_map in H; destruct H as (a & _ & H);
    apply in_map_iff in H; destruct H as (r & <- & Hr); unfold record_is_log; cbn [snd].
  - unfold metric_parts in Hr. destruct (m_data a); [|destruct Hr]. apply in_map_iff in Hr. destruct Hr as (p & <- & _). reflexivity.
  - destruct Hr as [<-|[]]. reflexivity.
  - destruct Hr as [<-|[]]. reflexivity.
Qed.
Lemma executed_wanted fs st en d e : supported fs d -> In e (entries d) -> executed fs st en e = wanted fs st en e.
Proof.
  intros ((_ & Ha) & (Hs & _) & (Hp & _) & Ht & Hl) He. apply not_log_entries in He. rewrite <- He in Hl. clear He.
  destruct e as [[[rs r] [ss s]] x]. unfold record_is_log in Hl. cbn [snd] in Hl. unfold executed, wanted, executed_scope. rewrite Ha. cbn [all_there forallb]. rewrite andb_true_r. f_equal.
  destruct x as [n de u k t m p|l|sp]; cbn [executed_record wanted_record]; rewrite ?Ha; cbn [all_there forallb]; rewrite ?Hs, ?Hp; cbn [id_one_of hex_only filter].
  - btauto.
  - destruct (Hl eq_refl) as [Hl' _]. rewrite Hl'. cbn [id_one_of]. btauto.
  - rewrite hex_only_all by exact Ht. btauto.
Qed.
