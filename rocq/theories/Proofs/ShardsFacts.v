From Verif.Model Require Import Base View Batch Rows Shards.
From Verif.Proofs Require Import BaseFacts RowsFacts.
Open Scope N_scope.

Lemma is_open_spec s k : is_open s k = true <-> In k (sh_open s).
Proof.
  unfold is_open. rewrite existsb_exists. split.
  - intros (x & I & E). apply N.eqb_eq in E. subst. exact I.
  - intros I. exists k. split; [exact I|apply N.eqb_refl].
Qed.
Lemma sw0 : shard_width <> 0. Proof. discriminate. Qed.

(** Row [r] has column [c] in a bitmap of positions. *)
Definition has (bm : nset) (r c : N) : Prop := In (r * shard_width + c mod shard_width) bm.
Lemma in_rows_with bm cols r : cols <> [] -> In r (rows_with bm cols) <-> forall c, In c cols -> has bm r c.
Proof.
  intros NE. unfold rows_with. rewrite filter_In, in_sof_list, in_map_iff, forallb_forall. split.
  - intros [_ H] c Hc. apply in_smem, H, Hc.
  - intros H. split.
    + destruct cols as [|c cols]; [congruence|]. specialize (H c (or_introl eq_refl)).
      exists (r * shard_width + c mod shard_width). split; [|exact H].
      rewrite N.div_add_l by apply sw0. rewrite N.div_small; [lia|]. apply N.mod_lt, sw0.
    + intros c Hc. apply in_smem. exact (H c Hc).
Qed.
Lemma ssorted_rows_with bm cols : ssorted (rows_with bm cols).
Proof. apply ssorted_filter, ssorted_sof_list. Qed.
Lemma shard_match_gen s k cols views : forall b, ssorted b -> cols <> [] ->
  ssorted (fold_left (fun b v => sunion b (rows_with (tx_view (sh_tx s k) v) cols)) views b) /\
  forall r, In r (fold_left (fun b v => sunion b (rows_with (tx_view (sh_tx s k) v) cols)) views b) <->
   In r b \/ exists v, In v views /\ forall c, In c cols -> has (tx_view (sh_tx s k) v) r c.
Proof.
  induction views as [|v views IH]; intros b Sb NE; cbn [fold_left].
  - split; [exact Sb|]. intros r. split; [auto|intros [H|(v & [] & _)]; exact H].
  - destruct (IH (sunion b (rows_with (tx_view (sh_tx s k) v) cols)) (ssorted_sunion _ _ Sb) NE) as [A B].
    split; [exact A|]. intros r. rewrite B, in_sunion, (in_rows_with _ _ _ NE). split.
    + intros [[H|H]|(v' & I & H)]; [left; exact H|right; exists v; split; [left; reflexivity|exact H]|right; exists v'; split; [right; exact I|exact H]].
    + intros [H|(v' & [<-|I] & H)]; [left; left; exact H|left; right; exact H|right; exists v'; auto].
Qed.
Lemma shard_match_spec s views k cols : cols <> [] ->
  ssorted (shard_match s views k cols) /\
  forall r, In r (shard_match s views k cols) <-> exists v, In v views /\ forall c, In c cols -> has (tx_view (sh_tx s k) v) r c.
Proof.
  intros NE. destruct (shard_match_gen s k cols views [] ssorted_nil NE) as [A B]. split; [exact A|].
  intros r. unfold shard_match. rewrite B. cbn. tauto.
Qed.

(** The set a look-up result stands for: no bitmap is the empty set. *)
Definition res_in (x : N) (r : option nset) : Prop := match r with Some b => In x b | None => False end.

Section Loop.
Variables (s : shards) (views : list string).
Let M (g : N * list N) := shard_match s views (fst g) (snd g).
Definition acc_ok (acc : option nset) : Prop := match acc with Some r => ssorted r /\ r <> [] | None => True end.
Lemma rows_loop_spec : forall groups acc, acc_ok acc ->
  (match rows_loop s views groups acc with Some r => ssorted r | None => True end) /\
  forall x, res_in x (rows_loop s views groups acc) <->
   (forall g, In g groups -> is_open s (fst g) = true) /\
   (acc = None -> exists g, In g groups /\ M g <> []) /\
   (forall r, acc = Some r -> In x r) /\
   (forall g, In g groups -> M g <> [] -> In x (M g)).
Proof.
  assert (MS : forall k cols, ssorted (shard_match s views k cols)).
  { intros k cols. unfold shard_match. assert (G : forall b, ssorted b -> ssorted (fold_left (fun b v => sunion b (rows_with (tx_view (sh_tx s k) v) cols)) views b)).
    { induction views as [|v vs IH]; intros b Hb; cbn [fold_left]; [exact Hb|]. apply IH, ssorted_sunion, Hb. }
    apply G, ssorted_nil. }
  induction groups as [|[k cols] groups IH]; intros acc Hacc; cbn [rows_loop].
  - split; [destruct acc; [apply Hacc|exact I]|]. intros x. destruct acc as [r|]; cbn [res_in].
    + split; [intros H; split; [intros ? []|split; [discriminate|split; [intros r' E; apply some_inj in E; subst; exact H|intros ? []]]]|].
      intros (_ & _ & H & _). apply H. reflexivity.
    + split; [intros []|]. intros (_ & H & _). destruct (H eq_refl) as (g & [] & _).
  - destruct (is_open s k) eqn:EO.
    + cbv zeta. change (shard_match s views k cols) with (M (k, cols)).
      destruct (sempty (M (k, cols))) eqn:EB.
      * apply sempty_spec in EB. destruct (IH acc Hacc) as [A B]. split; [exact A|]. intros x. rewrite B. split.
        -- intros (H1 & H2 & H3 & H4). split; [intros g [<-|I]; auto|]. split; [intros E; destruct (H2 E) as (g & I & H); exists g; split; [right; exact I|exact H]|].
           split; [exact H3|]. intros g [<-|I] H; [congruence|auto].
        -- intros (H1 & H2 & H3 & H4). split; [intros g I; apply H1; right; exact I|]. split.
           ++ intros E. destruct (H2 E) as (g & [<-|I] & H); [congruence|exists g; auto].
           ++ split; [exact H3|]. intros g I H. apply H4; [right; exact I|exact H].
      * assert (NB : M (k, cols) <> []) by (intros C; rewrite C in EB; discriminate).
        destruct acc as [r|].
        -- destruct Hacc as [Sr NR]. destruct (sempty (sinter r (M (k, cols)))) eqn:EI.
           ++ apply sempty_spec in EI. destruct r as [|r0 r1]; [congruence|]. cbn [sempty negb andb]. rewrite EI. split; [apply ssorted_nil|].
              intros x. cbn [res_in]. split; [intros []|]. intros (_ & _ & H3 & H4).
              assert (C : In x (sinter (r0 :: r1) (M (k, cols)))).
              { apply in_sinter. split; [apply H3; reflexivity|apply H4; [left; reflexivity|exact NB]]. }
              rewrite EI in C. destruct C.
           ++ cbn [andb]. destruct (IH (Some (sinter r (M (k, cols))))) as [A B].
              { split; [apply ssorted_sinter, Sr|]. intros C. rewrite C in EI. discriminate. }
              split; [exact A|]. intros x. rewrite B. split.
              ** intros (H1 & _ & H3 & H4). specialize (H3 _ eq_refl). apply in_sinter in H3 as [H3 H3'].
                 split; [intros g [<-|I]; auto|]. split; [discriminate|]. split; [intros r' E; apply some_inj in E; subst; exact H3|].
                 intros g [<-|I] H; auto.
              ** intros (H1 & _ & H3 & H4). split; [intros g I; apply H1; right; exact I|]. split; [discriminate|]. split.
                 --- intros r' E. apply some_inj in E. subst r'. apply in_sinter. split; [apply H3; reflexivity|apply H4; [left; reflexivity|exact NB]].
                 --- intros g I H. apply H4; [right; exact I|exact H].
        -- destruct (IH (Some (M (k, cols)))) as [A B]; [split; [apply MS|exact NB]|]. split; [exact A|]. intros x. rewrite B. split.
           ++ intros (H1 & _ & H3 & H4). specialize (H3 _ eq_refl).
              split; [intros g [<-|I]; auto|]. split; [intros _; exists (k, cols); split; [left; reflexivity|exact NB]|].
              split; [discriminate|]. intros g [<-|I] H; auto.
           ++ intros (H1 & _ & _ & H4). split; [intros g I; apply H1; right; exact I|]. split; [discriminate|]. split.
              ** intros r' E. apply some_inj in E. subst r'. apply H4; [left; reflexivity|exact NB].
              ** intros g I H. apply H4; [right; exact I|exact H].
    + split; [destruct acc; [apply ssorted_nil|exact I]|]. intros x. split.
      * destruct acc; intros [].
      * intros (H1 & _). specialize (H1 (k, cols) (or_introl eq_refl)). cbn in H1. congruence.
Qed.
End Loop.

(* ------------------------------------------------------------------ grouping *)
Lemma group_columns_gen cols : forall m,
  (NoDup (map fst m) -> NoDup (map fst (fold_left group_add cols m))) /\
  forall k, match aget N.eqb k (fold_left group_add cols m) with Some l => l | None => [] end =
   match aget N.eqb k m with Some l => l | None => [] end ++ filter (fun c => c / shard_width =? k) cols.
Proof.
  induction cols as [|c cols IH]; intros m; cbn [fold_left filter].
  - split; [auto|]. intros k. rewrite app_nil_r. reflexivity.
  - destruct (IH (group_add m c)) as [A B]. split.
    + intros H. apply A. unfold group_add. apply nodup_aset; [apply N_eqb_reflect|exact H].
    + intros k. rewrite B. unfold group_add. rewrite (aget_aset _ N_eqb_reflect).
      destruct (N.eqb_spec k (c / shard_width)) as [->|NE].
      * rewrite N.eqb_refl, <- app_assoc. reflexivity.
      * destruct (N.eqb_spec (c / shard_width) k); [congruence|]. reflexivity.
Qed.
Lemma group_keys_gen cols : forall m k, In k (map fst (fold_left group_add cols m)) -> In k (map fst m) \/ exists c, In c cols /\ c / shard_width = k.
Proof.
  induction cols as [|c cols IH]; intros m k H; cbn [fold_left] in H; [auto|].
  apply IH in H as [H|(c' & I & E)]; [|right; exists c'; split; [right; exact I|exact E]].
  unfold group_add in H. apply (in_aset_keys _ N_eqb_reflect) in H as [->|H]; [right; exists c; split; [left; reflexivity|reflexivity]|auto].
Qed.
Lemma group_columns_spec cols k l : In (k, l) (group_columns cols) <->
  l = filter (fun c => c / shard_width =? k) cols /\ l <> [].
Proof.
  destruct (group_columns_gen cols []) as [ND G]. specialize (ND (NoDup_nil _)). specialize (G k). cbn [aget app] in G.
  unfold group_columns in *. split.
  - intros I. apply (in_aget _ N_eqb_reflect) in I as E; [|exact ND]. rewrite E in G. split; [exact G|].
    destruct (group_keys_gen cols [] k) as [[]|(c & Ic & Ec)]; [apply in_map_iff; exists (k, l); auto|].
    subst l. intros C. assert (J : In c (filter (fun c => c / shard_width =? k) cols)) by (apply filter_In; split; [exact Ic|apply N.eqb_eq, Ec]).
    rewrite C in J. destruct J.
  - intros [E NE]. destruct (aget N.eqb k (fold_left group_add cols [])) as [l'|] eqn:A.
    + apply (aget_in _ N_eqb_reflect) in A. congruence.
    + congruence.
Qed.
Lemma group_columns_nodup cols : NoDup (map fst (group_columns cols)).
Proof. apply (group_columns_gen cols []). constructor. Qed.

(* ------------------------------------------------------------------ updates *)
Lemma sh_get_disk s k : sh_disk (sh_get s k) = sh_disk s.
Proof. unfold sh_get. destruct (is_open s k); reflexivity. Qed.
Lemma sh_get_tx s k j : sh_tx (sh_get s k) j = sh_tx s j.
Proof. unfold sh_tx. rewrite sh_get_disk. reflexivity. Qed.
Lemma sh_get_open s k j : In j (sh_open (sh_get s k)) <-> j = k \/ In j (sh_open s).
Proof.
  unfold sh_get. destruct (is_open s k) eqn:E.
  - apply is_open_spec in E. split; [auto|intros [->|H]; auto].
  - cbn. intuition congruence.
Qed.
Lemma sh_update_tx c s k f j : sh_tx (fst (sh_update c s k f)) j =
  if snd (sh_update c s k f) then (if j =? k then fst (f (sh_tx s k)) else sh_tx s j) else sh_tx s j.
Proof.
  unfold sh_update. rewrite sh_get_tx. destruct (f (sh_tx s k)) as [t ok] eqn:E. destruct (ok && c) eqn:O; cbn [fst snd].
  - unfold sh_tx at 1. cbn [sh_disk]. rewrite (aget_aset _ N_eqb_reflect), sh_get_disk. destruct (j =? k); reflexivity.
  - apply sh_get_tx.
Qed.
Lemma sh_update_open c s k f j : In j (sh_open (fst (sh_update c s k f))) <-> j = k \/ In j (sh_open s).
Proof.
  unfold sh_update. destruct (f _) as [t ok]. destruct (ok && c); cbn [fst sh_open]; apply sh_get_open.
Qed.
Lemma tx_add_roaring_view v bm t w : tx_view (tx_add_roaring v bm t) w = if String.eqb w v then sunion (tx_view t v) bm else tx_view t w.
Proof.
  unfold tx_view, tx_add_roaring. rewrite (aget_aset _ string_eqb_reflect). destruct (String.eqb_spec w v) as [->|]; reflexivity.
Qed.

(* ------------------------------------------------------------------ rows of one sample *)
Lemma seg_invalidate_data s : g_data (seg_invalidate s) = g_data s. Proof. reflexivity. Qed.
Lemma shard_row_spec s view k id : id < 2^44 - 1 -> k < 2^44 -> ssorted (tx_view (sh_tx s k) view) ->
  row_wf (shard_row s view k id) /\
  forall c, In c (row_columns (shard_row s view k id)) <-> c / shard_width = k /\ has (tx_view (sh_tx s k) view) id c.
Proof.
  intros Hid Hk Hs. set (bm := tx_view (sh_tx s k) view) in *.
  assert (E1 : (id * shard_width) mod two64 = id * shard_width).
  { apply N.mod_small. change (2^44) with 17592186044416 in Hid. change shard_width with 1048576. change two64 with 18446744073709551616. lia. }
  assert (E2 : ((id + 1) * shard_width) mod two64 = (id + 1) * shard_width).
  { apply N.mod_small. change (2^44) with 17592186044416 in Hid. change shard_width with 1048576. change two64 with 18446744073709551616. lia. }
  assert (D : forall c, In c (tx_offset_range bm (k * shard_width) (id * shard_width) ((id + 1) * shard_width)) <->
     c / shard_width = k /\ has bm id c).
  { intros c. unfold tx_offset_range. rewrite in_map_iff. unfold has. split.
    - intros (p & <- & Hp). apply in_offset_range in Hp as (I & L & U).
      assert (E : (k * shard_width + (p - id * shard_width)) / shard_width = k).
      { symmetry. apply (N.div_unique _ shard_width k (p - id * shard_width)); lia. }
      split; [exact E|]. assert (E' : (k * shard_width + (p - id * shard_width)) mod shard_width = p - id * shard_width).
      { symmetry. apply (N.mod_unique _ shard_width k (p - id * shard_width)); lia. }
      rewrite E'. replace (id * shard_width + (p - id * shard_width)) with p by lia. exact I.
    - intros [E H]. exists (id * shard_width + c mod shard_width). pose proof (N.mod_lt c shard_width sw0) as Hm.
      split.
      + pose proof (N.div_mod c shard_width sw0) as Q. rewrite E in Q.
        rewrite N.add_comm, (N.add_comm (id * shard_width)), N.add_sub, N.add_comm, (N.mul_comm k). symmetry. exact Q.
      + apply in_offset_range. split; [exact H|]. clear -Hm. rewrite N.mul_add_distr_r. split; [apply N.le_add_r|]. apply N.add_lt_mono_l. rewrite N.mul_1_l. exact Hm. }
  assert (S : ssorted (tx_offset_range bm (k * shard_width) (id * shard_width) ((id + 1) * shard_width))).
  { unfold tx_offset_range. assert (Sf : ssorted (offset_range (id * shard_width) ((id + 1) * shard_width) bm)) by apply ssorted_filter, Hs.
    assert (LB : forall p, In p (offset_range (id * shard_width) ((id + 1) * shard_width) bm) -> id * shard_width <= p).
    { intros p Hp. apply in_offset_range in Hp. lia. }
    revert Sf LB. generalize (offset_range (id * shard_width) ((id + 1) * shard_width) bm). clear. intros l Sf.
    induction Sf as [|p l Sf IH F]; intros LB; cbn [map]; [constructor|]. constructor; [apply IH; intros; apply LB; right; auto|].
    apply Forall_forall. intros q Hq. apply in_map_iff in Hq as (p' & <- & I). rewrite Forall_forall in F. specialize (F p' I).
    pose proof (LB p (or_introl eq_refl)). lia. }
  unfold shard_row. rewrite E1, E2. fold bm. split.
  - apply row_wf_cons; [|apply row_wf_nil|intros x []]. split; [exact S|]. split; [|reflexivity]. intros x Hx. apply D in Hx. apply Hx.
  - intros c. rewrite cols_one. cbn [seg_invalidate g_data]. apply D.
Qed.
Lemma sh_row_spec s view id order : id < 2^44 - 1 -> (forall k, In k order -> k < 2^44) -> (forall k, ssorted (tx_view (sh_tx s k) view)) ->
  ssorted (row_columns (sh_row s view id order)) /\
  forall c, In c (row_columns (sh_row s view id order)) <-> In (c / shard_width) order /\ has (tx_view (sh_tx s (c / shard_width)) view) id c.
Proof.
  intros Hid Hk Hs.
  assert (G : forall r, row_wf r -> row_wf (fold_left (fun r shard => row_merge r (shard_row s view shard id)) order r) /\
    forall c, In c (row_columns (fold_left (fun r shard => row_merge r (shard_row s view shard id)) order r)) <->
      In c (row_columns r) \/ (In (c / shard_width) order /\ has (tx_view (sh_tx s (c / shard_width)) view) id c)).
  { induction order as [|k order IH]; intros r W; cbn [fold_left].
    - split; [exact W|]. intros c. cbn [In]. tauto.
    - destruct (shard_row_spec s view k id Hid (Hk k (or_introl eq_refl)) (Hs k)) as [W1 C1].
      destruct (row_merge_spec r _ W W1) as [W2 C2].
      destruct (IH (fun j Hj => Hk j (or_intror Hj)) _ W2) as [A B]. split; [exact A|]. intros c. rewrite B, C2, C1. cbn [In]. split.
      + intros [[H|[E H]]|[H1 H2]]; [auto| |auto]. subst k. auto.
      + intros [H|[[E|H1] H2]]; [auto| |auto]. subst k. auto. }
  destruct (G (new_row []) (proj1 (new_row_spec []))) as [A B]. split; [apply columns_sorted, A|].
  intros c. unfold sh_row. rewrite B. cbn. tauto.
Qed.
