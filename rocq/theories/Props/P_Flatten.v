(** C79-C81: metrics flattened to rows (internal/f2). *)
From Verif.Model Require Import Base Otlp View Flatten.
From Verif.Spec Require Import Flat.
From Verif.Proofs Require Import BaseFacts FlattenFacts.
From Verif.Props Require P_Time.
From Coq Require Import SpecFloat.
Open Scope N_scope.

Section Props.
Context (tr : string -> N) (digest : nset -> N) (float_of_int : Z -> N).
Notation append_data := (append_data tr digest float_of_int).

(** C79. Every data point becomes exactly one row, in order, with an id of its own, its metric's name, kind, description,
    unit and modifiers, its times, payload, exemplars, and the attributes of its resource, its scope and itself. *)
Theorem C79_one_row_per_point : forall l st, doc_present l ->
  exists st', append_data l st = Some st' /\ f_rows st' = f_rows st ++ rows_from tr digest (f_next st) (occs float_of_int l).
Proof.
  intros l st P. destruct (resources_spec tr digest float_of_int l (FAttr [] [] [] []) st P) as (st' & E & R & _). eauto.
Qed.

(** The number of a row is its point's own, if all number points have one. *)
Theorem C79_own_number : forall l o, doc_valued l -> In o (occs float_of_int l) ->
  oc_number o = (if numeric_kind (fm_data (oc_metric o)) then own_number float_of_int (oc_point o) else None).
Proof.
  intros l o V H. unfold occs in H. apply in_flat_map in H as (g & Hg & H). apply in_flat_map in H as (s & Hs & H).
  apply in_flat_map in H as (m & Hm & H). apply in_map_iff in H as ([p n] & <- & H). cbn [oc_number oc_metric oc_point fst snd].
  unfold doc_valued in V. rewrite Forall_forall in V. specialize (V g Hg). rewrite Forall_forall in V. specialize (V s Hs).
  rewrite Forall_forall in V. specialize (V m Hm). unfold numbered in H. destruct (numeric_kind (fm_data m)).
  - specialize (V eq_refl). revert H. generalize (@None N). induction (data_points (fm_data m)) as [|q t IH]; intros b H; [destruct H|].
    inversion V as [|? ? Vq Vt]; subst. cbn [carry] in H. cbv zeta in H. destruct H as [H|H].
    + injection H as -> <-. unfold own_number. destruct (fp_num p) as [[i|d]|]; [reflexivity|reflexivity|congruence].
    + eapply IH; eauto.
  - apply in_map_iff in H as (q & E & _). injection E as _ <-. reflexivity.
Qed.

(** Rows get consecutive ids. *)
Theorem C79_ids : forall id l, map w_id (rows_from tr digest id l) = map (fun i => id + N.of_nat i) (seq 0 (List.length l)).
Proof.
  intros id l. revert id. induction l as [|o l IH]; intros id; [reflexivity|]. cbn [rows_from map List.length seq].
  rewrite IH. cbn [row_of w_id]. f_equal; [lia|]. rewrite <- seq_shift, map_map. apply map_ext. intros i. lia.
Qed.

Definition gauge_doc (attrs : list key_value) (ps : list fpoint) : list (resource_group fmetric) :=
  [RGroup "" (Some (Resource attrs "")) [SGroup "" None [FMetric "m" "" "" (FGauge ps)]]].
Definition pt (v : option (Z + N)) : fpoint := FPoint 0 0 [] v "" "".

(** Not so for a point without a number: its row shows the number of the point before it. *)
Theorem C79_missing_number_refuted : forall st x,
  exists st', append_data (gauge_doc [] [pt (Some (inr x)); pt None]) st = Some st' /\
    map w_gauge (f_rows st') = map w_gauge (f_rows st) ++ [Some x; Some x].
Proof. intros st x. eexists. split; [reflexivity|]. cbn [f_rows]. rewrite <- app_assoc, map_app. reflexivity. Qed.
(** Nor for large integers, which are rounded. *)
Theorem C79_integers_exact_refuted : forall (bits : spec_float -> N) st,
  (forall z, float_of_int z = bits (binary_normalize 53 1024 z 0 false)) ->
  append_data (gauge_doc [] [pt (Some (inl 9007199254740992%Z))]) st = append_data (gauge_doc [] [pt (Some (inl 9007199254740993%Z))]) st.
Proof.
  intros bits st H. assert (E : float_of_int 9007199254740992 = float_of_int 9007199254740993) by (rewrite !H; f_equal; vm_compute; reflexivity).
  assert (K : forall i, append_data (gauge_doc [] [pt (Some (inl i))]) st = append_data (gauge_doc [] [pt (Some (inr (float_of_int i)))]) st)
    by (intros i; reflexivity).
  rewrite !K, E. reflexivity.
Qed.

(** C80. The index holds for every row the columns of its metric's name and of its own string attributes, and nothing else. *)
Theorem C80_index_exact : forall l st, doc_present l ->
  exists st', append_data l st = Some st' /\ f_next st' = f_next st + N.of_nat (List.length (occs float_of_int l)) /\
    forall x, In x (f_positions st') <-> In x (f_positions st) \/
      exists i o c, nth_error (occs float_of_int l) i = Some o /\ In c (columns tr o) /\ x = pos (f_next st + N.of_nat i) c.
Proof.
  intros l st P. destruct (resources_spec tr digest float_of_int l (FAttr [] [] [] []) st P) as (st' & E & _ & N & Q). eauto.
Qed.

(** So, starting empty and within 2^20 columns and 2^44 rows, a look-up of a column in a row answers exactly whether the
    row's point has that label. *)
Theorem C80_lookup : forall l st', doc_present l -> append_data l (FState 0 [] []) = Some st' ->
  (forall k, tr k < shard_width) -> N.of_nat (List.length (occs float_of_int l)) <= 2 ^ 44 ->
  forall i o c, nth_error (occs float_of_int l) i = Some o -> c < shard_width ->
  (In (pos (N.of_nat i) c) (f_positions st') <-> In c (columns tr o)).
Proof.
  intros l st' P E T B i o c Hi Hc. destruct (C80_index_exact l (FState 0 [] []) P) as (st2 & E2 & _ & Q).
  rewrite E in E2. apply some_inj in E2 as <-. rewrite Q. cbn [f_positions f_next]. split.
  - intros [[]|(j & o' & c' & Hj & C & Ep)].
    assert (Li : N.of_nat i < 2 ^ 44) by (assert (i < List.length (occs float_of_int l))%nat by (apply nth_error_Some; congruence); lia).
    assert (Lj : N.of_nat j < 2 ^ 44) by (assert (j < List.length (occs float_of_int l))%nat by (apply nth_error_Some; congruence); lia).
    assert (Lc : c' < shard_width).
    { apply in_sof_list, in_map_iff in C as (k & <- & _). apply T. }
    assert (Pos : forall r k, r < 2 ^ 44 -> k < shard_width -> pos r k = r * shard_width + k).
    { intros r k Hr Hk. unfold pos. rewrite (N.mod_small k) by exact Hk. apply N.mod_small. unfold shard_width, two64 in *. lia. }
    rewrite !Pos in Ep by (auto; lia). assert (N.of_nat i = N.of_nat j /\ c = c') as [Eij ->] by (unfold shard_width in *; lia).
    apply Nat2N.inj in Eij. subst j. congruence.
  - intros C. right. exists i, o, c. repeat split; auto.
Qed.

(** The labels of the resource (and of the scope) are not indexed: a row cannot be found by its host. *)
Theorem C80_resource_labels_refuted : tr "host=a" < shard_width -> tr "__name__=m" < shard_width -> tr "host=a" <> tr "__name__=m" ->
  exists st', append_data (gauge_doc [KV "host" (Some (AVString "a"))] [pt (Some (inr 0))]) (FState 0 [] []) = Some st' /\
    (forall o, In o (occs float_of_int (gauge_doc [KV "host" (Some (AVString "a"))] [pt (Some (inr 0))])) -> In (tr "host=a") (full_columns tr o)) /\
    ~ In (pos 0 (tr "host=a")) (f_positions st').
Proof.
  intros A B D. set (d := gauge_doc _ _). assert (P : doc_present d) by (repeat constructor; discriminate).
  destruct (C80_index_exact d (FState 0 [] []) P) as (st' & E & _ & Q). exists st'. split; [exact E|]. split.
  - intros o [<-|[]]. apply in_sof_list. right. left. reflexivity.
  - intros H. apply Q in H as [[]|(i & o & c & Hi & C & Ep)]. destruct i as [|[|i]]; [|discriminate Hi|discriminate Hi].
    injection Hi as <-. apply in_sof_list in C as [C|[]]. change (append "__name__=" (fm_name _)) with "__name__=m" in C. subst c.
    apply D. cbn [f_next] in Ep. change (0 + N.of_nat 0) with 0 in Ep.
    assert (Pos : forall k, k < shard_width -> pos 0 k = k).
    { intros k Hk. unfold pos. rewrite (N.mod_small k) by exact Hk. rewrite N.mul_0_l, N.add_0_l. apply N.mod_small. unfold shard_width, two64 in *. lia. }
    rewrite !Pos in Ep by assumption. exact Ep.
Qed.

(** Beyond 2^20 columns rows are found by labels they do not have: whenever the column of a label is a multiple of 2^20
    away from that of a label of the row's point, the look-up of the row answers yes for it, in every document. *)
Theorem C80_columns_alias_refuted : forall l st', doc_present l -> append_data l (FState 0 [] []) = Some st' ->
  forall i o c k n, nth_error (occs float_of_int l) i = Some o -> In c (columns tr o) ->
  tr k = c + n * shard_width -> In (pos (N.of_nat i) (tr k)) (f_positions st').
Proof.
  intros l st' P E i o c k n Hi Hc Ek.
  destruct (C80_index_exact l (FState 0 [] []) P) as (st2 & E2 & _ & Q).
  rewrite E in E2. apply some_inj in E2 as <-. apply Q. right. exists i, o, c. split; [exact Hi|]. split; [exact Hc|].
  rewrite Ek. cbn [f_next]. rewrite N.add_0_l. unfold pos. rewrite N.mod_add by discriminate. reflexivity.
Qed.

(** C81. Points of the same metric name with the same string attributes have the same hash, in whatever order, however
    often repeated. *)
Theorem C81_same_series_same_hash : forall id id' o o',
  fm_name (oc_metric o) = fm_name (oc_metric o') ->
  (forall k, In k (labels_of (fp_attrs (oc_point o))) <-> In k (labels_of (fp_attrs (oc_point o')))) ->
  w_hash (row_of tr digest id o) = w_hash (row_of tr digest id' o').
Proof.
  intros id id' o o' En H. cbn [row_of w_hash]. f_equal. unfold columns. apply ssorted_ext; try apply ssorted_sof_list.
  intros x. rewrite !in_sof_list, !in_map_iff. rewrite En. split; intros (k & E & [I|I]).
  - exists k. split; [exact E|left; exact I].
  - exists k. split; [exact E|right; apply H, I].
  - exists k. split; [exact E|left; exact I].
  - exists k. split; [exact E|right; apply H, I].
Qed.

(** Different series are not told apart, whatever the hash: those of two hosts share theirs, and so do those that differ
    in an attribute that is not a string. *)
Theorem C81_different_series_refuted : forall st,
  (exists s1 s2 r1 r2, append_data (gauge_doc [KV "host" (Some (AVString "a"))] [pt (Some (inr 0))]) st = Some s1 /\
    append_data (gauge_doc [KV "host" (Some (AVString "b"))] [pt (Some (inr 0))]) st = Some s2 /\
    f_rows s1 = f_rows st ++ [r1] /\ f_rows s2 = f_rows st ++ [r2] /\ w_attrs r1 <> w_attrs r2 /\ w_hash r1 = w_hash r2).
Proof.
  intros st. eexists _, _, _, _. split; [reflexivity|]. split; [reflexivity|]. split; [reflexivity|]. split; [reflexivity|].
  split; [|reflexivity]. cbn [w_attrs List.app]. intros H. discriminate H.
Qed.
End Props.

(** A document with all five kinds and two resources. *)
Definition sample_doc : list (resource_group fmetric) :=
  [RGroup "" (Some (Resource [KV "host" (Some (AVString "a"))] "")) [SGroup "" (Some (Scope "lib" "1" [KV "scope" (Some (AVString "s"))] ""))
     [FMetric "g" "d" "u" (FGauge [FPoint 1 2 [KV "k" (Some (AVString "v")); KV "n" (Some (AVOther "3"))] (Some (inl 5%Z)) "" "e"; FPoint 3 4 [] (Some (inr 7)) "" ""]);
      FMetric "s" "" "" (FSum 2 true [pt (Some (inl 1%Z))]); FMetric "none" "" "" FNoData]];
   RGroup "" None [SGroup "" None [FMetric "h" "" "" (FHist 1 [FPoint 5 6 [] None "buckets" ""]); FMetric "x" "" "" (FExp 2 [FPoint 7 8 [] None "exp" ""]);
      FMetric "q" "" "" (FSummary [FPoint 9 10 [] None "sum" ""])]]].
Example C79_nonvacuous : doc_present sample_doc /\ doc_valued sample_doc /\ List.length (occs Z.to_N sample_doc) = 6%nat /\
  match append_data (fun s => N.of_nat (String.length s)) (fun s => scard s) Z.to_N sample_doc (FState 0 [] []) with
  | Some st => map w_gauge (f_rows st) = [Some 5; Some 7; Some 1; None; None; None] /\ map w_hash (f_rows st) = [2; 1; 1; 1; 1; 1] /\ f_next st = 6
  | None => False
  end.
Proof.
  split; [repeat constructor; discriminate|]. split; [repeat constructor; cbn; discriminate|]. split; [reflexivity|].
  vm_compute. split; [reflexivity|split; reflexivity].
Qed.

(** A translator that gives two labels columns 2^20 apart: a point with the one is found by the other. *)
Definition apart (s : string) : N := if String.eqb s "__name__=m" then 0 else shard_width.
Example C80_alias_nonvacuous : exists st', append_data apart (fun s => scard s) Z.to_N (gauge_doc [] [pt (Some (inr 0))]) (FState 0 [] []) = Some st' /\
  apart "host=a" = apart "__name__=m" + 1 * shard_width /\ In (pos 0 (apart "host=a")) (f_positions st') /\
  Forall (fun o => In (apart "__name__=m") (columns apart o) /\ ~ In (apart "host=a") (columns apart o)) (occs Z.to_N (gauge_doc [] [pt (Some (inr 0))])).
Proof.
  eexists. split; [reflexivity|]. split; [reflexivity|]. split; [left; reflexivity|].
  repeat constructor. intros [H|[]]. discriminate H.
Qed.
