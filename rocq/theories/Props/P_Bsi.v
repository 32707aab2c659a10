(** C58, C59, C70: bit-sliced integers: enumeration, building, addition (internal/rows/bsi.go). *)
From Verif.Model Require Import Base View Rows Bsi.
From Verif.Spec Require Import Sets BitSlices.
From Verif.Proofs Require Import BaseFacts RowsFacts BsiFacts BuilderFacts LabelsOfRows.
Open Scope N_scope.

(** The rows a program can get from the package: built from 64 bit columns, by the builder, by adding
    bit-sliced integers, and combined by the package's operations. *)
Inductive usable : row -> Prop :=
| us_new cols : Forall (fun c => c < two64) cols -> usable (new_row cols)
| us_build b l r : idle b -> runs_ascending l -> (forall c, In c l -> c < two64 - shard_width) -> fst (rb_build (fold_left rb_add l b)) = Some r -> usable r
| us_set i r : i < two64 -> usable r -> usable (row_set i r)
| us_merge r o : usable r -> usable o -> usable (row_merge r o)
| us_intersect r o : usable r -> usable o -> usable (row_intersect r o)
| us_xor r o : usable r -> usable o -> usable (row_xor r o)
| us_union r os out : usable r -> (forall o, In o os -> usable o) -> row_union r os = Some out -> usable out
| us_difference r os : usable r -> (forall o, In o os -> usable o) -> usable (row_difference r os)
| us_sum x y z r : (forall o, In o x -> usable o) -> (forall o, In o y -> usable o) -> add_bsi x y = Some z -> In r z -> usable r.
Lemma usable_lrow r : usable r -> lrow 0 max_u64 r.
Proof.
  induction 1 as [cols H|b l r Hi Hr Hb E|i r Hi _ IH|r o _ IH1 _ IH2|r o _ IH1 _ IH2|r o _ IH1 _ IH2|r os out _ IH _ IHos E|r os _ IH _ IHos|x y z r _ IHx _ IHy E Hz].
  - apply lrow_labs; [apply new_row_spec|apply labs_new, H].
  - destruct (row_builder_spec b l Hi Hr Hb) as (r' & E' & L & _). rewrite E in E'. apply some_inj in E'. subst. exact L.
  - apply lrow_labs; [apply row_set_spec, IH|apply labs_set_in; [apply u64_shard_of, Hi|apply labs_lrow, IH]].
  - apply lrow_labs; [apply row_merge_spec; [apply IH1|apply IH2]|apply labs_merge; apply labs_lrow; assumption].
  - apply lrow_labs; [apply row_intersect_spec; [apply IH1|apply IH2]|apply labs_intersect; apply labs_lrow; assumption].
  - apply lrow_labs; [apply row_xor_spec; [apply IH1|apply IH2]|apply labs_xor; apply labs_lrow; assumption].
  - destruct (row_union_spec r os (proj1 IH)) as (o' & E' & W & _); [apply Forall_forall; intros o Ho; apply (IHos o Ho)|]. rewrite E in E'. apply some_inj in E'. subst o'.
    apply lrow_labs; [exact W|]. apply (labs_union _ r os out); [apply labs_lrow, IH| |exact E]. apply Forall_forall. intros o Ho. apply labs_lrow, IHos, Ho.
  - apply lrow_labs; [apply row_difference_spec; [apply IH|apply Forall_forall; intros o Ho; apply (IHos o Ho)]|apply labs_difference, labs_lrow, IH].
  - destruct (add_bsi_spec x y) as (z' & E' & L & _); [apply Forall_forall; exact IHx|apply Forall_forall; exact IHy|]. rewrite E in E'. apply some_inj in E'. subst z'. rewrite Forall_forall in L. apply L, Hz.
Qed.
Definition usable_bits (b : bsi) : Prop := forall r, In r b -> usable r.
Lemma usable_forall b : usable_bits b -> Forall (lrow 0 max_u64) b.
Proof. intros H. apply Forall_forall. intros r Hr. apply usable_lrow, H, Hr. Qed.
Lemma lrow_wf b : Forall (lrow 0 max_u64) b -> Forall row_wf b.
Proof. intros H. eapply Forall_impl; [|exact H]. intros r Hr. apply Hr. Qed.

(** ------ C58 *)
(** The (column, value) pairs the call-back is given, in order. *)
Definition reported (calls : list (N * list N)) : list (N * N) := flat_map (fun vc => map (fun c => (c, fst vc)) (snd vc)) calls.
(** The call-back sees exactly the filtered columns with their values, greatest value first, after skipping
    [offset] and up to [limit]; one call per value, never an empty one; *limit is reduced by what was reported, and
    unless it is used up *offset is reduced by what there was. *)
Theorem C58_pivot_descending : forall b flt limit offset calls limit' offset', usable_bits b -> usable flt -> (List.length b <= 64)%nat ->
  pivot_descending b flt 0 limit offset = (calls, limit', offset') ->
  exists all, ranking all (row_columns flt) (value_at (map row_columns b)) /\
    reported calls = window limit offset all /\
    StronglySorted (fun x y => fst y < fst x) calls /\ Forall (fun call => snd call <> []) calls /\
    limit' = option_map (fun l => l - N.of_nat (List.length (reported calls))) limit /\
    (limit' <> Some 0 -> offset' = option_map (fun o => o - N.of_nat (List.length (row_columns flt))) offset).
Proof.
  intros b flt limit offset calls limit' offset' Hb Hf Hlen E. unfold pivot_descending in E.
  assert (Forall row_wf (rev b)) as Wb by (apply Forall_rev, lrow_wf, usable_forall, Hb). pose proof (proj1 (usable_lrow _ Hf)) as Wf.
  assert (List.length (rev b) <= 64)%nat as Hl by (rewrite rev_length; exact Hlen).
  exists (spread (rev b) flt 0). destruct (spread_spec (rev b) flt 0 Wb Wf Hl) as [S M]. rewrite N.mul_0_l in S, M. pose proof (pivot_spec (rev b) flt 0 limit offset Wb Wf) as P. rewrite E in P. destruct P as (P1 & P2 & P3).
  pose proof (pivot_calls (rev b) flt 0 limit offset Wb Wf Hl) as C. cbv zeta in C. rewrite N.mul_0_l in C. rewrite E in C. cbn [fst] in C. destruct C as [C1 C2].
  split; [|split; [|split; [|split; [|split]]]].
  - split; [exact S|]. intros c v. rewrite M, vhi_value, rev_involutive, N.add_0_l. reflexivity.
  - exact P1.
  - exact C1.
  - eapply Forall_impl; [|exact C2]. intros a Ha. apply Ha.
  - rewrite P2. change (reported calls) with (flatten calls). rewrite P1. destruct limit; reflexivity.
  - intros Hn. destruct P3 as [P3|P3]; [congruence|]. rewrite P3. unfold minus, len. rewrite spread_length by assumption. destruct offset; reflexivity.
Qed.
Definition nums : list (N * N) := [(3, 12); (5, 7); (9, 12); (70000, 1); (1048580, 255)].
Definition nums_bsi : bsi := match bsi_build (fold_left bsi_insert nums []) with Some b => b | None => [] end.
Definition some_cols : row := new_row [1048580; 70000; 9; 5; 4; 3].
Definition some_bits : bsi := map new_row [[5; 70000; 1048580]; [5; 1048580]; [3; 5; 9; 1048580]; [3; 9; 1048580]].
Lemma nums_usable : usable_bits some_bits.
Proof. intros r [<-|[<-|[<-|[<-|[]]]]]; apply us_new; repeat constructor. Qed.
Example C58_nonvacuous :
  usable_bits some_bits /\ usable some_cols /\ (List.length some_bits <= 64)%nat /\
  pivot_descending some_bits some_cols 0 (Some 3) (Some 2)
  = ([(12, [9]); (7, [5]); (1, [70000])], Some 0, Some 0).
Proof. split; [exact nums_usable|]. split; [apply us_new; repeat constructor|]. split; [cbn; lia|vm_compute; reflexivity]. Qed.
(** The bound on the number of slices is needed: the value of the 65th slice is lost. *)
Theorem C58_65_slices_refuted : exists b flt, usable_bits b /\ usable flt /\ List.length b = 65%nat /\
  value_at (map row_columns b) 7 = 2 ^ 64 /\ pivot_descending b flt 0 None None = ([(0, [7]); (0, [8])], None, None).
Proof.
  exists (repeat (new_row []) 64 ++ [new_row [7]]), (new_row [7; 8]). split; [|split; [apply us_new; repeat constructor|split; [reflexivity|split; vm_compute; reflexivity]]].
  intros r Hr. apply in_app_or in Hr. destruct Hr as [Hr|[<-|[]]]; [apply repeat_spec in Hr; subst|]; apply us_new; repeat constructor.
Qed.

(** ------ C59 *)
(** A new builder, or one that was just emptied by Build, given sequential input, builds the row with exactly
    those columns, each once and with the right count, and is empty again afterwards. *)
Theorem C59_row_builder : forall b l, idle b -> runs_ascending l -> (forall c, In c l -> c < two64 - 2 ^ 20) ->
  exists r b', rb_build (fold_left rb_add l b) = (Some r, b') /\ lists_exactly (row_columns r) (fun c => In c l) /\
    row_count r = N.of_nat (List.length (row_columns r)) /\ idle b'.
Proof.
  intros b l Hi Hr Hb. destruct (row_builder_spec b l Hi Hr Hb) as (r & E & [W L] & C & D). exists r, (snd (rb_build (fold_left rb_add l b))). split; [rewrite <- E; apply surjective_pairing|].
  split; [split; [apply columns_sorted, W|exact C]|]. split; [apply row_count_spec, W|exact D].
Qed.
Corollary C59_row_builder_sequential : forall l, StronglySorted N.lt l -> (forall c, In c l -> c < two64 - 2 ^ 20) ->
  exists r b', rb_build (fold_left rb_add l rb_empty) = (Some r, b') /\ row_columns r = l /\ idle b'.
Proof.
  intros l S Hb. destruct (C59_row_builder rb_empty l) as (r & b' & E & [S' C] & _ & D); [split; [reflexivity|split; reflexivity]|apply sorted_runs, S|exact Hb|].
  exists r, b'. split; [exact E|]. split; [|exact D]. apply ssorted_ext; assumption.
Qed.
(** More values in one block than an array container holds, several blocks, a block visited twice. *)
Definition many : list N := map N.of_nat (seq 3 5000) ++ [70000; 70001; 1048580; 65535].
Lemma many_runs : runs_ascending many.
Proof.
  unfold many. assert (forall n a, (3 <= a)%nat -> (N.of_nat (a + n) <= 65536) -> runs_ascending (map N.of_nat (seq a n) ++ [70000; 70001; 1048580; 65535])) as H; [|apply H; lia].
  induction n as [|n IH]; intros a Ha Hn; [cbn; repeat split; discriminate || reflexivity|]. cbn [seq map app]. specialize (IH (S a) ltac:(lia) ltac:(lia)).
  destruct n as [|n]; cbn [seq map app runs_ascending] in *.
  - split; [|exact IH]. intros K. exfalso. change (70000 / 2 ^ 16) with 1 in K. rewrite N.div_small in K by (change (2 ^ 16) with 65536; lia). discriminate.
  - split; [|exact IH]. intros _. lia.
Qed.
Example C59_nonvacuous : idle rb_empty /\ runs_ascending many /\ (forall c, In c many -> c < two64 - 2 ^ 20) /\ In 4500 many /\ array_max_size < N.of_nat 5000.
Proof.
  split; [split; [reflexivity|split; reflexivity]|]. split; [exact many_runs|]. split; [|split].
  - intros c Hc. apply in_app_or in Hc. change (two64 - 2 ^ 20) with 18446744073708503040. destruct Hc as [Hc|Hc].
    + apply in_map_iff in Hc. destruct Hc as (n & <- & Hn). apply in_seq in Hn. lia.
    + cbn in Hc. decompose [or] Hc; subst; try reflexivity. contradiction.
  - apply in_or_app. left. apply in_map_iff. exists 4500%nat. split; [reflexivity|]. apply in_seq. lia.
  - reflexivity.
Qed.
(** Sequential input is needed, as documented: a column given twice is counted and listed twice. *)
Theorem C59_duplicates_refuted : exists r, fst (rb_build (fold_left rb_add [5; 5] rb_empty)) = Some r /\ row_count r = 2 /\ row_columns r = [5; 5].
Proof. eexists. split; [vm_compute; reflexivity|split; vm_compute; reflexivity]. Qed.

(** The bit-slice builder: columns in increasing order, each with its value. *)
Theorem C59_bsi_builder : forall pairs, StronglySorted N.lt (map fst pairs) -> Forall (fun p => fst p < two64 - 2 ^ 20 /\ snd p < two64) pairs ->
  exists b, bsi_build (fold_left bsi_insert pairs []) = Some b /\ (List.length b <= 64)%nat /\
    (forall c v, In (c, v) pairs -> value_at (map row_columns b) c = v) /\ (forall c, ~ In c (map fst pairs) -> value_at (map row_columns b) c = 0) /\
    Forall (fun r => StronglySorted N.lt (row_columns r) /\ row_count r = N.of_nat (List.length (row_columns r))) b.
Proof.
  intros pairs S H. destruct (bsi_builder_spec pairs S H) as (b & E & Hl & Hw & Hh). destruct (bsi_builder_values pairs b S Hh) as [V1 V2]. exists b. split; [exact E|]. split; [exact Hl|]. split; [exact V1|]. split; [exact V2|].
  eapply Forall_impl; [|exact Hw]. intros r [W _]. split; [apply columns_sorted, W|apply row_count_spec, W].
Qed.
Lemma nums_ok : StronglySorted N.lt (map fst nums) /\ Forall (fun p => fst p < two64 - 2 ^ 20 /\ snd p < two64) nums.
Proof. split; repeat constructor. Qed.
Example C59_bsi_nonvacuous : bsi_build (fold_left bsi_insert nums []) = Some nums_bsi /\ map (value_at (map row_columns nums_bsi)) [3; 5; 9; 70000; 1048580; 4] = [12; 7; 12; 1; 255; 0].
Proof. split; vm_compute; reflexivity. Qed.

(** ------ C70 *)
(** Adding two bit-sliced integers gives every column the sum of its two values, without overflow. *)
Theorem C70_sum : forall x y, usable_bits x -> usable_bits y ->
  exists z, add_bsi x y = Some z /\ usable_bits z /\ forall c, value_at (map row_columns z) c = value_at (map row_columns x) c + value_at (map row_columns y) c.
Proof.
  intros x y Hx Hy. destruct (add_bsi_spec x y (usable_forall _ Hx) (usable_forall _ Hy)) as (z & E & _ & _ & V). exists z. split; [exact E|]. split; [|exact V].
  intros r Hr. exact (us_sum x y z r Hx Hy E Hr).
Qed.
Lemma build_usable pairs b : StronglySorted N.lt (map fst pairs) -> Forall (fun p => fst p < two64 - 2 ^ 20 /\ snd p < two64) pairs ->
  bsi_build (fold_left bsi_insert pairs []) = Some b -> Forall (lrow 0 max_u64) b /\ forall c, value_at (planes b) c = match find (fun e => fst e =? c) pairs with Some e => snd e | None => 0 end.
Proof.
  intros S H E. destruct (bsi_builder_spec pairs S H) as (b' & E' & _ & Hw & Hh). rewrite E in E'. apply some_inj in E'. subst b'. destruct (bsi_builder_values pairs b S Hh) as [V1 V2]. split; [exact Hw|]. intros c.
  destruct (find (fun e => fst e =? c) pairs) as [[c' v]|] eqn:Ef.
  - apply find_some in Ef. destruct Ef as [Hin Hc]. cbn in Hc. apply N.eqb_eq in Hc. subst c'. apply V1, Hin.
  - apply V2. intros Hin. apply in_map_iff in Hin. destruct Hin as ([c' v] & Hc & Hin). apply find_none with (x := (c', v)) in Ef; [|exact Hin]. cbn in *. apply N.eqb_neq in Ef. congruence.
Qed.
(** The value of [c] in a list of (column, value) pairs. *)
Definition listed (pairs : list (N * N)) (c : N) : N := match find (fun e => fst e =? c) pairs with Some e => snd e | None => 0 end.
(** All together: two bit-sliced integers are built from pairs, added and enumerated: exactly the columns with a sum
    above zero come back, with their sums, greatest first. *)
Theorem C70_sums_come_back : forall p q x y z u calls l o,
  StronglySorted N.lt (map fst p) -> Forall (fun e => fst e < two64 - 2 ^ 20 /\ snd e < two64) p ->
  StronglySorted N.lt (map fst q) -> Forall (fun e => fst e < two64 - 2 ^ 20 /\ snd e < two64) q ->
  bsi_build (fold_left bsi_insert p []) = Some x -> bsi_build (fold_left bsi_insert q []) = Some y ->
  (forall c, listed p c + listed q c < two64) ->
  add_bsi x y = Some z -> row_union (new_row []) z = Some u -> pivot_descending z u 0 None None = (calls, l, o) ->
  StronglySorted before (reported calls) /\ forall c v, In (c, v) (reported calls) <-> v = listed p c + listed q c /\ 0 < v.
Proof.
  intros p q x y z u calls l o Sp Fp Sq Fq Ex Ey Hs Ez Eu Ep. destruct (build_usable _ _ Sp Fp Ex) as [Lx Vx]. destruct (build_usable _ _ Sq Fq Ey) as [Ly Vy].
  destruct (add_bsi_spec x y Lx Ly) as (z' & Ez' & Lz & Uz & Vz). rewrite Ez in Ez'. apply some_inj in Ez'. subst z'.
  assert (forall c, value_at (planes z) c = listed p c + listed q c) as V by (intros c; rewrite Vz, Vx, Vy; reflexivity).
  assert (List.length z <= 64)%nat as Hl. { apply last_used_length; [exact Uz|]. intros c. rewrite V. apply Hs. }
  destruct (row_union_spec (new_row []) z row_wf_nil (lrow_wf _ Lz)) as (u' & Eu' & Wu & Cu). rewrite Eu in Eu'. apply some_inj in Eu'. subst u'.
  assert (Forall row_wf (rev z)) as Wb by (apply Forall_rev, lrow_wf, Lz). assert (List.length (rev z) <= 64)%nat as Hl' by (rewrite rev_length; exact Hl).
  unfold pivot_descending in Ep. destruct (spread_spec (rev z) u 0 Wb Wu Hl') as [S M]. rewrite N.mul_0_l in S, M. pose proof (pivot_spec (rev z) u 0 None None Wb Wu) as P. rewrite Ep in P. destruct P as (P1 & _).
  change (reported calls) with (flatten calls). rewrite P1. unfold window. split; [exact S|]. intros c v. rewrite M, vhi_value, rev_involutive, N.add_0_l, V.
  assert (In c (row_columns u) <-> 0 < listed p c + listed q c) as Hc.
  { rewrite Cu. rewrite <- V. split.
    - intros [[]|(r & Hr & Hc)]. destruct (In_nth z r [] Hr) as (j & _ & Hj). assert (has (planes z) j c = true) as Hh by (apply has_planes; rewrite Hj; exact Hc). apply has_value in Hh.
      eapply N.lt_le_trans; [|exact Hh]. apply N.neq_0_lt_0, N.pow_nonzero. discriminate.
    - intros Hpos. right. destruct (existsb (fun r => smem c (row_columns r)) z) eqn:Ee.
      + apply existsb_exists in Ee. destruct Ee as (r & Hr & Hm). exists r. split; [exact Hr|apply in_smem, Hm].
      + exfalso. rewrite (value_zero (planes z) c) in Hpos; [lia|]. intros j. apply not_true_is_false. rewrite has_planes. intros Hin.
        destruct (nth_in_or_default j z []) as [K|K]; [|rewrite K in Hin; destruct Hin]. rewrite <- not_true_iff_false in Ee. apply Ee. apply existsb_exists. eexists. split; [exact K|]. apply in_smem, Hin. }
  rewrite Hc. intuition (subst; assumption).
Qed.
Definition more : list (N * N) := [(4, 3); (9, 4); (70000, 255)].
Definition more_bsi : bsi := match bsi_build (fold_left bsi_insert more []) with Some b => b | None => [] end.
Definition sum_bsi : bsi := match add_bsi nums_bsi more_bsi with Some b => b | None => [] end.
Example C70_nonvacuous : bsi_build (fold_left bsi_insert nums []) = Some nums_bsi /\ bsi_build (fold_left bsi_insert more []) = Some more_bsi /\ add_bsi nums_bsi more_bsi = Some sum_bsi /\
  StronglySorted N.lt (map fst more) /\ Forall (fun e => fst e < two64 - 2 ^ 20 /\ snd e < two64) more /\
  (forall c, listed nums c + listed more c < two64) /\
  option_map (fun u => reported (fst (fst (pivot_descending sum_bsi u 0 None None)))) (row_union (new_row []) sum_bsi)
  = Some [(70000, 256); (1048580, 255); (9, 16); (3, 12); (5, 7); (4, 3)].
Proof.
  split; [vm_compute; reflexivity|]. split; [vm_compute; reflexivity|]. split; [vm_compute; reflexivity|]. split; [repeat constructor|]. split; [repeat constructor|].
  split; [|vm_compute; reflexivity].
  assert (forall l c m, Forall (fun e => snd e <= m) l -> listed l c <= m) as H.
  { intros l c m Hf. unfold listed. destruct (find _ l) as [e|] eqn:E; [|apply N.le_0_l]. apply find_some in E. rewrite Forall_forall in Hf. apply Hf, E. }
  intros c. pose proof (H nums c 255 ltac:(repeat constructor; discriminate)). pose proof (H more c 255 ltac:(repeat constructor; discriminate)). change two64 with 18446744073709551616. lia.
Qed.
