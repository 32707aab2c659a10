(** C90, C91: shifting rows and rows as tables (internal/rows/row.go). *)
From Coq Require Import ZArith.
From Verif.Model Require Import Base View Rows RowTable.
From Verif.Spec Require Import Sets.
From Verif.Proofs Require Import BaseFacts RowsFacts RowTableFacts.
From Verif.Props Require Import P_Rows.
Open Scope N_scope.

(* ------------------------------------------------------------------ C90 *)
(** Shifting moves every column up by n; columns that would not fit 64 bits are gone; a negative n is refused. *)
Theorem C90_shift_moves_every_column n r : built r -> (forall x, In x (row_columns r) -> x < 2^64) ->
  match row_shift n r with
  | None => (n < 0)%Z
  | Some out => (0 <= n)%Z /\ row_count out = N.of_nat (List.length (row_columns out)) /\
      lists_exactly (row_columns out) (fun y => y < 2^64 /\ exists x, In x (row_columns r) /\ y = x + Z.to_N n)
  end.
Proof.
  intros B Bd. destruct (row_shift n r) as [out|] eqn:E.
  - apply row_shift_spec in E as [Hn ->]. split; [exact Hn|]. pose proof (built_wf _ B) as W. split.
    + apply counted_count, shift_loop_counted, wf_counted, W.
    + rewrite shift_loop_columns by exact Bd. rewrite Z_nat_N. split.
      * apply ssorted_filter, ssorted_shift, columns_sorted, W.
      * intros y. rewrite filter_In, N.ltb_lt, in_map_iff. change two64 with (2^64). split.
        { intros [(x & <- & I) H]. eauto. } { intros [H (x & I & ->)]. eauto. }
  - unfold row_shift in E. destruct (Z.ltb_spec n 0); [assumption|discriminate].
Qed.
Theorem C90_shift_by_nothing r : row_shift 0 r = Some r.
Proof. reflexivity. Qed.
(** Shifting step by step is shifting at once. *)
Theorem C90_shifts_add m n r r1 : (0 <= m)%Z -> (0 <= n)%Z -> row_shift m r = Some r1 -> row_shift n r1 = row_shift (m + n) r.
Proof.
  intros Hm Hn E. apply row_shift_spec in E as [_ ->]. unfold row_shift.
  destruct (Z.ltb_spec n 0); [lia|]. destruct (Z.ltb_spec (m + n) 0); [lia|]. f_equal.
  rewrite Z2Nat.inj_add by lia. generalize (Z.to_nat m) (Z.to_nat n). clear. intros a. revert r. induction a as [|a IH]; intros r b; [reflexivity|]. cbn [plus shift_loop]. apply IH.
Qed.
(** As long as no column leaves its shard, the result is a row like any other: membership, counting and combining with
    other rows agree with the listed columns. *)
Theorem C90_shift_within_shards_partial n r out : built r -> (forall x, In x (row_columns r) -> x < 2^64 /\ (x + Z.to_N n) / 2^20 = x / 2^20) ->
  row_shift n r = Some out ->
  built out /\ (forall y, row_includes y out = true <-> exists x, In x (row_columns r) /\ y = x + Z.to_N n) /\
  row_columns out = map (fun x => x + Z.to_N n) (row_columns r).
Proof.
  intros B H E. assert (Bo : built out) by (eapply b_shift; eauto; intros x I; apply H, I).
  assert (C : row_columns out = map (fun x => x + Z.to_N n) (row_columns r)).
  { apply row_shift_spec in E as [Hn ->]. rewrite shift_loop_columns by (intros x I; apply (H x I)). rewrite Z_nat_N.
    generalize (row_columns r), H. clear. intros l H. induction l as [|x l IH]; [reflexivity|]. cbn [map filter].
    assert (F : x + Z.to_N n <? two64 = true).
    { apply N.ltb_lt. destruct (H x (or_introl eq_refl)) as [L Q]. change two64 with (2^44 * 2^20).
      assert (D : x / 2^20 < 2^44). { apply N.div_lt_upper_bound; [discriminate|]. exact L. }
      generalize dependent (x + Z.to_N n). intros y Q. rewrite <- Q in D. clear -D.
      assert (y < 2^20 * (y / 2^20 + 1)). { replace (y / 2^20 + 1) with (N.succ (y / 2^20)) by lia. apply N.mul_succ_div_gt. discriminate. }
      assert (2^20 * (y / 2^20 + 1) <= 2^20 * 2^44) by (apply N.mul_le_mono_l; lia). lia. }
    rewrite F. f_equal. apply IH. intros v I. apply H. right. exact I. }
  split; [exact Bo|]. split; [|exact C]. intros y. rewrite row_includes_spec by (apply built_wf, Bo). rewrite C, in_map_iff. split; intros (x & A & D); eauto.
Qed.
(** Without that premise it is not: column 2^20 is listed but not included, is not found by an intersection, and
    a union lists it twice. *)
Theorem C90_shift_over_the_edge_refuted : exists out u, row_shift 1 (new_row [2^20 - 1]) = Some out /\
  row_columns out = [2^20] /\ row_includes (2^20) out = false /\ row_columns (row_intersect out (new_row [2^20])) = [] /\
  row_union out [new_row [2^20]] = Some u /\ row_columns u = [2^20; 2^20].
Proof. do 2 eexists. split; [reflexivity|]. split; [reflexivity|]. split; [reflexivity|]. split; [reflexivity|]. split; reflexivity. Qed.

Example C90_example : option_map row_columns (row_shift 3 (new_row [2^20 + 7; 5; 2^64 - 2])) = Some [8; 2^20 + 10].
Proof. vm_compute. reflexivity. Qed.
Example C90_example_within : built (new_row [2^20 + 7; 5]) /\
  forall x, In x (row_columns (new_row [2^20 + 7; 5])) -> x < 2^64 /\ (x + Z.to_N 3) / 2^20 = x / 2^20.
Proof. split; [constructor|]. intros x I. vm_compute in I. destruct I as [<-|[<-|[]]]; split; reflexivity. Qed.

(* ------------------------------------------------------------------ C91 *)
(** What is in a cell. *)
Inductive cell := CellInt (n : N) | CellText (s : string).
Definition holds (v : value) (c : cell) : Prop :=
  match c with
  | CellInt n => value_int v = n /\ v_int v = Some n /\ v_string v = None /\ v_double v = None /\ v_timestamp v = None
  | CellText s => value_string v = s /\ v_string v = Some s /\ v_int v = None /\ v_double v = None /\ v_timestamp v = None
  end.
(** The cells a row should give: its keys in their order, or else its columns. *)
Definition cells_of (r : full_row) : list cell :=
  match fr_keys r with [] => map CellInt (row_columns (fr_segments r)) | ks => map CellText ks end.
Definition header_of (r : full_row) : column_info := ColumnInfo "_id" (match fr_keys r with [] => TInt64 | _ => TString end).

Lemma row_results_shape r : row_results r =
  results [header_of r] (match fr_keys r with [] => map int_value (row_columns (fr_segments r)) | ks => map string_value ks end).
Proof. unfold row_results, header_of. destruct (fr_keys r); reflexivity. Qed.
Lemma values_hold r : Forall2 holds (match fr_keys r with [] => map int_value (row_columns (fr_segments r)) | ks => map string_value ks end) (cells_of r).
Proof.
  unfold cells_of. destruct (fr_keys r) as [|k ks].
  - induction (row_columns (fr_segments r)); cbn [map]; constructor; auto; repeat split.
  - generalize (k :: ks) as l. induction l; cbn [map]; constructor; auto; repeat split.
Qed.
Lemma results_columns ci vs : map rr_columns (results ci vs) = map (fun v => [v]) vs.
Proof. revert ci. induction vs as [|v vs IH]; intros ci; [reflexivity|]. cbn [results map rr_columns]. rewrite IH. reflexivity. Qed.
Lemma results_headers ci vs : map rr_headers (results ci vs) = match vs with [] => [] | _ :: t => ci :: map (fun _ => []) t end.
Proof.
  assert (G : forall vs, map rr_headers (results [] vs) = map (fun _ => []) vs).
  { induction vs0 as [|v l IH]; [reflexivity|]. cbn [results map rr_headers]. rewrite IH. reflexivity. }
  destruct vs as [|v vs]; [reflexivity|]. cbn [results map rr_headers]. rewrite G. reflexivity.
Qed.
Lemma deliver_all i rs : deliver (fun _ _ => false) i rs = (rs, true).
Proof. revert i. induction rs as [|r rs IH]; intros i; [reflexivity|]. cbn [deliver]. rewrite IH. reflexivity. Qed.
Lemma fold_table rs h l : l <> [] ->
  fold_left (fun t rr => Table (match t_rows t with [] => rr_headers rr | _ => t_headers t end) (t_rows t ++ [rr_columns rr])) rs (Table h l) =
  Table h (l ++ map rr_columns rs).
Proof.
  revert l. induction rs as [|r rs IH]; intros l Hl; cbn [fold_left map t_rows t_headers]; [rewrite app_nil_r; reflexivity|].
  destruct l as [|a l]; [congruence|]. rewrite IH by discriminate. rewrite <- app_assoc. reflexivity.
Qed.

(** A table has one row per key (or column), in order, with one cell each; the header names the kind of the cells. *)
Theorem C91_table_shows_the_row r :
  Forall2 (fun vs c => exists v, vs = [v] /\ holds v c) (t_rows (to_table r)) (cells_of r) /\
  t_headers (to_table r) = match cells_of r with [] => [] | _ => [header_of r] end.
Proof.
  unfold to_table, to_rows. rewrite deliver_all. cbn [fst]. rewrite row_results_shape. pose proof (values_hold r) as H.
  revert H. generalize (cells_of r). generalize (match fr_keys r with [] => map int_value (row_columns (fr_segments r)) | ks => map string_value ks end). intros vals cells H.
  destruct H as [|v c vs cs Hv Hs]; [split; [constructor|reflexivity]|].
  cbn [results fold_left t_rows t_headers rr_headers rr_columns app]. rewrite fold_table by discriminate. cbn [t_rows t_headers app]. rewrite results_columns.
  split; [|reflexivity]. constructor; [eauto|]. clear -Hs. induction Hs; cbn [map]; constructor; eauto.
Qed.
(** For a row of columns the table is the sorted list of its columns. *)
Theorem C91_columns_table r : built (fr_segments r) -> fr_keys r = [] ->
  exists l, lists_exactly l (fun x => In x (row_columns (fr_segments r))) /\
    map (map value_int) (t_rows (to_table r)) = map (fun x => [x]) l /\ List.length (t_rows (to_table r)) = N.to_nat (row_count (fr_segments r)).
Proof.
  intros B K. exists (row_columns (fr_segments r)). split; [split; [apply columns_sorted, built_wf, B|tauto]|].
  destruct (C91_table_shows_the_row r) as [H _]. unfold cells_of in H. rewrite K in H. split.
  - remember (map CellInt _) as cs eqn:E in H. revert E. generalize (row_columns (fr_segments r)). induction H as [|vs c l cs (v & -> & Hv) H IH]; intros [|x xs] E; try discriminate; [reflexivity|].
    cbn [map] in E. assert (c = CellInt x) by congruence. assert (cs = map CellInt xs) by congruence. subst c. cbn [map]. rewrite <- (IH xs) by assumption. destruct Hv as [-> _]. reflexivity.
  - rewrite C56_row_count_is_cardinality by exact B. rewrite Nat2N.id. rewrite <- (map_length CellInt).
    clear -H. induction H; cbn; congruence.
Qed.
(** Delivery stops at the first result the receiver refuses; until then everything is delivered in order, and the header
    comes with the first result only. *)
Theorem C91_delivery fails r : exists rest, let '(got, ok) := to_rows fails r in
  row_results r = got ++ rest /\
  (if ok then rest = [] /\ forall i x, nth_error got i = Some x -> fails i x = false
   else exists before x, got = before ++ [x] /\ fails (List.length before) x = true /\ forall i y, nth_error before i = Some y -> fails i y = false).
Proof.
  unfold to_rows. generalize (row_results r). intros rs.
  assert (G : forall rs k, exists rest, let '(got, ok) := deliver fails k rs in rs = got ++ rest /\
     (if ok then rest = [] /\ forall i x, nth_error got i = Some x -> fails (k + i)%nat x = false
      else exists before x, got = before ++ [x] /\ fails (k + List.length before)%nat x = true /\ forall i y, nth_error before i = Some y -> fails (k + i)%nat y = false)).
  { clear. induction rs as [|x rs IH]; intros k; cbn [deliver].
    - exists []. split; [reflexivity|]. split; [reflexivity|]. intros [|i] x; discriminate.
    - destruct (fails k x) eqn:F.
      + exists rs. split; [reflexivity|]. exists [], x. split; [reflexivity|]. rewrite Nat.add_0_r. split; [exact F|]. intros [|i] y; discriminate.
      + destruct (IH (S k)) as (rest & H). destruct (deliver fails (S k) rs) as [got ok]. exists rest. destruct H as [H1 H2]. split; [cbn; congruence|].
        destruct ok.
        * destruct H2 as [-> H2]. split; [reflexivity|]. intros [|i] y Hy; cbn in Hy; [apply some_inj in Hy; subst; rewrite Nat.add_0_r; exact F|].
          rewrite Nat.add_succ_r. apply (H2 i y Hy).
        * destruct H2 as (b & y & -> & Fy & H2). exists (x :: b), y. split; [reflexivity|]. split; [cbn [List.length]; rewrite Nat.add_succ_r; exact Fy|].
          intros [|i] z Hz; cbn in Hz; [apply some_inj in Hz; subst; rewrite Nat.add_0_r; exact F|]. rewrite Nat.add_succ_r. apply (H2 i z Hz). }
  destruct (G rs 0%nat) as (rest & H). exists rest. destruct (deliver fails 0 rs). exact H.
Qed.
Theorem C91_results_show_the_row r :
  Forall2 (fun rr c => exists v, rr_columns rr = [v] /\ holds v c) (row_results r) (cells_of r) /\
  map rr_headers (row_results r) = match cells_of r with [] => [] | _ :: t => [header_of r] :: map (fun _ => []) t end.
Proof.
  rewrite row_results_shape. pose proof (values_hold r) as H. rewrite results_headers.
  revert H. generalize (cells_of r). generalize (match fr_keys r with [] => map int_value (row_columns (fr_segments r)) | ks => map string_value ks end). intros vals cells H. split.
  - generalize [header_of r]. induction H as [|v c vs cs Hv H IH]; intros ci; cbn [results]; constructor; [exists v; split; [reflexivity|exact Hv]|apply IH].
  - destruct H as [|v c vs cs Hv Hs]; [reflexivity|]. f_equal. clear -Hs. induction Hs; cbn; congruence.
Qed.
(** A clone has the same columns and keys and names the same index and field... *)
Theorem C91_clone_partial r : fr_segments (row_clone r) = fr_segments r /\ fr_keys (row_clone r) = fr_keys r /\
  fr_index (row_clone r) = fr_index r /\ fr_field (row_clone r) = fr_field r /\ to_table (row_clone r) = to_table r.
Proof. repeat (split; [reflexivity|]). reflexivity. Qed.
(** ... but forgets NoSplit. *)
Theorem C91_clone_refuted : exists r, fr_no_split r = true /\ fr_no_split (row_clone r) = false.
Proof. exists (FullRow [] [] "" "" true). split; reflexivity. Qed.
(** Reading a cell as a float: a float cell is read as zero, and an integer cell ends in a nil dereference. *)
Theorem C91_float_cells_refuted : (forall bits, value_float64 (Value None None (Some bits) None) = Some 0) /\
  forall n, value_float64 (int_value n) = None.
Proof. split; reflexivity. Qed.

(** Reading a cell otherwise: its content if it is of that kind, else the empty text, zero, or the beginning of the year 1 (nothing crashes). *)
Theorem C91_cell_readers :
  (forall s, let v := string_value s in value_string v = s /\ value_int v = 0 /\ value_time v = (-62135596800000)%Z) /\
  (forall n, let v := int_value n in value_int v = n /\ value_string v = ""%string /\ value_time v = (-62135596800000)%Z) /\
  (forall bits, let v := Value None None (Some bits) None in value_string v = ""%string /\ value_int v = 0 /\ value_time v = (-62135596800000)%Z) /\
  (forall ms, ms < 2 ^ 63 -> let v := Value None None None (Some ms) in value_time v = Z.of_N ms /\ value_string v = ""%string /\ value_int v = 0 /\ value_float64 v = Some 0).
Proof.
  split; [intros s; repeat split|]. split; [intros n; repeat split|]. split; [intros n; repeat split|]. intros ms H. split; [|repeat split].
  unfold value_time, int64_of_u64, two63. cbn [v_timestamp]. destruct (N.ltb_spec ms (2 ^ 63)); [reflexivity|lia].
Qed.
Print Assumptions C91_cell_readers.

Example C91_example : to_table (FullRow (new_row [9; 2^20; 4]) [] "i" "f" false) =
  Table [ColumnInfo "_id" TInt64] [[int_value 4]; [int_value 9]; [int_value (2^20)]].
Proof. vm_compute. reflexivity. Qed.
Example C91_example_keys : to_table (FullRow (new_row [9]) ["b"; "a"]%string "i" "f" false) =
  Table [ColumnInfo "_id" TString] [[string_value "b"]; [string_value "a"]].
Proof. vm_compute. reflexivity. Qed.
Example C91_example_stop : to_rows (fun i _ => Nat.eqb i 1) (FullRow (new_row [9; 2^20; 4]) [] "i" "f" false) =
  ([RowResult [ColumnInfo "_id" TInt64] [int_value 4]; RowResult [] [int_value 9]], false).
Proof. vm_compute. reflexivity. Qed.
