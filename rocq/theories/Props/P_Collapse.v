(** C52-C55, C66: merging the rows of a scan into one result (internal/data). *)
From Verif.Model Require Import Base Labels Otlp Collapse.
From Verif.Spec Require Import Indexing Merge.
From Verif.Proofs Require Import BaseFacts CollapseFacts.
Open Scope N_scope.

(** The 64 bit hashes keep apart the resources, the scopes (under their resources) and the metric names
    (under their scopes) that occur in [gs].  The hash is a parameter of the model: for xxhash this fails
    only on collisions and, because names are written to it without separators, on inputs such as those of
    [C54_scopes_merged_refuted]. *)
Definition separates (h : string -> N) (kvb : key_value -> string) {A} (name : A -> option string) (gs : list (resource_group A)) : Prop :=
  let hres g := hash_resource h kvb (rg_schema g) (rg_resource g) in
  let hscope g s := hash_scope h kvb (hres g) (sg_schema s) (sg_scope s) in
  (forall g g', In g gs -> In g' gs -> hres g = hres g' -> resource_id g = resource_id g') /\
  (forall g s g' s', In g gs -> In g' gs -> In s (rg_scopes g) -> In s' (rg_scopes g') -> hscope g s = hscope g' s' ->
     resource_id g = resource_id g' /\ scope_id s = scope_id s') /\
  (forall g s a n g' s' a' n', In g gs -> In g' gs -> In s (rg_scopes g) -> In s' (rg_scopes g') -> In a (sg_items s) -> In a' (sg_items s') ->
     name a = Some n -> name a' = Some n' -> hash_metric h (hscope g s) n = hash_metric h (hscope g' s') n' ->
     resource_id g = resource_id g' /\ scope_id s = scope_id s' /\ n = n').
Definition no_name {A} (_ : A) : option string := None.
Definition metric_name (m : metric) : option string := Some (m_name m).

(* ------------------------------------------------------------------ C53 *)
Lemma map_f_ord (m : amap N nat) : NoDup (map fst m) -> map (fun x => match aget N.eqb x m with Some i => i | None => 0%nat end) (map fst m) = map snd m.
Proof.
  induction m as [|[x v] m IH]; cbn; [reflexivity|]. intros ND. inversion ND as [|? ? NI ND']; subst. rewrite N.eqb_refl. f_equal.
  rewrite <- (IH ND'). apply map_ext_in. intros y Hy. destruct (N.eqb_spec y x) as [->|]; [contradiction|reflexivity].
Qed.
Lemma nth_seq {A} (l : list A) : map (fun k => nth_error l (Nat.pred k)) (seq 1 (List.length l)) = map Some l.
Proof.
  rewrite <- seq_shift, map_map. cbn [Nat.pred]. induction l as [|a l IH]; [reflexivity|]. cbn [List.length seq map nth_error]. f_equal. rewrite <- seq_shift, map_map. exact IH.
Qed.
(** Whatever order the map of resources is iterated in, and whatever sorting does, the result lists the
    resources in order of first appearance. *)
Theorem C53_result_order : forall A h kvb ikey imerge (l : list (resource_group A)) c rs id,
  add_resources h kvb ikey imerge l csort_new = Some c -> sort_accepts c rs id -> sort_result c rs id = map Some (c_out c).
Proof.
  intros A h kvb ikey imerge l c rs id E (P1 & P2 & SS).
  destruct (add_resources_numbered h kvb ikey imerge l _ _ E numbered_new) as (O1 & O2 & O3).
  set (L := map (fun i => nth i rs 0) id).
  assert (PL : Permutation (map fst (c_ord c)) L).
  { rewrite P1. unfold L. rewrite <- (Permutation_map (fun i => nth i rs 0) P2). clear. 
    assert (Q : map (fun i => nth i rs 0) (seq 0 (List.length rs)) = rs).
    { apply nth_ext with (d := 0) (d' := 0); [rewrite map_length, seq_length; reflexivity|]. intros n Hn. rewrite map_length, seq_length in Hn.
      rewrite (nth_indep _ 0 (nth 0%nat rs 0)) by (rewrite map_length, seq_length; exact Hn). rewrite (map_nth (fun i => nth i rs 0)). rewrite seq_nth by exact Hn. reflexivity. }
    rewrite Q. apply Permutation_refl. }
  assert (S2 : map (ord_at c) L = seq 1 (List.length (c_out c))).
  { symmetry. apply (sorted_unique (fun x => x)).
    - rewrite <- PL. rewrite <- O2. apply Permutation_sym. unfold ord_at. rewrite map_f_ord by exact O1. apply Permutation_refl.
    - rewrite map_id. apply seq_NoDup.
    - clear. generalize 1%nat as s0. induction (List.length (c_out c)) as [|n IH]; intros s0; cbn; constructor; [apply IH|]. apply Forall_forall. intros x Hx. apply in_seq in Hx. lia.
    - unfold L. rewrite map_map. clear - SS. induction SS as [|x l SS IH F]; cbn; constructor; [exact IH|].
      apply Forall_forall. intros y Hy. apply in_map_iff in Hy as (j & <- & Hj). rewrite Forall_forall in F. specialize (F _ Hj). apply Nat.ltb_ge in F. exact F. }
  change (sort_result c rs id) with (map (fun i => res_at c (nth i rs 0)) id).
  transitivity (map (res_at c) L); [unfold L; rewrite map_map; reflexivity|].
  rewrite <- nth_seq, <- S2, map_map. apply map_ext_in. intros x Hx.
  assert (Hk : In x (map fst (c_ord c))) by (apply (Permutation_in _ (Permutation_sym PL)), Hx).
  unfold res_at, ord_at. destruct (aget N.eqb x (c_ord c)) as [k|] eqn:Ek.
  - apply O3 in Ek as (ri & -> & ->). reflexivity.
  - apply (aget_none _ N_eqb_reflect) in Ek. contradiction.
Qed.
Theorem C53_merge_deterministic : forall A h kvb ikey imerge (l : list (resource_group A)) c rs id rs' id',
  add_resources h kvb ikey imerge l csort_new = Some c -> sort_accepts c rs id -> sort_accepts c rs' id' -> sort_result c rs id = sort_result c rs' id'.
Proof. intros. rewrite !(C53_result_order A h kvb ikey imerge l) by assumption. reflexivity. Qed.

(* ------------------------------------------------------------------ C52 *)
Lemma merge_generic {A B} (total : Prop) h kvb ikey imerge (parts : A -> list B) (same : A -> A -> Prop) (gs : list (resource_group A)) :
  separates h kvb ikey gs ->
  (forall a b, same a b -> same b a) -> (forall a b c, same a b -> same b c -> same a c) -> (forall a, same a a) ->
  (forall X Y a b, has_item gs X Y a -> has_item gs X Y b -> ikey a <> None -> ikey a = ikey b -> same a b) ->
  (forall a b, ikey a <> None -> ikey a = ikey b -> same a b -> (total -> imerge a b <> None) /\
     forall m, imerge a b = Some m -> same m a /\ ikey m = ikey a /\ Permutation (parts m) (parts a ++ parts b)) ->
  (collapse_groups h kvb ikey imerge [gs] = None /\ ~ total) \/
  exists out, collapse_groups h kvb ikey imerge [gs] = Some out /\ Permutation (located parts out) (located parts gs).
Proof.
  intros (S1 & S2 & S3) Sy Tr Re Same Mrg.
  set (KI := fun X Y a => exists a0, has_item gs X Y a0 /\ ikey a0 = ikey a /\ (ikey a <> None -> same a0 a)).
  assert (KS : forall X Y a b, KI X Y a -> KI X Y b -> ikey a <> None -> ikey a = ikey b -> same a b).
  { intros X Y a b (a0 & H0 & E0 & Q0) (b0 & H1 & E1 & Q1) NN E. apply (Tr _ a0); [apply Sy, Q0, NN|]. apply (Tr _ b0); [|apply Q1; congruence].
    apply (Same X Y); congruence. }
  assert (T : (add_resources h kvb ikey imerge gs csort_new = None /\ ~ total) \/
              exists c', add_resources h kvb ikey imerge gs csort_new = Some c' /\ ord_ok c' /\ maps_ok h kvb ikey c' /\ known (has_resource gs) (has_scope gs) KI (c_out c') /\
              Permutation (located parts (c_out c')) (located parts (c_out csort_new) ++ located parts gs)).
  { destruct (new_ok h kvb ikey (has_resource gs) (has_scope gs) KI) as (N1 & N2 & N3).
    apply add_resources_spec; try assumption.
    - intros X X' (g & Hg & <-) (g' & Hg' & <-) E. apply S1; auto. rewrite !hash_resource_id. exact E.
    - intros X Y X' Y' (g & s & Hg & Hs & <- & <-) (g' & s' & Hg' & Hs' & <- & <-) E. apply (S2 g s g' s'); auto. rewrite !hash_scope_id, !hash_resource_id. exact E.
    - intros X Y a n X' Y' a' n' (b & (g & s & Hg & Hs & Hb & <- & <-) & Eb & _) (b' & (g' & s' & Hg' & Hs' & Hb' & <- & <-) & Eb' & _) Ea Ea' E.
      apply (S3 g s b n g' s' b' n'); auto; try congruence. rewrite !hash_scope_id, !hash_resource_id. exact E.
    - intros X Y a b m Ka Kb NN E Em. pose proof (KS X Y a b Ka Kb NN E) as Sab. destruct (proj2 (Mrg a b NN E Sab) m Em) as (Sm & Km & _).
      destruct Ka as (a0 & H0 & E0 & Q0). exists a0. split; [exact H0|]. split; [congruence|]. intros _. apply (Tr _ a); [apply Q0, NN|apply Sy, Sm].
    - intros X Y a b m Ka Kb NN E Em. apply (proj2 (Mrg a b NN E (KS X Y a b Ka Kb NN E)) m Em).
    - intros X Y a b m Ka Kb NN E Em. apply (proj2 (Mrg a b NN E (KS X Y a b Ka Kb NN E)) m Em).
    - intros T X Y a b Ka Kb NN E. apply (proj1 (Mrg a b NN E (KS X Y a b Ka Kb NN E)) T).
    - intros g Hg. split; [exists g; auto|]. intros s Hs. split; [exists g, s; auto|]. intros a Ha. exists a. split; [exists g, s; auto|]. auto. }
  unfold collapse_groups. cbn [List.concat]. rewrite app_nil_r. destruct T as [[E NT]|(c & E & _ & _ & _ & P)]; rewrite E; [left; auto|]. right. exists (c_out c). split; [reflexivity|exact P].
Qed.
Lemma collapse_groups_concat {A} h kvb ikey imerge (ds : list (list (resource_group A))) : collapse_groups h kvb ikey imerge ds = collapse_groups h kvb ikey imerge [List.concat ds].
Proof. unfold collapse_groups. cbn [List.concat]. rewrite app_nil_r. reflexivity. Qed.

(** Log records and spans. *)
Lemma merge_plain A h kvb imerge (ds : list (list (resource_group A))) : separates h kvb no_name (List.concat ds) ->
  exists out, collapse_groups h kvb no_name imerge ds = Some out /\ Permutation (located whole out) (located whole (List.concat ds)).
Proof.
  intros S. rewrite collapse_groups_concat. destruct (merge_generic True h kvb no_name imerge whole (fun _ _ => True) (List.concat ds)) as [[_ NT]|R]; auto; [|exfalso; auto]. intros a b NN. exfalso. apply NN. reflexivity.
Qed.
Theorem C52_logs_keep_every_record : forall h kvb ds, separates h kvb no_name (List.concat ds) ->
  exists out, collapse_logs h kvb ds = Some out /\ Permutation (located whole out) (located whole (List.concat ds)).
Proof. intros h kvb ds. apply merge_plain. Qed.
Theorem C52_traces_keep_every_span : forall h kvb ds, separates h kvb no_name (List.concat ds) ->
  exists out, collapse_traces h kvb ds = Some out /\ Permutation (located whole out) (located whole (List.concat ds)).
Proof. intros h kvb ds. apply merge_plain. Qed.
(** Metrics: the data points, with the name and kind of their metric. *)
Lemma merge_metric_some a b : m_name a = m_name b -> option_map md_kind (m_data a) = option_map md_kind (m_data b) ->
  exists m, merge_metric a b = Some m /\ option_map md_kind (m_data m) = option_map md_kind (m_data a) /\ m_name m = m_name a /\ Permutation (points_of m) (points_of a ++ points_of b).
Proof.
  intros EN EK. unfold merge_metric, points_of. destruct (m_data b) as [d|] eqn:Eb.
  - destruct (m_data a) as [od|] eqn:Ea; [|discriminate]. cbn [option_map] in EK. apply some_inj in EK. rewrite EK. replace (kind_eqb (md_kind d) (md_kind d)) with true by (destruct (md_kind d); reflexivity).
    eexists. split; [reflexivity|]. cbn [m_data m_name option_map md_kind md_points]. split; [congruence|]. split; [reflexivity|]. rewrite map_app, EN. apply Permutation_refl.
  - destruct (m_data a) as [od|] eqn:Ea; [discriminate|]. exists a. rewrite Ea. split; [reflexivity|]. split; [reflexivity|]. split; [reflexivity|]. apply Permutation_refl.
Qed.
Lemma merge_metric_points a b m : m_name a = m_name b -> merge_metric a b = Some m -> m_name m = m_name a /\ Permutation (points_of m) (points_of a ++ points_of b).
Proof.
  intros EN. unfold merge_metric, points_of. destruct (m_data b) as [d|] eqn:Eb.
  - destruct (m_data a) as [od|] eqn:Ea; [|discriminate]. destruct (kind_eqb (md_kind od) (md_kind d)) eqn:EK; [|discriminate]. intros E. apply some_inj in E. subst m.
    assert (K : md_kind od = md_kind d) by (destruct (md_kind od), (md_kind d); try discriminate; reflexivity).
    cbn [m_data m_name option_map md_kind md_points]. split; [reflexivity|]. rewrite map_app, EN, K. apply Permutation_refl.
  - intros E. apply some_inj in E. subst m. rewrite app_nil_r. split; [reflexivity|]. apply Permutation_refl.
Qed.
(** No data point is lost or misplaced by a merge of metrics that does not panic ... *)
Theorem C52_metrics_merge_keeps_points : forall h kvb ds out, separates h kvb metric_name (List.concat ds) -> collapse_metrics h kvb ds = Some out ->
  Permutation (located points_of out) (located points_of (List.concat ds)).
Proof.
  intros h kvb ds out S E. unfold collapse_metrics in E. rewrite collapse_groups_concat in E.
  destruct (merge_generic False h kvb metric_name merge_metric points_of (fun _ _ => True) (List.concat ds)) as [[N _]|(out' & E' & P)]; auto.
  - intros a b _ EN _. split; [intros []|]. intros m Em. unfold metric_name in *. apply some_inj in EN. destruct (merge_metric_points a b m EN Em) as (Q1 & Q2). split; [exact Logic.I|]. split; [congruence|exact Q2].
  - change (fun m : metric => Some (m_name m)) with metric_name in E. congruence.
  - change (fun m : metric => Some (m_name m)) with metric_name in E. rewrite E in E'. apply some_inj in E'. subst out'. exact P.
Qed.
(** ... and it does not when metrics of one name hold one kind of data. *)
Theorem C52_metrics_keep_every_point : forall h kvb ds, separates h kvb metric_name (List.concat ds) -> one_kind (List.concat ds) ->
  exists out, collapse_metrics h kvb ds = Some out /\ Permutation (located points_of out) (located points_of (List.concat ds)).
Proof.
  intros h kvb ds S K. unfold collapse_metrics. rewrite collapse_groups_concat.
  destruct (merge_generic True h kvb metric_name merge_metric points_of (fun a b => option_map md_kind (m_data a) = option_map md_kind (m_data b)) (List.concat ds)) as [[_ NT]|R]; try congruence; [| |exfalso; auto|exact R].
  - intros X Y a b Ha Hb _ E. apply (K X Y); auto. unfold metric_name in E. apply some_inj in E. exact E.
  - intros a b _ E Q. unfold metric_name in *. apply some_inj in E. destruct (merge_metric_some a b E Q) as (m & E1 & E2 & E3 & P). rewrite E1. split; [discriminate|]. intros m' Em. apply some_inj in Em. subst m'. split; [exact E2|]. split; [congruence|exact P].
Qed.

(** Payloads of one signal, whatever the signal. *)
Definition mergeable (h : string -> N) (kvb : key_value -> string) (ds : list data) : Prop :=
  separates h kvb metric_name (flat_map metric_groups ds) /\ one_kind (flat_map metric_groups ds) /\
  separates h kvb no_name (flat_map log_groups ds) /\ separates h kvb no_name (flat_map span_groups ds).
Lemma located_concat {A B} (parts : A -> list B) (ds : list (list (resource_group A))) : located parts (List.concat ds) = flat_map (located parts) ds.
Proof. induction ds as [|d ds IH]; [reflexivity|]. cbn [List.concat flat_map]. unfold located in *. rewrite flat_map_app. f_equal. exact IH. Qed.
Lemma map_flat {A B C} (f : B -> C) (g : A -> list B) l : map f (flat_map g l) = flat_map (fun x => map f (g x)) l.
Proof. induction l as [|x l IH]; cbn; [reflexivity|]. rewrite map_app, IH. reflexivity. Qed.
Lemma all_metrics sig ds : sig = RESOURCE_METRICS -> (forall d, In d ds -> signal_of d = sig) -> exists gss, all_some (map get_metrics ds) = Some gss /\ ds = map DMetrics gss /\ flat_map metric_groups ds = List.concat gss.
Proof.
  intros E. induction ds as [|d ds IH]; intros H; [exists []; auto|]. destruct IH as (gss & E1 & E2 & E3); [intros x Hx; apply H; right; exact Hx|].
  pose proof (H d (or_introl eq_refl)) as Hd. rewrite E in Hd. destruct d as [l|l|l|]; try discriminate. exists (l :: gss). cbn [map all_some get_metrics flat_map metric_groups List.concat]. rewrite E1, E3, <- E2. auto.
Qed.
Lemma all_logs sig ds : sig = RESOURCE_LOGS -> (forall d, In d ds -> signal_of d = sig) -> exists gss, all_some (map get_logs ds) = Some gss /\ ds = map DLogs gss /\ flat_map log_groups ds = List.concat gss.
Proof.
  intros E. induction ds as [|d ds IH]; intros H; [exists []; auto|]. destruct IH as (gss & E1 & E2 & E3); [intros x Hx; apply H; right; exact Hx|].
  pose proof (H d (or_introl eq_refl)) as Hd. rewrite E in Hd. destruct d as [l|l|l|]; try discriminate. exists (l :: gss). cbn [map all_some get_logs flat_map log_groups List.concat]. rewrite E1, E3, <- E2. auto.
Qed.
Lemma all_traces sig ds : sig = RESOURCE_TRACES -> (forall d, In d ds -> signal_of d = sig) -> exists gss, all_some (map get_traces ds) = Some gss /\ ds = map DTraces gss /\ flat_map span_groups ds = List.concat gss.
Proof.
  intros E. induction ds as [|d ds IH]; intros H; [exists []; auto|]. destruct IH as (gss & E1 & E2 & E3); [intros x Hx; apply H; right; exact Hx|].
  pose proof (H d (or_introl eq_refl)) as Hd. rewrite E in Hd. destruct d as [l|l|l|]; try discriminate. exists (l :: gss). cbn [map all_some get_traces flat_map span_groups List.concat]. rewrite E1, E3, <- E2. auto.
Qed.
(** Merging a non empty list of payloads of one signal yields one payload of that signal with exactly
    their records. *)
Theorem C52_merge_loses_nothing : forall h kvb ds sig, In sig [RESOURCE_METRICS; RESOURCE_LOGS; RESOURCE_TRACES] -> ds <> [] ->
  (forall d, In d ds -> signal_of d = sig) -> mergeable h kvb ds ->
  exists out, collapse h kvb ds = Some (Some out) /\ signal_of out = sig /\ Permutation (records out) (flat_map records ds).
Proof.
  intros h kvb ds sig Hsig NE Hall (M1 & M2 & M3 & M4). destruct ds as [|d [|d2 t]]; [contradiction| |].
  { exists d. split; [reflexivity|]. split; [apply Hall; left; reflexivity|]. cbn. rewrite app_nil_r. apply Permutation_refl. }
  destruct Hsig as [E|[E|[E|[]]]]; symmetry in E.
  - destruct (all_metrics sig _ E Hall) as (gss & E1 & E2 & E3). rewrite E3 in M1, M2. destruct (C52_metrics_keep_every_point h kvb gss M1 M2) as (out & E4 & P).
    exists (DMetrics out). pose proof (Hall d (or_introl eq_refl)) as Hd. rewrite E in Hd. destruct d as [l|l|l|]; try discriminate. unfold collapse. rewrite E1, E4. split; [reflexivity|]. split; [symmetry; exact E|].
    rewrite E2. cbn [records]. rewrite P, located_concat, map_flat. rewrite flat_map_concat_map, flat_map_concat_map, map_map. apply Permutation_refl.
  - destruct (all_logs sig _ E Hall) as (gss & E1 & E2 & E3). rewrite E3 in M3. destruct (C52_logs_keep_every_record h kvb gss M3) as (out & E4 & P).
    exists (DLogs out). pose proof (Hall d (or_introl eq_refl)) as Hd. rewrite E in Hd. destruct d as [l|l|l|]; try discriminate. unfold collapse. rewrite E1, E4. split; [reflexivity|]. split; [symmetry; exact E|].
    rewrite E2. cbn [records]. rewrite P, located_concat, map_flat. rewrite flat_map_concat_map, flat_map_concat_map, map_map. apply Permutation_refl.
  - destruct (all_traces sig _ E Hall) as (gss & E1 & E2 & E3). rewrite E3 in M4. destruct (C52_traces_keep_every_span h kvb gss M4) as (out & E4 & P).
    exists (DTraces out). pose proof (Hall d (or_introl eq_refl)) as Hd. rewrite E in Hd. destruct d as [l|l|l|]; try discriminate. unfold collapse. rewrite E1, E4. split; [reflexivity|]. split; [symmetry; exact E|].
    rewrite E2. cbn [records]. rewrite P, located_concat, map_flat. rewrite flat_map_concat_map, flat_map_concat_map, map_map. apply Permutation_refl.
Qed.
(** A blank first row discards all the others; a blank later row is a panic. *)
Theorem C52_blank_rows_refuted : forall h kvb d ds gs, collapse h kvb (DNone :: d :: ds) = Some None /\ collapse h kvb [DLogs gs; DNone] = None.
Proof. intros. split; reflexivity. Qed.

(* ------------------------------------------------------------------ C54 *)
Definition anon_log (t : N) := LogRecord t "" [] None None "".
Definition log_in (name version : string) (t : N) : resource_group log_record := RGroup "" None [SGroup "" (Some (Scope name version [] "")) [anon_log t]].
Ltac step_hash := cbv -[N.eqb u64be]; repeat (rewrite !N.eqb_refl; cbv -[N.eqb u64be]).
(** Name and version are hashed one after the other without a separator: whatever the hash, the scopes
    ("a", "bc") and ("ab", "c") are merged, and the second one's record is reported under the first. *)
Theorem C54_scopes_merged_refuted : forall h kvb, exists out, collapse_logs h kvb [[log_in "a" "bc" 1]; [log_in "ab" "c" 2]] = Some out /\
  In ("", [], ("", ("a", "bc", [])), anon_log 2)%string (located whole out) /\
  ~ In ("", [], ("", ("ab", "c", [])), anon_log 2)%string (located whole out).
Proof.
  intros h kvb. eexists. split.
  - step_hash. reflexivity.
  - cbn. split; [auto|]. intros [H|[H|[]]]; inversion H.
Qed.
(** Where the hash keeps the scopes of the input apart, a record is reported under a scope exactly if it
    was recorded under it. *)
Theorem C54_scopes_kept_apart_partial : forall h kvb ds out X Y r, separates h kvb no_name (List.concat ds) -> collapse_logs h kvb ds = Some out ->
  (In (X, Y, r) (located whole out) <-> In (X, Y, r) (located whole (List.concat ds))).
Proof.
  intros h kvb ds out X Y r S E. destruct (C52_logs_keep_every_record h kvb ds S) as (out' & E' & P). rewrite E in E'. apply some_inj in E'. subst out'.
  split; apply Permutation_in; [exact P|apply Permutation_sym, P].
Qed.
Theorem C54_span_scopes_kept_apart_partial : forall h kvb ds out X Y r, separates h kvb no_name (List.concat ds) -> collapse_traces h kvb ds = Some out ->
  (In (X, Y, r) (located whole out) <-> In (X, Y, r) (located whole (List.concat ds))).
Proof.
  intros h kvb ds out X Y r S E. destruct (C52_traces_keep_every_span h kvb ds S) as (out' & E' & P). rewrite E in E'. apply some_inj in E'. subst out'.
  split; apply Permutation_in; [exact P|apply Permutation_sym, P].
Qed.
Theorem C54_metric_scopes_kept_apart_partial : forall h kvb ds out X Y r, separates h kvb metric_name (List.concat ds) -> collapse_metrics h kvb ds = Some out ->
  (In (X, Y, r) (located points_of out) <-> In (X, Y, r) (located points_of (List.concat ds))).
Proof.
  intros h kvb ds out X Y r S E. pose proof (C52_metrics_merge_keeps_points h kvb ds out S E) as P. split; apply Permutation_in; [exact P|apply Permutation_sym, P].
Qed.

(* ------------------------------------------------------------------ C55 *)
Definition one_metric (m : metric) : resource_group metric := RGroup "" None [SGroup "" None [m]].
(** A metric name recorded first as one kind (or without data) and then as another: merging panics. *)
Theorem C55_kind_conflict_panics_refuted : forall h kvb name k k' p p', k <> k' ->
  let one k p := DMetrics [one_metric (Metric name "" "" (Some (MData k 0 false [p])))] in
  collapse h kvb [one k p; one k' p'] = None.
Proof.
  intros h kvb name k k' p p' NE. cbv zeta. step_hash.
  destruct k, k'; try reflexivity; contradiction.
Qed.
Theorem C55_dataless_metric_panics_refuted : forall h kvb name d,
  collapse h kvb [DMetrics [one_metric (Metric name "" "" None)]; DMetrics [one_metric (Metric name "" "" (Some d))]] = None.
Proof.
  intros h kvb name d. step_hash. reflexivity.
Qed.
(** Logs and traces always merge, whatever the hash; so do metrics of consistent kinds. *)
Theorem C55_logs_and_traces_always_merge : forall h kvb, (forall ds, exists out, collapse_logs h kvb ds = Some out) /\ (forall ds, exists out, collapse_traces h kvb ds = Some out).
Proof.
  intros h kvb. split; intros ds; unfold collapse_logs, collapse_traces, collapse_groups;
  [destruct (add_resources_total h kvb (A := log_record) (fun _ _ => None) (List.concat ds) csort_new) as (c & ->)|destruct (add_resources_total h kvb (A := span) (fun _ _ => None) (List.concat ds) csort_new) as (c & ->)]; eauto.
Qed.
Theorem C55_consistent_metrics_merge_partial : forall h kvb ds, separates h kvb metric_name (List.concat ds) -> one_kind (List.concat ds) -> exists out, collapse_metrics h kvb ds = Some out.
Proof. intros h kvb ds S K. destruct (C52_metrics_keep_every_point h kvb ds S K) as (out & E & _). eauto. Qed.

(* ------------------------------------------------------------------ C66 *)
(** Description, unit, temporality and monotonicity of a metric survive merging if its occurrences agree
    on them; otherwise those of the first occurrence are reported for all points. *)
Theorem C66_metadata_kept_partial : forall h kvb ds, separates h kvb metric_name (List.concat ds) -> one_meta (List.concat ds) ->
  exists out, collapse_metrics h kvb ds = Some out /\ Permutation (located full_points_of out) (located full_points_of (List.concat ds)).
Proof.
  intros h kvb ds S K. unfold collapse_metrics. rewrite collapse_groups_concat.
  destruct (merge_generic True h kvb metric_name merge_metric full_points_of (fun a b => meta_of a = meta_of b) (List.concat ds)) as [[_ NT]|R]; try congruence; [| |exfalso; auto|exact R].
  - intros X Y a b Ha Hb _ E. apply (K X Y); auto. unfold metric_name in E. apply some_inj in E. exact E.
  - intros [na da ua ma] [nb db ub mb] _ E Q. unfold metric_name in *. cbn [m_name] in E. apply some_inj in E. subst nb.
    unfold meta_of in Q. cbn [m_desc m_unit m_data] in Q. apply pair_inj in Q as [Q Q3]. apply pair_inj in Q as [<- <-].
    destruct ma as [[ka ta mona pa]|], mb as [[kb tb monb pb]|]; cbn [option_map md_kind md_temporality md_monotonic] in Q3; try discriminate.
    + apply some_inj in Q3. apply pair_inj in Q3 as [Q Q3]. apply pair_inj in Q as [<- <-]. subst monb. unfold merge_metric. cbn [m_data md_kind]. replace (kind_eqb ka ka) with true by (destruct ka; reflexivity).
      split; [discriminate|]. intros m Em. apply some_inj in Em. subst m. split; [reflexivity|]. split; [reflexivity|]. unfold full_points_of. cbn [m_data md_points m_name m_desc m_unit md_temporality md_monotonic md_kind].
      rewrite map_app. apply Permutation_refl.
    + split; [discriminate|]. intros m Em. apply some_inj in Em. subst m. split; [reflexivity|]. split; [reflexivity|]. apply Permutation_refl.
Qed.
Theorem C66_metadata_of_later_rows_lost_refuted : forall h kvb name p p', p <> p' ->
  let m u p := Metric name "" u (Some (MData KGauge 0 false [p])) in
  exists out, collapse_metrics h kvb [[one_metric (m "s" p)]; [one_metric (m "By" p')]] = Some out /\
    In ("", [], ("", ("", "", [])), (name, meta_of (m "s" p), p'))%string (located full_points_of out) /\
    ~ In ("", [], ("", ("", "", [])), (name, meta_of (m "By" p'), p'))%string (located full_points_of out).
Proof.
  intros h kvb name p p' NE. cbv zeta. eexists. split.
  - step_hash. reflexivity.
  - cbn. split; [auto|]. intros [H|[H|[]]]; inversion H.
Qed.

(* ------------------------------------------------------------------ examples *)
(** A hash and an attribute encoding that keep the payloads below apart. *)
Definition toy_h (s : string) : N := fold_left (fun a c => a * 257 + 1 + N_of_ascii c) (list_ascii_of_string s) 1.
Definition toy_kvb (kv : key_value) : string := append (kv_key kv) (append "=" (append (get_string (kv_val kv)) ";")).
Definition svc (v : string) := Some (Resource [KV "service" (Some (AVString v))] "").
Definition pt (t : N) := Point t [] "".
Definition gauge (n : string) (ts : list N) := Metric n "" "" (Some (MData KGauge 0 false (map pt ts))).
Definition row1 : list (resource_group metric) := [RGroup "" (svc "a") [SGroup "" (Some (Scope "lib" "1" [] "")) [gauge "cpu" [1; 2]; gauge "mem" [3]]]].
Definition row2 : list (resource_group metric) := [RGroup "" (svc "b") [SGroup "" None [gauge "cpu" [4]]];
  RGroup "" (svc "a") [SGroup "" (Some (Scope "lib" "1" [] "")) [gauge "cpu" [5]]; SGroup "" (Some (Scope "lib" "2" [] "")) [gauge "cpu" [6]]]].
Ltac pick := repeat match goal with
  | H : In _ (_ :: _) |- _ => cbn in H; destruct H as [<-|H]
  | H : In _ (rg_scopes _) |- _ => progress cbn in H
  | H : In _ (sg_items _) |- _ => progress cbn in H
  | H : False |- _ => destruct H
  | H : _ \/ _ |- _ => destruct H as [<-|H]
  end.
Example C52_example : mergeable toy_h toy_kvb [DMetrics row1; DMetrics row2] /\
  collapse toy_h toy_kvb [DMetrics row1; DMetrics row2] = Some (Some (DMetrics
    [RGroup "" (svc "a") [SGroup "" (Some (Scope "lib" "1" [] "")) [gauge "cpu" [1; 2; 5]; gauge "mem" [3]]; SGroup "" (Some (Scope "lib" "2" [] "")) [gauge "cpu" [6]]];
     RGroup "" (svc "b") [SGroup "" None [gauge "cpu" [4]]]])).
Proof.
  split; [|vm_compute; reflexivity]. split; [|split; [|split]].
  - split; [|split]; cbv zeta; change (flat_map metric_groups [DMetrics row1; DMetrics row2]) with (row1 ++ row2).
    + intros g g' H1 H2 E. unfold row1, row2 in *. cbn [app] in *. pick; first [reflexivity|vm_compute in E; discriminate E].
    + intros g s g' s' H1 H2 H3 H4 E. unfold row1, row2 in *. cbn [app] in *. pick; first [split; reflexivity|vm_compute in E; discriminate E].
    + intros g s a n g' s' a' n' H1 H2 H3 H4 H5 H6 Ea Ea' E. unfold row1, row2 in *. cbn [app] in *. pick; unfold metric_name, gauge in Ea, Ea'; cbn in Ea, Ea'; apply some_inj in Ea; apply some_inj in Ea'; subst n n'; first [split; [reflexivity|split; reflexivity]|vm_compute in E; discriminate E].
  - intros X Y a b (g & s & H1 & H2 & H3 & _) (g' & s' & H4 & H5 & H6 & _) _. cbn in H1, H4. pick; reflexivity.
  - split; [|split]; cbv zeta; cbn; intros; contradiction.
  - split; [|split]; cbv zeta; cbn; intros; contradiction.
Qed.
Example C53_example : exists c rs id, add_resources toy_h toy_kvb metric_name merge_metric (row1 ++ row2) csort_new = Some c /\ sort_accepts c rs id /\ id = [1; 0]%nat /\ List.length (c_out c) = 2%nat.
Proof.
  eexists. exists [toy_h "service=b;"; toy_h "service=a;"], [1; 0]%nat. split; [vm_compute; reflexivity|]. split; [|split; reflexivity].
  split; [|split].
  - vm_compute. apply perm_swap.
  - cbn. apply perm_swap.
  - constructor; [constructor; [constructor|constructor]|]. constructor; [vm_compute; reflexivity|constructor].
Qed.
Example C54_example : separates toy_h toy_kvb no_name (List.concat [[log_in "a" "bc" 1]; [log_in "a" "b" 2]]).
Proof.
  split; [|split]; cbv zeta; cbn [List.concat app].
  - intros g g' H1 H2 E. pick; first [reflexivity|vm_compute in E; discriminate E].
  - intros g s g' s' H1 H2 H3 H4 E. unfold log_in in *. pick; first [split; reflexivity|vm_compute in E; discriminate E].
  - intros; discriminate.
Qed.
