(** Flattening of metrics (internal/f2). *)
From Verif.Model Require Import Base Otlp View Flatten.
From Verif.Spec Require Import Flat.
From Verif.Proofs Require Import BaseFacts.
Open Scope N_scope.

Section Flatten.
Context (tr : string -> N) (digest : nset -> N) (float_of_int : Z -> N).
Notation add_labels := (add_labels tr).
Notation row_of := (row_of tr digest).
Notation rows_from := (rows_from tr digest).
Notation columns := (columns tr).

Lemma in_fold_sadd {A} (f : A -> N) l : forall b x, In x (fold_left (fun s a => sadd (f a) s) l b) <-> In x b \/ In x (map f l).
Proof.
  induction l as [|a l IH]; intros b x; cbn [fold_left map In]; [tauto|]. rewrite IH, in_sadd. intuition (subst; auto).
Qed.
Lemma ssorted_fold_sadd {A} (f : A -> N) l : forall b, ssorted b -> ssorted (fold_left (fun s a => sadd (f a) s) l b).
Proof. induction l as [|a l IH]; intros b H; [exact H|]. cbn [fold_left]. apply IH, ssorted_sadd, H. Qed.

Lemma add_labels_spec kv : attrs_present kv -> forall b, add_labels b kv = Some (fold_left (fun s l => sadd (tr l) s) (labels_of kv) b).
Proof.
  induction kv as [|v kv IH]; intros P b; [reflexivity|]. inversion P as [|? ? Hv Pv]; subst.
  cbn [Flatten.add_labels labels_of flat_map]. destruct (kv_val v) as [[s|raw]|] eqn:E; [| |congruence].
  - cbn [List.app fold_left]. apply IH, Pv.
  - apply IH, Pv.
Qed.

Lemma point_columns name kv : sadd (tr (append "__name__" (append "=" name))) (fold_left (fun s l => sadd (tr l) s) (labels_of kv) []) =
  sof_list (map tr (append "__name__=" name :: labels_of kv)).
Proof.
  apply ssorted_ext.
  - apply ssorted_sadd, ssorted_fold_sadd. constructor.
  - apply ssorted_sof_list.
  - intros x. rewrite in_sadd, in_fold_sadd, in_sof_list. cbn [map In].
    change (append "__name__" (append "=" name)) with (append "__name__=" name). intuition (subst; auto).
Qed.

Lemma attr_attr_spec a name kv : attrs_present kv ->
  attr_attr tr digest a name kv = Some (a_resource a ++ a_scope a ++ kv,
    sof_list (map tr (append "__name__=" name :: labels_of kv)), digest (sof_list (map tr (append "__name__=" name :: labels_of kv)))).
Proof.
  intros P. unfold attr_attr, attr_do. cbv zeta. rewrite add_labels_spec by exact P. rewrite point_columns. reflexivity.
Qed.

(** One message: what it must hold before a point is emitted. *)
Definition upto (ra sa : list key_value) (o : occ) (mx : frow) : Prop :=
  exists id attrs hash, mx = FRow id (w_kind (row_of 0 o)) (w_name (row_of 0 o)) (w_desc (row_of 0 o)) (w_unit (row_of 0 o))
    (w_start (row_of 0 o)) (w_time (row_of 0 o)) (w_gauge (row_of 0 o)) (w_hist (row_of 0 o)) (w_exp (row_of 0 o)) (w_summary (row_of 0 o))
    (w_temporality (row_of 0 o)) (w_monotonic (row_of 0 o)) (w_exemplars (row_of 0 o)) attrs hash.

Definition grown (st st' : fstate) (l : list occ) : Prop :=
  f_rows st' = f_rows st ++ rows_from (f_next st) l /\ f_next st' = f_next st + N.of_nat (List.length l) /\
  forall x, In x (f_positions st') <-> In x (f_positions st) \/
    exists i o c, nth_error l i = Some o /\ In c (columns o) /\ x = pos (f_next st + N.of_nat i) c.

Lemma grown_nil st : grown st st [].
Proof.
  split; [cbn; rewrite app_nil_r; reflexivity|]. split; [cbn; lia|]. intros x. split; [auto|].
  intros [H|(i & o & c & E & _)]; [exact H|]. destruct i; discriminate E.
Qed.
Lemma rows_from_app a : forall id b, rows_from id (a ++ b) = rows_from id a ++ rows_from (id + N.of_nat (List.length a)) b.
Proof.
  induction a as [|o a IH]; intros id b; cbn [List.app Flat.rows_from List.length].
  - f_equal. lia.
  - rewrite IH. do 3 f_equal. lia.
Qed.
Lemma grown_app st st1 st2 a b : grown st st1 a -> grown st1 st2 b -> grown st st2 (a ++ b).
Proof.
  intros (R1 & N1 & P1) (R2 & N2 & P2). split; [|split].
  - rewrite R2, R1, N1, rows_from_app, app_assoc. reflexivity.
  - rewrite N2, N1, app_length. lia.
  - intros x. rewrite P2, P1. split.
    + intros [[H|(i & o & c & E & C & ->)]|(i & o & c & E & C & ->)]; [auto| |].
      * right. exists i, o, c. rewrite nth_error_app1 by (apply nth_error_Some; congruence). auto.
      * right. exists (List.length a + i)%nat, o, c. rewrite nth_error_app2 by lia.
        replace (List.length a + i - List.length a)%nat with i by lia. repeat split; auto. rewrite N1. f_equal. lia.
    + intros [H|(i & o & c & E & C & ->)]; [auto|].
      destruct (Nat.lt_ge_cases i (List.length a)) as [L|G].
      * left. right. exists i, o, c. rewrite nth_error_app1 in E by exact L. auto.
      * right. exists (i - List.length a)%nat, o, c. rewrite nth_error_app2 in E by exact G. repeat split; auto.
        rewrite N1. f_equal. lia.
Qed.

Lemma emit_spec ra sa a o mx st : a_resource a = oc_resource o -> a_scope a = oc_scope o ->
  attrs_present (fp_attrs (oc_point o)) -> upto ra sa o mx ->
  exists mx' st', emit tr digest a (oc_point o) mx st = Some (mx', st') /\ upto ra sa o mx' /\ grown st st' [o].
Proof.
  intros Er Es P (id & attrs & hash & ->). unfold emit. cbn [w_name Flat.row_of]. rewrite attr_attr_spec by exact P.
  rewrite Er, Es. eexists _, _. split; [reflexivity|]. split.
  - eexists _, _, _. reflexivity.
  - split; [|split].
    + cbn [f_rows]. f_equal.
    + cbn [f_next List.length]. lia.
    + intros x. cbn [f_positions]. rewrite (in_fold_sadd (fun c => pos (f_next st) c)). split.
      * intros [H|H]; [auto|]. right. apply in_map_iff in H as (c & <- & C). exists 0%nat, o, c. split; [reflexivity|].
        split; [exact C|]. f_equal. lia.
      * intros [H|(i & o' & c & E & C & ->)]; [auto|]. right. destruct i as [|i]; [|destruct i; discriminate E].
        injection E as <-. apply in_map_iff. exists c. split; [f_equal; cbn; lia|exact C].
Qed.

(** The loops. *)
Lemma points_spec (set : frow -> fpoint -> frow) ra sa a m (l : list (fpoint * option N)) : a_resource a = ra -> a_scope a = sa ->
  forall mx st,
  Forall (fun pg => attrs_present (fp_attrs (fst pg))) l ->
  (forall p g t mx', l = (p, g) :: t -> mx' = mx -> upto ra sa (Occ ra sa m p g) (set mx' p)) ->
  (forall p g p' g' t, (exists h, l = h ++ (p, g) :: (p', g') :: t) -> forall mx', upto ra sa (Occ ra sa m p g) mx' ->
     upto ra sa (Occ ra sa m p' g') (set mx' p')) ->
  exists st', each_point tr digest set a mx (map fst l) st = Some st' /\ grown st st' (map (fun pg => Occ ra sa m (fst pg) (snd pg)) l).
Proof.
  intros Er Es. induction l as [|[p g] l IH]; intros mx st P H0 H.
  - exists st. split; [reflexivity|apply grown_nil].
  - inversion P as [|? ? Pp Pl]; subst. cbn [fst] in Pp. cbn [map fst each_point].
    destruct (emit_spec (a_resource a) (a_scope a) a (Occ (a_resource a) (a_scope a) m p g) (set mx p) st eq_refl eq_refl Pp (H0 p g l mx eq_refl eq_refl))
      as (mx' & st1 & E & U & G). cbn [oc_point] in E. rewrite E.
    destruct (IH mx' st1 Pl) as (st2 & E2 & G2).
    + intros p' g' t mx'' -> ->. apply (H p g p' g' t); [exists []; reflexivity|exact U].
    + intros p1 g1 p2 g2 t (h & ->). apply (H p1 g1 p2 g2 t). exists ((p, g) :: h). reflexivity.
    + exists st2. split; [exact E2|]. cbn [map fst snd]. apply (grown_app st st1 st2 [_] _ G G2).
Qed.

Lemma carry_chain l : forall before p g p' g' t, (exists h, carry float_of_int before l = h ++ (p, g) :: (p', g') :: t) ->
  g' = match own_number float_of_int p' with Some x => Some x | None => g end.
Proof.
  induction l as [|q l IH]; intros before p g p' g' t (h & E).
  - destruct h; discriminate E.
  - cbn [carry] in E. cbv zeta in E. destruct h as [|x h].
    + cbn [List.app] in E. injection E as _ <- E. destruct l as [|q' l]; [discriminate E|]. cbn [carry] in E. cbv zeta in E.
      injection E as <- <- _. reflexivity.
    + cbn [List.app] in E. injection E as _ E. eapply IH. exists h. exact E.
Qed.
Lemma carry_fst l : forall before, map fst (carry float_of_int before l) = l.
Proof. induction l as [|p l IH]; intros before; [reflexivity|]. cbn [carry map fst]. cbv zeta. cbn [map fst]. rewrite IH. reflexivity. Qed.

Lemma carry_present l before : Forall (fun p => attrs_present (fp_attrs p)) l -> Forall (fun pg => attrs_present (fp_attrs (fst pg))) (carry float_of_int before l).
Proof. revert before. induction l as [|p l IH]; intros before F; [constructor|]. inversion F; subst. cbn [carry]. cbv zeta. constructor; auto. Qed.

Lemma metric_spec ra sa a m st : a_resource a = ra -> a_scope a = sa -> Forall (fun p => attrs_present (fp_attrs p)) (data_points (fm_data m)) ->
  exists st', append_metric tr digest float_of_int a m st = Some st' /\
    grown st st' (map (fun pg => Occ ra sa m (fst pg) (snd pg)) (numbered float_of_int (fm_data m))).
Proof.
  intros Er Es P. unfold append_metric, numbered. destruct m as [name desc unit d]. cbn [fm_data] in *.
  set (M := FMetric name desc unit d).
  destruct d as [l|t mono l|t l|t l|l|]; cbn [data_points numeric_kind] in *.
  - pose proof (points_spec (set_number float_of_int) ra sa a M (carry float_of_int None l) Er Es (with_head M 0 0 false) st) as K. rewrite carry_fst in K. apply K; clear K.
    + apply carry_present, P.
    + intros p g t mx' E ->. destruct l as [|q l]; [discriminate E|]. cbn [carry] in E. cbv zeta in E. injection E as <- <- _.
      eexists _, _, _. unfold set_number, with_head, M. cbn [fm_name fm_desc fm_unit]. unfold own_number. destruct (fp_num q) as [[i|dd]|]; reflexivity.
    + intros p g p' g' t Hc mx' (id & at' & hash & ->). apply carry_chain in Hc. subst g'. eexists _, _, _.
      unfold set_number, own_number. destruct (fp_num p') as [[i|dd]|]; reflexivity.
  - pose proof (points_spec (set_number float_of_int) ra sa a M (carry float_of_int None l) Er Es (with_head M 1 t mono) st) as K. rewrite carry_fst in K. apply K; clear K.
    + apply carry_present, P.
    + intros p g t' mx' E ->. destruct l as [|q l]; [discriminate E|]. cbn [carry] in E. cbv zeta in E. injection E as <- <- _.
      eexists _, _, _. unfold set_number, with_head, M. cbn [fm_name fm_desc fm_unit]. unfold own_number. destruct (fp_num q) as [[i|dd]|]; reflexivity.
    + intros p g p' g' t' Hc mx' (id & at' & hash & ->). apply carry_chain in Hc. subst g'. eexists _, _, _.
      unfold set_number, own_number. destruct (fp_num p') as [[i|dd]|]; reflexivity.
  - pose proof (points_spec set_hist ra sa a M (map (fun p : fpoint => (p, None (A := N))) l) Er Es (with_head M 2 t false) st) as K.
    rewrite map_map in K. cbn [fst] in K. rewrite map_id in K. apply K; clear K.
    + apply Forall_map. exact P.
    + intros p g t' mx' E ->. destruct l as [|q l]; [discriminate E|]. injection E as <- <- _. eexists _, _, _. reflexivity.
    + intros p g p' g' t' (h & E) mx' (id & at' & hash & ->). assert (Q : In (p', g') (map (fun p : fpoint => (p, None (A := N))) l)) by (rewrite E; apply in_or_app; right; right; left; reflexivity).
      apply in_map_iff in Q as (q & Q & _). injection Q as <- <-.
      assert (Q : In (p, g) (map (fun p : fpoint => (p, None (A := N))) l)) by (rewrite E; apply in_or_app; right; left; reflexivity).
      apply in_map_iff in Q as (q' & Q & _). injection Q as <- <-. eexists _, _, _. reflexivity.
  - pose proof (points_spec set_exp ra sa a M (map (fun p : fpoint => (p, None (A := N))) l) Er Es (with_head M 3 t false) st) as K.
    rewrite map_map in K. cbn [fst] in K. rewrite map_id in K. apply K; clear K.
    + apply Forall_map. exact P.
    + intros p g t' mx' E ->. destruct l as [|q l]; [discriminate E|]. injection E as <- <- _. eexists _, _, _. reflexivity.
    + intros p g p' g' t' (h & E) mx' (id & at' & hash & ->). assert (Q : In (p', g') (map (fun p : fpoint => (p, None (A := N))) l)) by (rewrite E; apply in_or_app; right; right; left; reflexivity).
      apply in_map_iff in Q as (q & Q & _). injection Q as <- <-.
      assert (Q : In (p, g) (map (fun p : fpoint => (p, None (A := N))) l)) by (rewrite E; apply in_or_app; right; left; reflexivity).
      apply in_map_iff in Q as (q' & Q & _). injection Q as <- <-. eexists _, _, _. reflexivity.
  - pose proof (points_spec set_summary ra sa a M (map (fun p : fpoint => (p, None (A := N))) l) Er Es (with_head M 4 0 false) st) as K.
    rewrite map_map in K. cbn [fst] in K. rewrite map_id in K. apply K; clear K.
    + apply Forall_map. exact P.
    + intros p g t' mx' E ->. destruct l as [|q l]; [discriminate E|]. injection E as <- <- _. eexists _, _, _. reflexivity.
    + intros p g p' g' t' (h & E) mx' (id & at' & hash & ->). assert (Q : In (p', g') (map (fun p : fpoint => (p, None (A := N))) l)) by (rewrite E; apply in_or_app; right; right; left; reflexivity).
      apply in_map_iff in Q as (q & Q & _). injection Q as <- <-.
      assert (Q : In (p, g) (map (fun p : fpoint => (p, None (A := N))) l)) by (rewrite E; apply in_or_app; right; left; reflexivity).
      apply in_map_iff in Q as (q' & Q & _). injection Q as <- <-. eexists _, _, _. reflexivity.
  - exists st. split; [reflexivity|apply grown_nil].
Qed.

Lemma metrics_spec ra sa a l : a_resource a = ra -> a_scope a = sa -> forall st,
  Forall (fun m => Forall (fun p => attrs_present (fp_attrs p)) (data_points (fm_data m))) l ->
  exists st', append_metrics tr digest float_of_int a l st = Some st' /\
    grown st st' (flat_map (fun m => map (fun pg => Occ ra sa m (fst pg) (snd pg)) (numbered float_of_int (fm_data m))) l).
Proof.
  intros Er Es. induction l as [|m l IH]; intros st P; [exists st; split; [reflexivity|apply grown_nil]|].
  inversion P as [|? ? Pm Pl]; subst. cbn [append_metrics flat_map].
  destruct (metric_spec _ _ a m st eq_refl eq_refl Pm) as (st1 & -> & G1).
  destruct (IH st1 Pl) as (st2 & -> & G2). exists st2. split; [reflexivity|]. eapply grown_app; eauto.
Qed.

Lemma scopes_spec ra l : forall a st, a_resource a = ra ->
  Forall (fun s => attrs_present (scope_attrs s) /\ Forall (fun m => Forall (fun p => attrs_present (fp_attrs p)) (data_points (fm_data m))) (sg_items s)) l ->
  exists a' st', append_scopes tr digest float_of_int a l st = Some (a', st') /\ grown st st' (flat_map (fun s => flat_map (fun m =>
    map (fun pg => Occ ra (scope_attrs s) m (fst pg) (snd pg)) (numbered float_of_int (fm_data m))) (sg_items s)) l).
Proof.
  induction l as [|g l IH]; intros a st Er P; [exists a, st; split; [reflexivity|apply grown_nil]|].
  inversion P as [|? ? [Pa Pm] Pl]; subst. cbn [append_scopes flat_map].
  unfold attr_scope, attr_do. cbv zeta. change (match sg_scope g with Some x => s_attrs x | None => [] end) with (scope_attrs g).
  rewrite add_labels_spec by exact Pa.
  match goal with |- context [append_metrics _ _ _ ?a' _ _] => destruct (metrics_spec (a_resource a) (scope_attrs g) a' (sg_items g) eq_refl eq_refl st Pm) as (st1 & -> & G1) end.
  match goal with |- context [append_scopes _ _ _ ?a' _ _] => destruct (IH a' st1 eq_refl Pl) as (a2 & st2 & -> & G2) end.
  exists a2, st2. split; [reflexivity|]. eapply grown_app; eauto.
Qed.

Lemma resources_spec l : forall a st, doc_present l ->
  exists st', append_resources tr digest float_of_int a l st = Some st' /\ grown st st' (occs float_of_int l).
Proof.
  induction l as [|g l IH]; intros a st P; [exists st; split; [reflexivity|apply grown_nil]|].
  inversion P as [|? ? [Pa Ps] Pl]; subst. cbn [append_resources]. unfold occs. cbn [flat_map].
  unfold attr_resource, attr_do. cbv zeta. change (match rg_resource g with Some x => r_attrs x | None => [] end) with (resource_attrs g).
  rewrite add_labels_spec by exact Pa.
  match goal with |- context [append_scopes _ _ _ ?a' _ _] => destruct (scopes_spec (resource_attrs g) (rg_scopes g) a' st eq_refl Ps) as (a2 & st1 & -> & G1) end.
  destruct (IH a2 st1 Pl) as (st2 & -> & G2). exists st2. split; [reflexivity|]. eapply grown_app; eauto.
Qed.
End Flatten.
