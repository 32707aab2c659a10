(** C96: what a query script says is what it gets. *)
From Verif.Model Require Import Base Labels Calendar View KV Otlp Transform Batch Rows Shards Dataframe Collapse Store Sequence Translate Visit XxHash Query Service ScanBuilder Duration Script.
From Verif.Spec Require Import Gregorian Scripts Indexing Translator Frames Saves Sets Merge Trim Queries Serving Durations Asked.
From Verif.Proofs Require Import BaseFacts CalendarFacts ViewFacts LabelsFacts ScanBuilderFacts VisitFacts ListTranslator StoreFacts SequenceFacts ServiceFacts.
From Verif.Props Require Import P_Store P_Collapse P_EndToEnd P_Query P_Once P_Service P_Serving.
From Verif.Props Require P_Visit P_Time P_Script P_Duration P_Own.
Open Scope Z_scope.
Notation entries := Trim.entries.
Notation pd := parse_duration.

(** ------ the chain of calls *)
Definition calls (l : list (clock * method)) : list (clock * call) := map (fun cm => (fst cm, call_of (snd cm))) l.
Definition first_calls (k : class) : list (clock * call) :=
  match k with Metrics (Some name) => if String.eqb name "" then [] else [(Clock 0 0, CName name)] | _ => [] end.
Lemma int64_pd : P_Script.int64_durations pd.
Proof. intros s d H. exact (proj1 (P_Duration.C86_only_durations _ _ H)). Qed.
Lemma chain_run l : forall s, good_durations l -> chain s l = Some (run pd s (calls l)).
Proof.
  induction l as [|[c m] l IH]; intros s G; [reflexivity|]. cbn [chain calls map run fold_left fst snd].
  assert (E : snd (exec pd s c (call_of m)) = true).
  { destruct m; try reflexivity.
    - destruct (G c _ duration (or_introl eq_refl) (or_intror eq_refl)) as (ns & E & _). cbn [call_of exec]. rewrite E. reflexivity.
    - destruct (G c _ duration (or_introl eq_refl) (or_introl eq_refl)) as (ns & E & _). cbn [call_of exec]. rewrite E. reflexivity. }
  destruct (exec pd s c (call_of m)) as [s' ok] eqn:Ex. cbn [snd] in E. subst ok. cbn [fst]. apply IH. intros c' m' d H. apply (G c' m' d). right. exact H.
Qed.
Lemma construct_run k : construct k = build_scan pd (resource_name k) (first_calls k).
Proof. destruct k as [[n|]| |]; try reflexivity. unfold construct, build_scan, first_calls. destruct (String.eqb n ""); reflexivity. Qed.
Lemma chain_build k l : good_durations l -> chain (construct k) l = Some (build_scan pd (resource_name k) (first_calls k ++ calls l)).
Proof. intros G. rewrite (chain_run _ _ G), construct_run. unfold build_scan. rewrite <- ScanBuilderFacts.run_app. reflexivity. Qed.

(** ------ the conditions *)
Definition filters_of (m : method) : list scan_filter :=
  match m with
  | ResourceSchema v => [FBase PREFIX_RESOURCE_SCHEMA v] | ScopeSchema v => [FBase PREFIX_SCOPE_SCHEMA v] | ScopeName v => [FBase PREFIX_SCOPE_NAME v]
  | ScopeVersion v => [FBase PREFIX_SCOPE_VERSION v] | Name v => [FBase PREFIX_NAME v] | TraceId v => [FBase PREFIX_TRACE_ID v] | SpanId v => [FBase PREFIX_SPAN_ID v]
  | ParentSpanId v => [FBase PREFIX_PARENT_SPAN_ID v] | LogLevel v => [FBase PREFIX_LOGS_LEVEL v]
  | ResourceAttr k v => [FAttr PREFIX_RESOURCE_ATTRIBUTES k v] | ScopeAttr k v => [FAttr PREFIX_SCOPE_ATTRIBUTES k v] | Attribute k v => [FAttr PREFIX_ATTRIBUTES k v]
  | _ => []
  end.
Lemma exec_filters s c m : sc_filters (fst (exec pd s c (call_of m))) = sc_filters s ++ filters_of m.
Proof.
  destruct m; cbn [call_of exec filters_of]; rewrite ?app_nil_r; try reflexivity.
  - destruct (pd duration); reflexivity.
  - destruct (pd duration); reflexivity.
Qed.
Lemma run_filters l : forall s, sc_filters (run pd s (calls l)) = sc_filters s ++ flat_map filters_of (map snd l).
Proof.
  induction l as [|[c m] l IH]; intros s; cbn [calls map run fold_left fst snd flat_map]; [rewrite app_nil_r; reflexivity|].
  change (sc_filters (run pd (fst (exec pd s c (call_of m))) (calls l)) = sc_filters s ++ filters_of m ++ flat_map filters_of (map snd l)).
  rewrite IH, exec_filters, <- app_assoc. reflexivity.
Qed.
Lemma said_filters k l : sc_filters (build_scan pd (resource_name k) (first_calls k ++ calls l)) = flat_map filters_of (said k l).
Proof.
  unfold build_scan. rewrite ScanBuilderFacts.run_app, run_filters. unfold said, first_calls. rewrite flat_map_app. f_equal.
  destruct k as [[n|]| |]; cbn [resource_name]; try reflexivity. destruct (String.eqb n ""); reflexivity.
Qed.
Lemma exec_scope s c m : sc_scope (fst (exec pd s c (call_of m))) = sc_scope s.
Proof. destruct m; cbn [call_of exec]; try reflexivity; destruct (pd duration); reflexivity. Qed.
Lemma said_scope k l : sc_scope (build_scan pd (resource_name k) (first_calls k ++ calls l)) = class_signal k.
Proof.
  unfold build_scan. rewrite ScanBuilderFacts.run_app.
  assert (R : forall s, sc_scope (run pd s (calls l)) = sc_scope s).
  { induction l as [|[c m] l IH]; intros s; [reflexivity|]. change (sc_scope (run pd (fst (exec pd s c (call_of m))) (calls l)) = sc_scope s). rewrite IH. apply exec_scope. }
  rewrite R. destruct k as [[n|]| |]; try reflexivity. unfold first_calls. destruct (String.eqb n ""); reflexivity.
Qed.
Lemma hex_even b : is_hex (hex_encode b) = true.
Proof.
  induction b as [|c b IH]; [reflexivity|]. cbn [hex_encode is_hex]. rewrite IH, andb_true_r.
  assert (C := N_ascii_bounded c).
  assert (H : forall n, (n < 16)%N -> is_hex_ascii (hex_digit n) = true).
  { intros n Hn. assert (K : (n = 0 \/ n = 1 \/ n = 2 \/ n = 3 \/ n = 4 \/ n = 5 \/ n = 6 \/ n = 7 \/ n = 8 \/ n = 9 \/ n = 10 \/ n = 11 \/ n = 12 \/ n = 13 \/ n = 14 \/ n = 15)%N) by lia.
    repeat (destruct K as [-> | K]; [reflexivity|]). subst. reflexivity. }
  apply andb_true_iff. split; apply H; zify; Z.to_euclidean_division_equations; lia.
Qed.
Lemma hex_nonempty b : b <> ""%string -> hex_encode b <> ""%string.
Proof. destruct b; [congruence|discriminate]. Qed.
Section Clear.
Context (k : class) (l : list (clock * method)) (Cl : clear_script k l).
Notation fs := (flat_map filters_of (said k l)).
Lemma in_fs p : In p fs <-> exists m, In m (said k l) /\ In p (filters_of m). Proof. apply in_flat_map. Qed.
Lemma clear_answerable : answerable (class_signal k) fs.
Proof.
  destruct Cl as ((m & Hm & C) & Rel & Con). split; [|split; [|split]].
  - destruct (filters_of m) as [|f t] eqn:E; [exfalso; destruct m; cbn in E; try discriminate E; destruct C|].
    exists f. split; [apply in_fs; exists m; rewrite E; split; [exact Hm|left; reflexivity]|]. intros ->. destruct m; discriminate E.
  - intros p v H. apply in_fs in H as (m' & H & E). specialize (Rel m' H).
    destruct m'; cbn [filters_of In] in E; try (destruct E; fail); destruct E as [E|[]]; try discriminate E; injection E as <- <-; cbn [reliable] in Rel.
    + split; [left; reflexivity|]. split; [exact Rel|discriminate].
    + split; [right; left; reflexivity|]. split; [exact Rel|discriminate].
    + split; [right; right; left; reflexivity|]. split; [exact Rel|discriminate].
    + split; [right; right; right; left; reflexivity|]. split; [exact Rel|discriminate].
    + destruct Rel as [Ne Rel]. split; [|split; [exact Ne|discriminate]]. destruct k; [vm_compute; auto 10|vm_compute; auto 10|congruence].
    + destruct Rel as (-> & b & Ne & <-). split; [vm_compute; auto 10|]. split; [apply hex_nonempty, Ne|]. intros _. split; [apply hex_even|apply P_Own.lower_hex].
    + destruct Rel.
    + destruct Rel.
    + destruct Rel as [Ne ->]. split; [vm_compute; auto 10|]. split; [exact Ne|discriminate].
  - intros p v v' H H'. apply in_fs in H as (m1 & H1 & E1). apply in_fs in H' as (m2 & H2 & E2). specialize (Con m1 m2 H1 H2).
    pose proof (Rel m1 H1) as R1. clear H1 H2.
    destruct m1; cbn [filters_of In] in E1; try (destruct E1; fail); destruct E1 as [E1|[]]; try discriminate E1;
      destruct m2; cbn [filters_of In] in E2; try (destruct E2; fail); destruct E2 as [E2|[]]; try discriminate E2;
      injection E1 as <- <-; try discriminate E2; injection E2 as <-; cbn [contradict] in Con; try (destruct R1; fail);
      match goal with |- ?a = ?b => destruct (string_dec a b) as [D|D]; [exact D|exfalso; exact (Con D)] end.
  - intros p a v H. apply in_fs in H as (m' & H & E). specialize (Rel m' H).
    destruct m'; cbn [filters_of In] in E; try (destruct E; fail); destruct E as [E|[]]; try discriminate E; injection E as <- <- <-; cbn [reliable] in Rel.
    + split; [left; reflexivity|exact Rel].
    + split; [right; left; reflexivity|exact Rel].
    + destruct Rel.
Qed.
(* one property *)
Lemma one_of_iff p x : (forall v, In (FBase p v) fs -> x = v) <-> one_of (texts fs p) x = true.
Proof.
  destruct clear_answerable as (_ & _ & One & _). split.
  - intros H. unfold one_of. destruct (texts fs p) as [|v t] eqn:E; [reflexivity|]. assert (K : In (FBase p v) fs) by (apply texts_in; rewrite E; left; reflexivity).
    cbn [existsb]. rewrite <- (H v K), String.eqb_refl. reflexivity.
  - intros O v H. apply (one_of_single fs p v x); [|exact H|exact O]. intros v' H'. exact (One p v' v H' H).
Qed.
Lemma id_iff b : (forall v, In (FBase PREFIX_TRACE_ID v) fs -> has_id b v) <-> id_one_of (texts fs PREFIX_TRACE_ID) b = true.
Proof.
  destruct clear_answerable as (_ & Txt & One & _). split.
  - intros H. unfold id_one_of. destruct (texts fs PREFIX_TRACE_ID) as [|v t] eqn:E; [reflexivity|]. assert (K : In (FBase PREFIX_TRACE_ID v) fs) by (apply texts_in; rewrite E; left; reflexivity).
    cbn [existsb]. destruct (H v K) as (w & -> & Hw). destruct (Txt _ _ K) as (_ & _ & T). destruct (T eq_refl) as [_ ->]. cbn [the_id]. rewrite <- Hw, String.eqb_refl. reflexivity.
  - intros O v H. destruct (Txt _ _ H) as (_ & Ne & T). destruct (T eq_refl) as [_ Lo].
    assert (K : lower v = hex_encode (the_id b)) by (apply (id_one_single fs PREFIX_TRACE_ID v b); [|exact H|exact O]; intros v' H'; exact (One _ v' v H' H)).
    rewrite Lo in K. destruct b as [b|]; [exists b; split; [reflexivity|symmetry; exact K]|]. cbn in K. congruence.
Qed.
Lemma attrs_iff p attrs : (forall a v, In (FAttr p a v) fs -> has attrs a v) <-> all_there (pairs fs p) attrs = true.
Proof.
  unfold all_there. rewrite forallb_forall. split.
  - intros H [a v] K. unfold pairs in K. apply in_flat_map in K as ([q w|q a' w|] & K1 & K2); [destruct K2| |destruct K2]. destruct (Z.eqb_spec q p) as [->|]; [|destruct K2]. destruct K2 as [K2|[]].
    apply pair_inj in K2 as [-> ->]. apply existsb_exists. exists (KV a (Some (AVString v))). split; [apply H, K1|]. unfold is_attr. cbn. rewrite !String.eqb_refl. reflexivity.
  - intros T a v H. specialize (T _ (in_pairs _ _ _ _ H)). apply existsb_exists in T as ([a' o] & H1 & H2). unfold is_attr in H2. cbn [kv_key kv_val fst snd] in H2.
    apply andb_true_iff in H2 as [K V]. apply String.eqb_eq in K. subst a'. destruct o as [[w|w]|]; try discriminate V. apply String.eqb_eq in V. subst w. exact H1.
Qed.
Definition fits_class (r : full_record) : Prop := match k, r with Metrics _, RPoint _ _ _ _ _ _ _ => True | Trace, RSpan _ => True | Logs, RLog _ => True | _, _ => False end.
Lemma no_filter p : (forall m, In m (said k l) -> reliable k m -> forall v, ~ In (FBase p v) (filters_of m)) -> texts fs p = [].
Proof.
  intros H. destruct (texts fs p) as [|v t] eqn:E; [reflexivity|exfalso]. assert (K : In (FBase p v) fs) by (apply texts_in; rewrite E; left; reflexivity).
  apply in_fs in K as (m & Hm & K). exact (H m Hm (proj1 (proj2 Cl) m Hm) v K).
Qed.
Lemma no_record_attrs attrs : all_there (pairs fs PREFIX_ATTRIBUTES) attrs = true.
Proof.
  apply attrs_iff. intros a v H. exfalso. apply in_fs in H as (m & Hm & K). pose proof (proj1 (proj2 Cl) m Hm) as R.
  destruct m; cbn [filters_of In] in K; try (destruct K; fail); destruct K as [K|[]]; try discriminate K. exact R.
Qed.
Ltac absurd_filter := let m := fresh in let R := fresh in let v := fresh in let K := fresh in
  intros m _ R v K; destruct m; cbn [filters_of In] in K; try (destruct K; fail); destruct K as [K|[]]; try discriminate K; cbn [reliable] in R; try (destruct R; fail);
  try (destruct R as [_ R]; congruence); try (destruct R as [R _]; congruence).
Lemma in_window_iff st en (t : N) : in_window st en t = true <-> st <= Z.of_N t < en.
Proof. unfold in_window. rewrite andb_true_iff, Z.leb_le, Z.ltb_lt. reflexivity. Qed.
Lemma wanted_says st en e : fits_class (snd e) -> (wanted fs st en e = true <-> (forall m, In m (said k l) -> says m e) /\ st <= record_time (snd e) < en).
Proof.
  destruct e as [[[rs r] [ss s]] x]. cbn [snd]. intros Fit. unfold wanted, wanted_resource, wanted_scope. rewrite !andb_true_iff.
  rewrite <- (one_of_iff PREFIX_RESOURCE_SCHEMA), <- (attrs_iff PREFIX_RESOURCE_ATTRIBUTES), <- (one_of_iff PREFIX_SCOPE_SCHEMA), <- (one_of_iff PREFIX_SCOPE_NAME), <- (one_of_iff PREFIX_SCOPE_VERSION), <- (attrs_iff PREFIX_SCOPE_ATTRIBUTES).
  assert (Fin : forall m f, In m (said k l) -> In f (filters_of m) -> In f fs) by (intros m f Hm Hf; apply in_fs; eauto).
  assert (Rec : wanted_record fs st en x = true <->
    (forall v, In (FBase PREFIX_NAME v) fs -> record_name x = Some v) /\ (forall v, In (FBase PREFIX_LOGS_LEVEL v) fs -> match x with RLog g => lr_severity g = v | _ => False end) /\
    (forall v, In (FBase PREFIX_TRACE_ID v) fs -> match x with RSpan p => has_id (sp_trace p) v | RLog g => has_id (lr_trace g) v | _ => False end) /\ st <= record_time x < en).
  { assert (NL : k <> Logs -> forall v, ~ In (FBase PREFIX_LOGS_LEVEL v) fs).
    { intros Nk v H. assert (E : texts fs PREFIX_LOGS_LEVEL = []) by (apply no_filter; absurd_filter). apply in_texts in H. rewrite E in H. destruct H. }
    assert (NT : k <> Trace -> texts fs PREFIX_TRACE_ID = []) by (intros Nk; apply no_filter; absurd_filter).
    assert (NT' : k <> Trace -> forall v, ~ In (FBase PREFIX_TRACE_ID v) fs) by (intros Nk v H; apply in_texts in H; rewrite NT in H by exact Nk; destruct H).
    assert (NS : texts fs PREFIX_SPAN_ID = []) by (apply no_filter; absurd_filter). assert (NP : texts fs PREFIX_PARENT_SPAN_ID = []) by (apply no_filter; absurd_filter).
    destruct x as [n de u ki te mo p|g|sp]; unfold fits_class in Fit; unfold wanted_record; rewrite !andb_true_iff, ?no_record_attrs, in_window_iff, ?NS, ?NP.
    - rewrite <- one_of_iff. assert (Nk : k <> Logs) by (intros ->; exact Fit). assert (Nk' : k <> Trace) by (intros ->; exact Fit). cbn [record_name record_time]. split.
      + intros ((A & B) & _). split; [intros v H; f_equal; apply A, H|]. split; [intros v H; exact (NL Nk v H)|]. split; [intros v H; exact (NT' Nk' v H)|exact B].
      + intros (A & _ & _ & B). split; [split; [|exact B]|reflexivity]. intros v H. specialize (A v H). congruence.
    - rewrite <- one_of_iff. assert (Nk' : k <> Trace) by (intros ->; exact Fit). rewrite (NT Nk'). cbn [id_one_of record_name record_time]. split.
      + intros ((((A & B) & _) & _) & _). split; [|split; [exact A|split; [intros v H; destruct (NT' Nk' v H)|exact B]]].
        intros v H. exfalso. assert (Ek : k = Logs) by (clear - Fit; destruct k; [destruct Fit|destruct Fit|reflexivity]). assert (E : texts fs PREFIX_NAME = []) by (apply no_filter; absurd_filter). apply in_texts in H. rewrite E in H. destruct H.
      + intros (_ & A & _ & B). split; [split; [split; [split; [exact A|exact B]|reflexivity]|reflexivity]|reflexivity].
    - rewrite <- one_of_iff, <- id_iff. assert (Nk : k <> Logs) by (intros ->; exact Fit). cbn [id_one_of record_name record_time]. split.
      + intros (((((A & B) & _) & T) & _) & _). split; [intros v H; f_equal; apply A, H|]. split; [intros v H; exact (NL Nk v H)|]. split; [exact T|exact B].
      + intros (A & _ & T & B). split; [split; [split; [split; [split; [|exact B]|reflexivity]|exact T]|reflexivity]|reflexivity]. intros v H. specialize (A v H). congruence. }
  rewrite Rec. clear Rec. split.
  - intros (((A1 & A2) & ((A3 & A4) & A5) & A6) & A7 & A8 & A9 & A10). split; [|exact A10].
    intros m Hm. destruct m; cbn [says]; try exact Logic.I;
      first [apply A1, (Fin _ _ Hm); left; reflexivity|apply A2, (Fin _ _ Hm); left; reflexivity|apply A3, (Fin _ _ Hm); left; reflexivity|apply A4, (Fin _ _ Hm); left; reflexivity
            |apply A5, (Fin _ _ Hm); left; reflexivity|apply A6, (Fin _ _ Hm); left; reflexivity|apply A7, (Fin _ _ Hm); left; reflexivity|apply A8, (Fin _ _ Hm); left; reflexivity
            |apply A9, (Fin _ _ Hm); left; reflexivity|destruct (proj1 (proj2 Cl) _ Hm)].
  - intros (S & T).
    assert (B : forall p v, In (FBase p v) fs -> exists m, In m (said k l) /\ In (FBase p v) (filters_of m)) by (intros p v H; apply in_fs, H).
    assert (B' : forall p a v, In (FAttr p a v) fs -> exists m, In m (said k l) /\ In (FAttr p a v) (filters_of m)) by (intros p a v H; apply in_fs, H).
    repeat split; try (apply T); intros;
      match goal with H : In _ fs |- _ => first [apply B in H|apply B' in H]; destruct H as (m & Hm & K); specialize (S m Hm);
        destruct m; cbn [filters_of In] in K; try (destruct K; fail); destruct K as [K|[]]; try discriminate K; injection K; intros; subst; cbn [says] in S; exact S end.
Qed.
End Clear.

(** ------ the window *)
Lemma good_15m : pd "15m" = Some (15 * 60 * 1000000000). Proof. vm_compute. reflexivity. Qed.
Lemma calls_app l1 l2 : calls (l1 ++ l2) = calls l1 ++ calls l2. Proof. apply map_app. Qed.
Lemma not_window m : ~ is_window m -> ~ sets_window pd (call_of m).
Proof. intros H. destruct m; cbn [call_of sets_window is_window] in *; tauto. Qed.
Lemma last_window k l1 c w l2 f wall : is_calendar f -> is_window w -> (forall c' m, In (c', m) l2 -> ~ is_window m) -> good_durations (l1 ++ (c, w) :: l2) ->
  let tb := time_bounds wall (sc_times (build_scan pd (resource_name k) (first_calls k ++ calls (l1 ++ (c, w) :: l2)))) in
  snd tb = ck_ns c /\ (forall t, fst tb <= t < snd tb <-> in_window_of f c w t) /\
  sc_range (sc_times (build_scan pd (resource_name k) (first_calls k ++ calls (l1 ++ (c, w) :: l2)))) <> None /\
  match w with Latest => fst tb = ck_ns c - 900000000000 | Today => fst tb = beginning_of_day c | ThisWeek => fst tb = beginning_of_week c | ThisMonth => fst tb = beginning_of_month c | ThisYear => fst tb = beginning_of_year c | _ => True end /\
  ((forall d ns, w = Ago d -> pd d = Some ns -> 0 <= ns) -> fst tb <= snd tb).
Proof.
  intros Cal Hw Hl G.
  assert (B : build_scan pd (resource_name k) (first_calls k ++ calls (l1 ++ (c, w) :: l2)) = build_scan pd (resource_name k) ((first_calls k ++ calls l1) ++ (c, call_of w) :: calls l2)).
  { rewrite calls_app. cbn [calls map fst snd]. rewrite app_assoc. reflexivity. }
  rewrite B. clear B. set (L1 := first_calls k ++ calls l1).
  assert (Sx : sets_window pd (call_of w)).
  { destruct w; try (destruct Hw; fail); try exact Logic.I; cbn [call_of sets_window]; [rewrite good_15m; discriminate|].
    destruct (G c _ duration ltac:(apply in_app_iff; right; left; reflexivity) (or_introl eq_refl)) as (ns & -> & _). discriminate. }
  assert (Sl : forall c' x', In (c', x') (calls l2) -> ~ sets_window pd x').
  { intros c' x' H. apply in_map_iff in H as ([c0 m] & E & H). apply pair_inj in E as [_ <-]. apply not_window, (Hl c0), H. }
  assert (Sm : forall d, call_of w = CAgo d -> pd d <> Some (- 2 ^ 63)).
  { intros d E. destruct w; try discriminate E; injection E as <-; [rewrite good_15m; discriminate|].
    destruct (G c _ duration ltac:(apply in_app_iff; right; left; reflexivity) (or_introl eq_refl)) as (ns & -> & N). congruence. }
  pose proof (fun t => P_Script.C71_window_of_last_call pd f (resource_name k) L1 c (call_of w) (calls l2) wall t Cal int64_pd Sx Sl Sm) as W. cbv zeta in W.
  assert (R : exists lo, sc_range (sc_times (build_scan pd (resource_name k) (L1 ++ (c, call_of w) :: calls l2))) = Some (Some (pb_of_time lo), Some (pb_of_time (ck_ns c))) /\
     match w with Latest => lo = ck_ns c - 900000000000 | Today => lo = beginning_of_day c | ThisWeek => lo = beginning_of_week c | ThisMonth => lo = beginning_of_month c | ThisYear => lo = beginning_of_year c | _ => True end).
  { unfold build_scan. rewrite ScanBuilderFacts.run_app. cbn [run fold_left fst snd]. change (fold_left _ (calls l2) ?s) with (run pd s (calls l2)). rewrite (P_Script.run_range _ _ _ Sl).
    set (s := run pd (create (resource_name k)) L1). clearbody s.
    destruct w; try (destruct Hw; fail); cbn [call_of exec fst sc_range sc_times range_ts set_times]; try (eexists; split; [reflexivity|reflexivity]).
    destruct (G c _ duration ltac:(apply in_app_iff; right; left; reflexivity) (or_introl eq_refl)) as (ns & -> & _). eexists. split; [reflexivity|exact Logic.I]. }
  destruct R as (lo & R & Lo). cbv zeta. unfold time_bounds in *. rewrite R in W |- *. rewrite !as_time_pb in *. cbn [fst snd] in *. split; [reflexivity|]. split; [|split; [discriminate|split; [exact Lo|]]].
  2:{ intros Nn. apply (proj2 (W (ck_ns c))). clear W R Lo. destruct w; try (destruct Hw; fail); cbn [call_of asks_window]; try (repeat split; lia).
      - exists (15 * 60 * 1000000000). split; [exact good_15m|lia].
      - destruct (G c _ duration ltac:(apply in_app_iff; right; left; reflexivity) (or_introl eq_refl)) as (ns & E & _). exists ns. split; [exact E|]. specialize (Nn _ _ eq_refl E). lia. }
  intros t. unfold in_window_of. transitivity (lo <= t <= ck_ns c /\ t < ck_ns c); [lia|]. rewrite W. clear W Lo R.
  destruct w; try (destruct Hw; fail); cbn [call_of asks_window]; unfold Scripts.local_date, Asked.local_date, local_week, sundays_before.
  - split; [intros [(ns & E & H) H']; rewrite good_15m in E; injection E as <-; lia|]. intros [H1 H2]. split; [|exact H1]. eexists. split; [exact good_15m|]. lia.
  - split; [intros [[_ H] H']; auto|intros [H1 H2]; split; [split; [lia|exact H2]|exact H1]].
  - split; [intros [[_ H] H']; auto|intros [H1 H2]; split; [split; [lia|exact H2]|exact H1]].
  - unfold year, month, year_month. destruct (f ((t + ck_zone c) / 86400000000000)) as [[y1 m1] d1], (f ((ck_ns c + ck_zone c) / 86400000000000)) as [[y2 m2] d2]. cbn [fst snd].
    split; [intros [(_ & -> & ->) H']; auto|intros [H1 H2]; apply pair_inj in H2 as [-> ->]; split; [split; [lia|auto]|exact H1]].
  - unfold year, the_year. destruct (f ((t + ck_zone c) / 86400000000000)) as [[y1 m1] d1], (f ((ck_ns c + ck_zone c) / 86400000000000)) as [[y2 m2] d2]. cbn [fst snd].
    split; [intros [(_ & ->) H']; auto|intros [H1 ->]; split; [split; [lia|auto]|exact H1]].
  - split; [intros [(ns & E & H) H']; split; [exact H'|exists ns; split; [exact E|lia]]|]. intros [H1 (ns & E & H2)]. split; [|exact H1]. exists ns. split; [exact E|lia].
Qed.

(** ------ the whole script *)
(** A server at rest on a new database, no save of which has failed, and what is assumed of hash, map order and the
    client's scan: the hypotheses of C84. *)
Record at_hand (I : tr_impl) (inv : nat -> ti_state I -> Prop) s0 es earlier ms (s : service) (h h0 : string -> N) kvb wall order (k : class) (l : list (clock * method)) : Prop := {
  ah_laws : tr_stable I inv;
  ah_serving : serving I inv s0 [] es earlier s;
  ah_served : served earlier ms s;
  ah_rest : at_rest s;
  ah_saved : forall ls, ~ In (ls, false) (sv_saves s);
  ah_order : some_order order;
  ah_aligned : forall x v, In x (given es) -> In v (home (smp_data x)) -> aligned (flushes I s0 es) v x;
  ah_mergeable : mergeable h kvb (payloads s);
  ah_fair : forall sc d, chain (construct k) l = Some sc -> do_scan I h kvb (after I s0 es) (calm wall) sc order = SData (Some d) -> P_Visit.fair h h0 sc d
}.
(** The records of the payloads of a script's signal. *)
Definition of_class (k : class) (ds : list data) : list entry := flat_map entries (filter (fun d => Z.eqb (signal_of d) (class_signal k)) ds).
Definition got_records (o : option data) : list seen := match o with Some d => records d | None => [] end.

Lemma entry_kind d e : In e (entries d) -> match d, snd e with DMetrics _, RPoint _ _ _ _ _ _ _ | DTraces _, RSpan _ | DLogs _, RLog _ => True | _, _ => False end.
Proof.
  destruct d as [gs|gs|gs|]; cbn [entries]; unfold entries_of; intros H; [| | |destruct H];
    apply in_flat_map in H as (g & _ & H); apply in_flat_map in H as (s & _ & H); apply in_flat_map in H as (a & _ & H); apply in_map_iff in H as (r & <- & H); cbn [snd].
  - unfold metric_parts in H. destruct (m_data a); [|destruct H]. apply in_map_iff in H as (p & <- & _). exact Logic.I.
  - destruct H as [<-|[]]. exact Logic.I.
  - destruct H as [<-|[]]. exact Logic.I.
Qed.
Lemma fits_of_class k ds e : In e (of_class k ds) -> fits_class k (snd e).
Proof.
  unfold of_class. intros H. apply in_flat_map in H as (d & Hd & He). apply filter_In in Hd as [_ Sg]. apply Z.eqb_eq in Sg. pose proof (entry_kind d e He) as K.
  destruct d as [gs|gs|gs|], k; cbn in Sg; try discriminate Sg; destruct (snd e); try destruct K; exact Logic.I.
Qed.
(** The getter loses no record of the script's signal. *)
Lemma getter_records k d (l : list entry) : Permutation (records d) (map (fun e => as_seen (forget e)) l) -> (forall e, In e l -> fits_class k (snd e)) -> got_records (getter k d) = records d.
Proof.
  intros P F. destruct (records d) as [|x t] eqn:E; [destruct k, d; cbn [getter got_records]; try reflexivity; exact E|].
  assert (Hx : In x (map (fun e => as_seen (forget e)) l)) by (eapply Permutation_in; [exact P|left; reflexivity]). apply in_map_iff in Hx as (e & Ex & He). specialize (F e He).
  assert (K : In x (records d)) by (rewrite E; left; reflexivity). rewrite records_seen in K. apply in_map_iff in K as (e' & Ex' & He'). apply entry_kind in He'.
  rewrite <- E. rewrite <- Ex' in Ex. destruct e as [[[rs r] [ss s]] y], e' as [[[rs' r'] [ss' s']] y']. unfold as_seen, forget in Ex. apply pair_inj in Ex as [_ Ex]. cbn [snd] in F, He'.
  destruct d, y'; try destruct He'; destruct k, y; try destruct F; try discriminate Ex; reflexivity.
Qed.

(** C96.  A script of conditions the database can answer, whose last window call is [w], made when the clock of the
    script's machine read [c].  If every payload with a matching record is filed in a view that is consulted, then the
    script gets exactly the records that meet all conditions and lie in the window [w] describes, each as often as sent
    (without scope schema, description and unit, which trimming drops). *)
Theorem C96_gets_what_it_says_partial : forall I inv s0 es earlier ms s h h0 kvb wall client order k l l1 c w l2 f, at_hand I inv s0 es earlier ms s h h0 kvb wall order k l ->
  clear_script k l -> good_durations l -> l = l1 ++ (c, w) :: l2 -> is_window w -> (forall c' m, In (c', m) l2 -> ~ is_window m) -> is_calendar f ->
  (forall t, in_window_of f c w t -> 0 <= t) -> 0 <= ck_ns c < 2 ^ 63 -> (forall d ns, w = Ago d -> pd d = Some ns -> 0 <= ns) ->
  (forall d e sc vs, In d (payloads s) -> In e (entries d) -> signal_of d = class_signal k -> (forall m, In m (said k l) -> says m e) -> in_window_of f c w (record_time (snd e)) ->
     chain (construct k) l = Some sc -> window (calm wall) sc vs -> exists v, In v vs /\ In v (home d)) ->
  exists o keep, run_script I h h0 kvb (after I s0 es) (calm wall) client order k l = Got o /\
    (forall e, In e (of_class k (payloads s)) -> (keep e = true <-> (forall m, In m (said k l) -> says m e) /\ in_window_of f c w (record_time (snd e)))) /\
    Permutation (got_records o) (map (fun e => as_seen (forget e)) (filter keep (of_class k (payloads s)))).
Proof.
  intros I inv s0 es earlier ms s h h0 kvb wall client order k l l1 c w l2 f A Cl G El Hw Hl Cal Pos Ck Nn Cov.
  set (sc := build_scan pd (resource_name k) (first_calls k ++ calls l)).
  assert (Ec : chain (construct k) l = Some sc) by (apply chain_build, G).
  pose proof (fun w' => last_window k l1 c w l2 f w' Cal Hw Hl ltac:(rewrite <- El; exact G)) as W. rewrite <- El in W. fold sc in W. cbv zeta in W.
  assert (Esc : sc_scope sc = class_signal k) by apply said_scope. assert (Ef : sc_filters sc = flat_map filters_of (said k l)) by apply said_filters.
  destruct (W wall) as (We & Ww & Wr & _ & Wo). specialize (Wo Nn). set (st := fst (time_bounds wall (sc_times sc))) in *.
  assert (TB : forall w', time_bounds w' (sc_times sc) = (st, ck_ns c)).
  { intros w'. rewrite <- We. unfold st. destruct (sc_range (sc_times sc)) as [[a b]|] eqn:E; [|congruence]. unfold time_bounds. rewrite E. reflexivity. }
  rewrite We in Wo, Ww. assert (St : 0 <= st). { destruct (Z.eq_dec st (ck_ns c)) as [->|Ne]; [apply Ck|]. apply Pos, Ww. lia. }
  destruct (search_total st (ck_ns c)) as [vs Hvs].
  assert (HW : window (calm wall) sc vs). { unfold window. cbn [e_wall calm]. rewrite TB. exact Hvs. }
  destruct (C84_exact_answer_partial I inv s0 es earlier ms s h h0 kvb wall client sc order vs st (ck_ns c) (ah_laws _ _ _ _ _ _ _ _ _ _ _ _ _ _ A) (ah_serving _ _ _ _ _ _ _ _ _ _ _ _ _ _ A)
    (ah_served _ _ _ _ _ _ _ _ _ _ _ _ _ _ A) (ah_rest _ _ _ _ _ _ _ _ _ _ _ _ _ _ A) (ah_saved _ _ _ _ _ _ _ _ _ _ _ _ _ _ A) (ah_order _ _ _ _ _ _ _ _ _ _ _ _ _ _ A)) as (out & EQ & P).
  - rewrite Esc. destruct k; vm_compute; auto.
  - rewrite Esc, Ef. apply clear_answerable, Cl.
  - exact Wr.
  - unfold four_digit_years. rewrite TB. cbn [fst snd].
    assert (Y1 := year_of_int64 st). assert (Y2 := year_of_int64 (ck_ns c)). unfold int64_range in Y1, Y2. lia.
  - split; [apply TB|]. change (Z.of_N two63) with (2 ^ 63). lia.
  - exact HW.
  - intros d e Hd Sg He Hwa. rewrite Esc in Sg. rewrite Ef in Hwa. apply wanted_says in Hwa; [|exact Cl|].
    + apply (Cov d e sc vs Hd He Sg (proj1 Hwa)); [apply Ww, Hwa|exact Ec|exact HW].
    + apply (fits_of_class k [d]). unfold of_class. cbn [filter]. rewrite Sg, Z.eqb_refl. cbn [flat_map]. rewrite app_nil_r. exact He.
  - intros x v Hx _ Hv. exact (ah_aligned _ _ _ _ _ _ _ _ _ _ _ _ _ _ A x v Hx Hv).
  - exact (ah_mergeable _ _ _ _ _ _ _ _ _ _ _ _ _ _ A).
  - intros d Hd. exact (ah_fair _ _ _ _ _ _ _ _ _ _ _ _ _ _ A sc d Ec Hd).
  - unfold matching_of in P. rewrite Esc, Ef in P. change (flat_map entries (filter (fun d => (signal_of d =? class_signal k)%Z) (payloads s))) with (of_class k (payloads s)) in P.
    exists (getter k out), (wanted (flat_map filters_of (said k l)) st (ck_ns c)). split; [|split].
    + unfold run_script. rewrite Ec, EQ. reflexivity.
    + intros e He. rewrite (wanted_says k l Cl st (ck_ns c) e (fits_of_class _ _ _ He)). rewrite Ww. reflexivity.
    + rewrite (getter_records k out _ P); [exact P|]. intros e He. apply filter_In in He as [He _]. apply (fits_of_class k (payloads s)), He.
Qed.
Print Assumptions C96_gets_what_it_says_partial.

(** ------ in terms of the clock *)
(** [filed f c w k l s]: every payload with a record that matches has its first record in the window too (payloads are
    filed under the time of their first record only). *)
Definition filed (f : Z -> Z * Z * Z) (c : clock) (w : method) (k : class) (l : list (clock * method)) (s : service) (ok : Z -> Prop) : Prop :=
  forall d e, In d (payloads s) -> In e (entries d) -> signal_of d = class_signal k -> (forall m, In m (said k l) -> says m e) -> in_window_of f c w (record_time (snd e)) ->
    let t := int64_of_u64 (filed_at d) in in_window_of f c w t /\ ok t.
(** What a script gets: exactly the records that meet its conditions and lie in the window of [w]. *)
Definition exact_answer (I : tr_impl) h h0 kvb (state : store I) wall client order (k : class) (l : list (clock * method)) (s : service) (f : Z -> Z * Z * Z) (c : clock) (w : method) : Prop :=
  exists o keep, run_script I h h0 kvb state (calm wall) client order k l = Got o /\
    (forall e, In e (of_class k (payloads s)) -> (keep e = true <-> (forall m, In m (said k l) -> says m e) /\ in_window_of f c w (record_time (snd e)))) /\
    Permutation (got_records o) (map (fun e => as_seen (forget e)) (filter keep (of_class k (payloads s)))).
(* The general step: views cover the times at which matching payloads are filed. *)
Lemma exact_if_covered I inv s0 es earlier ms s h h0 kvb wall client order k l l1 c w l2 f ok : at_hand I inv s0 es earlier ms s h h0 kvb wall order k l ->
  clear_script k l -> good_durations l -> l = l1 ++ (c, w) :: l2 -> is_window w -> (forall c' m, In (c', m) l2 -> ~ is_window m) -> is_calendar f ->
  (forall t, in_window_of f c w t -> 0 <= t) -> 0 <= ck_ns c < 2 ^ 63 -> (forall d ns, w = Ago d -> pd d = Some ns -> 0 <= ns) -> filed f c w k l s ok ->
  (forall sc vs t, chain (construct k) l = Some sc -> window (calm wall) sc vs -> in_window_of f c w t -> ok t -> exists v, In v vs /\ In v (std_views t)) ->
  exact_answer I h h0 kvb (after I s0 es) wall client order k l s f c w.
Proof.
  intros A Cl G El Hw Hl Cal Pos Ck Nn Fi Cov. unfold exact_answer. eapply C96_gets_what_it_says_partial; eauto.
  intros d e sc vs Hd He Sg Sa Wi Ec HW. destruct (Fi d e Hd He Sg Sa Wi) as [F1 F2]. exact (Cov sc vs _ Ec HW F1 F2).
Qed.
Lemma window_search I inv s0 es earlier ms s h h0 kvb wall order k l l1 c w l2 f sc vs : at_hand I inv s0 es earlier ms s h h0 kvb wall order k l ->
  good_durations l -> l = l1 ++ (c, w) :: l2 -> is_window w -> (forall c' m, In (c', m) l2 -> ~ is_window m) -> is_calendar f -> chain (construct k) l = Some sc -> window (calm wall) sc vs ->
  exists st, search st (ck_ns c) = Some vs /\ (forall t, st <= t < ck_ns c <-> in_window_of f c w t) /\
    match w with Latest => st = ck_ns c - 900000000000 | Today => st = beginning_of_day c | ThisWeek => st = beginning_of_week c | ThisMonth => st = beginning_of_month c | ThisYear => st = beginning_of_year c | _ => True end.
Proof.
  intros A G El Hw Hl Cal Ec HW. rewrite (chain_build k l G) in Ec. apply some_inj in Ec.
  pose proof (last_window k l1 c w l2 f wall Cal Hw Hl ltac:(rewrite <- El; exact G)) as W. rewrite <- El in W. rewrite Ec in W. cbv zeta in W. destruct W as (We & Ww & _ & Wm & _).
  unfold window in HW. cbn [e_wall calm] in HW. rewrite We in HW, Ww. eauto.
Qed.

(** today(): exact in a zone whose offset is a number of whole hours. *)
Theorem C96_today_partial : forall I inv s0 es earlier ms s h h0 kvb wall client order k l l1 c l2 f, at_hand I inv s0 es earlier ms s h h0 kvb wall order k l ->
  clear_script k l -> good_durations l -> l = l1 ++ (c, Today) :: l2 -> (forall c' m, In (c', m) l2 -> ~ is_window m) -> is_calendar f ->
  (forall t, in_window_of f c Today t -> 0 <= t) -> 0 <= ck_ns c < 2 ^ 63 -> ck_zone c mod 3600000000000 = 0 ->
  filed f c Today k l s (fun _ => True) ->
  exact_answer I h h0 kvb (after I s0 es) wall client order k l s f c Today.
Proof.
  intros I inv s0 es earlier ms s h h0 kvb wall client order k l l1 c l2 f A Cl G El Hl Cal Pos Ck Zo Fi.
  eapply exact_if_covered; eauto; [exact Logic.I|discriminate|]. intros sc vs t Ec HW Ht _.
  destruct (window_search _ _ _ _ _ _ _ _ _ _ _ _ _ _ _ _ _ _ f _ _ A G El Logic.I Hl Cal Ec HW) as (st & Se & Wt & ->).
  apply Wt in Ht. assert (D : 0 <= ck_ns c - beginning_of_day c < 24 * 3600000000000).
  { unfold beginning_of_day, midnight, local_day, day_of. rewrite ns_day_val. Z.to_euclidean_division_equations. lia. }
  apply (P_Time.C15_covers_window_partial _ _ _ t Se Ht); try lia.
  intros _. unfold beginning_of_day, midnight, local_day, day_of. rewrite ns_day_val. Z.to_euclidean_division_equations. lia.
Qed.
Print Assumptions C96_today_partial.
(** thisWeek(): exact if what matches was filed before the day (in UTC) of the clock and the week began more than a day ago. *)
Theorem C96_this_week_partial : forall I inv s0 es earlier ms s h h0 kvb wall client order k l l1 c l2 f, at_hand I inv s0 es earlier ms s h h0 kvb wall order k l ->
  clear_script k l -> good_durations l -> l = l1 ++ (c, ThisWeek) :: l2 -> (forall c' m, In (c', m) l2 -> ~ is_window m) -> is_calendar f ->
  (forall t, in_window_of f c ThisWeek t -> 0 <= t) -> 0 <= ck_ns c < 2 ^ 63 ->
  (* the local day is not a Sunday *) ((ck_ns c + ck_zone c) / 86400000000000 - 3) mod 7 <> 0 ->
  filed f c ThisWeek k l s (fun t => t / 86400000000000 <> ck_ns c / 86400000000000) ->
  exact_answer I h h0 kvb (after I s0 es) wall client order k l s f c ThisWeek.
Proof.
  intros I inv s0 es earlier ms s h h0 kvb wall client order k l l1 c l2 f A Cl G El Hl Cal Pos Ck Su Fi.
  eapply exact_if_covered; eauto; [exact Logic.I|discriminate|]. intros sc vs t Ec HW Ht Nd.
  destruct (window_search _ _ _ _ _ _ _ _ _ _ _ _ _ _ _ _ _ _ f _ _ A G El Logic.I Hl Cal Ec HW) as (st & Se & Wt & ->).
  apply Wt in Ht. assert (D : 24 * 3600000000000 <= ck_ns c - beginning_of_week c < 7 * 24 * 3600000000000).
  { unfold beginning_of_week, midnight, weekday, local_day, day_of. rewrite ns_day_val. clear - Su. set (x := ck_ns c + ck_zone c) in *.
    replace (ck_ns c) with (x - ck_zone c) by (unfold x; lia). clearbody x. Z.to_euclidean_division_equations. lia. }
  apply (P_Time.C15_covers_window_partial _ _ _ t Se Ht); try lia. intros _. exact Nd.
Qed.
(** latest(): exact if what matches was filed in the hour in which the fifteen minutes begin; so always when the clock is
    fifteen minutes or more past the hour. *)
Theorem C96_latest_partial : forall I inv s0 es earlier ms s h h0 kvb wall client order k l l1 c l2 f, at_hand I inv s0 es earlier ms s h h0 kvb wall order k l ->
  clear_script k l -> good_durations l -> l = l1 ++ (c, Latest) :: l2 -> (forall c' m, In (c', m) l2 -> ~ is_window m) -> is_calendar f ->
  15 * 60 * 1000000000 <= ck_ns c < 2 ^ 63 ->
  filed f c Latest k l s (fun t => t / 3600000000000 = (ck_ns c - 15 * 60 * 1000000000) / 3600000000000) \/
  (15 * 60 * 1000000000 <= ck_ns c mod 3600000000000 /\ filed f c Latest k l s (fun _ => True)) ->
  exact_answer I h h0 kvb (after I s0 es) wall client order k l s f c Latest.
Proof.
  intros I inv s0 es earlier ms s h h0 kvb wall client order k l l1 c l2 f A Cl G El Hl Cal Ck Fi.
  assert (Fi' : filed f c Latest k l s (fun t => t / 3600000000000 = (ck_ns c - 15 * 60 * 1000000000) / 3600000000000)).
  { destruct Fi as [Fi|[Q Fi]]; [exact Fi|]. intros d e H1 H2 H3 H4 H5 t. destruct (Fi d e H1 H2 H3 H4 H5) as [K _]. fold t in K. split; [exact K|].
    destruct K as [K1 K2]. clearbody t. clear - Q K1 K2. Z.to_euclidean_division_equations. lia. }
  eapply exact_if_covered; eauto; [exact Logic.I|intros t [_ Ht]; lia|lia|discriminate|]. intros sc vs t Ec HW Ht Nd.
  destruct (window_search _ _ _ _ _ _ _ _ _ _ _ _ _ _ _ _ _ _ f _ _ A G El Logic.I Hl Cal Ec HW) as (st & Se & Wt & ->).
  exists (view_H (ck_ns c - 900000000000)). split.
  - apply (P_Time.C15_hour_windows_exact _ _ _ Se); [lia|]. exists 0. split; [lia|]. split; [lia|]. f_equal. lia.
  - right. right. right. left. apply view_H_ext. rewrite ns_hour_val. exact Nd.
Qed.

(** ------ a script that throws: exactly one with a duration that cannot be read, whatever the database holds, or if the query fails *)
Theorem C96_throws_only_on_bad_duration : forall k l, chain (construct k) l = None <-> exists c m d, In (c, m) l /\ (m = Ago d \/ m = Offset d) /\ parse_duration d = None.
Proof.
  intros k l. generalize (construct k). induction l as [|[c m] l IH]; intros s; [split; [discriminate|intros (c & m & d & [] & _)]|].
  cbn [chain]. destruct (exec pd s c (call_of m)) as [s' ok] eqn:E.
  assert (B : ok = false <-> exists d, (m = Ago d \/ m = Offset d) /\ pd d = None).
  { assert (K := proj1 (P_Script.C64_fails_only_on_bad_duration pd s c (call_of m))). rewrite E in K. cbn [snd] in K. rewrite K. clear. split.
    - intros (d & [H|H] & Hd); destruct m; try discriminate H; injection H as <-; [exists duration; auto|rewrite good_15m in Hd; discriminate Hd|exists duration; auto].
    - intros (d & [-> | ->] & Hd); exists d; cbn [call_of]; auto. }
  destruct ok.
  - rewrite IH. split.
    + intros (c' & m' & d & H & H'). exists c', m', d. split; [right; exact H|exact H'].
    + intros (c' & m' & d & [H|H] & H'); [|exists c', m', d; auto]. exfalso. apply pair_inj in H as [_ ->]. assert (true = false) by (apply B; eauto). discriminate.
  - split; [|reflexivity]. intros _. destruct (proj1 B eq_refl) as (d & H & Hd). exists c, m, d. split; [left; reflexivity|auto].
Qed.

(** A query the server fails to answer never looks like an answer, and an answer is never an exception: the script throws exactly
    if a duration cannot be read or the server fails on the scan it asks for. *)
Theorem C96_throws_exactly : forall I h h0 kvb (st : store I) e client order k l,
  run_script I h h0 kvb st e client order k l = Threw <->
  (exists c m d, In (c, m) l /\ (m = Ago d \/ m = Offset d) /\ parse_duration d = None) \/
  (exists sc, chain (construct k) l = Some sc /\ forall o, do_scan I h kvb st e sc order <> SData o).
Proof.
  intros I h h0 kvb st e client order k l. rewrite <- (C96_throws_only_on_bad_duration k l). unfold run_script, query.
  destruct (chain (construct k) l) as [sc|]; [|split; auto].
  destruct (do_scan I h kvb st e sc order) as [|o|] eqn:E.
  - split; [|reflexivity]. intros _. right. exists sc. split; [reflexivity|]. intros o. rewrite E. discriminate.
  - split.
    + destruct (js_scan h h0 client sc (Some (over_grpc o))) as [[d|]|]; discriminate.
    + intros [K|(sc' & K & F)]; [exfalso; clear - K; discriminate K|]. apply some_inj in K. subst sc'. destruct (F o E).
  - split; [|reflexivity]. intros _. right. exists sc. split; [reflexivity|]. intros o. rewrite E. discriminate.
Qed.

(** ------ concrete scripts *)
(** One request with points of metric "up" at the given seconds after 1970. *)
Definition up_at (ts : list N) (attrs : list key_value) : request :=
  RqMetrics [RGroup "v1" None [SGroup "" (Some (Scope "s" "1" [] "")) [Metric "up" "" "" (Some (MData KGauge 0 false (map (fun t => Point (t * 1000000000) attrs "x") ts)))]]].
Definition at_clock (secs : Z) : clock := Clock (secs * 1000000000) 0.
Definition moves (q : request) : list move := (MRequest q :: repeat (MClient 0 false) 4) ++ flush_once.
Definition at_hand_for (q : request) (k : class) (l : list (clock * method)) : Prop :=
  at_hand list_impl list_inv [] (P_Own.own_life q) [] (moves q) (P_Own.own_after q) xxh64 xxh64_zero toy_kvb 0 group_columns k l.
Ltac hand :=
  split; [exact list_laws
  | split; [vm_compute; reflexivity|apply life_snoc; [exact Logic.I|apply times_forall; repeat constructor]|constructor|intros x []|
      let x := fresh in let Hx := fresh in intros x Hx; vm_compute in Hx; repeat (destruct Hx as [<-|Hx]; [reflexivity|]); destruct Hx|];
    split; [let K := fresh in intros keys K; destruct K as [K|[]]; discriminate K|vm_compute; reflexivity]
  | exists [], [SOpen false], open_seq; split; [reflexivity|]; split; [vm_compute; reflexivity|]; split; vm_compute; reflexivity
  | split; [vm_compute; reflexivity|split; vm_compute; reflexivity]
  | let K := fresh in intros ls K; vm_compute in K; destruct K as [K|[]]; discriminate K
  | exact group_order
  | let Hs := fresh in let Hv := fresh in intros s' v' Hs Hv; left; vm_compute in Hs; repeat (destruct Hs as [<-|Hs]; [vm_compute in Hv; repeat (destruct Hv as [<-|Hv]; [vm_compute; reflexivity|]); destruct Hv|]); destruct Hs
  | match goal with |- mergeable _ _ ?l => let v := eval vm_compute in l in change l with v end; split; [|split; [|split]];
    [ match goal with |- separates _ _ _ ?l => let v := eval vm_compute in l in change l with v end; split; [|split]; cbv zeta;
      [ intros g g' H1 H2 E; pick; reflexivity
      | intros g s g' s' H1 H2 H3 H4 E; pick; split; reflexivity
      | intros g s a n g' s' a' n' H1 H2 H3 H4 H5 H6 Ea Ea' E; pick; unfold metric_name in Ea, Ea'; cbn in Ea, Ea'; apply some_inj in Ea; apply some_inj in Ea'; subst n n'; split; [reflexivity|split; reflexivity] ]
    | intros X Y a b (g & s & H1 & H2 & H3 & _) (g' & s' & H4 & H5 & H6 & _) _; cbn in H1, H4; pick; reflexivity
    | split; [|split]; cbv zeta; cbn; intros; contradiction
    | split; [|split]; cbv zeta; cbn; intros; contradiction ]
  | ].
(** 00:30 and 01:30 on 1 January 1970, asked for at 02:00 that day. *)
Definition two_points : request := up_at [1800; 5400]%N [].
Definition today_script : list (clock * method) := [(at_clock 0, ScopeName "s"); (at_clock 0, Limit 1); (at_clock 7200, Today); (at_clock 7200, Name "up"); (at_clock 7200, Now 5)].
Example C96_today_hypotheses :
  at_hand_for two_points (Metrics (Some "up"%string)) today_script /\ clear_script (Metrics (Some "up"%string)) today_script /\ good_durations today_script /\
  today_script = [(at_clock 0, ScopeName "s"); (at_clock 0, Limit 1)] ++ (at_clock 7200, Today) :: [(at_clock 7200, Name "up"); (at_clock 7200, Now 5)] /\
  (forall f t, is_calendar f -> in_window_of f (at_clock 7200) Today t -> 0 <= t) /\
  (forall f, is_calendar f -> filed f (at_clock 7200) Today (Metrics (Some "up"%string)) today_script (P_Own.own_after two_points) (fun _ => True)) /\
  exists d, run_script list_impl xxh64 xxh64_zero toy_kvb (after list_impl [] (P_Own.own_life two_points)) (calm 0) 0 group_columns (Metrics (Some "up"%string)) today_script = Got (Some d) /\
    map snd (records d) = [IPoint "up" KGauge (Point 1800000000000 [] "x"); IPoint "up" KGauge (Point 5400000000000 [] "x")].
Proof.
  assert (T0 : forall f t, is_calendar f -> in_window_of f (at_clock 7200) Today t -> 0 <= t).
  { intros f t Cal [H1 H2]. cbn [at_clock ck_ns ck_zone] in *. assert (K := today_window f (at_clock 7200) t Cal). cbn [at_clock ck_ns ck_zone] in K.
    unfold Asked.local_date in H2. specialize (K ltac:(lia)). apply K in H2. exact H2. }
  split; [hand|].
  { intros sc d E. vm_compute in E. apply some_inj in E. subst sc. intros E. vm_compute in E. injection E as <-. apply (P_Visit.fair_of [FBase 6 "up"; FBase 3 "s"; FBase 6 "up"] _ 0 0); vm_compute; reflexivity. }
  split. { split; [exists (Name "up"); split; [left; reflexivity|exact Logic.I]|]. split.
    - intros m H. cbn in H. repeat (destruct H as [<-|H]; [cbn; repeat split; discriminate|]). destruct H.
    - intros m m' H H'. cbn in H, H'. repeat (destruct H as [<-|H]; [repeat (destruct H' as [<-|H']; [cbn; intros []; reflexivity|]); destruct H'|]). destruct H. }
  split. { intros c m d H. cbn in H. repeat (destruct H as [H|H]; [apply pair_inj in H as [_ <-]; intros [K|K]; discriminate K|]). destruct H. }
  split; [reflexivity|]. split; [exact T0|]. split.
  - intros f Cal d e Hd He _ _ Hw. vm_compute in Hd. destruct Hd as [<-|[]]. split; [|exact Logic.I].
    split; [reflexivity|]. assert (K := today_window f (at_clock 7200) 1800000000000 Cal). apply K; vm_compute; congruence.
  - eexists. split; vm_compute; reflexivity.
Qed.

(** ------ windows that lose records *)
(** A script on a database with one answered request, all is well as in C96, the only record sent meets what the script says
    and lies in its window, and the script gets nothing. *)
Definition gets_nothing (q : request) (k : class) (l1 : list (clock * method)) (c : clock) (w : method) : Prop :=
  let l := l1 ++ [(c, w)] in
  at_hand_for q k l /\ good_durations l /\ is_window w /\
  (exists e, of_class k (payloads (P_Own.own_after q)) = [e] /\ (forall m, In m (said k l) -> says m e) /\ forall f, is_calendar f -> in_window_of f c w (record_time (snd e))) /\
  exists o, run_script list_impl xxh64 xxh64_zero toy_kvb (after list_impl [] (P_Own.own_life q)) (calm 0) 0 group_columns k l = Got o /\ got_records o = [].
Ltac no_durations := let H := fresh in intros c m d H; cbn in H; repeat (destruct H as [H|H]; [apply pair_inj in H as [_ <-]; let K := fresh in intros [K|K]; discriminate K|]); destruct H.
Ltac all_said := let m := fresh in let H := fresh in intros m H; cbn in H; repeat (destruct H as [<-|H]; [vm_compute; auto|]); destruct H.
(** latest() at 01:05: a record of 01:03 is not found; the hour that began at 01:00 is not looked at. *)
Theorem C96_latest_refuted : gets_nothing (up_at [3780]%N []) (Metrics (Some "up"%string)) [(at_clock 3900, ScopeName "s")] (at_clock 3900) Latest /\
  clear_script (Metrics (Some "up"%string)) [(at_clock 3900, ScopeName "s"); (at_clock 3900, Latest)].
Proof.
  split.
  - split; [once hand; intros sc d E; vm_compute in E; apply some_inj in E; subst sc; intros E; vm_compute in E; injection E as <-; apply (P_Visit.fair_of [FBase 6 "up"; FBase 3 "s"] _ 0 0); vm_compute; reflexivity|]. split; [no_durations|]. split; [exact Logic.I|]. split.
    + eexists. split; [vm_compute; reflexivity|]. split; [all_said|]. intros f Cal. split; vm_compute; congruence.
    + eexists. split; [vm_compute; reflexivity|reflexivity].
  - split; [exists (Name "up"); split; [left; reflexivity|exact Logic.I]|]. split.
    + intros m H. cbn in H. repeat (destruct H as [<-|H]; [cbn; repeat split; discriminate|]). destruct H.
    + intros m m' H H'. cbn in H, H'. repeat (destruct H as [<-|H]; [repeat (destruct H' as [<-|H']; [cbn; intros []; reflexivity|]); destruct H'|]). destruct H.
Qed.
(** thisWeek() on Monday 5 January 1970, 12:00: a record of 10:00 the same day is not found. *)
Theorem C96_this_week_refuted : gets_nothing (up_at [381600]%N []) (Metrics None) [(at_clock 388800, Name "up")] (at_clock 388800) ThisWeek.
Proof.
  split; [once hand; intros sc d E; vm_compute in E; apply some_inj in E; subst sc; intros E; vm_compute in E; injection E as <-; apply (P_Visit.fair_of [FBase 6 "up"] _ 0 0); vm_compute; reflexivity|]. split; [no_durations|]. split; [exact Logic.I|]. split.
  - eexists. split; [vm_compute; reflexivity|]. split; [all_said|]. intros f Cal. split; vm_compute; congruence.
  - eexists. split; [vm_compute; reflexivity|reflexivity].
Qed.
(** attr("env", "prod") on a metric's point: the record is found by the index and then thrown away, because trimming looks for
    the attribute on the scope. *)
Theorem C96_attr_refuted : gets_nothing (up_at [1800]%N [KV "env" (Some (AVString "prod"))]) (Metrics (Some "up"%string)) [(at_clock 7200, Attribute "env" "prod")] (at_clock 7200) Today.
Proof.
  split.
  { hand. intros sc d E. vm_compute in E. apply some_inj in E. subst sc. intros E. vm_compute in E. injection E as <-. apply (P_Visit.fair_of [FBase 6 "up"; FAttr 7 "env" "prod"] _ 0 0); vm_compute; reflexivity. }
  split; [no_durations|]. split; [exact Logic.I|]. split.
  - eexists. split; [vm_compute; reflexivity|]. split; [all_said|]. intros f Cal. split; [reflexivity|]. assert (K := today_window f (at_clock 7200) 1800000000000 Cal). apply K; vm_compute; congruence.
  - eexists. split; [vm_compute; reflexivity|reflexivity].
Qed.
Print Assumptions C96_latest_refuted.
