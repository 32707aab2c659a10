(** C95: the server's own telemetry, from the SDK's span or data point through the server's own ingest endpoint to
    the answer of a query. *)
From Coq Require Import Permutation.
From Verif.Model Require Import Base Labels Calendar View KV Otlp Transform Batch Rows Shards Dataframe Collapse Store Sequence Translate Visit XxHash Query Service SelfTrace SelfMetrics.
From Verif.Spec Require Import Indexing Translator Frames Saves Sets Merge Trim Queries Serving Groups Collections Own.
From Verif.Proofs Require Import BaseFacts ListTranslator VisitFacts SelfTraceFacts SelfMetricsFacts.
From Verif.Props Require Import P_Dataframe P_Store P_Collapse P_EndToEnd P_Query P_Once P_Service P_Serving P_Self P_SelfMetrics.
From Verif.Props Require P_Visit P_Time.
Open Scope N_scope.
Notation entries := Trim.entries.
Notation given := Saves.given.

(** The server has answered the request [q] (state [s]); since then one more flush has completed (state [s']) and no
    call of SaveSamples that included the request failed.  The query [sc] is for its signal and over the window
    [st, en); [vs] are the views it consults, one of which is where the request's data is filed. *)
Record asked_later (I : tr_impl) (inv : nat -> ti_state I -> Prop) s0 es0 es1 earlier s s' (q : request) (id : N) h h0 kvb wall client sc order vs st en : Prop := {
  al_laws : tr_laws I inv;
  al_serving : serving I inv s0 es0 es1 earlier s';
  al_then : served_then earlier s s';
  al_answered : In (CDone q id) (sv_clients s);
  al_idle : sv_flusher s = FIdle;
  al_flushed : (List.length (sv_saves s) < List.length (sv_saves s'))%nat;
  al_saved : forall ls, In (ls, false) (sv_saves s') -> ~ In (Sample id (export q)) ls;
  al_order : some_order order;
  al_signal : sc_scope sc = signal_of (export q);
  al_range : sc_range (sc_times sc) <> None;
  al_window : P_Visit.window client sc st en;
  al_views : window (calm wall) sc vs;
  al_home : exists v, In v vs /\ In v (home (export q));
  al_aligned : forall x v', In x (given (es0 ++ es1)) -> In v' vs -> In v' (home (smp_data x)) -> aligned (flushes I s0 (es0 ++ es1)) v' x;
  al_mergeable : mergeable h kvb (map smp_data (given (es0 ++ es1)));
  al_fair : forall d, do_scan I h kvb (after I s0 (es0 ++ es1)) (calm wall) sc order = SData (Some d) -> P_Visit.fair h h0 sc d
}.
Lemma asked_found I inv s0 es0 es1 earlier s s' q id h h0 kvb wall client sc order vs st en e :
  asked_later I inv s0 es0 es1 earlier s s' q id h h0 kvb wall client sc order vs st en ->
  answerable (sc_scope sc) (sc_filters sc) -> In e (entries (export q)) -> wanted (sc_filters sc) st en e = true ->
  exists out, query I h h0 kvb (after I s0 (es0 ++ es1)) (calm wall) client sc order = AData out /\ In (as_seen (forget e)) (records out).
Proof.
  intros [L SG ST Hc Hf Hl NF OO Sg NR PW W (v & Hv & Hh) Al Mg Fa] An He Hw.
  exact (C84_answered_then_found_partial I inv s0 es0 es1 earlier s s' q id h h0 kvb wall client sc order vs st en v e L SG ST Hc Hf Hl NF OO Sg An NR PW W Hv Hh Al Mg Fa He Hw).
Qed.

(** ------ small facts *)
Lemma hex_digit_lower a : a < 16 -> lower_ascii (hex_digit a) = hex_digit a.
Proof.
  intros H. unfold lower_ascii. unfold hex_digit. destruct (N.ltb_spec a 10); rewrite N_ascii_embedding by lia.
  - replace (65 <=? 48 + a) with false by (symmetry; apply N.leb_gt; lia). reflexivity.
  - replace (87 + a <=? 90) with false by (symmetry; apply N.leb_gt; lia). rewrite andb_false_r. reflexivity.
Qed.
Lemma byte_digits c : N_of_ascii c / 16 < 16 /\ N_of_ascii c mod 16 < 16.
Proof. pose proof (N_ascii_bounded c) as Hc. split; [apply N.div_lt_upper_bound; lia|apply N.mod_lt; lia]. Qed.
Lemma lower_hex s : lower (hex_encode s) = hex_encode s.
Proof. induction s as [|c s IH]; [reflexivity|]. destruct (byte_digits c) as [A B]. cbn [hex_encode lower]. rewrite !hex_digit_lower, IH by assumption. reflexivity. Qed.
Lemma hex_is_hex s : is_hex (hex_encode s) = true.
Proof. apply is_hex_decode. exists s. apply hex_decode_spec, lower_hex. Qed.
Lemma hex_nonempty s : s <> "" -> hex_encode s <> "".
Proof. destruct s; [congruence|discriminate]. Qed.
Lemma text_one_of fs p x : (forall v, In (FBase p v) fs -> v = x) -> one_of (texts fs p) x = true.
Proof.
  intros H. unfold one_of. destruct (texts fs p) as [|a l] eqn:E; [reflexivity|]. cbn [existsb]. replace a with x; [rewrite String.eqb_refl; reflexivity|].
  symmetry. apply H. assert (K : In a (texts fs p)) by (rewrite E; left; reflexivity). unfold texts in K. apply in_flat_map in K as (f & Hf & K).
  destruct f as [q v| |]; [|destruct K..]. destruct (Z.eqb_spec q p) as [->|]; [|destruct K]. destruct K as [->|[]]. exact Hf.
Qed.
Lemma id_text_one_of fs p b : (forall v, In (FBase p v) fs -> v = hex_encode (the_id b)) -> id_one_of (texts fs p) b = true.
Proof.
  intros H. assert (A := text_one_of fs p _ H). unfold id_one_of. unfold one_of in A. assert (Q : forall v, In v (texts fs p) -> v = hex_encode (the_id b)).
  { intros v K. apply H. unfold texts in K. apply in_flat_map in K as (f & Hf & K). destruct f as [q w| |]; [|destruct K..]. destruct (Z.eqb_spec q p) as [->|]; [|destruct K]. destruct K as [->|[]]. exact Hf. }
  destruct (texts fs p) as [|a l]; [reflexivity|]. cbn [existsb]. rewrite (Q a) by (left; reflexivity). rewrite lower_hex, String.eqb_refl. reflexivity.
Qed.
Lemma attrs_all_there enc fs p l : (forall k v, In (FAttr p k v) fs -> In (Attr k (AString v)) l) -> all_there (Trim.pairs fs p) (key_values enc l) = true.
Proof.
  intros H. unfold all_there. apply forallb_forall. intros [k v] K. unfold Trim.pairs in K. apply in_flat_map in K as (f & Hf & K).
  destruct f as [|q k' v'|]; [destruct K| |destruct K]. destruct (Z.eqb_spec q p) as [->|]; [|destruct K]. destruct K as [K|[]]. apply pair_inj in K as [-> ->].
  apply existsb_exists. exists (KV k (Some (AVString v))). split; [|unfold is_attr; cbn; rewrite !String.eqb_refl; reflexivity].
  apply in_map_iff. exists (Attr k (AString v)). split; [reflexivity|]. apply H, Hf.
Qed.
Lemma no_pairs fs p : (forall k v, ~ In (FAttr p k v) fs) -> Trim.pairs fs p = [].
Proof.
  intros H. unfold Trim.pairs. induction fs as [|f fs IH]; [reflexivity|]. cbn [flat_map]. rewrite IH by (intros k v K; apply (H k v); right; exact K).
  destruct f as [|q k v|]; [reflexivity| |reflexivity]. destruct (Z.eqb_spec q p) as [->|]; [|reflexivity]. exfalso. apply (H k v). left. reflexivity.
Qed.
Lemma window_N st en t : (0 <= t)%Z -> sane_time t -> (st <= t < en)%Z -> in_window st en (u64_of t) = true.
Proof.
  intros P [_ B] W. unfold in_window, u64_of. change (2 ^ 63)%Z with 9223372036854775808%Z in B. change (2 ^ 64)%Z with 18446744073709551616%Z.
  rewrite Z.mod_small, Z2N.id by lia. apply andb_true_iff. split; [apply Z.leb_le|apply Z.ltb_lt]; lia.
Qed.
(** Scopes of the server's own spans never have attributes. *)
Lemma spans_plain enc enc_rest order sdl g sg : (forall m, Permutation (order m) m) -> In g (spans_of enc enc_rest order sdl) -> In sg (rg_scopes g) -> attrs_of_scope (sg_scope sg) = [].
Proof. intros P Hg Hs. destruct (C63_nothing_added _ _ _ _ _ P Hg) as [_ B]. specialize (B sg Hs). destruct (sg_scope sg); [exact (proj1 B)|reflexivity]. Qed.

(** ------ spans *)
(** C95.  The server exported the finished spans [sdl] to itself and the request was answered.  Then the query with
    any conditions that are true of one of the spans, over a window that contains its start, returns that span, with
    every field it had, under its own resource attributes and its own scope. *)
Theorem C95_own_spans_found_partial : forall enc enc_rest spanorder sdl sd I inv s0 es0 es1 earlier s s' id h h0 kvb wall client sc order vs st en,
  (forall m, Permutation (spanorder m) m) -> In sd (Groups.given sdl) -> sane_span sd ->
  asked_later I inv s0 es0 es1 earlier s s' (RqTraces (spans_of enc enc_rest spanorder sdl)) id h h0 kvb wall client sc order vs st en ->
  sc_filters sc <> [] -> (forall f, In f (sc_filters sc) -> span_fits sd f) ->
  (0 <= sd_start sd)%Z -> (st <= sd_start sd < en)%Z ->
  exists out schema o, query I h h0 kvb (after I s0 (es0 ++ es1)) (calm wall) client sc order = AData out /\
    In (schema, key_values enc (own_attributes sd), ("", (ss_name (sd_scope sd), ss_version (sd_scope sd), [])), ISpan o) (records out) /\
    span_says enc enc_rest sd o.
Proof.
  intros enc enc_rest spanorder sdl sd I inv s0 es0 es1 earlier s s' id h h0 kvb wall client sc order vs st en P Hs Sane A Ne Fits Pos Win.
  assert (Pl := C63_every_span_once enc enc_rest spanorder sdl P).
  assert (Hp : In (key_values enc (own_attributes sd), own_scope sd, span_of enc enc_rest sd) (placements (spans_of enc enc_rest spanorder sdl))).
  { eapply Permutation_in; [apply Permutation_sym, Pl|]. apply in_map_iff. exists sd. auto. }
  unfold placements in Hp. apply in_flat_map in Hp as (g & Hg & Hp). apply in_flat_map in Hp as (sg & Hsg & Hp). apply in_map_iff in Hp as (o & E & Ho).
  apply pair_inj in E as [E Eo]. apply pair_inj in E as [Er Es]. assert (Plain := spans_plain _ _ _ _ _ _ P Hg Hsg).
  unfold scope_identity, own_scope in Es. set (e := ((rg_schema g, rg_resource g), (sg_schema sg, sg_scope sg), RSpan o) : entry).
  assert (Nm : name_of_scope (sg_scope sg) = ss_name (sd_scope sd) /\ version_of_scope (sg_scope sg) = ss_version (sd_scope sd) /\ sg_schema sg = ss_schema (sd_scope sd)).
  { apply pair_inj in Es as [Es E3]. destruct (sg_scope sg); apply pair_inj in Es as [E1 E2]; auto. }
  destruct Nm as (N1 & N2 & N3).
  assert (Sc := al_signal _ _ _ _ _ _ _ _ _ _ _ _ _ _ _ _ _ _ _ _ A). cbn [export signal_of] in Sc.
  destruct (asked_found _ _ _ _ _ _ _ _ _ _ _ _ _ _ _ _ _ _ _ _ e A) as (out & Q & R).
  - rewrite Sc. split; [|split; [|split]].
    + destruct (sc_filters sc) as [|f l]; [congruence|]. exists f. split; [left; reflexivity|]. intros ->. specialize (Fits FOther (or_introl eq_refl)). inversion Fits.
    + intros p v Hf. specialize (Fits _ Hf). inversion Fits; subst; (split; [cbn; tauto|]); (split; [auto using hex_nonempty|intros K; try discriminate K]).
      split; [apply hex_is_hex|apply lower_hex].
    + intros p v v' Hf Hf'. apply Fits in Hf. apply Fits in Hf'. inversion Hf; subst; inversion Hf'; subst; reflexivity.
    + intros p k v Hf. apply Fits in Hf. inversion Hf; subst. split; [cbn; tauto|assumption].
  - cbn [export Trim.entries]. unfold entries_of. apply in_flat_map. exists g. split; [exact Hg|]. apply in_flat_map. exists sg. split; [exact Hsg|].
    apply in_flat_map. exists o. split; [exact Ho|]. left. reflexivity.
  - unfold e. cbn [wanted]. apply andb_true_iff. split; [apply andb_true_iff; split|].
    + unfold wanted_resource. apply andb_true_iff. split.
      * apply text_one_of. intros v Hf. apply Fits in Hf. inversion Hf.
      * change (attrs_of_resource (rg_resource g)) with (resource_attributes (rg_resource g)). rewrite Er. apply attrs_all_there. intros k v Hf. apply Fits in Hf. inversion Hf; subst. assumption.
    + unfold wanted_scope. rewrite !andb_true_iff. split; [split; [split|]|].
      * apply text_one_of. intros v Hf. apply Fits in Hf. inversion Hf; subst. congruence.
      * apply text_one_of. intros v Hf. apply Fits in Hf. inversion Hf; subst. congruence.
      * apply text_one_of. intros v Hf. apply Fits in Hf. inversion Hf; subst. congruence.
      * rewrite no_pairs; [reflexivity|]. intros k v Hf. apply Fits in Hf. inversion Hf.
    + unfold wanted_record. rewrite Eo. unfold span_of. cbn [sp_name sp_start sp_attrs sp_trace sp_span sp_parent]. rewrite !andb_true_iff. split; [split; [split; [split; [split|]|]|]|].
      * apply text_one_of. intros v Hf. apply Fits in Hf. inversion Hf; subst. reflexivity.
      * apply window_N; [exact Pos| |exact Win]. apply (sane_start _ Sane).
      * rewrite no_pairs; [reflexivity|]. intros k v Hf. apply Fits in Hf. inversion Hf.
      * apply id_text_one_of. intros v Hf. apply Fits in Hf. inversion Hf; subst. reflexivity.
      * apply id_text_one_of. intros v Hf. apply Fits in Hf. inversion Hf.
      * apply id_text_one_of. intros v Hf. apply Fits in Hf. inversion Hf.
  - exists out, (rg_schema g), (span_of enc enc_rest sd). split; [exact Q|]. split; [|apply C63_fields_same, Sane].
    unfold e, forget, as_seen in R. cbn [seen_record forget_record] in R. change (attrs_of_resource (rg_resource g)) with (resource_attributes (rg_resource g)) in R. rewrite Er, N1, N2, Plain, Eo in R. exact R.
Qed.
Print Assumptions C95_own_spans_found_partial.

(** ------ metrics *)
Lemma nth_map_eq {A B} (f : A -> B) l i x : nth_error l i = Some x -> nth_error (map f l) i = Some (f x).
Proof. intros H. rewrite nth_error_map, H. reflexivity. Qed.
(** The [i]-th data point of metric [m], collected under scope [s] at time [t], of a collection that was exported: the
    query with any conditions that are true of the metric, over a window that contains [t], returns the point under
    the metric's name, with its attributes and values. *)
Theorem C95_own_points_found_partial : forall enc enc_point rm q s m i t attrs I inv s0 es0 es1 earlier sv sv' id h h0 kvb wall client sc order vs st en,
  export_metrics enc enc_point rm = (Some q, []) -> In s (rm_scopes rm) -> In m (sc_metrics s) -> int64_metric m ->
  nth_error (sdk_points m) i = Some (Some t, attrs) ->
  asked_later I inv s0 es0 es1 earlier sv sv' q id h h0 kvb wall client sc order vs st en ->
  sc_filters sc <> [] -> (forall f, In f (sc_filters sc) -> metric_fits rm (sc_scope_of s) m f) ->
  (0 <= t)%Z -> sane_time t -> (st <= t < en)%Z ->
  exists out kind p r rests, query I h h0 kvb (after I s0 (es0 ++ es1)) (calm wall) client sc order = AData out /\
    In (sr_schema (rm_resource rm), key_values enc (sr_attrs (rm_resource rm)), ("", (ss_name (sc_scope_of s), ss_version (sc_scope_of s), [])), IPoint (sm_name m) kind p) (records out) /\
    sdk_kind m = Some kind /\ Z.of_N (p_time p) = t /\ p_attrs p = key_values enc attrs /\
    p_rest p = enc_point r /\ nth_error rests i = Some r /\ points_say enc m rests.
Proof.
  intros enc enc_point rm q s m i t attrs I inv s0 es0 es1 earlier sv sv' id h h0 kvb wall client sc order vs st en X Hs Hm I64 Hi A Ne Fits Pos Sane Win.
  unfold export_metrics, resource_metrics_of in X. rewrite scope_metrics_spec in X. cbn [app] in X.
  destruct (flat_map (fun s : sdk_scope_metrics => map expected_error (filter (fun m : sdk_metric => negb (expressible m)) (sc_metrics s))) (rm_scopes rm)) as [|er ers] eqn:Er; [|discriminate X].
  apply pair_inj in X as [X _]. apply some_inj in X. subst q.
  assert (Ex : expressible m = true).
  { destruct (expressible m) eqn:K; [reflexivity|]. exfalso. assert (In (expected_error m) []); [|assumption]. rewrite <- Er. apply in_flat_map. exists s. split; [exact Hs|]. apply in_map, filter_In. rewrite K. auto. }
  pose proof (describes_converted enc enc_point m Ex) as (D1 & _ & _ & d & Dd & Dk & _ & _ & Dp).
  assert (M1 : metrics_of enc enc_point [m] [] [] = ([converted enc enc_point m], [])) by (rewrite metrics_of_spec; cbn [filter app map]; rewrite Ex; reflexivity).
  destruct (C62_points_same enc enc_point m _ Ex I64 M1) as (d' & rests & Dd' & Rs & Say). rewrite Dd in Dd'. apply some_inj in Dd'. subst d'.
  assert (Hp : exists p, nth_error (md_points d) i = Some p /\ p_time p = u64_of t /\ p_attrs p = key_values enc attrs).
  { assert (N := nth_map_eq (fun p : option Z * list attr => (match fst p with Some t => Z.to_N (t mod 2 ^ 64) | None => 0 end, map (fun a => KV (at_key a) (Some (any_of enc (at_value a)))) (snd p))) _ _ _ Hi).
    cbv beta in N. cbn [fst snd] in N. assert (Dp' := f_equal (fun l => nth_error l i) Dp). cbv beta in Dp'. rewrite N in Dp'. rewrite nth_error_map in Dp'.
    destruct (nth_error (md_points d) i) as [p|]; [|discriminate Dp']. apply some_inj, pair_inj in Dp' as [P1 P2]. exists p. auto. }
  destruct Hp as (p & Np & Tp & Ap).
  assert (Hr : exists r, nth_error rests i = Some r /\ p_rest p = enc_point r).
  { assert (Rs' := f_equal (fun l => nth_error l i) Rs). cbv beta in Rs'. rewrite !nth_error_map, Np in Rs'. cbn in Rs'. destruct (nth_error rests i) as [r|]; [|discriminate Rs']. exists r. split; [reflexivity|]. apply some_inj in Rs'. exact Rs'. }
  destruct Hr as (r & Nr & Rr).
  set (g := RGroup (sr_schema (rm_resource rm)) (Some (Resource (key_values enc (sr_attrs (rm_resource rm))) "")) (map (scope_converted enc enc_point) (rm_scopes rm))) in *.
  set (e := ((rg_schema g, rg_resource g), (sg_schema (scope_converted enc enc_point s), sg_scope (scope_converted enc enc_point s)),
    RPoint (sm_name m) (sm_desc m) (sm_unit m) (md_kind d) (if has_temporality (md_kind d) then md_temporality d else 0%Z) (if is_sum (md_kind d) then md_monotonic d else false) p) : entry).
  assert (Sc := al_signal _ _ _ _ _ _ _ _ _ _ _ _ _ _ _ _ _ _ _ _ A). cbn [export signal_of] in Sc.
  destruct (asked_found _ _ _ _ _ _ _ _ _ _ _ _ _ _ _ _ _ _ _ _ e A) as (out & Q & R).
  - rewrite Sc. split; [|split; [|split]].
    + destruct (sc_filters sc) as [|f l]; [congruence|]. exists f. split; [left; reflexivity|]. intros ->. specialize (Fits FOther (or_introl eq_refl)). inversion Fits.
    + intros p' v Hf. specialize (Fits _ Hf). inversion Fits; subst; (split; [cbn; tauto|]); (split; [assumption|intros K; discriminate K]).
    + intros p' v v' Hf Hf'. apply Fits in Hf. apply Fits in Hf'. inversion Hf; subst; inversion Hf'; subst; reflexivity.
    + intros p' k v Hf. apply Fits in Hf. inversion Hf; subst. split; [cbn; tauto|assumption].
  - cbn [export Trim.entries]. unfold entries_of. apply in_flat_map. exists g. split; [left; reflexivity|]. apply in_flat_map. exists (scope_converted enc enc_point s). split; [apply in_map, Hs|].
    apply in_flat_map. exists (converted enc enc_point m). split; [cbn [scope_converted sg_items]; apply in_map, filter_In; auto|].
    apply in_map_iff. eexists. split; [reflexivity|]. unfold metric_parts. rewrite Dd. apply in_map_iff. exists p. split; [reflexivity|]. apply nth_error_In with i, Np.
  - unfold e. cbn [wanted]. apply andb_true_iff. split; [apply andb_true_iff; split|].
    + unfold wanted_resource. apply andb_true_iff. split.
      * apply text_one_of. intros v Hf. apply Fits in Hf. inversion Hf; subst. reflexivity.
      * cbn [g rg_resource attrs_of_resource r_attrs]. apply attrs_all_there. intros k v Hf. apply Fits in Hf. inversion Hf; subst. assumption.
    + unfold wanted_scope. rewrite !andb_true_iff. split; [split; [split|]|].
      * apply text_one_of. intros v Hf. apply Fits in Hf. inversion Hf; subst. reflexivity.
      * apply text_one_of. intros v Hf. apply Fits in Hf. inversion Hf; subst. reflexivity.
      * apply text_one_of. intros v Hf. apply Fits in Hf. inversion Hf; subst. reflexivity.
      * rewrite no_pairs; [reflexivity|]. intros k v Hf. apply Fits in Hf. inversion Hf.
    + unfold wanted_record. rewrite !andb_true_iff. split; [split|].
      * apply text_one_of. intros v Hf. apply Fits in Hf. inversion Hf; subst. reflexivity.
      * rewrite Tp. apply window_N; assumption.
      * rewrite no_pairs; [reflexivity|]. intros k v Hf. apply Fits in Hf. inversion Hf.
  - exists out, (md_kind d), p, r, rests. split; [exact Q|]. split; [|split; [auto|split; [|auto]]].
    + unfold e, forget, as_seen in R. cbn [seen_record forget_record] in R. exact R.
    + rewrite Tp. unfold u64_of. destruct Sane as [_ B]. change (2 ^ 63)%Z with 9223372036854775808%Z in B. change (2 ^ 64)%Z with 18446744073709551616%Z. rewrite Z.mod_small, Z2N.id by lia. reflexivity.
Qed.
Print Assumptions C95_own_points_found_partial.

(** ------ a concrete run: the server exports one of its own spans, and one of its own metrics, and asks for them. *)
Definition nothing {A} (_ : A) : string := "".
Definition own_span : sdk_span :=
  SdkSpan (Some (SdkResource [Attr "service.name" (AString "rq")] "v1")) (SdkScope "store" "1" "") "Scan" "0123456789abcdef" "01234567" zero_id
    (Z.of_N half1) (Z.of_N half1 + 5) [Attr "rows" (AInt 3)] some_rest.
Definition own_rm : sdk_collection :=
  SdkCollection (SdkResource [Attr "service.name" (AString "rq")] "v1")
    [SdkScopeMetrics (SdkScope "store" "1" "") [SdkMetric "saves" "" "" (ASum 1 true [DataPoint [] None (Some (Z.of_N half1)) (NumInt 4) []])]].
Definition own_request : request := RqTraces (spans_of nothing nothing (fun m => m) [None; Some own_span]).
Definition own_metrics : request := match fst (export_metrics nothing nothing own_rm) with Some q => q | None => RqTraces [] end.
Definition own_life (q : request) : list event := life0 ++ [ev [Sample 0 (export q)] life0].
Definition own_before (q : request) : service := match service_run (service_new open_seq) (MRequest q :: repeat (MClient 0 false) 4) with Some s => s | None => service_new open_seq end.
Definition own_after (q : request) : service := match service_run (own_before q) flush_once with Some s => s | None => own_before q end.
Definition ask_span : scan := asking RESOURCE_TRACES [FBase PREFIX_NAME "Scan"; FAttr PREFIX_RESOURCE_ATTRIBUTES "service.name" "rq"; FBase PREFIX_TRACE_ID (hex_encode "0123456789abcdef")] 0 3600.
Definition ask_metric : scan := asking RESOURCE_METRICS [FBase PREFIX_NAME "saves"; FBase PREFIX_SCOPE_NAME "store"; FBase PREFIX_RESOURCE_SCHEMA "v1"] 0 3600.
Ltac own_run ms :=
  split; [exact list_laws | | | | | | | exact group_order | reflexivity | discriminate | repeat split; vm_compute; congruence | vm_compute; reflexivity
         | exists "std_1970010100"%string; split; [left; reflexivity|vm_compute; auto 10] | | | ];
  [ split; [vm_compute; reflexivity|apply life_snoc; [exact Logic.I|apply times_forall; repeat constructor]|constructor|intros x []|
      intros x Hx; vm_compute in Hx; repeat (destruct Hx as [<-|Hx]; [reflexivity|]); destruct Hx|];
    split; [intros keys K; destruct K as [K|[]]; discriminate K|vm_compute; reflexivity]
  | exists [], [SOpen false], open_seq, ms, flush_once; split; [reflexivity|]; split; [vm_compute; reflexivity|]; split; [vm_compute; reflexivity|]; split; vm_compute; reflexivity
  | vm_compute; auto | vm_compute; reflexivity | vm_compute; lia
  | intros ls K; vm_compute in K; destruct K as [K|[]]; discriminate K
  | intros s' v' Hs _ Hv; left; vm_compute in Hs; repeat (destruct Hs as [<-|Hs]; [vm_compute in Hv; repeat (destruct Hv as [<-|Hv]; [vm_compute; reflexivity|]); destruct Hv|]); destruct Hs
  | | ].
Lemma span_scan : do_scan list_impl xxh64 toy_kvb (after list_impl [] (own_life own_request)) (calm 0) ask_span group_columns = SData (Some (export own_request)).
Proof. vm_compute. reflexivity. Qed.
Lemma metric_scan : do_scan list_impl xxh64 toy_kvb (after list_impl [] (own_life own_metrics)) (calm 0) ask_metric group_columns = SData (Some (export own_metrics)).
Proof. vm_compute. reflexivity. Qed.
Lemma one_fit {A} (P : A -> Prop) (a : A) l : P a -> (forall f, In f l -> P f) -> forall f, In f (a :: l) -> P f.
Proof. intros H H' f [<-|K]; auto. Qed.
Example C95_span_hypotheses : exists id, asked_later list_impl list_inv [] [] (own_life own_request) [] (own_before own_request) (own_after own_request) own_request id
    xxh64 xxh64_zero toy_kvb 0 0 ask_span group_columns ["std_1970010100"%string] 0 3600000000000 /\
  (forall f, In f (sc_filters ask_span) -> span_fits own_span f) /\ sane_span own_span /\ In own_span (Groups.given [None; Some own_span]) /\
  (0 <= sd_start own_span < 3600000000000)%Z.
Proof.
  exists 0. split; [|split; [|split; [|split; [left; reflexivity|split; vm_compute; congruence]]]].
  - own_run (MRequest own_request :: repeat (MClient 0 false) 4).
    + cbn [app]. assert (G : map smp_data (given (own_life own_request)) = [export own_request]) by reflexivity. rewrite G. split; [|split; [|split]].
      * split; [|split]; cbv zeta; cbn; intros; contradiction.
      * intros X Y a b (g & s & H1 & _). destruct H1.
      * split; [|split]; cbv zeta; cbn; intros; contradiction.
      * match goal with |- separates _ _ _ ?l => let v := eval vm_compute in l in change l with v end. split; [|split]; cbv zeta.
        -- intros g g' H1 H2 E. pick; reflexivity.
        -- intros g s g' s' H1 H2 H3 H4 E. pick; split; reflexivity.
        -- intros g s a n g' s' a' n' H1 H2 H3 H4 H5 H6 Ea Ea' E. discriminate Ea.
    + intros d E. cbn [app] in E. rewrite span_scan in E. injection E as <-. apply (P_Visit.fair_of (sc_filters ask_span) (export own_request) 0 0); vm_compute; reflexivity.
  - change (sc_filters ask_span) with [FBase PREFIX_NAME (sd_name own_span); FAttr PREFIX_RESOURCE_ATTRIBUTES "service.name" "rq"; FBase PREFIX_TRACE_ID (hex_encode (sd_trace own_span))].
    repeat apply one_fit; [constructor; discriminate|constructor; [left; reflexivity|discriminate]|constructor; discriminate|intros f []].
  - split; [split; vm_compute; congruence..|repeat constructor|reflexivity|]. split; cbn; try constructor; try (split; vm_compute; congruence); try (vm_compute; congruence). split; split; vm_compute; congruence.
Qed.
Example C95_metric_hypotheses : export_metrics nothing nothing own_rm = (Some own_metrics, []) /\
  exists id, asked_later list_impl list_inv [] [] (own_life own_metrics) [] (own_before own_metrics) (own_after own_metrics) own_metrics id
    xxh64 xxh64_zero toy_kvb 0 0 ask_metric group_columns ["std_1970010100"%string] 0 3600000000000 /\
  exists s m, In s (rm_scopes own_rm) /\ In m (sc_metrics s) /\ int64_metric m /\ nth_error (sdk_points m) 0 = Some (Some (Z.of_N half1), []) /\
    (forall f, In f (sc_filters ask_metric) -> metric_fits own_rm (sc_scope_of s) m f) /\ (0 <= Z.of_N half1 < 3600000000000)%Z /\ sane_time (Z.of_N half1).
Proof.
  split; [reflexivity|]. exists 0. split.
  - own_run (MRequest own_metrics :: repeat (MClient 0 false) 4).
    + cbn [app]. assert (G : map smp_data (given (own_life own_metrics)) = [export own_metrics]) by reflexivity. rewrite G. split; [|split; [|split]].
      * match goal with |- separates _ _ _ ?l => let v := eval vm_compute in l in change l with v end. split; [|split]; cbv zeta.
        -- intros g g' H1 H2 E. pick; reflexivity.
        -- intros g s g' s' H1 H2 H3 H4 E. pick; split; reflexivity.
        -- intros g s a n g' s' a' n' H1 H2 H3 H4 H5 H6 Ea Ea' E. pick; unfold metric_name in Ea, Ea'; cbn in Ea, Ea'; apply some_inj in Ea; apply some_inj in Ea'; subst n n'; split; [reflexivity|split; reflexivity].
      * intros X Y a b (g & s & H1 & H2 & H3 & _) (g' & s' & H4 & H5 & H6 & _) _. cbn in H1, H4. pick; reflexivity.
      * split; [|split]; cbv zeta; cbn; intros; contradiction.
      * split; [|split]; cbv zeta; cbn; intros; contradiction.
    + intros d E. cbn [app] in E. rewrite metric_scan in E. injection E as <-. apply (P_Visit.fair_of (sc_filters ask_metric) (export own_metrics) 0 0); vm_compute; reflexivity.
  - eexists _, _. split; [left; reflexivity|]. split; [left; reflexivity|]. split; [exact Logic.I|]. split; [reflexivity|]. split; [|split; split; vm_compute; congruence].
    match goal with |- forall f, In f _ -> metric_fits own_rm ?s ?m f => change (sc_filters ask_metric) with [FBase PREFIX_NAME (sm_name m); FBase PREFIX_SCOPE_NAME (ss_name s); FBase PREFIX_RESOURCE_SCHEMA (sr_schema (rm_resource own_rm))] end.
    repeat apply one_fit; [constructor; discriminate..|intros f []].
Qed.
