(** C62: the server's own metrics, converted for its own ingest endpoint (internal/self/metrics). *)
From Verif.Model Require Import Base Otlp SelfTrace SelfMetrics Service.
From Verif.Spec Require Import Groups Doubles Collections.
From Verif.Props Require Import P_Self.
From Verif.Proofs Require Import BaseFacts SelfTraceFacts SelfMetricsFacts DoubleFacts.
Open Scope N_scope.

Lemma describes_converted enc enc_point m : expressible m = true -> describes enc m (converted enc enc_point m).
Proof.
  intros X. unfold describes, converted. cbn [m_name m_desc m_unit m_data]. repeat (split; [reflexivity|]).
  assert (D := data_expressible enc enc_point m). rewrite X in D. destruct D as (d & D). rewrite D. exists d. split; [reflexivity|].
  unfold expressible, data_of, sdk_kind, sdk_points, temporality_of, known_temporality in *.
  destruct (sm_data m) as [l|t mo l|t l|t l|l|]; try (destruct (t =? 2), (t =? 1); cbn [orb] in X; try discriminate X); try discriminate X; cbn iota in D; injection D as <-;
    (split; [reflexivity|]; split; [reflexivity|]; split; [reflexivity|]; cbn [md_points]; rewrite !map_map; apply map_ext; intros p; cbn [p_time p_attrs fst snd]; f_equal).
Qed.

(** Every metric of a collection is either described, in place and in order, in the converted collection,
    or reported as an error naming it; never both, never neither. *)
Theorem C62_converted_or_reported : forall enc enc_point rm g errs, resource_metrics_of enc enc_point rm = (g, errs) ->
  rg_schema g = sr_schema (rm_resource rm) /\ resource_attributes (rg_resource g) = map (fun a => KV (at_key a) (Some (any_of enc (at_value a)))) (sr_attrs (rm_resource rm)) /\
  Forall2 (fun s o => scope_identity o = (ss_name (sc_scope_of s), ss_version (sc_scope_of s), ss_schema (sc_scope_of s)) /\
                      Forall2 (describes enc) (filter expressible (sc_metrics s)) (sg_items o)) (rm_scopes rm) (rg_scopes g) /\
  errs = map expected_error (filter (fun m => negb (expressible m)) (flat_map sc_metrics (rm_scopes rm))).
Proof.
  intros enc enc_point rm g errs H. unfold resource_metrics_of in H. rewrite scope_metrics_spec in H. cbn [app] in H. apply pair_inj in H. destruct H as [<- <-]. cbn [rg_schema rg_resource rg_scopes resource_attributes r_attrs].
  split; [reflexivity|]. split; [reflexivity|]. split.
  - induction (rm_scopes rm) as [|s l IH]; [constructor|]. cbn [map]. constructor; [|exact IH]. split; [reflexivity|]. cbn [scope_converted sg_items].
    assert (G : forall ms, Forall2 (describes enc) (filter expressible ms) (map (converted enc enc_point) (filter expressible ms))); [|apply G].
    induction ms as [|m ms IHm]; [constructor|]. cbn [filter]. destruct (expressible m) eqn:E; [|exact IHm]. cbn [map]. constructor; [apply describes_converted, E|exact IHm].
  - induction (rm_scopes rm) as [|s l IH]; [reflexivity|]. cbn [flat_map]. rewrite filter_app, map_app, IH. reflexivity.
Qed.
Print Assumptions C62_converted_or_reported.

(** What is converted keeps everything the SDK recorded, up to float64 for the sum, minimum and maximum of
    histograms and the zero threshold: equal conversions come from equal metrics. *)
Theorem C62_nothing_lost : forall enc enc_point, (forall a b, enc a = enc b -> a = b) -> (forall a b, enc_point a = enc_point b -> a = b) ->
  forall a b o, expressible a = true -> expressible b = true -> sane_metric a -> sane_metric b ->
  metrics_of enc enc_point [a] [] [] = ([o], []) -> metrics_of enc enc_point [b] [] [] = ([o], []) -> kept_metric a = kept_metric b.
Proof.
  intros enc enc_point E E' a b o Xa Xb Sa Sb Ha Hb. rewrite metrics_of_spec in Ha, Hb. cbn [filter app map] in Ha, Hb. rewrite Xa in Ha. rewrite Xb in Hb. cbn [map negb] in Ha, Hb.
  apply pair_inj in Ha. apply pair_inj in Hb. destruct Ha as [Ha _], Hb as [Hb _].
  apply (converted_inj enc enc_point E E'); try assumption. congruence.
Qed.
Print Assumptions C62_nothing_lost.
(** Nothing is said about resource and scopes that the SDK did not say. *)
Theorem C62_nothing_added : forall enc enc_point rm, bare_group (fst (resource_metrics_of enc enc_point rm)).
Proof.
  intros enc enc_point rm. unfold resource_metrics_of. rewrite scope_metrics_spec. cbn [app fst]. split; [reflexivity|]. cbn [rg_scopes]. intros sg H. apply in_map_iff in H as (s & <- & _). split; reflexivity.
Qed.
Print Assumptions C62_nothing_added.
(** The float64 of an integer sum below 2^53 still determines it; beyond, it does not. *)
Theorem C62_small_sums_exact : forall a b, (Z.abs a < 2 ^ 53)%Z -> (Z.abs b < 2 ^ 53)%Z -> f64_of (NumInt a) = f64_of (NumInt b) -> a = b.
Proof. exact f64_inj. Qed.
Print Assumptions C62_small_sums_exact.
(** Every integer sum, minimum or maximum becomes the nearest double, the even one of two equally near. *)
Theorem C62_sums_nearest : forall z, (- 2 ^ 63 <= z < 2 ^ 63)%Z -> nearest (f64_of (NumInt z)) (z * 2 ^ 1074).
Proof. intros z H. apply f64_nearest. lia. Qed.
Print Assumptions C62_sums_nearest.
(** The data points of a converted metric are those of the metric, field by field. *)
Lemma moment_ok t : moment_says t (time_unix_nano t).
Proof. destruct t; [apply wrapped; discriminate|reflexivity]. Qed.
Lemma number_ok n : int64_number n -> number_says n (f64_of n).
Proof. destruct n; [apply C62_sums_nearest|reflexivity]. Qed.
Lemma maybe_ok n : int64_maybe n -> maybe_says n (option_map f64_of n).
Proof. destruct n; [apply number_ok|trivial]. Qed.
Lemma exemplars_ok enc l : Forall2 (exemplar_says enc) l (map (exemplar_of enc) l).
Proof. induction l; constructor; [|assumption]. split; [apply attrs_same|]. split; [apply moment_ok|]. repeat split. Qed.
Theorem C62_points_same : forall enc enc_point m o, expressible m = true -> int64_metric m -> metrics_of enc enc_point [m] [] [] = ([o], []) ->
  exists d rests, m_data o = Some d /\ map p_rest (md_points d) = map enc_point rests /\ points_say enc m rests.
Proof.
  intros enc enc_point m o X B H. rewrite metrics_of_spec in H. cbn [filter app map] in H. rewrite X in H. cbn [map negb] in H. apply pair_inj in H. destruct H as [H _].
  assert (Ho : o = converted enc enc_point m) by congruence. subst o. clear H. unfold converted. cbn [m_data].
  assert (D := data_expressible enc enc_point m). rewrite X in D. destruct D as (d & D). rewrite D. exists d.
  unfold expressible, data_of, points_say, int64_metric, temporality_of, known_temporality in *.
  destruct (sm_data m) as [l|t mo l|t l|t l|l|]; try (destruct (t =? 2), (t =? 1); cbn [orb] in X; try discriminate X); try discriminate X; cbn iota in D; injection D as <-; cbn [md_points].
  all: try (exists (map (fun p => ONumber (time_unix_nano (dp_start p)) (dp_value p) (map (exemplar_of enc) (dp_exemplars p))) l); split; [reflexivity|]; split; [rewrite !map_map; reflexivity|];
    clear; induction l; constructor; [|assumption]; eexists _, _; split; [reflexivity|]; split; [apply moment_ok|apply exemplars_ok]).
  all: try (exists (map (fun p => OSummary (time_unix_nano (mp_start p)) (mp_count p) (mp_sum p) (mp_quantiles p)) l); split; [reflexivity|]; split; [rewrite !map_map; reflexivity|];
    clear; induction l; constructor; [|assumption]; eexists; split; [reflexivity|apply moment_ok]).
  all: try (exists (map (fun p => OHistogram (time_unix_nano (hp_start p)) (hp_count p) (f64_of (hp_sum p)) (hp_buckets p) (hp_bounds p) (option_map f64_of (hp_min p)) (option_map f64_of (hp_max p)) (map (exemplar_of enc) (hp_exemplars p))) l); split; [reflexivity|]; split; [rewrite !map_map; reflexivity|]).
  all: try (exists (map (fun p => OExponential (time_unix_nano (ep_start p)) (ep_count p) (f64_of (ep_sum p)) (ep_scale p) (ep_zero p) (ep_positive p) (ep_negative p) (option_map f64_of (ep_min p)) (option_map f64_of (ep_max p)) (map (exemplar_of enc) (ep_exemplars p))) l); split; [reflexivity|]; split; [rewrite !map_map; reflexivity|]).
  all: clear - B; induction B as [|p l (B1 & B2 & B3) _ IH]; constructor; [|exact IH]; eexists _, _, _, _, _; split; [reflexivity|]; split; [apply moment_ok|]; split; [apply number_ok, B1|]; split; [apply maybe_ok, B2|]; split; [apply maybe_ok, B3|apply exemplars_ok].
Qed.
Print Assumptions C62_points_same.
Theorem C62_large_sums_refuted : exists a b : Z, (- 2 ^ 63 <= a < 2 ^ 63)%Z /\ (- 2 ^ 63 <= b < 2 ^ 63)%Z /\ a <> b /\ f64_of (NumInt a) = f64_of (NumInt b).
Proof. exists (2 ^ 53)%Z, (2 ^ 53 + 1)%Z. split; [split; vm_compute; congruence|]. split; [split; vm_compute; congruence|]. split; [vm_compute; congruence|]. vm_compute. reflexivity. Qed.
Print Assumptions C62_large_sums_refuted.

(** When every metric can be expressed, the whole collection is handed to the collector. *)
Theorem C62_export_complete_partial : forall enc enc_point rm, (forall m, In m (flat_map sc_metrics (rm_scopes rm)) -> expressible m = true) ->
  exists g, export_metrics enc enc_point rm = (Some (RqMetrics [g]), []) /\
    Forall2 (fun s o => Forall2 (describes enc) (sc_metrics s) (sg_items o)) (rm_scopes rm) (rg_scopes g).
Proof.
  intros enc enc_point rm H. unfold export_metrics. destruct (resource_metrics_of enc enc_point rm) as [g errs] eqn:E. destruct (C62_converted_or_reported _ _ _ _ _ E) as (_ & _ & F & Er).
  assert (Q : forall l, (forall m, In m l -> expressible m = true) -> filter (fun m => negb (expressible m)) l = [] /\ filter expressible l = l).
  { induction l as [|m l IH]; intros Hl; [split; reflexivity|]. cbn [filter]. rewrite (Hl m) by (left; reflexivity). cbn [negb]. destruct IH as [-> ->]; [intros x Hx; apply Hl; right; exact Hx|]. split; reflexivity. }
  rewrite (proj1 (Q _ H)) in Er. cbn [map] in Er. subst errs. exists g. split; [reflexivity|]. clear E. revert H F. generalize (rg_scopes g). induction (rm_scopes rm) as [|s l IH]; intros os H F; inversion F; subst; constructor.
  - match goal with X : _ /\ _ |- _ => destruct X as [_ X]; rewrite (proj2 (Q (sc_metrics s) ltac:(intros m Hm; apply H; cbn [flat_map]; apply in_app_iff; left; exact Hm))) in X; exact X end.
  - apply IH; [|assumption]. intros m Hm. apply H. cbn [flat_map]. apply in_app_iff. right. exact Hm.
Qed.
Print Assumptions C62_export_complete_partial.
(** A single metric that cannot be expressed makes the exporter drop the whole collection, although all
    the others were converted. *)
Theorem C62_export_drops_all_refuted : forall enc enc_point rm m, In m (flat_map sc_metrics (rm_scopes rm)) -> expressible m = false ->
  exists errs, export_metrics enc enc_point rm = (None, errs) /\ errs <> [].
Proof.
  intros enc enc_point rm m H X. unfold export_metrics. destruct (resource_metrics_of enc enc_point rm) as [g errs] eqn:E. destruct (C62_converted_or_reported _ _ _ _ _ E) as (_ & _ & _ & Er).
  assert (I : In (expected_error m) errs) by (rewrite Er; apply in_map, filter_In; rewrite X; auto). destruct errs as [|e l]; [destruct I|]. exists (e :: l). split; [reflexivity|discriminate].
Qed.
Print Assumptions C62_export_drops_all_refuted.
(** The zero threshold of an exponential histogram is lost. *)
Definition exp_with (threshold : N) : sdk_metric :=
  SdkMetric "latency" "" "s" (AExponential 1 [ExpPoint [] (Some 1%Z) (Some 2%Z) 3 None None (NumFloat 0) 2 1 (0%Z, [1]) (0%Z, []) threshold []]).
Theorem C62_zero_threshold_refuted : forall enc enc_point, exists a b, a <> b /\ expressible a = true /\ sane_metric a /\ sane_metric b /\ metrics_of enc enc_point [a] [] [] = metrics_of enc enc_point [b] [] [].
Proof.
  intros enc enc_point. exists (exp_with 0), (exp_with 1). split; [discriminate|]. split; [reflexivity|].
  assert (S : forall t, sane_metric (exp_with t)). { intros t. constructor; [|constructor]. split; [constructor|]. split; [split; [split; vm_compute; congruence|discriminate]|]. split; [split; [split; vm_compute; congruence|discriminate]|constructor]. }
  split; [apply S|]. split; [apply S|reflexivity].
Qed.
Print Assumptions C62_zero_threshold_refuted.

Definition some_metrics : list sdk_metric :=
  [SdkMetric "up" "is it up" "1" (AGauge [DataPoint [Attr "host" (AString "a")] None (Some 7%Z) (NumInt 1) []]);
   SdkMetric "bad" "" "" (ASum 0 true []); SdkMetric "req" "" "" (ASum 2 true [DataPoint [] (Some 1%Z) (Some 9%Z) (NumInt 3) []])].
Example C62_example : forall enc enc_point, let '(ms, errs) := metrics_of enc enc_point some_metrics [] [] in
  map m_name ms = ["up"; "req"]%string /\ errs = [MetricError "bad" "" "" UnknownTemporality].
Proof. intros. split; reflexivity. Qed.
Example C62_f64 : map f64_of_int [0; 1; -1; 3; 2 ^ 53 + 2; 2 ^ 53 + 3; - 2 ^ 63; 2 ^ 63 - 1]%Z =
  [0; 4607182418800017408; 13830554455654793216; 4613937818241073152; 4845873199050653697; 4845873199050653698; 14114281232179134464; 4890909195324358656].
Proof. vm_compute. reflexivity. Qed.
(** A histogram with an integer sum that is no double: rounded to the nearest. *)
Definition a_histogram : sdk_metric := SdkMetric "h" "" "" (AHistogram 1 [HistPoint [] (Some 1%Z) (Some 2%Z) 3 [] [3] (Some (NumInt (-4))) None (NumInt (2 ^ 53 + 1)) []]).
Example C62_points_hypotheses : expressible a_histogram = true /\ int64_metric a_histogram /\ scaled (f64_of (NumInt (2 ^ 53 + 1))) = (2 ^ 53 * 2 ^ 1074)%Z.
Proof. split; [reflexivity|]. split; [|vm_compute; reflexivity]. constructor; [|constructor]. cbn. repeat split; vm_compute; congruence. Qed.
