(** C92: errors of the server's own telemetry name everything that failed (internal/self). *)
From Verif.Model Require Import Base Otlp SelfTrace SelfMetrics Quote Errors.
From Verif.Spec Require Import Groups Collections Quoting.
From Verif.Proofs Require Import BaseFacts SelfTraceFacts SelfMetricsFacts QuoteFacts QuotingFacts.
Open Scope N_scope.
Local Infix "^^" := append (right associativity, at level 60).

(* ------------------------------------------------------------------ the specification *)
(** Which errors are inside an error, however deep and in whatever wrapping. *)
Inductive within_error (l : leaf) : err -> Prop :=
| WLeaf t : within_error l (ELeaf l t)
| WWrap e d : within_error l e -> within_error l (EWrap e d)
| WMetric n d u e : within_error l e -> within_error l (EMetric n d u e)
| WMulti dt es e : In e es -> within_error l e -> within_error l (EMulti dt es)
| WJoin es e : In e es -> within_error l e -> within_error l (EJoin es).
(** Why a metric cannot be expressed: the words, and what they are about. *)
Definition complaint (type_name : sdk_metric -> string) (m : sdk_metric) : string :=
  match sm_data m with
  | ASum t _ _ | AHistogram t _ | AExponential t _ => "unknown temporality: " ^^ temporality_name t
  | _ => "unknown aggregation: " ^^ type_name m
  end.
(** The line about a metric. *)
Definition line_about (is_print : N -> bool) (type_name : sdk_metric -> string) (m : sdk_metric) (line : string) : Prop :=
  exists n d u, quoted is_print (sm_name m) n /\ quoted is_print (sm_desc m) d /\ quoted is_print (sm_unit m) u /\
    line = "* invalid metric (name: """ ^^ n ^^ """, description: """ ^^ d ^^ """, unit: """ ^^ u ^^ """): " ^^ complaint type_name m.
Definition culprits (rm : sdk_collection) : list sdk_metric := filter (fun m => negb (expressible m)) (flat_map sc_metrics (rm_scopes rm)).

(* ------------------------------------------------------------------ errors.Is *)
Lemma leaf_eqb_spec a b : leaf_eqb a b = true <-> a = b.
Proof.
  destruct a as [[]|i], b as [[]|j]; cbn; try (split; [discriminate|intros H; congruence]); try (split; reflexivity).
  rewrite N.eqb_eq. split; [intros ->; reflexivity|intros H; congruence].
Qed.
Fixpoint err_size (e : err) : nat :=
  match e with
  | ELeaf _ _ => 1 | EWrap e _ => S (err_size e) | EMetric _ _ _ e => S (err_size e)
  | EMulti _ es | EJoin es => S (list_sum (map err_size es))
  end.
Lemma err_size_in e es : In e es -> (err_size e <= list_sum (map err_size es))%nat.
Proof. induction es as [|x es IH]; intros I; [destruct I|]. cbn [map list_sum fold_right]. fold (list_sum (map err_size es)). destruct I as [->|I]; [lia|specialize (IH I); lia]. Qed.
(** [errors.Is] finds exactly the errors inside. *)
Theorem C92_is_finds_exactly_what_is_inside e l : errors_is e l = true <-> within_error l e.
Proof.
  assert (G : forall n e, (err_size e <= n)%nat -> (errors_is e l = true <-> within_error l e)); [|apply (G (err_size e)); lia]. clear e.
  induction n as [|n IH]; intros e L; [destruct e; cbn in L; lia|].
  assert (Hd : forall es, (list_sum (map err_size es) <= n)%nat -> forall e, In e es -> (errors_is e l = true <-> within_error l e)).
  { intros es Hs e' I. apply IH. pose proof (err_size_in _ _ I). lia. }
  destruct e as [k t|e d|nm ds u e|dt es|es]; cbn [err_size] in L.
  - cbn [errors_is]. rewrite leaf_eqb_spec. split; [intros ->; constructor|intros H; inversion H; reflexivity].
  - cbn [errors_is]. rewrite IH by lia. split; [intros H; constructor; exact H|intros H; inversion H; assumption].
  - cbn [errors_is]. rewrite orb_diag, IH by lia. split; [intros H; constructor; exact H|intros H; inversion H; assumption].
  - assert (Hl : (list_sum (map err_size es) <= n)%nat) by lia. specialize (Hd es Hl). clear L Hl IH. cbn [errors_is].
    match goal with |- ?f es = true <-> _ => assert (F : forall xs, f xs = existsb (fun e => errors_is e l) xs) end.
    { induction xs as [|x [|y xs] IH]; [reflexivity|cbn; rewrite orb_diag, orb_false_r; reflexivity|]. cbn [existsb] in *. rewrite IH. reflexivity. }
    rewrite F. clear F. rewrite existsb_exists. split.
    + intros (x & I & H). econstructor; [exact I|]. apply Hd; assumption.
    + intros H; inversion H; subst. exists e. split; [assumption|]. apply Hd; assumption.
  - assert (Hl : (list_sum (map err_size es) <= n)%nat) by lia. specialize (Hd es Hl). clear L Hl IH. cbn [errors_is].
    match goal with |- ?f es = true <-> _ => assert (F : forall xs, f xs = existsb (fun e => errors_is e l) xs) end.
    { induction xs as [|x xs IH]; [reflexivity|]. cbn [existsb]. rewrite <- IH. reflexivity. }
    rewrite F. clear F. rewrite existsb_exists. split.
    + intros (x & I & H). econstructor; [exact I|]. apply Hd; assumption.
    + intros H; inversion H; subst. exists e. split; [assumption|]. apply Hd; assumption.
Qed.
(** Collecting an error loses nothing of it and nothing collected before. *)
Theorem C92_collecting_keeps_everything dt es e l : within_error l (EMulti dt (multi_append es e)) <-> within_error l (EMulti dt es) \/ within_error l e.
Proof.
  assert (M : forall dt xs, within_error l (EMulti dt xs) <-> exists x, In x xs /\ within_error l x).
  { intros. split; [intros H; inversion H; subst; eauto|intros (x & I & H); econstructor; eauto]. }
  rewrite !M. unfold multi_append. destruct e as [k t|e d|nm ds u e|dt' other|js].
  4: { rewrite M. split; [intros (x & I & H); apply in_app_or in I as [I|I]; eauto|intros [(x & I & H)|(x & I & H)]; exists x; split; auto; apply in_or_app; auto]. }
  all: split; [intros (x & I & H); apply in_app_or in I as [I|[<-|[]]]; eauto|intros [(x & I & H)|H]; eexists; (split; [apply in_or_app|exact H]); cbn; auto].
Qed.

(* ------------------------------------------------------------------ the error of a collection *)
Section Report.
Context (type_name : sdk_metric -> string) (is_print : N -> bool).
Definition the_error (m : sdk_metric) : err :=
  EMetric (sm_name m) (sm_desc m) (sm_unit m)
    match sm_data m with
    | ASum t _ _ | AHistogram t _ | AExponential t _ => EWrap (ELeaf (LReason UnknownTemporality) "unknown temporality") (temporality_name t)
    | _ => EWrap (ELeaf (LReason UnknownAggregation) "unknown aggregation") (type_name m)
    end.
Lemma data_error_spec m : data_error type_name m =
  if expressible m then None else match the_error m with EMetric _ _ _ e => Some e | _ => None end.
Proof.
  unfold data_error, expressible, the_error, known_temporality, temporality_of.
  destruct (sm_data m) as [l|t b l|t l|t l|l|]; try reflexivity; destruct (N.eqb_spec t 2), (N.eqb_spec t 1); subst; try reflexivity; try discriminate.
Qed.
Lemma metrics_errors_spec ms : forall errs, metrics_errors type_name ms errs = errs ++ map the_error (filter (fun m => negb (expressible m)) ms).
Proof.
  induction ms as [|m ms IH]; intros errs; cbn [metrics_errors filter]; [cbn; rewrite app_nil_r; reflexivity|].
  rewrite data_error_spec. destruct (expressible m); cbn [negb]; [apply IH|]. unfold the_error at 1. cbn [multi_append]. rewrite IH. cbn [map]. rewrite <- app_assoc. reflexivity.
Qed.
Lemma scopes_errors_spec l : forall errs, scopes_errors type_name l errs = errs ++ map the_error (filter (fun m => negb (expressible m)) (flat_map sc_metrics l)).
Proof.
  induction l as [|s l IH]; intros errs; cbn [scopes_errors flat_map]; [cbn; rewrite app_nil_r; reflexivity|].
  rewrite filter_app, map_app, metrics_errors_spec. cbn [app].
  destruct (map the_error (filter (fun m => negb (expressible m)) (sc_metrics s))) as [|e es]; cbn [err_or_nil]; [apply IH|].
  cbn [multi_append]. rewrite IH, <- app_assoc. reflexivity.
Qed.
(** There is an error exactly when some metric cannot be expressed, which is when nothing is exported. *)
Theorem C92_error_iff_culprit rm : (conversion_error type_name rm = None <-> culprits rm = []) /\
  forall enc enc_point, conversion_error type_name rm = None <-> fst (export_metrics enc enc_point rm) <> None.
Proof.
  unfold conversion_error. rewrite scopes_errors_spec. cbn [app]. split.
  - unfold culprits. destruct (filter _ _); cbn; split; congruence.
  - intros enc enc_point. unfold export_metrics. destruct (resource_metrics_of enc enc_point rm) as [g errs] eqn:E.
    unfold resource_metrics_of in E. rewrite scope_metrics_spec in E. cbn [app] in E. apply pair_inj in E as [<- <-].
    assert (X : flat_map (fun s => map expected_error (filter (fun m => negb (expressible m)) (sc_metrics s))) (rm_scopes rm) = map expected_error (filter (fun m => negb (expressible m)) (flat_map sc_metrics (rm_scopes rm)))).
    { induction (rm_scopes rm) as [|s l IH]; [reflexivity|]. cbn [flat_map]. rewrite filter_app, map_app, IH. reflexivity. }
    rewrite X. destruct (filter _ _); cbn; split; congruence.
Qed.
(** It has one line for every such metric, in order, with its name, description and unit quoted and what is wrong with it. *)
Theorem C92_error_names_every_culprit rm e : conversion_error type_name rm = Some e -> exists lines,
  Forall2 (line_about is_print type_name) (culprits rm) lines /\
  error_text is_print e = show_N (N.of_nat (List.length (culprits rm))) ^^ " errors occurred transforming ScopeMetrics:" ^^ String.concat "" (map (fun l => lf_tab ^^ l) lines).
Proof.
  unfold conversion_error. rewrite scopes_errors_spec. cbn [app]. fold (culprits rm). intros H.
  assert (E : e = EMulti "ScopeMetrics" (map the_error (culprits rm)) /\ culprits rm <> []).
  { destruct (culprits rm) as [|c cs]; cbn in H; [discriminate|]. apply some_inj in H. subst. split; [reflexivity|discriminate]. }
  destruct E as [-> NE]. clear H. exists (map (fun m => "* " ^^ error_text is_print (the_error m)) (culprits rm)). split.
  - generalize (culprits rm). intros l. induction l as [|m l IH]; cbn [map]; constructor; [|exact IH].
    destruct (proj1 (quote_quoted is_print (sm_name m) _) eq_refl) as (n & Qn & En).
    destruct (proj1 (quote_quoted is_print (sm_desc m) _) eq_refl) as (d & Qd & Ed).
    destruct (proj1 (quote_quoted is_print (sm_unit m) _) eq_refl) as (u & Qu & Eu).
    exists n, d, u. repeat (split; [assumption|]). unfold the_error. cbn [error_text]. rewrite En, Ed, Eu. clear.
    assert (C : forall a b : string, ("" ^^ a = a) /\ ("* " ^^ a = String "*" (String " " a))) by (intros; split; reflexivity).
    assert (T : error_text is_print match sm_data m with
      | ASum t _ _ | AHistogram t _ | AExponential t _ => EWrap (ELeaf (LReason UnknownTemporality) "unknown temporality") (temporality_name t)
      | _ => EWrap (ELeaf (LReason UnknownAggregation) "unknown aggregation") (type_name m)
      end = complaint type_name m) by (unfold complaint; destruct (sm_data m); reflexivity).
    rewrite T. clear. rewrite !append_assoc. reflexivity.
  - cbn [error_text]. match goal with |- context [?f (map the_error (culprits rm))] => assert (F : forall es, f es = map (fun e => "* " ^^ error_text is_print e) es) end.
    { induction es as [|x es IH]; [reflexivity|]. cbn [map]. rewrite <- IH. reflexivity. }
    rewrite F, map_map, map_length. f_equal.
    match goal with |- ?a ^^ ?b ^^ ?c ^^ ?X = ?d => change (a ^^ b ^^ c ^^ X) with (" errors occurred transforming ScopeMetrics:" ^^ X) end. f_equal.
    destruct (culprits rm) as [|c cs]; [congruence|]. clear NE F. generalize (fun m => "* " ^^ error_text is_print (the_error m)). intros g.
    clear. revert c. induction cs as [|c' cs IH]; intros c.
    + reflexivity.
    + change (join_with lf_tab (map g (c :: c' :: cs))) with (g c ^^ lf_tab ^^ join_with lf_tab (map g (c' :: cs))).
      specialize (IH c').
      assert (K : forall x l, String.concat "" (x :: l) = x ^^ String.concat "" l). { intros x [|y l]; cbn; [rewrite append_nil_r; reflexivity|reflexivity]. }
      cbn [map] in *. rewrite K. rewrite append_assoc. f_equal. f_equal. exact IH.
Qed.
(** Asking for a reason finds it exactly if a metric failed for it. *)
Theorem C92_reasons_found rm e r : conversion_error type_name rm = Some e ->
  (errors_is e (LReason r) = true <-> exists m, In m (culprits rm) /\ me_reason (expected_error m) = r).
Proof.
  unfold conversion_error. rewrite scopes_errors_spec. cbn [app]. fold (culprits rm). intros H.
  assert (E : e = EMulti "ScopeMetrics" (map the_error (culprits rm))).
  { destruct (culprits rm) as [|c cs]; cbn in H; [discriminate|]. apply some_inj in H. subst. reflexivity. }
  subst e. rewrite C92_is_finds_exactly_what_is_inside.
  assert (W : forall m, In m (culprits rm) -> within_error (LReason r) (the_error m) <-> me_reason (expected_error m) = r).
  { intros m Im. apply filter_In in Im as [_ Im]. apply negb_true_iff in Im. unfold expressible in Im. unfold the_error, expected_error. cbn [me_reason]. split.
    - intros K. inversion K as [| |? ? ? ? K1| |]; subst. destruct (sm_data m); try discriminate Im; inversion K1 as [|? ? K2| | |]; subst; inversion K2; reflexivity.
    - intros K. constructor. destruct (sm_data m); try discriminate Im; subst r; repeat constructor. }
  split.
  - intros K. inversion K as [| | |? ? x I Wx|]; subst. apply in_map_iff in I as (m & <- & I). exists m. split; [exact I|]. apply W; assumption.
  - intros (m & I & Hm). apply WMulti with (e := the_error m); [apply in_map, I|]. apply W; assumption.
Qed.
End Report.

(* ------------------------------------------------------------------ stopping *)
(** Every part is asked to stop, once and in order, whatever the others answer; there is no error exactly if no part
    had one, and what a part reported is in the error. *)
Theorem C92_shutdown_stops_everything stop n : let '(asked, result) := shutdown_all stop n in
  asked = seq 0 n /\ (result = None <-> forall i, (i < n)%nat -> stop i = None) /\
  forall l, (exists e, result = Some e /\ errors_is e l = true) <-> exists i e, (i < n)%nat /\ stop i = Some e /\ within_error l e.
Proof.
  unfold shutdown_all. split; [reflexivity|]. unfold errors_join.
  set (es := flat_map (fun o : option err => match o with Some e => [e] | None => [] end) (map stop (seq 0 n))).
  assert (I : forall e, In e es <-> exists i, (i < n)%nat /\ stop i = Some e).
  { intros e. unfold es. rewrite in_flat_map. split.
    - intros (o & Io & H). apply in_map_iff in Io as (i & <- & Ii). apply in_seq in Ii. destruct (stop i) as [x|] eqn:E; [|destruct H]. destruct H as [<-|[]]. exists i. split; [lia|exact E].
    - intros (i & L & E). exists (Some e). split; [apply in_map_iff; exists i; split; [exact E|apply in_seq; lia]|left; reflexivity]. }
  clearbody es. split.
  - destruct es as [|x es]; split; try discriminate; try reflexivity.
    + intros _ i L. destruct (stop i) as [e|] eqn:E; [|reflexivity]. destruct (proj2 (I e)); eauto.
    + intros H. destruct (proj1 (I x) (or_introl eq_refl)) as (i & L & E). rewrite H in E by exact L. discriminate.
  - intros l. assert (R : forall e, (match es with [] => None | x :: l => Some (EJoin (x :: l)) end = Some e) <-> es <> [] /\ e = EJoin es).
    { intros e. destruct es; split; try discriminate; [intros [K _]; congruence|intros K; apply some_inj in K; split; [discriminate|auto]|intros [_ ->]; reflexivity]. }
    split.
    + intros (e & E & H). apply R in E as [_ ->]. apply C92_is_finds_exactly_what_is_inside in H. inversion H as [| | | |? x Ix Wx]; subst. apply I in Ix as (i & L & E). eauto.
    + intros (i & e & L & E & W). exists (EJoin es). assert (Ie : In e es) by (apply I; eauto). split; [apply R; split; [intros ->; destruct Ie|reflexivity]|].
      apply C92_is_finds_exactly_what_is_inside. econstructor; eauto.
Qed.

Definition ex_rm := SdkCollection (SdkResource [] "") [SdkScopeMetrics (SdkScope "s" "" "") [SdkMetric "up" "" "" (AGauge []); SdkMetric "a""b" "d" "s" (ASum 7 true [])];
  SdkScopeMetrics (SdkScope "t" "" "") [SdkMetric "x" "" "" AUnknown]].
Example C92_example : option_map (error_text (fun _ => false)) (conversion_error (fun _ => "<nil>") ex_rm) =
  Some ("2 errors occurred transforming ScopeMetrics:" ^^ lf_tab ^^ "* invalid metric (name: ""a\""b"", description: ""d"", unit: ""s""): unknown temporality: Temporality(7)"
        ^^ lf_tab ^^ "* invalid metric (name: ""x"", description: """", unit: """"): unknown aggregation: <nil>").
Proof. vm_compute. reflexivity. Qed.
