(** C46-C51, C68: trimming a result to the conditions of the scan. *)
From Verif.Model Require Import Base Labels View Otlp Transform Store Visit XxHash.
From Verif.Spec Require Import Trim.
From Verif.Proofs Require Import BaseFacts VisitFacts VisitCrash.
Open Scope N_scope.

(** The scan asks for something: a time range or at least one condition. *)
Definition asks (sc : scan) : Prop := sc_range (sc_times sc) <> None \/ sc_filters sc <> [].
(** [st, en) is the scan's window, after 1970 and before 2262. *)
Definition window (wall : Z) (sc : scan) (st en : Z) : Prop :=
  time_bounds wall (sc_times sc) = (st, en) /\ (0 <= st < Z.of_N two63)%Z /\ (0 <= en < Z.of_N two63)%Z.
(** What is assumed of hash and payload: see Proofs/VisitFacts.v ([tells_apart], [plain_conditions],
    [plain_attrs], [agree_short]).  [xxhash_agree_short] shows the last one of the real hash. *)
Definition fair (h h0 : string -> N) (sc : scan) (d : data) : Prop :=
  agree_short h h0 /\ tells_apart h (sc_filters sc) (words d) /\ plain_conditions (sc_filters sc) /\ plain_attrs (sc_filters sc) (head_attrs d).

Lemma u64_of_int64_id z : (0 <= z < Z.of_N two63)%Z -> Z.of_N (u64_of_int64 z) = z.
Proof. intros H. unfold u64_of_int64. rewrite Z2N.id by (apply Z.mod_pos_bound; reflexivity). apply Z.mod_small. unfold two63, two64 in *. lia. Qed.
Lemma js_scan_visit h h0 wall sc d st en : asks sc -> window wall sc st en ->
  js_scan h h0 wall sc (Some d) = option_map Some (visit h (the_visitor h h0 (sc_filters sc) (u64_of_int64 st) (u64_of_int64 en)) d).
Proof.
  intros Ha (Hw & _ & _). unfold asks in Ha. unfold js_scan. rewrite Hw. destruct (sc_range (sc_times sc)); [reflexivity|]. destruct (sc_filters sc); [|reflexivity].
  destruct Ha as [Ha|Ha]; congruence.
Qed.

(** C46, as the code has it: exactly the records passing [executed] remain, in order, under their own
    resource and scope, no group is left empty, the signal stays. *)
Theorem C46_what_remains : forall h h0 wall sc d st en, asks sc -> window wall sc st en -> fair h h0 sc d ->
  exists out, js_scan h h0 wall sc (Some d) = Some (Some out) /\ same_signal d out /\
    entries out = map forget (filter (executed (sc_filters sc) st en) (entries d)) /\ no_empty out.
Proof.
  intros h h0 wall sc d st en Ha Hw (Hag & Ht & Hpc & Hp). pose proof Hw as (_ & Hst & Hen).
  destruct (visit_executed h h0 (sc_filters sc) (u64_of_int64 st) (u64_of_int64 en) Hag Hpc d Ht Hp) as (out & Ho & Hs & He & Hn).
  exists out. rewrite (js_scan_visit _ _ _ _ _ _ _ Ha Hw), Ho. cbn [option_map]. rewrite !u64_of_int64_id in He by assumption. repeat split; assumption.
Qed.
(** C46 for the conditions that are tested as they say. *)
Theorem C46_matching_records_remain_partial : forall h h0 wall sc d st en, asks sc -> window wall sc st en -> fair h h0 sc d -> supported (sc_filters sc) d ->
  exists out, js_scan h h0 wall sc (Some d) = Some (Some out) /\ same_signal d out /\
    entries out = map forget (filter (wanted (sc_filters sc) st en) (entries d)) /\ no_empty out.
Proof.
  intros h h0 wall sc d st en Ha Hw Hf Hs. destruct (C46_what_remains h h0 wall sc d st en Ha Hw Hf) as (out & Ho & Hsig & He & Hn).
  exists out. repeat split; try assumption. rewrite He. f_equal. apply filter_ext_in. intros e Hin. exact (executed_wanted _ _ _ _ _ Hs Hin).
Qed.

(** ------ concrete payloads, with the real hash *)
Fixpoint asked_list (fs : list scan_filter) : list string :=
  match fs with
  | [] => []
  | FBase _ v :: t => v :: match hex_decode v with Some b => [b] | None => [] end ++ asked_list t
  | FAttr _ k v :: t => pair_text k v :: asked_list t
  | FOther :: t => asked_list t
  end.
Lemma asked_in fs a : asked fs a -> In a (asked_list fs).
Proof.
  induction fs as [|f fs IH]; intros H.
  - destruct H as [(p & v & [] & _)|(p & k & v & [] & _)].
  - destruct H as [(p & v & [Hf|Hf] & E)|(p & k & v & [Hf|Hf] & E)].
    + subst f. cbn. destruct E as [->|E]; [left; reflexivity|]. right. apply in_or_app. left. symmetry in E. apply hex_decode_spec in E. rewrite E. left. reflexivity.
    + assert (In a (asked_list fs)) as K by (apply IH; left; eauto). destruct f; cbn; [right; apply in_or_app; right; exact K|right; exact K|exact K].
    + subst f. left. symmetry. exact E.
    + assert (In a (asked_list fs)) as K by (apply IH; right; eauto 6). destruct f; cbn; [right; apply in_or_app; right; exact K|right; exact K|exact K].
Qed.
Definition told (h : string -> N) (fs : list scan_filter) (ws : list string) : bool :=
  forallb (fun a => forallb (fun b => negb (h a =? h b) || String.eqb a b) ws) (asked_list fs).
Lemma told_spec h fs ws : told h fs ws = true -> tells_apart h fs ws.
Proof.
  unfold told. rewrite forallb_forall. intros H a b Ha Hb E. specialize (H a (asked_in _ _ Ha)). rewrite forallb_forall in H. specialize (H b Hb).
  rewrite E, N.eqb_refl in H. cbn in H. apply String.eqb_eq in H. exact H.
Qed.

Definition str_attr (k v : string) : key_value := KV k (Some (AVString v)).
Definition res_a : resource := Resource [str_attr "service.name" "shop"] "".
Definition res_b : resource := Resource [str_attr "service.name" "bank"; KV "n" (Some (AVOther "7"))] "".
Definition lib (attrs : list key_value) : scope := Scope "lib" "v1" attrs "".
Definition sp (name tid sid pid : string) (t : N) (attrs : list key_value) : span := Span name (Some tid) (Some sid) (Some pid) t (t + 5) attrs "".
Definition spans_in : data :=
  DTraces [RGroup "" (Some res_a) [SGroup "s1" (Some (lib [])) [sp "get" "AB" "X" "" 10 [str_attr "k" "v"]; sp "put" "AB" "Y" "X" 20 []; sp "get" "CD" "Z" "Y" 30 []];
                                   SGroup "s2" (Some (lib [str_attr "k" "v"])) [sp "del" "EF" "W" "" 12 []]];
           RGroup "" (Some res_b) [SGroup "s1" (Some (lib [])) [sp "get" "AB" "V" "" 11 []]]].
Definition times (s e : Z) : scan_times := ScanTimes None None (Some (Some (0, s)%Z, Some (0, e)%Z)).
Definition scan_of (fs : list scan_filter) (s e : Z) : scan := Scan 2%Z fs (times s e) 0 false.

Lemma fair_of fs d s e : told xxh64 fs (words d) = true ->
  forallb (fun f => match f with FAttr _ k v => Nat.ltb (String.length (pair_text k v)) 32 && negb (str_mem eq_sign k) | _ => true end) fs = true ->
  forallb (fun a => negb (str_mem eq_sign (kv_key a)) && match kv_val a with Some _ => true | None => false end) (head_attrs d) = true ->
  fair xxh64 xxh64_zero (scan_of fs s e) d.
Proof.
  intros H1 H2 H3. split; [exact xxhash_agree_short|]. split; [apply told_spec, H1|]. split.
  - intros p k v Hin. rewrite forallb_forall in H2. specialize (H2 _ Hin). cbn in H2. apply andb_true_iff in H2. destruct H2 as [A B].
    split; [apply PeanoNat.Nat.ltb_lt, A|apply negb_true_iff, B].
  - intros _. apply Forall_forall. intros a Ha. rewrite forallb_forall in H3. specialize (H3 _ Ha). apply andb_true_iff in H3. destruct H3 as [A B].
    split; [apply negb_true_iff, A|]. destruct (kv_val a); discriminate.
Qed.
Definition fs_get : list scan_filter :=
  [FBase PREFIX_NAME "get"; FBase PREFIX_NAME "del"; FAttr PREFIX_RESOURCE_ATTRIBUTES "service.name" "shop"; FBase PREFIX_TRACE_ID "4142"].
(** Two names, a resource attribute and a trace id, over a window: one of five spans remains. *)
Example C46_nonvacuous : asks (scan_of fs_get 10 30) /\ window 0 (scan_of fs_get 10 30) 10 30 /\ fair xxh64 xxh64_zero (scan_of fs_get 10 30) spans_in /\
  supported fs_get spans_in /\ filter (wanted fs_get 10 30) (entries spans_in) = [(("", Some res_a), ("s1", Some (lib [])), RSpan (sp "get" "AB" "X" "" 10 [str_attr "k" "v"]))] /\
  js_scan xxh64 xxh64_zero 0 (scan_of fs_get 10 30) (Some spans_in) =
    Some (Some (DTraces [RGroup "" (Some res_a) [SGroup "" (Some (lib [])) [sp "get" "AB" "X" "" 10 [str_attr "k" "v"]]]])).
Proof.
  split; [left; discriminate|]. split; [repeat split; vm_compute; congruence|]. split; [apply fair_of; vm_compute; reflexivity|].
  split; [repeat split; try reflexivity; [repeat constructor|discriminate..]|]. split; vm_compute; reflexivity.
Qed.

(** ------ C47 *)
(** An attribute condition on the record is tested on the attributes of its scope. *)
Definition as_scope_condition (f : scan_filter) : scan_filter :=
  match f with FAttr p k v => if Z.eqb p PREFIX_ATTRIBUTES then FAttr PREFIX_SCOPE_ATTRIBUTES k v else f | _ => f end.
Theorem C47_tested_on_the_scope : forall h h0 wall sc d,
  js_scan h h0 wall sc d = js_scan h h0 wall (Scan (sc_scope sc) (map as_scope_condition (sc_filters sc)) (sc_times sc) (sc_limit sc) (sc_reverse sc)) d.
Proof.
  intros h h0 wall [scope fs ts lim rev] d. unfold js_scan. cbn [sc_times sc_filters].
  assert (forall o, compile_all h h0 fs o = compile_all h h0 (map as_scope_condition fs) o) as E.
  { unfold compile_all. induction fs as [|f fs IH]; intros o; [reflexivity|]. cbn [map fold_left]. rewrite <- IH. f_equal.
    destruct f as [p v|p k v|]; [reflexivity| |reflexivity]. cbn [as_scope_condition]. destruct (Z.eqb_spec p PREFIX_ATTRIBUTES) as [->|?]; [|reflexivity]. destruct o. reflexivity. }
  destruct (time_bounds wall ts) as [st en]. destruct d as [d|]; [|destruct (sc_range ts); [reflexivity|]; destruct fs; reflexivity]. rewrite E. destruct (sc_range ts); [reflexivity|]. destruct fs; reflexivity.
Qed.
(** The span with attribute k=v is thrown away, one without it is kept because its scope has it. *)
Theorem C47_attribute_conditions_refuted : exists sc d out, sc_filters sc = [FAttr PREFIX_ATTRIBUTES "k" "v"] /\
  fair xxh64 xxh64_zero sc d /\ window 0 sc 0 100 /\ js_scan xxh64 xxh64_zero 0 sc (Some d) = Some (Some out) /\
  (exists e, In e (entries d) /\ wanted (sc_filters sc) 0 100 e = true /\ ~ In (forget e) (entries out)) /\
  (exists e, In e (entries d) /\ wanted (sc_filters sc) 0 100 e = false /\ In (forget e) (entries out)).
Proof.
  exists (scan_of [FAttr PREFIX_ATTRIBUTES "k" "v"] 0 100), spans_in.
  exists (DTraces [RGroup "" (Some res_a) [SGroup "" (Some (lib [str_attr "k" "v"])) [sp "del" "EF" "W" "" 12 []]]]).
  split; [reflexivity|]. split; [apply fair_of; vm_compute; reflexivity|]. split; [repeat split; vm_compute; congruence|]. split; [vm_compute; reflexivity|]. split.
  - exists (("", Some res_a), ("s1", Some (lib [])), RSpan (sp "get" "AB" "X" "" 10 [str_attr "k" "v"])).
    split; [left; reflexivity|]. split; [vm_compute; reflexivity|]. cbn. intros [K|[]]. discriminate.
  - exists (("", Some res_a), ("s2", Some (lib [str_attr "k" "v"])), RSpan (sp "del" "EF" "W" "" 12 [])).
    split; [do 3 right; left; reflexivity|]. split; [vm_compute; reflexivity|left; reflexivity].
Qed.

(** ------ C48 *)
(** Asking for the children of span "Y" (hex 59) gives span "Y" itself; asking for span "Y" gives all. *)
Theorem C48_parent_condition_refuted : exists sc d out, sc_filters sc = [FBase PREFIX_PARENT_SPAN_ID "59"] /\
  fair xxh64 xxh64_zero sc d /\ window 0 sc 0 100 /\ js_scan xxh64 xxh64_zero 0 sc (Some d) = Some (Some out) /\
  (exists e, In e (entries d) /\ wanted (sc_filters sc) 0 100 e = true /\ ~ In (forget e) (entries out)) /\
  (exists e, In e (entries d) /\ wanted (sc_filters sc) 0 100 e = false /\ In (forget e) (entries out)).
Proof.
  exists (scan_of [FBase PREFIX_PARENT_SPAN_ID "59"] 0 100), spans_in, (DTraces [RGroup "" (Some res_a) [SGroup "" (Some (lib [])) [sp "put" "AB" "Y" "X" 20 []]]]).
  split; [reflexivity|]. split; [apply fair_of; vm_compute; reflexivity|]. split; [repeat split; vm_compute; congruence|]. split; [vm_compute; reflexivity|]. split.
  - exists (("", Some res_a), ("s1", Some (lib [])), RSpan (sp "get" "CD" "Z" "Y" 30 [])).
    split; [do 2 right; left; reflexivity|]. split; [vm_compute; reflexivity|]. cbn. intros [K|[]]. discriminate.
  - exists (("", Some res_a), ("s1", Some (lib [])), RSpan (sp "put" "AB" "Y" "X" 20 [])).
    split; [right; left; reflexivity|]. split; [vm_compute; reflexivity|left; reflexivity].
Qed.
Theorem C48_span_condition_is_ignored : forall h h0 fs1 v fs2 wall sc d, sc_filters sc = fs1 ++ FBase PREFIX_SPAN_ID v :: fs2 -> sc_range (sc_times sc) <> None ->
  js_scan h h0 wall sc d = js_scan h h0 wall (Scan (sc_scope sc) (fs1 ++ fs2) (sc_times sc) (sc_limit sc) (sc_reverse sc)) d.
Proof.
  intros h h0 fs1 v fs2 wall sc d E Hr. unfold js_scan. rewrite E. cbn [sc_times sc_filters]. destruct (sc_range (sc_times sc)) as [rg|]; [|contradiction].
  destruct (time_bounds wall (sc_times sc)) as [st en]. destruct d as [d|]; [|reflexivity]. f_equal.
  set (a := compile_all h h0 (fs1 ++ FBase PREFIX_SPAN_ID v :: fs2) _). set (b := compile_all h h0 (fs1 ++ fs2) _).
  assert (forall x y, v_resource_schema x = v_resource_schema y -> v_resource_attr x = v_resource_attr y -> v_scope_schema x = v_scope_schema y ->
    v_scope_name x = v_scope_name y -> v_scope_version x = v_scope_version y -> v_scope_attr x = v_scope_attr y -> v_attr x = v_attr y -> v_name x = v_name y ->
    v_trace x = v_trace y -> v_parent x = v_parent y -> v_level x = v_level y -> v_start x = v_start y -> v_end x = v_end y ->
    forall d, visit h x d = visit h (Visitor (v_resource_schema y) (v_resource_attr y) (v_scope_schema y) (v_scope_name y) (v_scope_version y) (v_scope_attr y)
      (v_attr y) (v_name y) (v_trace y) (v_span x) (v_parent y) (v_level y) (v_start y) (v_end y)) d) as K.
  { intros [] []; cbn. intros. subst. reflexivity. }
  assert (forall p, p <> PREFIX_SPAN_ID -> texts (fs1 ++ FBase PREFIX_SPAN_ID v :: fs2) p = texts (fs1 ++ fs2) p) as Et.
  { intros p Hp. unfold texts. rewrite !flat_map_app. f_equal. cbn [flat_map]. destruct (Z.eqb_spec PREFIX_SPAN_ID p); [congruence|reflexivity]. }
  assert (forall p, pairs (fs1 ++ FBase PREFIX_SPAN_ID v :: fs2) p = pairs (fs1 ++ fs2) p) as Ep by (intros p; unfold pairs; rewrite !flat_map_app; reflexivity).
  assert (scope_pairs (fs1 ++ FBase PREFIX_SPAN_ID v :: fs2) = scope_pairs (fs1 ++ fs2)) as Es by (unfold scope_pairs; rewrite !flat_map_app; reflexivity).
  rewrite (K a b); [|subst a b; rewrite !compile_all_spec; cbn [v_resource_schema v_resource_attr v_scope_schema v_scope_name v_scope_version v_scope_attr v_attr v_name v_trace v_parent v_level v_start v_end]; rewrite ?Ep, ?Es, ?Et by discriminate; reflexivity ..].
  clearbody a b. destruct b. cbn. reflexivity.
Qed.
Theorem C48_span_condition_refuted : exists sc d out, sc_filters sc = [FBase PREFIX_SPAN_ID "59"] /\
  fair xxh64 xxh64_zero sc d /\ window 0 sc 0 100 /\ js_scan xxh64 xxh64_zero 0 sc (Some d) = Some (Some out) /\
  exists e, In e (entries d) /\ wanted (sc_filters sc) 0 100 e = false /\ In (forget e) (entries out).
Proof.
  exists (scan_of [FBase PREFIX_SPAN_ID "59"] 0 100), spans_in. eexists.
  split; [reflexivity|]. split; [apply fair_of; vm_compute; reflexivity|]. split; [repeat split; vm_compute; congruence|]. split; [vm_compute; reflexivity|].
  exists (("", Some res_a), ("s1", Some (lib [])), RSpan (sp "get" "CD" "Z" "Y" 30 [])).
  split; [do 2 right; left; reflexivity|]. split; [vm_compute; reflexivity|]. do 2 right. left. reflexivity.
Qed.
(** What the two conditions do: the first theorem above read for spans.  Conditions on the parent id select
    by the span's own id. *)
Theorem C48_what_is_tested : forall h h0 wall sc gs st en, asks sc -> window wall sc st en -> fair h h0 sc (DTraces gs) ->
  exists out, js_scan h h0 wall sc (Some (DTraces gs)) = Some (Some out) /\
    forall e, In e (entries (DTraces gs)) -> executed (sc_filters sc) st en e = true -> exists s, snd e = RSpan s /\
      (hex_only (texts (sc_filters sc) PREFIX_PARENT_SPAN_ID) <> [] ->
       exists v, In v (texts (sc_filters sc) PREFIX_PARENT_SPAN_ID) /\ lower v = hex_encode (the_id (sp_span s))) /\ In (forget e) (entries out).
Proof.
  intros h h0 wall sc gs st en Ha Hw Hf. destruct (C46_what_remains h h0 wall sc _ st en Ha Hw Hf) as (out & Ho & _ & He & _).
  exists out. split; [exact Ho|]. intros e Hin Hx. pose proof Hin as Hk.
  cbn [entries] in Hk. unfold entries_of in Hk. apply in_flat_map in Hk. destruct Hk as (g & _ & Hk). apply in_flat_map in Hk. destruct Hk as (s & _ & Hk).
  apply in_flat_map in Hk. destruct Hk as (x & _ & Hk). apply in_map_iff in Hk. destruct Hk as (r & Er & Hr). destruct Hr as [<-|[]].
  exists x. split; [rewrite <- Er; reflexivity|]. split.
  - intros Hne. rewrite <- Er in Hx. cbn in Hx. rewrite !andb_true_iff in Hx. destruct Hx as [_ [_ Hx]]. unfold id_one_of in Hx.
    destruct (hex_only (texts (sc_filters sc) PREFIX_PARENT_SPAN_ID)) as [|v l] eqn:E; [contradiction|]. rewrite <- E in Hx. apply existsb_exists in Hx.
    destruct Hx as (w & Hw' & Hl). exists w. split; [|apply String.eqb_eq, Hl]. apply filter_In in Hw'. apply Hw'.
  - rewrite He. apply in_map, filter_In. split; assumption.
Qed.
Example C48_nonvacuous : asks (scan_of [FBase PREFIX_PARENT_SPAN_ID "59"] 0 100) /\ window 0 (scan_of [FBase PREFIX_PARENT_SPAN_ID "59"] 0 100) 0 100 /\
  fair xxh64 xxh64_zero (scan_of [FBase PREFIX_PARENT_SPAN_ID "59"] 0 100) spans_in /\
  hex_only (texts [FBase PREFIX_PARENT_SPAN_ID "59"] PREFIX_PARENT_SPAN_ID) <> [] /\
  List.length (filter (executed [FBase PREFIX_PARENT_SPAN_ID "59"] 0 100) (entries spans_in)) = 1%nat.
Proof. split; [left; discriminate|]. split; [repeat split; vm_compute; congruence|]. split; [apply fair_of; vm_compute; reflexivity|]. split; [discriminate|vm_compute; reflexivity]. Qed.

(** ------ C49 *)
(** Whatever a result says besides scope schema, description and unit survives with the record. *)
Definition says_nothing_more (e : entry) : Prop := fst (snd (fst e)) = "" /\ match snd e with RPoint _ desc unit _ _ _ _ => desc = "" /\ unit = "" | _ => True end.
Theorem C49_other_fields_survive_partial : forall h h0 wall sc d st en, asks sc -> window wall sc st en -> fair h h0 sc d -> Forall says_nothing_more (entries d) ->
  exists out, js_scan h h0 wall sc (Some d) = Some (Some out) /\ entries out = filter (executed (sc_filters sc) st en) (entries d).
Proof.
  intros h h0 wall sc d st en Ha Hw Hf Hs. destruct (C46_what_remains h h0 wall sc d st en Ha Hw Hf) as (out & Ho & _ & He & _).
  exists out. split; [exact Ho|]. rewrite He. rewrite <- map_id. apply map_ext_in. intros e Hin. apply filter_In in Hin. destruct Hin as [Hin _].
  rewrite Forall_forall in Hs. specialize (Hs _ Hin). destruct e as [[r [ss s]] x]. destruct Hs as [E1 E2]. cbn in E1, E2. subst ss. cbn [forget].
  destruct x as [n de u k t m p|l|sp]; [destruct E2 as [-> ->]|..]; reflexivity.
Qed.
Definition metrics_in : data :=
  DMetrics [RGroup "rs" (Some res_a) [SGroup "ss" (Some (lib [])) [Metric "requests" "number of requests" "1" (Some (MData KSum 2 true [Point 10 [] "a"; Point 50 [] "b"]))]]].
Theorem C49_descriptive_fields_refuted : exists d out, fair xxh64 xxh64_zero (scan_of [] 0 40) d /\
  js_scan xxh64 xxh64_zero 0 (scan_of [] 0 40) (Some d) = Some (Some out) /\
  exists r s n u k t m p sch, In (r, (sch, s), RPoint n "number of requests" u k t m p) (entries d) /\ sch <> "" /\ u <> "" /\
    entries out = [(r, ("", s), RPoint n "" "" k t m p)].
Proof.
  exists metrics_in. eexists. split; [apply fair_of; vm_compute; reflexivity|]. split; [vm_compute; reflexivity|].
  do 9 eexists. split; [left; reflexivity|]. split; [discriminate|]. split; [discriminate|reflexivity].
Qed.
Definition plain_metrics : data :=
  DMetrics [RGroup "rs" (Some res_a) [SGroup "" (Some (lib [])) [Metric "requests" "" "" (Some (MData KSum 2 true [Point 10 [] "a"; Point 50 [] "b"]))]]].
Example C49_nonvacuous : asks (scan_of [] 0 40) /\ window 0 (scan_of [] 0 40) 0 40 /\ fair xxh64 xxh64_zero (scan_of [] 0 40) plain_metrics /\
  Forall says_nothing_more (entries plain_metrics) /\ List.length (filter (executed [] 0 40) (entries plain_metrics)) = 1%nat.
Proof.
  split; [left; discriminate|]. split; [repeat split; vm_compute; congruence|]. split; [apply fair_of; vm_compute; reflexivity|].
  split; [repeat constructor|reflexivity].
Qed.

(** ------ C50 *)
Theorem C50_no_condition_no_change : forall h h0 wall sc d, sc_range (sc_times sc) = None -> sc_filters sc = [] -> js_scan h h0 wall sc d = Some d.
Proof. intros h h0 wall sc d Hr Hf. unfold js_scan. rewrite Hr, Hf. reflexivity. Qed.
(** The time of a record: of a data point, a log record, the start of a span. *)
Definition time_of (r : full_record) : N := match r with RPoint _ _ _ _ _ _ p => p_time p | RLog l => lr_time l | RSpan s => sp_start s end.
(** With a time range only: a record remains iff start <= t < end. *)
Theorem C50_half_open_partial : forall h h0 wall sc d s e, agree_short h h0 -> sc_range (sc_times sc) = Some (Some (0, s)%Z, Some (0, e)%Z) -> sc_filters sc = [] ->
  (0 <= s < Z.of_N two63)%Z -> (0 <= e < Z.of_N two63)%Z ->
  exists out, js_scan h h0 wall sc (Some d) = Some (Some out) /\
    entries out = map forget (filter (fun x => (s <=? Z.of_N (time_of (snd x)))%Z && (Z.of_N (time_of (snd x)) <? e)%Z) (entries d)).
Proof.
  intros h h0 wall sc d s e Hag Hr Hf Hs He.
  destruct (C46_what_remains h h0 wall sc d s e) as (out & Ho & _ & Hent & _).
  - left. rewrite Hr. discriminate.
  - split; [|split; assumption]. unfold time_bounds. rewrite Hr. cbn [as_time]. f_equal; lia.
  - split; [exact Hag|]. rewrite Hf. split; [intros a b [(p & v & [] & _)|(p & k & v & [] & _)]|]. split; [intros p k v []|intros (p & k & v & [])].
  - exists out. split; [exact Ho|]. rewrite Hent, Hf. f_equal. apply filter_ext. intros [[[rs r] [ss sc']] x]. destruct x; cbn; unfold in_window; rewrite ?andb_true_r; reflexivity.
Qed.
Example C50_nonvacuous : js_scan xxh64 xxh64_zero 7 (scan_of [] 10 50) (Some plain_metrics) =
    Some (Some (DMetrics [RGroup "rs" (Some res_a) [SGroup "" (Some (lib [])) [Metric "requests" "" "" (Some (MData KSum 2 true [Point 10 [] "a"]))]]])) /\
  js_scan xxh64 xxh64_zero 7 (Scan 2 [] (ScanTimes None None None) 0 false) (Some plain_metrics) = Some (Some plain_metrics).
Proof. split; vm_compute; reflexivity. Qed.
(** A range that starts before 1970 loses every record: its start becomes a huge unsigned number. *)
Theorem C50_range_before_1970_refuted : exists sc d t, sc_range (sc_times sc) = Some (Some (-1, 0)%Z, Some (1, 0)%Z) /\ sc_filters sc = [] /\
  (exists e, In e (entries d) /\ time_of (snd e) = t) /\ (-1000000000 <= Z.of_N t < 1000000000)%Z /\
  exists out, js_scan xxh64 xxh64_zero 0 sc (Some d) = Some (Some out) /\ entries out = [].
Proof.
  exists (Scan 0 [] (ScanTimes None None (Some (Some (-1, 0)%Z, Some (1, 0)%Z))) 0 false), plain_metrics, 10.
  split; [reflexivity|]. split; [reflexivity|]. split; [eexists; split; [left; reflexivity|reflexivity]|]. split; [lia|].
  eexists. split; [vm_compute; reflexivity|reflexivity].
Qed.

(** ------ C51 *)
(** Conditions on resource attributes, one FAttr per asked pair. *)
Definition attr_conditions (l : list (string * string)) : list scan_filter := map (fun kv => FAttr PREFIX_RESOURCE_ATTRIBUTES (fst kv) (snd kv)) l.
Definition accepts (h h0 : string -> N) (l : list (string * string)) (attrs : list key_value) : option bool :=
  match_attr h (v_resource_attr (compile_all h h0 (attr_conditions l) visitor_new)) attrs.
Theorem C51_subset_matching_partial : forall h h0 l attrs, agree_short h h0 -> tells_apart h (attr_conditions l) (attr_words attrs) ->
  plain_conditions (attr_conditions l) -> Forall plain_attr attrs ->
  exists b, accepts h h0 l attrs = Some b /\
    (b = true <-> forall k v, In (k, v) l -> exists a, In a attrs /\ kv_key a = k /\ kv_val a = Some (AVString v)).
Proof.
  intros h h0 l attrs Hag Ht Hpc Hp. exists (all_there l attrs).
  assert (pairs (attr_conditions l) PREFIX_RESOURCE_ATTRIBUTES = l) as El by (unfold attr_conditions; clear; induction l as [|[k v] l IH]; [reflexivity|]; cbn; f_equal; exact IH).
  split.
  - unfold accepts. rewrite compile_all_spec. cbn [v_resource_attr visitor_new]. rewrite El.
    apply match_ok with (fs := attr_conditions l) (ws := attr_words attrs); try assumption; [|intros _; exact Hp|intros x Hx; exact Hx].
    intros k v Hk. exists PREFIX_RESOURCE_ATTRIBUTES. apply in_pairs. rewrite El. exact Hk.
  - unfold all_there. rewrite forallb_forall. split.
    + intros H k v Hk. specialize (H _ Hk). apply existsb_exists in H. destruct H as (a & Ha & E). exists a. split; [exact Ha|].
      unfold is_attr in E. apply andb_true_iff in E. destruct E as [E1 E2]. apply String.eqb_eq in E1. cbn in E1, E2. split; [exact E1|].
      destruct (kv_val a) as [[w|]|]; try discriminate. apply String.eqb_eq in E2. congruence.
    + intros H [k v] Hk. destruct (H _ _ Hk) as (a & Ha & E1 & E2). apply existsb_exists. exists a. split; [exact Ha|].
      unfold is_attr. cbn. rewrite E1, E2, !String.eqb_refl. reflexivity.
Qed.
Example C51_nonvacuous : let l := [("a", "1"); ("b", "2")] in let attrs := [str_attr "b" "2"; KV "c" (Some (AVOther "x")); str_attr "a" "1"] in
  agree_short xxh64 xxh64_zero /\ tells_apart xxh64 (attr_conditions l) (attr_words attrs) /\ plain_conditions (attr_conditions l) /\ Forall plain_attr attrs /\
  accepts xxh64 xxh64_zero l attrs = Some true /\ accepts xxh64 xxh64_zero l [str_attr "a" "1"] = Some false.
Proof.
  cbv zeta. split; [exact xxhash_agree_short|]. split; [apply told_spec; vm_compute; reflexivity|].
  split; [intros p k v [[= <- <- <-]|[[= <- <- <-]|[]]]; split; [vm_compute; repeat constructor|reflexivity|vm_compute; repeat constructor|reflexivity]|].
  split; [repeat constructor; discriminate|]. split; vm_compute; reflexivity.
Qed.
(** A condition whose key=value text has 32 bytes or more is hashed by a Digest that was never Reset, and so
    is not recognised: the very attribute asked for does not satisfy it. *)
Theorem C51_long_attribute_refuted : exists k v, plain_attr (str_attr k v) /\ accepts xxh64 xxh64_zero [(k, v)] [str_attr k v] = Some false.
Proof. exists "service.instance.id", "checkout-pod-01". split; [split; [reflexivity|discriminate]|vm_compute; reflexivity]. Qed.
(** Keys with an equals sign: another attribute satisfies the condition. *)
Theorem C51_equals_sign_refuted : exists k v k' v', (k, v) <> (k', v') /\ accepts xxh64 xxh64_zero [(k, v)] [str_attr k' v'] = Some true.
Proof. exists "a", "b=c", "a=b", "c". split; [discriminate|vm_compute; reflexivity]. Qed.

(** ------ C68 *)
Theorem C68_trimming_does_not_crash_partial : forall h h0 wall sc d st en, window wall sc st en -> fair h h0 sc d -> js_scan h h0 wall sc (Some d) <> None.
Proof.
  intros h h0 wall sc d st en Hw Hf E.
  assert ({asks sc} + {sc_range (sc_times sc) = None /\ sc_filters sc = []}) as [Ha|[Hr Hs]].
  { unfold asks. destruct (sc_range (sc_times sc)); [left; left; discriminate|]. destruct (sc_filters sc); [right; split; reflexivity|left; right; discriminate]. }
  - destruct (C46_what_remains h h0 wall sc d st en Ha Hw Hf) as (out & Ho & _). congruence.
  - rewrite C50_no_condition_no_change in E by assumption. discriminate.
Qed.
(** An attribute without a value (legal in protobuf) next to an attribute condition, and a store that
    answers with no data at all (a scope that is none of the three signals, or a failed read of the stored
    data, which the store reports as no data), both crash. *)
Theorem C68_attribute_without_value_refuted : exists d, entries d <> [] /\
  js_scan xxh64 xxh64_zero 0 (scan_of [FAttr PREFIX_RESOURCE_ATTRIBUTES "a" "1"] 0 100) (Some d) = None.
Proof.
  exists (DLogs [RGroup "" (Some (Resource [KV "a" None] "")) [SGroup "" None [LogRecord 5 "INFO" [] None None ""]]]). split; [discriminate|vm_compute; reflexivity].
Qed.
(** Exactly when an answer of the store crashes the trimming: an attribute without a value where attributes are looked at
    ([cannot_trim], Spec/Trim.v), for every clock and window. *)
Theorem C68_crashes_exactly : forall h h0 wall sc d, agree_short h h0 -> tells_apart h (sc_filters sc) (words d) -> plain_conditions (sc_filters sc) ->
  plain_keys (sc_filters sc) (head_attrs d) -> js_scan h h0 wall sc (Some d) = None <-> cannot_trim (sc_filters sc) d = true.
Proof.
  intros h h0 wall sc d Hag Ht Hpc Hp. destruct (time_bounds wall (sc_times sc)) as [st en] eqn:B.
  assert ({asks sc} + {sc_range (sc_times sc) = None /\ sc_filters sc = []}) as [Ha|[Hr Hs]].
  { unfold asks. destruct (sc_range (sc_times sc)); [left; left; discriminate|]. destruct (sc_filters sc); [right; split; reflexivity|left; right; discriminate]. }
  - rewrite <- (visit_none h h0 (sc_filters sc) (u64_of_int64 st) (u64_of_int64 en) Hag Hpc d Ht Hp). unfold the_visitor, js_scan. rewrite B.
    set (v := visit _ _ _). clearbody v. unfold asks in Ha. clear - Ha. destruct (sc_range (sc_times sc)); [destruct v; split; (reflexivity || discriminate)|].
    destruct (sc_filters sc); [|destruct v; split; (reflexivity || discriminate)]. destruct Ha as [Ha|Ha]; congruence.
  - rewrite C50_no_condition_no_change by assumption. rewrite Hs. split; [discriminate|]. intros E. unfold cannot_trim in E. apply existsb_exists in E. destruct E as (g & _ & E). exfalso. revert E.
    unfold bad_resource. cbn [texts pairs flat_map one_of asked_for andb orb]. intros E. apply andb_true_iff in E. destruct E as [_ E]. apply existsb_exists in E. destruct E as (s & _ & E).
    unfold bad_scope in E. cbn [texts pairs flat_map one_of asked_for andb orb] in E. discriminate.
Qed.
Theorem C68_nothing_found_refuted : forall h h0 wall sc, asks sc -> js_scan h h0 wall sc None = None.
Proof.
  intros h h0 wall sc Ha. unfold js_scan, asks in *. destruct (time_bounds wall (sc_times sc)) as [st en].
  destruct (sc_range (sc_times sc)); [reflexivity|]. destruct (sc_filters sc); [|reflexivity]. destruct Ha as [Ha|Ha]; congruence.
Qed.
Example C68_nonvacuous : window 0 (scan_of fs_get 10 30) 10 30 /\ fair xxh64 xxh64_zero (scan_of fs_get 10 30) spans_in /\ asks (scan_of fs_get 10 30).
Proof. destruct C46_nonvacuous as (A & B & C & _). split; [exact B|]. split; [exact C|exact A]. Qed.
(** A scan for one scope attribute: a scope whose name is not asked for may lack a value, an accepted one may not. *)
Definition two_scopes (name : string) : data :=
  DLogs [RGroup "" (Some (Resource [KV "a" None] "")) [SGroup "" (Some (Scope "other" "" [KV "k" None] "")) [LogRecord 5 "INFO" [] None None ""];
         SGroup "" (Some (Scope name "" [KV "k" None] "")) [LogRecord 5 "INFO" [] None None ""]]].
Definition ask_scope : list scan_filter := [FBase PREFIX_SCOPE_NAME "lib"; FAttr PREFIX_SCOPE_ATTRIBUTES "k" "1"].
Example C68_exactly_example :
  (js_scan xxh64 xxh64_zero 0 (scan_of ask_scope 0 100) (Some (two_scopes "lib")) = None /\ cannot_trim ask_scope (two_scopes "lib") = true) /\
  (js_scan xxh64 xxh64_zero 0 (scan_of ask_scope 0 100) (Some (two_scopes "third")) <> None /\ cannot_trim ask_scope (two_scopes "third") = false) /\
  tells_apart xxh64 ask_scope (words (two_scopes "lib")) /\ plain_conditions ask_scope /\ plain_keys ask_scope (head_attrs (two_scopes "lib")).
Proof.
  split; [split; vm_compute; reflexivity|]. split; [split; [vm_compute; discriminate|reflexivity]|]. split; [apply told_spec; vm_compute; reflexivity|]. split.
  - intros p k v [H|[H|[]]]; [discriminate|]. injection H as <- <- <-. split; [vm_compute; lia|reflexivity].
  - intros _. repeat constructor.
Qed.
