From Verif.Model Require Import Base Labels Otlp Transform.
From Verif.Spec Require Import Indexing.
From Verif.Proofs Require Import BaseFacts.

Lemma nonempty_spec s : nonempty s = true <-> s <> ""%string.
Proof. unfold nonempty. destruct (String.eqb_spec s ""); cbn; split; congruence. Qed.
Lemma nonempty_false s : nonempty s = false <-> s = ""%string.
Proof. unfold nonempty. destruct (String.eqb_spec s ""); cbn; split; congruence. Qed.

(** Ordered labels emitted by each function, with resource number r. *)
Definition L_attrs (r p : Z) (kvs : list key_value) : list label :=
  flat_map (fun kv => let s := get_string (kv_val kv) in if nonempty s then [Label r p (kv_key kv) s] else []) kvs.
Definition L_opt (r p : Z) (s : string) : list label := if nonempty s then [Label r p s ""] else [].
Definition L_id (r p : Z) (o : option string) : list label :=
  match o with Some b => [Label r p (hex_encode b) ""] | None => [] end.
Definition L_resource {A} (r : Z) (g : resource_group A) : list label :=
  L_opt r PREFIX_RESOURCE_SCHEMA (rg_schema g) ++
  match rg_resource g with Some x => L_attrs r PREFIX_RESOURCE_ATTRIBUTES (r_attrs x) | None => [] end.
Definition L_scope {A} (r : Z) (g : scope_group A) : list label :=
  L_opt r PREFIX_SCOPE_SCHEMA (sg_schema g) ++
  match sg_scope g with
  | Some x => L_opt r PREFIX_SCOPE_NAME (s_name x) ++ L_opt r PREFIX_SCOPE_VERSION (s_version x) ++
              L_attrs r PREFIX_SCOPE_ATTRIBUTES (s_attrs x)
  | None => [] end.
Definition L_metric (r : Z) (m : metric) : list label :=
  Label r PREFIX_NAME (m_name m) "" ::
  match m_data m with Some d => flat_map (fun p => L_attrs r PREFIX_ATTRIBUTES (p_attrs p)) (md_points d) | None => [] end.
Definition L_log (r : Z) (x : log_record) : list label :=
  L_opt r PREFIX_LOGS_LEVEL (lr_severity x) ++ L_attrs r PREFIX_ATTRIBUTES (lr_attrs x) ++
  L_id r PREFIX_SPAN_ID (lr_span x) ++ L_id r PREFIX_TRACE_ID (lr_trace x).
Definition L_span (r : Z) (x : span) : list label :=
  L_opt r PREFIX_NAME (sp_name x) ++ L_id r PREFIX_TRACE_ID (sp_trace x) ++ L_id r PREFIX_SPAN_ID (sp_span x) ++
  L_id r PREFIX_PARENT_SPAN_ID (sp_parent x).
Definition L_group {A} (r : Z) (li : A -> list label) (g : resource_group A) : list label :=
  L_resource r g ++ flat_map (fun sg => L_scope r sg ++ flat_map li (sg_items sg)) (rg_scopes g).
Definition L_data (d : data) : list label :=
  match d with
  | DMetrics l => flat_map (L_group RESOURCE_METRICS (L_metric RESOURCE_METRICS)) l
  | DTraces l => flat_map (L_group RESOURCE_TRACES (L_span RESOURCE_TRACES)) l
  | DLogs l => flat_map (L_group RESOURCE_LOGS (L_log RESOURCE_LOGS)) l
  | DNone => []
  end.
Definition T_metric (m : metric) : list (N * N) :=
  match m_data m with Some md => map (fun p => (p_time p, p_time p)) (md_points md) | None => [] end.
Definition T_log (r : log_record) : list (N * N) := [(lr_time r, lr_time r)].
Definition T_span (s : span) : list (N * N) := [(sp_start s, sp_end s)].
Definition T_group {A} (ti : A -> list (N * N)) (g : resource_group A) : list (N * N) :=
  flat_map (fun sg => flat_map ti (sg_items sg)) (rg_scopes g).

(** The declarative label set is exactly the emitted list. *)
Lemma in_L_attrs r p kvs l : In l (L_attrs r p kvs) <-> exists k v, has_attr kvs k v /\ l = Label r p k v.
Proof.
  unfold L_attrs, has_attr. rewrite in_flat_map. split.
  - intros ([k o] & I & H). cbn in H. destruct (nonempty (get_string o)) eqn:E; [|destruct H].
    destruct H as [<-|[]]. apply nonempty_spec in E. exists k, (get_string o).
    destruct o as [[s|raw]|]; cbn in *; try congruence. auto.
  - intros (k & v & [I E] & ->). exists (KV k (Some (AVString v))). split; auto. cbn.
    apply nonempty_spec in E. rewrite E. left; reflexivity.
Qed.
Lemma in_L_opt r p s l : In l (L_opt r p s) <-> s <> ""%string /\ l = Label r p s "".
Proof.
  unfold L_opt. destruct (nonempty s) eqn:E.
  - apply nonempty_spec in E. cbn. split; [intros [<-|[]]; auto|intros [_ ->]; auto].
  - apply nonempty_false in E. cbn. split; [intros []|intros [? _]; congruence].
Qed.
Lemma in_L_id r p o l : In l (L_id r p o) <-> id_label r p o l.
Proof.
  unfold L_id, id_label. destruct o as [b|]; cbn.
  - split; [intros [<-|[]]; eauto|intros (b' & [= <-] & ->); auto].
  - split; [intros []|intros (b & ? & _); discriminate].
Qed.
Lemma in_L_resource {A} r (g : resource_group A) l : In l (L_resource r g) <-> resource_label r g l.
Proof.
  unfold L_resource, resource_label. rewrite in_app_iff, in_L_opt. apply or_iff_compat_l.
  destruct (rg_resource g) as [x|].
  - rewrite in_L_attrs. split; [intros (k & v & H1 & H2); exists x, k, v; auto|intros (r' & k & v & [= <-] & H); eauto].
  - cbn. split; [intros []|intros (r' & k & v & ? & _); discriminate].
Qed.
Lemma in_L_scope {A} r (g : scope_group A) l : In l (L_scope r g) <-> scope_label r g l.
Proof.
  unfold L_scope, scope_label. rewrite in_app_iff, in_L_opt. apply or_iff_compat_l.
  destruct (sg_scope g) as [x|].
  - rewrite !in_app_iff, !in_L_opt, in_L_attrs. split; [intros H; exists x; auto|intros (s & [= <-] & H); exact H].
  - cbn. split; [intros []|intros (s & ? & _); discriminate].
Qed.
Lemma in_L_metric m l : In l (L_metric RESOURCE_METRICS m) <-> metric_label m l.
Proof.
  unfold L_metric, metric_label. cbn [In].
  assert (E : (Label RESOURCE_METRICS PREFIX_NAME (m_name m) "" = l) <-> (l = Label RESOURCE_METRICS PREFIX_NAME (m_name m) "")) by (split; congruence).
  rewrite E. apply or_iff_compat_l. destruct (m_data m) as [d|].
  - rewrite in_flat_map. split.
    + intros (p & I & H). apply in_L_attrs in H. exists d, p. auto.
    + intros (d' & p & [= <-] & I & H). exists p. split; auto. apply in_L_attrs. exact H.
  - cbn. split; [intros []|intros (d & p & ? & _); discriminate].
Qed.
Lemma in_L_log x l : In l (L_log RESOURCE_LOGS x) <-> log_label x l.
Proof. unfold L_log, log_label, attr_label. rewrite !in_app_iff, in_L_opt, in_L_attrs, !in_L_id. reflexivity. Qed.
Lemma in_L_span x l : In l (L_span RESOURCE_TRACES x) <-> span_label x l.
Proof. unfold L_span, span_label. rewrite !in_app_iff, in_L_opt, !in_L_id. reflexivity. Qed.
Lemma in_L_groups {A} r (li : A -> list label) (il : A -> label -> Prop) gs l :
  (forall a l, In l (li a) <-> il a l) ->
  In l (flat_map (L_group r li) gs) <-> group_label r il gs l.
Proof.
  intros Hi. unfold group_label. rewrite in_flat_map. split.
  - intros (g & I & H). exists g. split; auto. unfold L_group in H. apply in_app_iff in H as [H|H].
    + left. apply in_L_resource. exact H.
    + right. apply in_flat_map in H as (sg & I2 & H). exists sg. split; auto. apply in_app_iff in H as [H|H].
      * left. apply in_L_scope. exact H.
      * right. apply in_flat_map in H as (a & I3 & H). exists a. split; auto. apply Hi. exact H.
  - intros (g & I & H). exists g. split; auto. unfold L_group. apply in_app_iff. destruct H as [H|(sg & I2 & H)].
    + left. apply in_L_resource. exact H.
    + right. apply in_flat_map. exists sg. split; auto. apply in_app_iff. destruct H as [H|(a & I3 & H)].
      * left. apply in_L_scope. exact H.
      * right. apply in_flat_map. exists a. split; auto. apply Hi. exact H.
Qed.
Lemma in_L_data d l : In l (L_data d) <-> documented_label d l.
Proof.
  destruct d; cbn [L_data documented_label].
  - apply in_L_groups, in_L_metric.
  - apply in_L_groups, in_L_span.
  - apply in_L_groups, in_L_log.
  - cbn. tauto.
Qed.

Lemma Forall_L_attrs r p kvs : Forall (fun l => l_resource l = r) (L_attrs r p kvs).
Proof. apply Forall_forall. intros l H. apply in_L_attrs in H as (k & v & _ & ->). reflexivity. Qed.

(* ------------------------------------------------------------------ effects *)
Section Effects.
Context {S : Type} (translate : S -> string -> S * N).
Notation ctx := (ctx S).

(** Translate labels in order, adding the ids to a set. *)
Fixpoint tr_all (s : S) (pos : nset) (ls : list label) : S * nset :=
  match ls with
  | [] => (s, pos)
  | l :: t => let '(s', col) := translate s (encode l) in tr_all s' (sadd col pos) t
  end.
Definition time_step (mm : N * N) (t : N * N) : N * N :=
  (N.min (if fst mm =? 0 then fst t else fst mm) (fst t), N.max (snd mm) (snd t)).
Definition eff (c : ctx) (ls : list label) (ts : list (N * N)) : ctx :=
  let sp := tr_all (c_tr c) (c_pos c) ls in
  let mm := fold_left time_step ts (c_min c, c_max c) in
  Ctx (fst sp) (fst mm) (snd mm) (snd sp) (last ls (c_label c)).

Lemma tr_all_app s p a b : tr_all s p (a ++ b) = (let sp := tr_all s p a in tr_all (fst sp) (snd sp) b).
Proof.
  revert s p. induction a as [|l a IH]; intros s p; cbn; [reflexivity|].
  destruct (translate s (encode l)) as [s' col]. apply IH.
Qed.
Lemma last_app {A} (a b : list A) d : last (a ++ b) d = last b (last a d).
Proof.
  destruct b as [|x b] using rev_ind.
  - rewrite app_nil_r. reflexivity.
  - rewrite app_assoc, !last_last. reflexivity.
Qed.
Lemma eff_app c l1 t1 l2 t2 : eff (eff c l1 t1) l2 t2 = eff c (l1 ++ l2) (t1 ++ t2).
Proof.
  unfold eff at 1 2 3. cbn [c_tr c_min c_max c_pos c_label].
  rewrite tr_all_app, fold_left_app, last_app. cbn zeta.
  rewrite <- surjective_pairing. reflexivity.
Qed.
Lemma eff_nil c : eff c [] [] = c.
Proof. destruct c. reflexivity. Qed.
Definition res (c : ctx) : Z := l_resource (c_label c).
Lemma last_forall {A} (P : A -> Prop) ls d : P d -> Forall P ls -> P (last ls d).
Proof.
  intros Hd H. induction H as [|x l Hx Hl IH]; [exact Hd|]. cbn. destruct l; [exact Hx|exact IH].
Qed.
Lemma res_eff c ls ts : Forall (fun l => l_resource l = res c) ls -> res (eff c ls ts) = res c.
Proof.
  intros H. unfold eff. unfold res at 1. cbn [c_label].
  apply (last_forall (fun l => l_resource l = res c)); [reflexivity|exact H].
Qed.

Lemma do_label_eff c f l :
  f (Label (res c) (l_prefix (c_label c)) "" "") = l ->
  do_label translate c f = eff c [l] [].
Proof.
  intros H. unfold do_label, eff. cbn [tr_all fold_left fst snd last]. fold (res c). rewrite H.
  destruct (translate (c_tr c) (encode l)) as [s col]. reflexivity.
Qed.
Lemma label_key_eff p k c : label_key translate p k c = eff c [Label (res c) p k ""] [].
Proof. unfold label_key. apply do_label_eff. reflexivity. Qed.

(** A function is [known] when it acts as fixed label and time lists determined by the resource. *)
Definition acts (f : ctx -> ctx) (ls : Z -> list label) (ts : list (N * N)) : Prop :=
  (forall c, f c = eff c (ls (res c)) ts) /\ (forall r, Forall (fun l => l_resource l = r) (ls r)).
Lemma acts_res f ls ts c : acts f ls ts -> res (f c) = res c.
Proof. intros [H1 H2]. rewrite H1. apply res_eff, H2. Qed.
Lemma acts_id : acts (fun c => c) (fun _ => []) [].
Proof. split; [intros c; symmetry; apply eff_nil|intros; constructor]. Qed.
Lemma acts_comp f g l1 t1 l2 t2 : acts f l1 t1 -> acts g l2 t2 -> acts (fun c => g (f c)) (fun r => l1 r ++ l2 r) (t1 ++ t2).
Proof.
  intros Hf Hg. split.
  - intros c. pose proof (acts_res f l1 t1 c Hf) as R. destruct Hf as [Hf1 Hf2], Hg as [Hg1 Hg2].
    rewrite Hg1, R, Hf1, eff_app. reflexivity.
  - intros r. apply Forall_app. split; [apply Hf|apply Hg].
Qed.
Lemma acts_fold {A} (f : A -> ctx -> ctx) ls ts (l : list A) :
  (forall a, acts (f a) (fun r => ls r a) (ts a)) ->
  acts (fun c => fold_left (fun c a => f a c) l c) (fun r => flat_map (ls r) l) (flat_map ts l).
Proof.
  intros H. induction l as [|a l IH]; cbn [fold_left flat_map]; [apply acts_id|].
  apply (acts_comp (f a) _ _ _ _ _ (H a) IH).
Qed.
Lemma acts_ext f g ls ls' ts ts' : (forall c, g c = f c) -> (forall r, ls r = ls' r) -> ts = ts' -> acts f ls ts -> acts g ls' ts'.
Proof.
  intros E1 E2 -> [H1 H2]. split.
  - intros c. rewrite E1, H1, E2. reflexivity.
  - intros r. rewrite <- E2. apply H2.
Qed.
Lemma acts_key p k : acts (label_key translate p k) (fun r => [Label r p k ""]) [].
Proof. split; [intros c; apply label_key_eff|intros r; repeat constructor]. Qed.
Lemma acts_opt p s : acts (fun c => if nonempty s then label_key translate p s c else c) (fun r => L_opt r p s) [].
Proof.
  unfold L_opt. destruct (nonempty s); [apply acts_key|apply acts_id].
Qed.
Lemma acts_ido p o : acts (fun c => match o with Some b => label_key translate p (hex_encode b) c | None => c end) (fun r => L_id r p o) [].
Proof. unfold L_id. destruct o; [apply acts_key|apply acts_id]. Qed.
Lemma flat_map_nil {A B} (l : list A) : flat_map (fun _ => []) l = @nil B.
Proof. induction l; auto. Qed.
Lemma acts_attrs p kvs : acts (attributes translate p kvs) (fun r => L_attrs r p kvs) [].
Proof.
  unfold attributes, L_attrs.
  eapply acts_ext; [reflexivity| |  |
    apply (acts_fold (fun kv c => let s := get_string (kv_val kv) in
      if nonempty s then do_label translate c (fun l => with_value s (with_key (kv_key kv) (with_prefix p l))) else c)
      (fun r kv => let s := get_string (kv_val kv) in if nonempty s then [Label r p (kv_key kv) s] else [])
      (fun _ => []) kvs)].
  - reflexivity.
  - apply flat_map_nil.
  - intros kv. cbv zeta. destruct (nonempty (get_string (kv_val kv))); [|apply acts_id].
    split; [intros c; apply do_label_eff; reflexivity|intros r; repeat constructor].
Qed.
Lemma acts_time st en : acts (range st en) (fun _ => []) [(st, en)].
Proof. split; [intros c; reflexivity|constructor]. Qed.
Lemma acts_resource {A} (g : resource_group A) : acts (add_resource translate g) (fun r => L_resource r g) [].
Proof.
  unfold add_resource, L_resource. change (@nil (N * N)) with (@nil (N * N) ++ []).
  apply (acts_comp _ (fun c => match rg_resource g with Some r => attributes translate PREFIX_RESOURCE_ATTRIBUTES (r_attrs r) c | None => c end) _ [] _ []).
  - apply acts_opt.
  - destruct (rg_resource g); [apply acts_attrs|apply acts_id].
Qed.
Lemma acts_scope {A} (g : scope_group A) : acts (add_scope translate g) (fun r => L_scope r g) [].
Proof.
  unfold add_scope, L_scope. change (@nil (N * N)) with (@nil (N * N) ++ []).
  apply (acts_comp _ (fun c => match sg_scope g with None => c | Some r =>
      let c := if nonempty (s_name r) then label_key translate PREFIX_SCOPE_NAME (s_name r) c else c in
      let c := if nonempty (s_version r) then label_key translate PREFIX_SCOPE_VERSION (s_version r) c else c in
      attributes translate PREFIX_SCOPE_ATTRIBUTES (s_attrs r) c end) _ [] _ []).
  - apply acts_opt.
  - destruct (sg_scope g) as [x|]; [|apply acts_id]. cbv zeta.
    change (@nil (N * N)) with (@nil (N * N) ++ [] ++ []).
    apply (acts_comp _ (fun c => attributes translate PREFIX_SCOPE_ATTRIBUTES (s_attrs x)
       (if nonempty (s_version x) then label_key translate PREFIX_SCOPE_VERSION (s_version x) c else c)) _ [] _ ([] ++ [])).
    + apply acts_opt.
    + apply (acts_comp _ (attributes translate PREFIX_SCOPE_ATTRIBUTES (s_attrs x)) _ [] _ []); [apply acts_opt|apply acts_attrs].
Qed.
Lemma acts_point p : acts (add_point translate p) (fun r => L_attrs r PREFIX_ATTRIBUTES (p_attrs p)) [(p_time p, p_time p)].
Proof.
  unfold add_point. apply (acts_comp (timestamp (p_time p)) (attributes translate PREFIX_ATTRIBUTES (p_attrs p)) (fun _ => []) [(p_time p, p_time p)] _ []).
  - apply acts_time.
  - apply acts_attrs.
Qed.
Lemma acts_metric m : acts (transform_metric translate m) (fun r => L_metric r m) (T_metric m).
Proof.
  unfold transform_metric, L_metric, T_metric.
  apply (acts_comp (label_key translate PREFIX_NAME (m_name m))
    (fun c => match m_data m with Some d => fold_left (fun c p => add_point translate p c) (md_points d) c | None => c end)
    (fun r => [Label r PREFIX_NAME (m_name m) ""]) [] (fun r => match m_data m with Some d => flat_map (fun p => L_attrs r PREFIX_ATTRIBUTES (p_attrs p)) (md_points d) | None => [] end)).
  - apply acts_key.
  - destruct (m_data m) as [d|]; [|apply acts_id].
    eapply acts_ext; [reflexivity|reflexivity| |apply (acts_fold (add_point translate) (fun r p => L_attrs r PREFIX_ATTRIBUTES (p_attrs p)) (fun p => [(p_time p, p_time p)])); apply acts_point].
    induction (md_points d) as [|p l IH]; [reflexivity|]. cbn. rewrite IH. reflexivity.
Qed.
Lemma acts_log x : acts (transform_log translate x) (fun r => L_log r x) (T_log x).
Proof.
  unfold transform_log, L_log, T_log.
  eapply acts_ext; [| | |
    apply (acts_comp _ _ _ _ _ _ (acts_time (lr_time x) (lr_time x))
      (acts_comp _ _ _ _ _ _ (acts_opt PREFIX_LOGS_LEVEL (lr_severity x))
        (acts_comp _ _ _ _ _ _ (acts_attrs PREFIX_ATTRIBUTES (lr_attrs x))
          (acts_comp _ _ _ _ _ _ (acts_ido PREFIX_SPAN_ID (lr_span x)) (acts_ido PREFIX_TRACE_ID (lr_trace x))))))];
  reflexivity.
Qed.
Lemma acts_span x : acts (transform_span translate x) (fun r => L_span r x) (T_span x).
Proof.
  unfold transform_span, L_span, T_span.
  eapply acts_ext; [| | |
    apply (acts_comp _ _ _ _ _ _ (acts_opt PREFIX_NAME (sp_name x))
      (acts_comp _ _ _ _ _ _ (acts_ido PREFIX_TRACE_ID (sp_trace x))
        (acts_comp _ _ _ _ _ _ (acts_ido PREFIX_SPAN_ID (sp_span x))
          (acts_comp _ _ _ _ _ _ (acts_ido PREFIX_PARENT_SPAN_ID (sp_parent x)) (acts_time (sp_start x) (sp_end x))))))];
  [reflexivity| |reflexivity].
  intros r. cbn beta. rewrite app_nil_r. reflexivity.
Qed.
Lemma acts_group {A} (item : A -> ctx -> ctx) li ti (g : resource_group A) :
  (forall a, acts (item a) (fun r => li r a) (ti a)) ->
  acts (transform_group translate item g) (fun r => L_group r (li r) g) (T_group ti g).
Proof.
  intros H. unfold transform_group, L_group, T_group.
  apply (acts_comp (add_resource translate g)
   (fun c => fold_left (fun c sg => fold_left (fun c it => item it c) (sg_items sg) (add_scope translate sg c)) (rg_scopes g) c) _ [] _ _ (acts_resource g)).
  apply (acts_fold (fun sg c => fold_left (fun c it => item it c) (sg_items sg) (add_scope translate sg c))
    (fun r sg => L_scope r sg ++ flat_map (li r) (sg_items sg)) (fun sg => flat_map ti (sg_items sg))).
  intros sg. apply (acts_comp (add_scope translate sg) (fun c => fold_left (fun c it => item it c) (sg_items sg) c) _ [] _ _ (acts_scope sg)).
  apply acts_fold, H.
Qed.

Lemma flat_map_flat_map {A B C} (f : B -> list C) (g : A -> list B) l :
  flat_map f (flat_map g l) = flat_map (fun a => flat_map f (g a)) l.
Proof. induction l as [|a l IH]; cbn; [reflexivity|]. rewrite flat_map_app, IH. reflexivity. Qed.
Lemma flat_map_items {A} (f : A -> list (N * N)) gs : flat_map f (items gs) = flat_map (T_group f) gs.
Proof.
  unfold items, T_group. rewrite flat_map_flat_map. apply flat_map_ext. intros g. apply flat_map_flat_map.
Qed.
Lemma flat_map_single {A B} (f : A -> B) l : flat_map (fun a => [f a]) l = map f l.
Proof. induction l; cbn; congruence. Qed.

Lemma transform_data_eff d c : d <> DNone ->
  transform_data translate d c = eff (with_resource (signal_of d) c) (L_data d) (record_times d).
Proof.
  intros Hd. destruct d as [l|l|l|]; [| | |congruence]; cbn [transform_data signal_of L_data record_times].
  - pose proof (acts_fold _ _ _ l (fun g => acts_group (transform_metric translate) L_metric T_metric g acts_metric)) as [H _].
    rewrite H. cbn [res with_resource c_label l_resource]. f_equal. symmetry. apply flat_map_items.
  - pose proof (acts_fold _ _ _ l (fun g => acts_group (transform_span translate) L_span T_span g acts_span)) as [H _].
    rewrite H. cbn [res with_resource c_label l_resource]. f_equal.
    rewrite <- (flat_map_items T_span). apply flat_map_single.
  - pose proof (acts_fold _ _ _ l (fun g => acts_group (transform_log translate) L_log T_log g acts_log)) as [H _].
    rewrite H. cbn [res with_resource c_label l_resource]. f_equal.
    rewrite <- (flat_map_items T_log). apply flat_map_single.
Qed.
Lemma transform_data_none c : transform_data translate DNone c = c.
Proof. reflexivity. Qed.

(** The resource the context is left with. *)
Definition next_res (d : data) (r : Z) : Z := match d with DNone => r | _ => signal_of d end.

Definition marker (r : Z) : label := Label r PREFIX_UNKNOWN "" "".
Lemma L_data_res d : Forall (fun l => l_resource l = signal_of d) (L_data d).
Proof.
  assert (G : forall A (li : Z -> A -> list label) r gs, (forall a, Forall (fun l => l_resource l = r) (li r a)) ->
     Forall (fun l => l_resource l = r) (flat_map (L_group r (li r)) gs)).
  { intros A li r gs H. apply Forall_flat_map, Forall_forall. intros g _. unfold L_group.
    apply Forall_app. split; [apply (acts_resource g)|]. apply Forall_flat_map, Forall_forall. intros sg _.
    apply Forall_app. split; [apply (acts_scope sg)|]. apply Forall_flat_map, Forall_forall. intros a _. apply H. }
  destruct d as [l|l|l|]; cbn [L_data signal_of]; [| | |constructor]; apply G; intros a.
  - apply (acts_metric a).
  - apply (acts_span a).
  - apply (acts_log a).
Qed.

Lemma process_sample_spec c s :
  let sp := tr_all (c_tr c) [] (marker (res c) :: L_data (smp_data s)) in
  let mm := fold_left time_step (record_times (smp_data s)) (0, 0) in
  exists c', process_sample translate c s = (c', Filed (smp_id s) (fst mm) (snd mm) (snd sp)) /\
    c_tr c' = fst sp /\ res c' = next_res (smp_data s) (res c).
Proof.
  cbv zeta. unfold process_sample. set (c0 := Ctx (c_tr c) 0 0 [] (c_label c)).
  assert (E1 : ctx_init translate c0 = eff c0 [marker (res c)] []).
  { unfold ctx_init. apply do_label_eff. reflexivity. }
  rewrite E1. set (c1 := eff c0 [marker (res c)] []).
  assert (R1 : res c1 = res c) by reflexivity.
  assert (D : smp_data s = DNone \/ smp_data s <> DNone) by (destruct (smp_data s); auto; right; discriminate).
  destruct D as [D|D].
  - rewrite D. cbn [transform_data record_times L_data]. exists c1. split; [reflexivity|]. split; [reflexivity|exact R1].
  - rewrite transform_data_eff by exact D. eexists.
    change (marker (res c) :: L_data (smp_data s)) with ([marker (res c)] ++ L_data (smp_data s)).
    rewrite tr_all_app. split; [reflexivity|]. split; [reflexivity|].
    rewrite res_eff; [|apply L_data_res]. unfold next_res. destruct (smp_data s); try reflexivity. congruence.
Qed.
End Effects.
