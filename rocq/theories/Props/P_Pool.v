(** C88: nothing of an earlier or simultaneous request shows in another one. *)
From Verif.Model Require Import Base Labels View Otlp Transform Store Visit Collapse Pool.
From Verif.Spec Require Import Requests.
From Verif.Proofs Require Import BaseFacts PoolFacts.

(** Trimming: whatever conditions other requests gave to visitors before, or give at the same time. *)
Theorem C88_visitors : forall h h0, isolated visitor_new (visitor_act h h0) visitor_reset.
Proof. intros h h0. apply (clean_isolates _ _ _ (fun _ => True)); [exact Logic.I|trivial|]. intros [] _. reflexivity. Qed.
Print Assumptions C88_visitors.

(** So the answer of a script's scan is the one computed with a visitor of its own (C46, C82), wherever its steps fall
    among those of others: if request [h] only does the steps of one scan, it is given the result of [js_scan]. *)
Theorem C88_scan_answer : forall hash hash0 l w i wall sc d st en pick,
  (forall j, orderly false (filter (mine j) l)) -> run visitor_new (visitor_act hash hash0) visitor_reset start l = Some w ->
  time_bounds wall (sc_times sc) = (st, en) -> (sc_range (sc_times sc) <> None \/ sc_filters sc <> []) ->
  filter (mine i) l = [ENew i pick; EUse i (VTimeRange (u64_of_int64 st) (u64_of_int64 en)); EUse i (VCompile (sc_filters sc)); EUse i (VVisit d); ERelease i] ->
  map (option_map Some) (results_of i (w_log w)) = [js_scan hash hash0 wall sc (Some d)].
Proof.
  intros hash hash0 l w i wall sc d st en pick O Rn B C M. destruct (C88_visitors hash hash0 l O) as (w' & Rn' & L). rewrite Rn in Rn'. injection Rn' as <-.
  rewrite L, M. cbn [alone visitor_act app]. unfold js_scan. rewrite B. destruct (sc_range (sc_times sc)); [reflexivity|]. destruct (sc_filters sc) eqn:E; [|reflexivity]. destruct C as [C|C]; congruence.
Qed.
Print Assumptions C88_scan_answer.

(** Index labels and keys of samples. *)
Theorem C88_labels : isolated label_reset label_act label_clear.
Proof. apply (clean_isolates _ _ _ (fun _ => True)); [exact Logic.I|trivial|]. intros [] _. reflexivity. Qed.
Print Assumptions C88_labels.
Theorem C88_keys : isolated (0%Z, 0) skey_act skey_clear.
Proof. apply (clean_isolates _ _ _ (fun _ => True)); [exact Logic.I|trivial|]. reflexivity. Qed.
Print Assumptions C88_keys.
(** Sets of columns and of samples. *)
Theorem C88_bitmaps : isolated (Bitmap "" []) bitmap_act bitmap_clear.
Proof. apply (clean_isolates _ _ _ (fun _ => True)); [exact Logic.I|trivial|]. reflexivity. Qed.
Print Assumptions C88_bitmaps.
(** What a label, a key, a set or an engine says is what the request itself said: of each part the last it said, wherever
    its steps fall among those of others. *)
Definition last_said {op X} (part : op -> option X) (d : X) (ops : list op) : X := fold_left (fun a o => match part o with Some x => x | None => a end) ops d.
Lemma alone_quiet {T op R} (act : op -> T -> T * list R) i o ops : (forall x, In x ops -> forall t, snd (act x t) = []) -> forall t,
  alone t act (Some t) (map (EUse i) ops ++ [EUse i o; ERelease i]) = snd (act o (fold_left (fun t x => fst (act x t)) ops t)).
Proof.
  intros Q t. generalize t at 1 as fresh. intros fresh. revert t. induction ops as [|x ops IH]; intros t; cbn [map app alone fold_left].
  - destruct (act o t) as [t' r]. cbn [alone snd]. apply app_nil_r.
  - pose proof (Q x (or_introl eq_refl) t) as E. destruct (act x t) as [t' r]. cbn [snd fst] in *. subst r. cbn [app]. apply IH. intros y Hy. apply Q. right. exact Hy.
Qed.
Lemma told_alone {T op R} (fresh : T) (act : op -> T -> T * list R) clean l w i pick ops o : isolated fresh act clean ->
  (forall j, orderly false (filter (mine j) l)) -> run fresh act clean start l = Some w ->
  filter (mine i) l = ENew i pick :: map (EUse i) ops ++ [EUse i o; ERelease i] -> (forall x, In x ops -> forall t, snd (act x t) = []) ->
  results_of i (w_log w) = snd (act o (fold_left (fun t x => fst (act x t)) ops fresh)).
Proof.
  intros H O Rn M Q. destruct (H l O) as (w' & Rn' & L). rewrite Rn in Rn'. injection Rn' as <-. rewrite L, M. cbn [alone]. apply alone_quiet. exact Q.
Qed.

Definition says_resource (o : label_op) : option Z := match o with LResource r => Some r | LReset => Some 0%Z | _ => None end.
Definition says_prefix (o : label_op) : option Z := match o with LPrefix p => Some p | LReset => Some 0%Z | _ => None end.
Definition says_key (o : label_op) : option string := match o with LKey k => Some k | LReset => Some ""%string | _ => None end.
Definition says_value (o : label_op) : option string := match o with LValue v => Some v | LReset => Some ""%string | _ => None end.
Theorem C88_label_text : forall l w i pick ops, (forall j, orderly false (filter (mine j) l)) -> run label_reset label_act label_clear start l = Some w ->
  filter (mine i) l = ENew i pick :: map (EUse i) ops ++ [EUse i LEncode; ERelease i] -> ~ In LEncode ops ->
  results_of i (w_log w) = [encode (Label (last_said says_resource 0%Z ops) (last_said says_prefix 0%Z ops) (last_said says_key ""%string ops) (last_said says_value ""%string ops))].
Proof.
  intros l w i pick ops O Rn M Q. rewrite (told_alone _ _ _ _ _ _ _ _ _ C88_labels O Rn M).
  2:{ intros x Hx [] . destruct x; try reflexivity. contradiction. }
  assert (forall ops r p k v, fold_left (fun t x => fst (label_act x t)) ops (Label r p k v) =
    Label (last_said says_resource r ops) (last_said says_prefix p ops) (last_said says_key k ops) (last_said says_value v ops)) as F.
  { clear. induction ops as [|x ops IH]; intros r p k v; [reflexivity|]. unfold last_said in *. cbn [fold_left]. destruct x; cbn [label_act fst label_clear says_resource says_prefix says_key says_value]; apply IH. }
  unfold label_reset. rewrite F. reflexivity.
Qed.
Print Assumptions C88_label_text.

Definition says_kind (o : skey_op) : option Z := match o with KResource r => Some r | KReset => Some 0%Z | _ => None end.
Definition says_id (o : skey_op) : option N := match o with KId n => Some n | KReset => Some 0 | _ => None end.
Theorem C88_key_text : forall l w i pick ops, (forall j, orderly false (filter (mine j) l)) -> run (0%Z, 0) skey_act skey_clear start l = Some w ->
  filter (mine i) l = ENew i pick :: map (EUse i) ops ++ [EUse i KEncode; ERelease i] -> ~ In KEncode ops -> ~ In KPrefix ops ->
  results_of i (w_log w) = [sample_key (last_said says_kind 0%Z ops) (last_said says_id 0 ops)].
Proof.
  intros l w i pick ops O Rn M Q Q'. rewrite (told_alone _ _ _ _ _ _ _ _ _ C88_keys O Rn M).
  2:{ intros x Hx t. destruct x; try reflexivity; contradiction. }
  assert (forall ops r n, fold_left (fun t x => fst (skey_act x t)) ops (r, n) = (last_said says_kind r ops, last_said says_id n ops)) as F.
  { clear. induction ops as [|x ops IH]; intros r n; [reflexivity|]. unfold last_said in *. cbn [fold_left]. destruct x; cbn [skey_act fst snd skey_clear says_kind says_id]; apply IH. }
  rewrite F. reflexivity.
Qed.
Print Assumptions C88_key_text.

(** A set: the key is everything written to it, the members are what the operations say. *)
Definition writes_key (o : bitmap_op) : string := match o with BWithKey k => k | _ => ""%string end.
Definition member_after (n : N) (ops : list bitmap_op) : Prop :=
  fold_left (fun P o => match o with BAdd m => P \/ n = m | BOr s => P \/ In n s | BAnd s => P /\ In n s | BClear => False | BLoad s => In n s | _ => P end) ops False.
Lemma bitmap_fold ops : forall b n (P : Prop), (In n (bm_set b) <-> P) ->
  (In n (bm_set (fold_left (fun t x => fst (bitmap_act x t)) ops b)) <->
   fold_left (fun P o => match o with BAdd m => P \/ n = m | BOr s => P \/ In n s | BAnd s => P /\ In n s | BClear => False | BLoad s => In n s | _ => P end) ops P).
Proof.
  induction ops as [|x ops IH]; intros b n P H; [exact H|]. cbn [fold_left]. apply IH. destruct x; cbn [bitmap_act fst bm_set]; try exact H; try reflexivity.
  - rewrite in_sadd, H. tauto.
  - rewrite in_sunion, H. tauto.
  - rewrite in_sinter, H. tauto.
Qed.
Lemma bitmap_key ops : forall b, bm_key (fold_left (fun t x => fst (bitmap_act x t)) ops b) = append (bm_key b) (String.concat "" (map writes_key ops)).
Proof.
  assert (forall s, append s "" = s) as E by (induction s; cbn; congruence).
  assert (forall a b c, append a (append b c) = append (append a b) c) as A by (induction a; intros; cbn; congruence).
  assert (forall x l, String.concat "" (x :: l) = append x (String.concat "" l)) as C by (intros x [|y l]; [cbn; rewrite E; reflexivity|reflexivity]).
  induction ops as [|x ops IH]; intros b; cbn [map]; [cbn; rewrite E; reflexivity|]. rewrite C. cbn [fold_left]. rewrite IH, A. f_equal.
  destruct x; cbn [bitmap_act fst bm_key writes_key]; rewrite ?E; reflexivity.
Qed.
Theorem C88_bitmap_says : forall l w i pick ops, (forall j, orderly false (filter (mine j) l)) -> run (Bitmap "" []) bitmap_act bitmap_clear start l = Some w ->
  filter (mine i) l = ENew i pick :: map (EUse i) ops ++ [EUse i BRead; ERelease i] -> ~ In BRead ops ->
  exists b, results_of i (w_log w) = [b] /\ bm_key b = String.concat "" (map writes_key ops) /\ forall n, In n (bm_set b) <-> member_after n ops.
Proof.
  intros l w i pick ops O Rn M Q. rewrite (told_alone _ _ _ _ _ _ _ _ _ C88_bitmaps O Rn M).
  2:{ intros x Hx t. destruct x; try reflexivity. contradiction. }
  eexists. split; [reflexivity|]. split; [apply bitmap_key|]. intros n. apply bitmap_fold. cbn. tauto.
Qed.
Print Assumptions C88_bitmap_says.

(** Times turned into view names. *)
Theorem C88_times : isolated zero_qt qt_act zero_bytes.
Proof.
  apply (clean_isolates _ _ _ (fun t => String.length t = 10%nat)); [reflexivity| |apply zero_bytes_ten].
  intros o t H. destruct o; cbn [qt_act fst]; try exact H; try (rewrite length_copy_part; lia). unfold qt_set. rewrite length_copy_into. exact H.
Qed.
Print Assumptions C88_times.
(** Merging of results. *)
Theorem C88_merges : forall h kvb A ikey imerge, isolated sorter_new (@sorter_act h kvb A ikey imerge) sorter_reset.
Proof. intros h kvb A ikey imerge. apply (clean_isolates _ _ _ (fun _ => True)); [exact Logic.I|trivial|]. intros [[] ? ?] _. reflexivity. Qed.
Print Assumptions C88_merges.
(** Columns of samples: as long as no request panics between appending rows and making the record; after such a panic
    (and a recover) the rows it left behind end up in another request's record. *)
Definition aborts {A} (o : schema_op A) : Prop := match o with SAbort _ => True | _ => False end.
Theorem C88_columns_partial : forall A, isolated_without (@aborts A) [] schema_act schema_put.
Proof.
  intros A. assert (dec : forall o : schema_op A, {aborts o} + {~ aborts o}) by (intros [r| |r]; [right|right|left]; cbn; tauto).
  apply (never_isolates _ dec _ _ _ (fun t => t = [])); [reflexivity| |trivial].
  intros [r| |r] t N ->; try reflexivity. destruct (N Logic.I).
Qed.
Print Assumptions C88_columns_partial.
Theorem C88_columns_refuted : ~ isolated [] (@schema_act nat) schema_put.
Proof.
  intros H. destruct (H [ENew 1 None; EUse 1 (SAbort [7%nat]); ERelease 1; ENew 2 (Some 0%nat); EUse 2 (SBuild [8%nat])]) as (w & Rn & L).
  - intros h. cbn [filter mine]. destruct (Nat.eqb_spec 1 h) as [<-|N]; [cbn; tauto|]. destruct (Nat.eqb_spec 2 h) as [<-|N']; cbn; tauto.
  - cbn in Rn. injection Rn as <-. specialize (L 2%nat). cbn in L. discriminate L.
Qed.
Print Assumptions C88_columns_refuted.
(** Rendered text and database keys. *)
Theorem C88_buffers : isolated EmptyString buffer_act buffer_clear.
Proof. apply (clean_isolates _ _ _ (fun _ => True)); [exact Logic.I|trivial|]. reflexivity. Qed.
Print Assumptions C88_buffers.
(** The text read from a buffer is what the request wrote, in order, since it last reset it. *)
Fixpoint written_after (sofar : string) (ops : list buffer_op) : string :=
  match ops with [] => sofar | WWrite s :: t => written_after (append sofar s) t | WReset :: t => written_after "" t | WString :: t => written_after sofar t end.
Theorem C88_buffer_text : forall l w i pick ops, (forall j, orderly false (filter (mine j) l)) -> run EmptyString buffer_act buffer_clear start l = Some w ->
  filter (mine i) l = ENew i pick :: map (EUse i) ops ++ [EUse i WString; ERelease i] -> ~ In WString ops ->
  results_of i (w_log w) = [written_after "" ops] /\
  (forall before texts, ops = before ++ WReset :: map WWrite texts \/ (before = [] /\ ops = map WWrite texts) -> results_of i (w_log w) = [String.concat "" texts]).
Proof.
  intros l w i pick ops O Rn M Q. rewrite (told_alone _ _ _ _ _ _ _ _ _ C88_buffers O Rn M).
  2:{ intros x Hx t. destruct x; try reflexivity. contradiction. }
  assert (F : forall ops b, fold_left (fun t x => fst (buffer_act x t)) ops b = written_after b ops).
  { clear. induction ops as [|[s| |] ops IH]; intros b; cbn [fold_left buffer_act fst written_after]; [reflexivity|apply IH..]. }
  cbn [buffer_act snd]. rewrite F. split; [reflexivity|]. intros before texts H.
  assert (A : forall b, written_after b (map WWrite texts) = append b (String.concat "" texts)).
  { clear. induction texts as [|s texts IH]; intros b; [cbn; rewrite append_nil_r; reflexivity|]. cbn [map written_after]. rewrite IH, append_assoc. f_equal. destruct texts; cbn; [apply append_nil_r|reflexivity]. }
  destruct H as [-> | [_ ->]]; [|rewrite A; reflexivity]. f_equal. assert (G : forall b, written_after b (before ++ WReset :: map WWrite texts) = written_after "" (map WWrite texts)).
  { clear. induction before as [|[s| |] before IH]; intros b; cbn [app written_after]; [reflexivity|apply IH..]. }
  rewrite G, A. reflexivity.
Qed.
Print Assumptions C88_buffer_text.

(** Script engines are not isolated: a global variable that a script sets is there in the next script that is given
    the same engine. *)
Theorem C88_engines_refuted : ~ isolated engine_new engine_act engine_reset.
Proof.
  intros H. destruct (H [ENew 1 None; EUse 1 (JSetGlobal "secret" "42"); ERelease 1; ENew 2 (Some 0%nat); EUse 2 (JGetGlobal "secret")]) as (w & Rn & L).
  - intros h. cbn [filter mine]. destruct (Nat.eqb_spec 1 h) as [<-|N]; [cbn; tauto|]. destruct (Nat.eqb_spec 2 h) as [<-|N']; cbn; tauto.
  - cbn in Rn. injection Rn as <-. specialize (L 2%nat). cbn in L. discriminate L.
Qed.
Print Assumptions C88_engines_refuted.
(** But for the globals they are: clock, output, scan function and request are the script's own. *)
Definition shown_fields (r : engine_result) : list (option nat * nat * option nat * option nat) := match r with RFields n w s q => [(n, w, s, q)] | RGlobal _ => [] end.
Theorem C88_engines_partial : isolated_up_to shown_fields engine_new engine_act engine_reset.
Proof.
  apply (sim_isolates _ _ _ _ (fun t u => (en_now t, en_output t, en_scan t, en_request t) = (en_now u, en_output u, en_scan u, en_request u))).
  - reflexivity.
  - intros o [n w s r g] [n' w' s' r' g'] H. cbn [en_now en_output en_scan en_request] in H. injection H as -> -> -> ->. destruct o; split; reflexivity.
  - reflexivity.
Qed.
Print Assumptions C88_engines_partial.
(** And they are what it set. *)
Definition sets_now (o : engine_op) : option (option nat) := match o with JNow f => Some (Some f) | _ => None end.
Definition sets_output (o : engine_op) : option nat := match o with JOutput f => Some f | _ => None end.
Definition sets_scan (o : engine_op) : option (option nat) := match o with JScan f => Some (Some f) | _ => None end.
Definition sets_request (o : engine_op) : option (option nat) := match o with JRequest f => Some (Some f) | _ => None end.
Definition quiet_engine (o : engine_op) : Prop := match o with JGetGlobal _ | JFields => False | _ => True end.
Theorem C88_engine_has_what_was_set : forall l w i pick ops, (forall j, orderly false (filter (mine j) l)) -> run engine_new engine_act engine_reset start l = Some w ->
  filter (mine i) l = ENew i pick :: map (EUse i) ops ++ [EUse i JFields; ERelease i] -> Forall quiet_engine ops ->
  flat_map shown_fields (results_of i (w_log w)) = [(last_said sets_now None ops, last_said sets_output 0%nat ops, last_said sets_scan None ops, last_said sets_request None ops)].
Proof.
  intros l w i pick ops O Rn M Q. destruct (C88_engines_partial l O) as (w' & Rn' & L). rewrite Rn in Rn'. injection Rn' as <-. rewrite L, M. cbn [alone].
  rewrite alone_quiet. 2:{ rewrite Forall_forall in Q. intros x Hx []. specialize (Q x Hx). destruct x; try reflexivity; destruct Q. }
  assert (forall ops n w s r g, exists g', fold_left (fun t x => fst (engine_act x t)) ops (Engine n w s r g) =
    Engine (last_said sets_now n ops) (last_said sets_output w ops) (last_said sets_scan s ops) (last_said sets_request r ops) g') as F.
  { clear. induction ops as [|x ops IH]; intros n w s r g; [eexists; reflexivity|]. unfold last_said in *. cbn [fold_left].
    destruct x; cbn [engine_act fst sets_now sets_output sets_scan sets_request]; apply IH. }
  unfold engine_new. destruct (F ops None 0%nat None None []) as (g' & ->). reflexivity.
Qed.
Print Assumptions C88_engine_has_what_was_set.

(** Two scans at the same time, one with a condition on the name, and a third that gets the first one's visitor. *)
Definition two_scans (d : data) : list (event visitor_op) :=
  [ENew 1 None; EUse 1 (VTimeRange 0 100); ENew 2 None; EUse 1 (VCompile [FBase PREFIX_NAME "up"]); EUse 2 (VTimeRange 0 50); EUse 1 (VVisit d); ERelease 1;
   ENew 3 (Some 0%nat); EForget 0; EUse 3 (VTimeRange 0 100); EUse 2 (VVisit d); EUse 3 (VVisit d); ERelease 3; ERelease 2].
Definition two_points : data :=
  DMetrics [RGroup "" None [SGroup "" None [Metric "up" "" "" (Some (MData KGauge 0 false [Point 10 [] "a"; Point 60 [] "b"])); Metric "down" "" "" (Some (MData KGauge 0 false [Point 70 [] "c"]))]]].
Example C88_example : (forall h, orderly false (filter (mine h) (two_scans two_points))) /\
  forall hash0, option_map (fun w => (List.length (w_pool w), map fst (w_log w), map (fun r => match r with (_, Some (DMetrics [RGroup _ _ [SGroup _ _ ms]])) => map m_name ms | _ => [] end) (w_log w)))
    (run visitor_new (visitor_act (fun s => N.of_nat (String.length s)) hash0) visitor_reset start (two_scans two_points)) =
  Some (2%nat, [1; 2; 3]%nat, [["up"]; ["up"]; ["up"; "down"]]%string).
Proof.
  split; [|intros; reflexivity]. intros h. unfold two_scans. cbn [filter mine].
  destruct (Nat.eqb_spec 1 h) as [<-|N]; [cbn; tauto|]. destruct (Nat.eqb_spec 2 h) as [<-|N']; [cbn; tauto|]. destruct (Nat.eqb_spec 3 h) as [<-|N'']; cbn; tauto.
Qed.
(** A label made while another request resets and fills another one that was used before. *)
Definition two_labels : list (event label_op) :=
  [ENew 1 None; EUse 1 (LKey "k"); ENew 2 None; EUse 2 (LKey "other"); EUse 1 (LResource 2); EUse 2 (LValue "x"); ERelease 2; ENew 3 (Some 0%nat); EUse 1 (LPrefix 7); EUse 3 (LKey "y");
   EUse 1 (LValue "v"); EUse 1 LEncode; ERelease 1; EUse 3 LEncode; ERelease 3].
Example C88_label_example : (forall h, orderly false (filter (mine h) two_labels)) /\
  filter (mine 1) two_labels = ENew 1 None :: map (EUse 1) [LKey "k"; LResource 2; LPrefix 7; LValue "v"] ++ [EUse 1 LEncode; ERelease 1] /\
  option_map (fun w => (results_of 1 (w_log w), results_of 3 (w_log w))) (run label_reset label_act label_clear start two_labels) = Some ([encode (Label 2 7 "k" "v")], [encode (Label 0 0 "y" "")]).
Proof.
  split; [|split; reflexivity]. intros h. unfold two_labels. cbn [filter mine].
  destruct (Nat.eqb_spec 1 h) as [<-|N]; [cbn; tauto|]. destruct (Nat.eqb_spec 2 h) as [<-|N']; [cbn; tauto|]. destruct (Nat.eqb_spec 3 h) as [<-|N'']; cbn; tauto.
Qed.
