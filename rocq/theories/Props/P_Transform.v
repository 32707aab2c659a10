(** C17-C21: what is recorded about a sample when it is processed. *)
From Verif.Model Require Import Base Labels Otlp Transform KV Slice Sequence Translate.
From Verif.Spec Require Import Indexing Translator.
From Verif.Proofs Require Import BaseFacts LabelsFacts TransformFacts TransformLaws TranslatorFacts.

Lemma process_samples_nth {S} (tr : S -> string -> S * N) l : forall c c' fs i s f,
  process_samples tr c l = (c', fs) -> nth_error l i = Some s -> nth_error fs i = Some f ->
  exists c0 c1, process_sample tr c0 s = (c1, f).
Proof.
  induction l as [|a l IH]; intros c c' fs i s f E H1 H2; cbn [process_samples] in E.
  - destruct i; discriminate.
  - destruct (process_sample tr c a) as [c1 f1] eqn:E1. destruct (process_samples tr c1 l) as [c2 fs2] eqn:E2.
    apply pair_inj in E as [<- <-]. destruct i as [|i]; cbn in H1, H2.
    + apply some_inj in H1, H2. subst. eauto.
    + eapply IH; eauto.
Qed.
Lemma filed_times {S} (tr : S -> string -> S * N) l c c' fs i s f :
  process_samples tr c l = (c', fs) -> nth_error l i = Some s -> nth_error fs i = Some f ->
  f_min f = fold_left fmin (map fst (record_times (smp_data s))) 0 /\
  f_max f = fold_left N.max (map snd (record_times (smp_data s))) 0.
Proof.
  intros E H1 H2. destruct (process_samples_nth _ _ _ _ _ _ _ _ E H1 H2) as (c0 & c1 & E0).
  destruct (process_sample_spec tr c0 s) as (c2 & E2 & _). rewrite E2 in E0. apply pair_inj in E0 as [_ <-].
  cbn [f_min f_max]. rewrite !fold_time. auto.
Qed.

(** C17.  Whatever the translator does and whatever the context did before.  [record_times] lists
    (time, time) for data points and log records and (start, end) for spans. *)
Theorem C17_time_span_exact : forall S (tr : S -> string -> S * N) c c' l fs i s f,
  process_samples tr c l = (c', fs) -> nth_error l i = Some s -> nth_error fs i = Some f ->
  (forall t, In t (record_times (smp_data s)) -> fst t <> 0) ->
  match record_times (smp_data s) with
  | [] => f_min f = 0 /\ f_max f = 0
  | ts => is_min (f_min f) (map fst ts) /\ is_max (f_max f) (map snd ts)
  end.
Proof.
  intros S tr c c' l fs i s f E H1 H2 Hz. destruct (filed_times _ _ _ _ _ _ _ _ E H1 H2) as [-> ->].
  destruct (record_times (smp_data s)) as [|t ts] eqn:R; [split; reflexivity|]. split.
  - apply fold_min_nonzero; [discriminate|]. intros x Hx. apply in_map_iff in Hx as (t' & <- & Ht). apply Hz, Ht.
  - pose proof (fold_max (map snd (t :: ts)) 0) as [M1 M2]. split.
    + destruct M1 as [M1|M1]; [|exact M1]. rewrite <- M1 in M2.
      rewrite <- M1. left. assert (snd t <= 0) by (apply M2; right; left; reflexivity). lia.
    + intros x Hx. apply M2. right. exact Hx.
Qed.
Print Assumptions C17_time_span_exact.

(** Corollary: the order of the records does not matter. *)
Theorem C17_time_span_order_independent : forall S (tr : S -> string -> S * N) c1 c1' l1 fs1 i1 s1 f1 c2 c2' l2 fs2 i2 s2 f2,
  process_samples tr c1 l1 = (c1', fs1) -> nth_error l1 i1 = Some s1 -> nth_error fs1 i1 = Some f1 ->
  process_samples tr c2 l2 = (c2', fs2) -> nth_error l2 i2 = Some s2 -> nth_error fs2 i2 = Some f2 ->
  Permutation (record_times (smp_data s1)) (record_times (smp_data s2)) ->
  (forall t, In t (record_times (smp_data s1)) -> fst t <> 0) ->
  f_min f1 = f_min f2 /\ f_max f1 = f_max f2.
Proof.
  intros S tr c1 c1' l1 fs1 i1 s1 f1 c2 c2' l2 fs2 i2 s2 f2 E1 A1 B1 E2 A2 B2 P Hz.
  pose proof (C17_time_span_exact _ _ _ _ _ _ _ _ _ E1 A1 B1 Hz) as T1.
  assert (Hz2 : forall t, In t (record_times (smp_data s2)) -> fst t <> 0).
  { intros t Ht. apply Hz. eapply Permutation_in; [symmetry; exact P|exact Ht]. }
  pose proof (C17_time_span_exact _ _ _ _ _ _ _ _ _ E2 A2 B2 Hz2) as T2.
  destruct (record_times (smp_data s1)) as [|t ts] eqn:R1.
  - apply Permutation_nil in P. rewrite P in T2. destruct T1, T2. split; congruence.
  - destruct (record_times (smp_data s2)) as [|u us] eqn:R2; [apply Permutation_sym, Permutation_nil in P; discriminate|].
    destruct T1 as [[M1 M2] [X1 X2]], T2 as [[M3 M4] [X3 X4]].
    pose proof (Permutation_map fst P) as Pf. pose proof (Permutation_map snd P) as Ps. split.
    + apply N.le_antisymm; [apply M2; eapply Permutation_in; [symmetry; exact Pf|exact M3]|apply M4; eapply Permutation_in; [exact Pf|exact M1]].
    + apply N.le_antisymm; [apply X4; eapply Permutation_in; [exact Ps|exact X1]|apply X2; eapply Permutation_in; [symmetry; exact Ps|exact X3]].
Qed.
Print Assumptions C17_time_span_order_independent.

(** Documented labels never use the marker's prefix. *)
Lemma documented_prefix d lbl : documented_label d lbl -> l_prefix lbl <> 0%Z.
Proof.
  assert (G : forall A r (il : A -> label -> Prop) gs lbl, (forall a l, il a l -> l_prefix l <> 0%Z) ->
    group_label r il gs lbl -> l_prefix lbl <> 0%Z).
  { intros A r il gs l0 Hil (g & _ & [[[_ ->]|(x & k & v & _ & _ & ->)]|(sg & _ & [Hs|(it & _ & Hit)])]); try discriminate.
    - destruct Hs as [[_ ->]|(x & _ & [[_ ->]|[[_ ->]|(k & v & _ & ->)]])]; discriminate.
    - eapply Hil; eauto. }
  destruct d; cbn [documented_label].
  - apply G. intros m l0 [->|(d & p & _ & _ & (k & v & _ & ->))]; discriminate.
  - apply G. intros m l0 [[_ ->]|[(b & _ & ->)|[(b & _ & ->)|(b & _ & ->)]]]; discriminate.
  - apply G. intros m l0 [[_ ->]|[(k & v & _ & ->)|[(b & _ & ->)|(b & _ & ->)]]]; discriminate.
  - intros [].
Qed.

(** Concrete payloads used below. *)
Definition ex_points (ts : list N) : data :=
  DMetrics [RGroup "" (Some (Resource [KV "service.name" (Some (AVString "api"))] ""))
    [SGroup "" (Some (Scope "lib" "" [] "")) [Metric "up" "" "" (Some (MData KGauge 0 false (map (fun t => Point t [] "") ts)))]]].
Definition ex_logs : data :=
  DLogs [RGroup "" None [SGroup "s" None [LogRecord 7 "INFO" [KV "k" (Some (AVString "v")); KV "n" (Some (AVOther "1"))] None (Some (String "171" "")) ""]]].
(** A translator that numbers labels in order of appearance. *)
Definition count_tr (s : list string) (k : string) : list string * N :=
  let fix go (n : N) (l : list string) := match l with
    | [] => (s ++ [k], n)
    | x :: t => if String.eqb x k then (s, n) else go (n + 1) t end in go 0 s.

Example C17_nonvacuous :
  map (fun f => (f_min f, f_max f)) (snd (process_samples count_tr (new_ctx []) [Sample 0 (ex_points [5; 3; 9]); Sample 1 ex_logs]))
  = [(3, 9); (7, 7)].
Proof. vm_compute. reflexivity. Qed.

(** C18 is false: 0 is treated as "not set yet" and as a value at the same time, so a zero time stamp
    makes the minimum forget everything before it. *)
Theorem C18_zero_timestamps_refuted :
  exists s f, snd (process_samples count_tr (new_ctx []) [s]) = [f] /\
    is_min 5 (filter (fun t => negb (t =? 0)) (map fst (record_times (smp_data s)))) /\ f_min f = 7.
Proof.
  exists (Sample 0 (ex_points [5; 0; 7])). eexists. split; [vm_compute; reflexivity|]. split; [|reflexivity].
  vm_compute. split; [auto|]. intros x [<-|[<-|[]]]; discriminate.
Qed.
Print Assumptions C18_zero_timestamps_refuted.

(** What the code computes, exactly: the minimum of the time stamps after the last zero one, and 0 when
    the last one is zero. *)
Theorem C18_zero_timestamps_exact : forall S (tr : S -> string -> S * N) c c' l fs i s f a b,
  process_samples tr c l = (c', fs) -> nth_error l i = Some s -> nth_error fs i = Some f ->
  map fst (record_times (smp_data s)) = a ++ 0 :: b -> (forall t, In t b -> t <> 0) ->
  match b with [] => f_min f = 0 | _ => is_min (f_min f) b end.
Proof.
  intros S tr c c' l fs i s f a b E H1 H2 R Hz. destruct (filed_times _ _ _ _ _ _ _ _ E H1 H2) as [-> _].
  rewrite R, fold_min_zero. destruct b as [|x b]; [reflexivity|]. apply fold_min_nonzero; [discriminate|exact Hz].
Qed.
Print Assumptions C18_zero_timestamps_exact.

(** The property holds when the zero time stamps all come before the others. *)
Theorem C18_zero_timestamps_partial : forall S (tr : S -> string -> S * N) c c' l fs i s f a b,
  process_samples tr c l = (c', fs) -> nth_error l i = Some s -> nth_error fs i = Some f ->
  map fst (record_times (smp_data s)) = a ++ b -> (forall t, In t a -> t = 0) -> (forall t, In t b -> t <> 0) -> b <> [] ->
  is_min (f_min f) (filter (fun t => negb (t =? 0)) (map fst (record_times (smp_data s)))).
Proof.
  intros S tr c c' l fs i s f a b E H1 H2 R Ha Hb Hne. destruct (filed_times _ _ _ _ _ _ _ _ E H1 H2) as [-> _].
  rewrite R, fold_left_app, (fold_min_zeros a 0 Ha eq_refl), filter_app.
  replace (filter (fun t => negb (t =? 0)) a) with (@nil N).
  2:{ symmetry. clear -Ha. induction a as [|x a IH]; [reflexivity|]. cbn [filter]. rewrite (Ha x) by (left; reflexivity). apply IH. intros; apply Ha; right; auto. }
  replace (filter (fun t => negb (t =? 0)) b) with b.
  2:{ symmetry. clear -Hb. induction b as [|x b IH]; [reflexivity|]. cbn [filter].
      assert (x <> 0) by (apply Hb; left; reflexivity). destruct (N.eqb_spec x 0); [congruence|]. cbn [negb]. f_equal. apply IH. intros; apply Hb; right; auto. }
  apply fold_min_nonzero; auto.
Qed.
Print Assumptions C18_zero_timestamps_partial.
Example C18_nonvacuous :
  map f_min (snd (process_samples count_tr (new_ctx []) [Sample 0 (ex_points [0; 0; 7; 6]); Sample 1 (ex_points [5; 0])])) = [6; 0].
Proof. vm_compute. reflexivity. Qed.

(** C19.  For every translator obeying C06-C08's laws: the columns recorded for sample i are exactly the
    ids (in the final translation table) of the documented labels of its payload, plus one marker. *)
Theorem C19_documented_labels_indexed : forall I inv, tr_stable I inv ->
  forall b (c c' : ctx (ti_state I)) l fs i s f,
  inv (cost l + b)%nat (c_tr c) ->
  process_samples (ti_translate I) c l = (c', fs) -> nth_error l i = Some s -> nth_error fs i = Some f ->
  forall col, In col (f_cols f) <->
    exists lbl, (documented_label (smp_data s) lbl \/ exists r, lbl = Label r PREFIX_UNKNOWN "" "" /\ r = last_signal (l_resource (c_label c)) (firstn i l)) /\
      ti_find I (c_tr c') (encode lbl) = Some col.
Proof.
  intros I inv L b c c' l fs i s f Hi E H1 H2 col.
  destruct (process_samples_laws I inv L l b c c' fs Hi E) as (_ & _ & _ & _ & H).
  destruct (H i s f H1 H2) as (_ & _ & _ & C & _). rewrite C. unfold ids_of, ctx_signal. split.
  - intros (lbl & [D| ->] & F); [exists lbl; auto|]. eexists. split; [right; eexists; split; reflexivity|exact F].
  - intros (lbl & [D|(r & -> & ->)] & F); [exists lbl; auto|]. eexists. split; [right; reflexivity|exact F].
Qed.
Print Assumptions C19_documented_labels_indexed.

(** Completeness half spelled out, and distinct documented labels with distinct encodings get distinct
    columns. *)
Theorem C19_each_label_has_its_column : forall I inv, tr_laws I inv ->
  forall b (c c' : ctx (ti_state I)) l fs i s f,
  inv (cost l + b)%nat (c_tr c) ->
  process_samples (ti_translate I) c l = (c', fs) -> nth_error l i = Some s -> nth_error fs i = Some f ->
  forall lbl, documented_label (smp_data s) lbl ->
    exists col, ti_find I (c_tr c') (encode lbl) = Some col /\ In col (f_cols f) /\
      forall lbl', ti_find I (c_tr c') (encode lbl') = Some col -> encode lbl' = encode lbl.
Proof.
  intros I inv L b c c' l fs i s f Hi E H1 H2 lbl D.
  destruct (process_samples_laws I inv L l b c c' fs Hi E) as (Hi' & _ & _ & _ & H).
  destruct (H i s f H1 H2) as (_ & _ & _ & C & T). destruct (T lbl (or_introl D)) as [col F].
  exists col. split; [exact F|]. split; [apply C; exists lbl; auto|].
  intros lbl' F'. eapply (tl_inj _ _ L); eauto.
Qed.
Print Assumptions C19_each_label_has_its_column.

(** The laws hold of the persistent translator (with a prefix slice without spare capacity), so C19 does
    too: here for a context made by NewContext on an empty store. *)
Theorem C19_documented_labels_indexed_kv : forall grow p l c' fs i s f,
  (forall n, n <= grow n)%nat -> N.of_nat (cost l) < 2 ^ 50 ->
  let I := kv_impl p grow in
  let s0 := fst (tr_step (TrConfig grow p (String.length p)) (TrState [] None) (TOpen false)) in
  process_samples (ti_translate I) (new_ctx s0) l = (c', fs) -> nth_error l i = Some s -> nth_error fs i = Some f ->
  forall col, In col (f_cols f) <->
    exists lbl, (documented_label (smp_data s) lbl \/ lbl = Label (last_signal 0 (firstn i l)) PREFIX_UNKNOWN "" "") /\
      ti_find I (c_tr c') (encode lbl) = Some col.
Proof.
  intros grow p l c' fs i s f Hg Hc I s0 E H1 H2 col.
  rewrite (C19_documented_labels_indexed I (kv_inv p) (kv_laws p grow Hg) 0%nat (new_ctx s0) c' l fs i s f); auto.
  - split; intros (lbl & [D|D] & F); exists lbl; (split; [|exact F]); auto.
    + destruct D as (r & -> & ->). auto.
    + right. eexists; split; [exact D|reflexivity].
  - cbn [c_tr new_ctx]. apply (kv_fresh p grow Hg); [reflexivity|]. rewrite Nat.add_0_r. exact Hc.
Qed.
Print Assumptions C19_documented_labels_indexed_kv.

Example C19_nonvacuous :
  let r := process_samples count_tr (new_ctx []) [Sample 0 (ex_points [5]); Sample 1 ex_logs] in
  c_tr (fst r) = ["0:0:"; "1:1:service.name=api"; "1:3:lib"; "1:6:up"; "1:0:"; "3:2:s"; "3:11:INFO"; "3:7:k=v"; "3:9:ab"]
  /\ map f_cols (snd r) = [[0; 1; 2; 3]; [4; 5; 6; 7; 8]].
Proof. vm_compute. split; reflexivity. Qed.

(** C20, exactly: the marker of signal [r] is among the labels of sample i iff [r] is the signal of the
    last preceding sample with a payload (the initial one for the first): the marker is written before
    the context learns the signal. *)
Theorem C20_marker_exact : forall I inv, tr_laws I inv ->
  forall b (c c' : ctx (ti_state I)) l fs i s f r,
  inv (cost l + b)%nat (c_tr c) ->
  process_samples (ti_translate I) c l = (c', fs) -> nth_error l i = Some s -> nth_error fs i = Some f ->
  (exists col, ti_find I (c_tr c') (encode (Label r PREFIX_UNKNOWN "" "")) = Some col /\ In col (f_cols f))
  <-> r = last_signal (l_resource (c_label c)) (firstn i l).
Proof.
  intros I inv L b c c' l fs i s f r Hi E H1 H2.
  destruct (process_samples_laws I inv L l b c c' fs Hi E) as (Hi' & _ & _ & _ & H).
  destruct (H i s f H1 H2) as (_ & _ & _ & C & T). split.
  - intros (col & F & Hc). apply C in Hc as (lbl & Hl & F').
    assert (EE : encode lbl = encode (Label r PREFIX_UNKNOWN "" "")) by (eapply (tl_inj _ _ L); eauto).
    apply encode_split in EE as (E1 & E2 & _). destruct Hl as [D|D].
    + exfalso. exact (documented_prefix (smp_data s) lbl D E2).
    + subst lbl. cbn [l_resource] in E1. symmetry. exact E1.
  - intros ->. destruct (T _ (or_intror eq_refl)) as [col F]. exists col. split; [exact F|].
    apply C. eexists. split; [right; reflexivity|exact F].
Qed.
Print Assumptions C20_marker_exact.

(** C20 is false: on a fresh server the first sample of every signal misses the marker of its signal (it
    carries "0:0:"), so a scan without filters cannot find it. *)
Theorem C20_every_sample_marked_refuted : forall I inv, tr_laws I inv ->
  forall b s0 c' s l f fs,
  inv (cost (s :: l) + b)%nat s0 -> smp_data s <> DNone ->
  process_samples (ti_translate I) (new_ctx s0) (s :: l) = (c', f :: fs) ->
  forall col, ti_find I (c_tr c') (encode (Label (signal_of (smp_data s)) PREFIX_UNKNOWN "" "")) = Some col ->
  ~ In col (f_cols f).
Proof.
  intros I inv L b s0 c' s l f fs Hi Hs E col F Hc.
  pose proof (C20_marker_exact I inv L b (new_ctx s0) c' (s :: l) (f :: fs) 0%nat s f (signal_of (smp_data s)) Hi E eq_refl eq_refl) as [H _].
  assert (Q : signal_of (smp_data s) = 0%Z) by (apply H; exists col; auto).
  destruct (smp_data s); try discriminate. congruence.
Qed.
Print Assumptions C20_every_sample_marked_refuted.

(** It holds for every sample that directly follows a sample of its own signal. *)
Theorem C20_every_sample_marked_partial : forall I inv, tr_laws I inv ->
  forall b (c c' : ctx (ti_state I)) l fs i s0 s f,
  inv (cost l + b)%nat (c_tr c) ->
  process_samples (ti_translate I) c l = (c', fs) ->
  nth_error l i = Some s0 -> nth_error l (S i) = Some s -> nth_error fs (S i) = Some f ->
  smp_data s0 <> DNone -> signal_of (smp_data s0) = signal_of (smp_data s) ->
  exists col, ti_find I (c_tr c') (encode (Label (signal_of (smp_data s)) PREFIX_UNKNOWN "" "")) = Some col /\ In col (f_cols f).
Proof.
  intros I inv L b c c' l fs i s0 s f Hi E H0 H1 H2 Hd Hs.
  apply (C20_marker_exact I inv L b c c' l fs (S i) s f (signal_of (smp_data s)) Hi E H1 H2).
  rewrite <- Hs. clear -H0 Hd. revert i H0. generalize (l_resource (c_label c)) as r. induction l as [|a l IH]; intros r [|i] H0; try discriminate.
  - cbn in H0. apply some_inj in H0. subst a. unfold last_signal. cbn. destruct (smp_data s0); try reflexivity. congruence.
  - change (firstn (S (S i)) (a :: l)) with (a :: firstn (S i) l). unfold last_signal. cbn [fold_left]. apply IH. exact H0.
Qed.
Print Assumptions C20_every_sample_marked_partial.

Example C20_nonvacuous : exists c f1 f2,
  process_samples count_tr (new_ctx []) [Sample 0 ex_logs; Sample 1 ex_logs] = (c, [f1; f2]) /\
  nth_error (c_tr c) 5 = Some "3:0:" /\ ~ In 5 (f_cols f1) /\ In 5 (f_cols f2).
Proof.
  do 3 eexists. split; [vm_compute; reflexivity|]. split; [reflexivity|]. split; [intros H; apply in_smem in H; discriminate H|apply in_smem; reflexivity].
Qed.

(** C21: two arbitrary contexts (any earlier history, any state of the translation table) record the same
    time span and the same labels, the marker excepted. *)
Theorem C21_independent_of_history : forall I inv, tr_laws I inv ->
  forall b1 b2 (c1 c2 c1' c2' : ctx (ti_state I)) s f1 f2,
  inv (cost [s] + b1)%nat (c_tr c1) -> inv (cost [s] + b2)%nat (c_tr c2) ->
  process_sample (ti_translate I) c1 s = (c1', f1) -> process_sample (ti_translate I) c2 s = (c2', f2) ->
  f_id f1 = f_id f2 /\ f_min f1 = f_min f2 /\ f_max f1 = f_max f2 /\
  forall lbl, l_prefix lbl <> PREFIX_UNKNOWN ->
    ((exists col, ti_find I (c_tr c1') (encode lbl) = Some col /\ In col (f_cols f1)) <->
     (exists col, ti_find I (c_tr c2') (encode lbl) = Some col /\ In col (f_cols f2))).
Proof.
  intros I inv L b1 b2 c1 c2 c1' c2' s f1 f2 Hi1 Hi2 E1 E2.
  assert (W : (cost [s] = S (List.length (L_data (smp_data s))))%nat) by (unfold cost; cbn; lia).
  rewrite W in *.
  destruct (process_sample_laws I inv L _ _ _ _ _ Hi1 E1) as (J1 & _ & (A1 & B1 & _ & D1 & T1) & _ & _).
  destruct (process_sample_laws I inv L _ _ _ _ _ Hi2 E2) as (J2 & _ & (A2 & B2 & _ & D2 & T2) & _ & _).
  rewrite <- B2 in B1. apply pair_inj in B1 as [-> ->]. rewrite A1, A2. repeat split; auto; intros (col & F & Hc).
  - apply D1 in Hc as (l' & Hl & F'). assert (EE : encode l' = encode lbl) by exact (tl_inj _ _ L _ _ _ _ _ J1 F' F).
    destruct Hl as [Hl| ->]; [|exfalso; apply H; apply encode_split in EE as (_ & <- & _); reflexivity].
    destruct (T2 l' (or_introl Hl)) as [n Hn]. exists n. rewrite <- EE. split; [exact Hn|]. apply D2. exists l'. auto.
  - apply D2 in Hc as (l' & Hl & F'). assert (EE : encode l' = encode lbl) by exact (tl_inj _ _ L _ _ _ _ _ J2 F' F).
    destruct Hl as [Hl| ->]; [|exfalso; apply H; apply encode_split in EE as (_ & <- & _); reflexivity].
    destruct (T1 l' (or_introl Hl)) as [n Hn]. exists n. rewrite <- EE. split; [exact Hn|]. apply D1. exists l'. auto.
Qed.
Print Assumptions C21_independent_of_history.
Example C21_nonvacuous :
  let c0 := new_ctx ["9:9:"] in
  let r1 := process_sample count_tr c0 (Sample 1 (ex_points [4; 6])) in
  let r2 := process_sample count_tr (fst (process_sample count_tr c0 (Sample 0 ex_logs))) (Sample 1 (ex_points [4; 6])) in
  (f_min (snd r1), f_max (snd r1)) = (4, 6) /\ (f_min (snd r2), f_max (snd r2)) = (4, 6) /\
  f_cols (snd r1) = [1; 2; 3; 4] /\ f_cols (snd r2) = [6; 7; 8; 9].
Proof. vm_compute. repeat split; reflexivity. Qed.
