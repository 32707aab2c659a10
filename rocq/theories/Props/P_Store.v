(** C28, C34-C42: saving and scanning, end to end (internal/store).  The translator is any implementation
    satisfying the laws of Spec/Translator.v; [translator_fits] below says the real one does. *)
From Verif.Model Require Import Base Labels Calendar View Otlp Transform Batch Rows Shards Dataframe Collapse Store Sequence Translate.
From Verif.Spec Require Import Indexing Translator Frames Saves Sets.
From Verif.Proofs Require Import BaseFacts LabelsFacts CalendarFacts ViewFacts TransformFacts TransformLaws TranslatorFacts BatchFacts RowsFacts ShardsFacts DataframeFacts StoreFacts ScanFacts ListTranslator.
From Verif.Props Require Import P_Labels P_Time P_Transform P_Shards P_Dataframe.
Open Scope N_scope.

(* ------------------------------------------------------------------ vocabulary *)
(** A possible life [es] of a store that starts empty: saves (of samples with increasing ids), crashes
    anywhere in them, restarts; with room in the 64 bit column ids. *)
Definition history (I : tr_impl) (inv : nat -> ti_state I -> Prop) (s0 : ti_state I) (es : list event) : Prop :=
  inv (events_cost es) s0 /\ possible I (new_store I s0) es /\ increasing (given es) /\
  forall s, In s (given es) -> smp_id s < 2^44 - 1.
Definition after (I : tr_impl) (s0 : ti_state I) (es : list event) : store I := run I (new_store I s0) es.
Definition flushes (I : tr_impl) (s0 : ti_state I) (es : list event) : list flush := map p_flush (trace I (new_store I s0) es).
(** The sample was given to a save that returned without error, at some time ... *)
Definition kept (I : tr_impl) (s0 : ti_state I) (es : list event) (s : sample) : Prop :=
  exists es1 l ch es2, es = es1 ++ ESave l ch :: es2 /\ In s l /\ snd (save I (after I s0 es1) l ch) = true.
(** ... and the process has not restarted since. *)
Definition saved_now (I : tr_impl) (s0 : ti_state I) (es : list event) (s : sample) : Prop :=
  exists es1 l ch es2, es = es1 ++ ESave l ch :: es2 /\ In s l /\
    snd (save I (after I s0 es1) l ch) = true /\ existsb is_restart es2 = false.
(** The databases of all shards that hold labels of the payload, or a label of a whole signal, are open. *)
Definition opened (I : tr_impl) (st : store I) (d : data) : Prop :=
  forall l c, documented_label d l \/ l_prefix l = PREFIX_UNKNOWN -> ti_find I (st_tr st) (encode l) = Some c -> In (c / 2^20) (sh_open (st_shards st)).
(** The sample was given to a save that returned without error, and if the process has restarted since, the
    shards of its labels have been opened again (see C98). *)
Definition saved (I : tr_impl) (s0 : ti_state I) (es : list event) (s : sample) : Prop :=
  saved_now I s0 es s \/ kept I s0 es s /\ opened I (after I s0 es) (smp_data s).
(** All asked labels have their columns in one shard (always so below 2^20 different labels). *)
Definition one_shard (I : tr_impl) (st : store I) (sc : scan) : Prop :=
  forall l l' c c', asks sc l -> asks sc l' -> ti_find I (st_tr st) (encode l) = Some c -> ti_find I (st_tr st) (encode l') = Some c' ->
    c / 2^20 = c' / 2^20.
(** In view [v] the sample's row number is its id: the view begins with sample 0, or the sample was not
    part of the first flush of the view (see C29 for the other samples). *)
Definition aligned (fls : list flush) (v : string) (s : sample) : Prop :=
  first_id (view_history v fls) = 0 \/ in_first (view_history v fls) (smp_id s) = false.
(** The iteration order of a map of columns grouped by shard. *)
Definition some_order (order : nset -> list (N * list N)) : Prop := forall cols, visits (order cols) cols.
Definition signals : list Z := [RESOURCE_METRICS; RESOURCE_TRACES; RESOURCE_LOGS].

Theorem translator_fits : forall prefix grow, (forall n, (n <= grow n)%nat) -> tr_laws (kv_impl prefix grow) (kv_inv prefix).
Proof. exact kv_laws. Qed.

Section Lives.
Context (I : tr_impl) (inv : nat -> ti_state I -> Prop) (L : tr_stable I inv) (s0 : ti_state I) (es : list event).
Hypothesis HI : history I inv s0 es.
Notation st := (after I s0 es).
Notation ps := (trace I (new_store I s0) es).
Lemma hist_inv : Inv I inv 0 st ps.
Proof. destruct HI as (H1 & H2 & _). apply (life I inv L 0 s0 es); [rewrite Nat.add_0_r; exact H1|exact H2]. Qed.
Lemma hist_samples : all_samples (map p_flush ps) = given es.
Proof.
  destruct HI as (H1 & H2 & _). apply (trace_samples I inv L es 0 (new_store I s0) []); [|exact H2]. apply new_store_inv. rewrite Nat.add_0_r. exact H1.
Qed.
Lemma hist_inc : increasing (all_samples (map p_flush ps)).
Proof. rewrite hist_samples. apply HI. Qed.
Lemma hist_small : forall s, In s (all_samples (map p_flush ps)) -> smp_id s < 2^44 - 1.
Proof. rewrite hist_samples. apply HI. Qed.

(** What a successful save leaves behind. *)
Lemma saved_filing s : saved I s0 es s -> exists x g, In x ps /\ In g (p_filings x) /\ g_sample g = s /\
  (forall col, In col (f_cols (g_filed g)) -> In (col / 2^20) (p_shards x) /\ In (col / 2^20) (sh_open (st_shards st))) /\
  (forall v, In v (views_of g) -> reached v (p_flush x) = true).
Proof.
  intros Sv. assert (K : exists es1 l ch es2, es = es1 ++ ESave l ch :: es2 /\ In s l /\ snd (save I (after I s0 es1) l ch) = true /\ (existsb is_restart es2 = false \/ opened I st (smp_data s))).
  { destruct Sv as [(es1 & l & ch & es2 & E & Hs & OK & NR)|[(es1 & l & ch & es2 & E & Hs & OK) Op]]; exists es1, l, ch, es2; auto. }
  clear Sv. destruct K as (es1 & l & ch & es2 & E & Hs & OK & NR). destruct HI as (H1 & H2 & _).
  pose proof H1 as H1'. rewrite E in H2, H1. rewrite events_cost_app, events_cost_cons in H1. apply possible_app in H2 as [P1 [P2 P3]].
  assert (B1 : Inv I inv (cost l + (events_cost es2 + 0)) (after I s0 es1) (trace I (new_store I s0) es1)).
  { apply (life I inv L _ s0 es1); [|exact P1]. rewrite Nat.add_0_r. exact H1. }
  destruct (save_inv I inv L _ _ _ _ _ B1 P2) as (B2 & X & O & Full).
  set (x := past_of I (after I s0 es1) l ch) in *. destruct (Full OK) as [W CS].
  assert (EP : ps = trace I (new_store I s0) es1 ++ x :: trace I (step I (after I s0 es1) (ESave l ch)) es2).
  { rewrite E, trace_app. cbn [trace app]. reflexivity. }
  assert (Hx : In x ps) by (rewrite EP; apply in_app_iff; right; left; reflexivity).
  assert (Hg : exists g, In g (p_filings x) /\ g_sample g = s).
  { assert (M : map g_sample (p_filings x) = l).
    { unfold x, past_of. cbn [p_filings]. destruct (process_samples (ti_translate I) (st_ctx (after I s0 es1)) l) as [c fs] eqn:EPs. cbn [snd].
      assert (It : inv (cost l + (events_cost es2 + 0)) (c_tr (st_ctx (after I s0 es1)))) by apply B1.
      destruct (process_samples_laws I inv L l _ _ _ _ It EPs) as (_ & _ & _ & LEN & _). apply filings_samples, LEN. }
    rewrite <- M in Hs. apply in_map_iff in Hs as (g & Eg & Hg). eauto. }
  destruct Hg as (g & Hg & Eg). exists x, g. split; [exact Hx|]. split; [exact Hg|]. split; [exact Eg|]. split.
  - intros col Hc. specialize (CS g col Hg Hc). unfold shard_of in CS. rewrite sw_val in CS. split; [exact CS|]. destruct NR as [NR|Op].
    2:{ apply (filing_cols I inv 0 st ps hist_inv g col (proj2 (in_all_filings ps g) (ex_intro _ x (conj Hx Hg)))) in Hc as (l' & Hl & F). apply (Op l' col); [|exact F].
        destruct Hl as [Hl| ->]; [left; rewrite <- Eg; exact Hl|right; reflexivity]. }
    rewrite E. unfold after. rewrite run_app. cbn [run fold_left]. apply (open_kept I inv L es2 0 _ _ _ B2 P3 NR). apply O. right. exact CS.
  - assert (NE : p_shards x <> []).
    { destruct (I_filed _ _ _ _ _ B2 x g) as [(_ & _ & _ & C & K) _]; [apply in_app_iff; right; left; reflexivity|exact Hg|].
      destruct (K _ (or_intror eq_refl)) as [n Hn]. assert (Hc : In n (f_cols (g_filed g))) by (apply C; eexists; split; [right; reflexivity|exact Hn]).
      specialize (CS g n Hg Hc). intros C0. rewrite C0 in CS. destruct CS. }
    intros v Hv. exact (reached_full I inv 0 st ps hist_inv x g v Hx NE Hg Hv).
Qed.
Lemma find_same key c c' : ti_find I (st_tr st) key = Some c -> ti_find I (st_tr st) key = Some c' -> c = c'. Proof. congruence. Qed.
Lemma filing_given g : In g (all_filings ps) -> In (g_sample g) (given es).
Proof. intros H. rewrite <- hist_samples. rewrite <- (filings_all I inv 0 st ps hist_inv). apply in_map, H. Qed.
End Lives.

(* ------------------------------------------------------------------ C28 *)
Lemma all_some_map {A B} (f : A -> option B) (g : A -> B) l : (forall a, In a l -> f a = Some (g a)) -> all_some (map f l) = Some (map g l).
Proof.
  induction l as [|a l IH]; intros H; [reflexivity|]. cbn [map all_some]. rewrite (H a (or_introl eq_refl)), IH; [reflexivity|].
  intros x Hx. apply H. right. exact Hx.
Qed.

(** What asking for labels answers: the labels, in the order of their columns, whose bit was committed and
    whose shard is open in this process. *)
Theorem C28_labels_exact : forall I inv s0 es v id order, tr_laws I inv -> history I inv s0 es -> id < 2^44 - 1 ->
  let st := after I s0 es in
  Permutation (sh_open (st_shards st)) order ->
  exists ls cols, labels_of I st v id order = Some ls /\ StronglySorted N.lt cols /\
    map (ti_find I (st_tr st)) ls = map Some cols /\
    forall key, In key ls <-> exists col, ti_find I (st_tr st) key = Some col /\ carries (st_shards st) v id col /\ In (col / 2^20) (sh_open (st_shards st)).
Proof.
  intros I inv s0 es v id order L HI Hid st P. pose proof (hist_inv I inv L s0 es HI) as H. fold st in H.
  assert (R : lists_exactly (row_columns (sh_row (st_shards st) v id order)) (fun c => In (c / 2^20) (sh_open (st_shards st)) /\ carries (st_shards st) v id c)).
  { apply C28_row_exact; [exact P|exact Hid|apply (I_open _ _ _ _ _ H)|intros k; apply (I_sorted _ _ _ _ _ H)]. }
  destruct R as [RS RI]. set (cols := row_columns (sh_row (st_shards st) v id order)) in *.
  set (name := fun c => match ti_back I (st_tr st) c with Some k => k | None => "" end).
  assert (K : forall c, In c cols -> exists key, ti_find I (st_tr st) key = Some c /\ ti_back I (st_tr st) c = Some key).
  { intros c Hc. apply RI in Hc as [_ Hc].
    destruct (carried_stored I inv 0 st _ H (hist_small I inv L s0 es HI) v id c Hc) as (g & Hg & _ & _ & _ & Hcol).
    apply (filing_cols I inv 0 st _ H g c Hg) in Hcol as (l & _ & F). exists (encode l). split; [exact F|]. apply (tl_back _ _ L _ _ _ _ (I_tr _ _ _ _ _ H) F). }
  assert (KN : forall c, In c cols -> ti_back I (st_tr st) c = Some (name c) /\ ti_find I (st_tr st) (name c) = Some c).
  { intros c Hc. destruct (K c Hc) as (key & F & B). unfold name. rewrite B. auto. }
  exists (map name cols), cols. split; [|split; [exact RS|split]].
  - unfold labels_of. fold cols. apply all_some_map. intros c Hc. apply KN, Hc.
  - rewrite map_map. apply map_ext_in. intros c Hc. apply KN, Hc.
  - intros key. rewrite in_map_iff. split.
    + intros (c & <- & Hc). exists c. split; [apply KN, Hc|]. apply RI in Hc as [O C]. auto.
    + intros (c & F & C & O). assert (Hc : In c cols) by (apply RI; auto). exists c. split; [|exact Hc].
      unfold name. rewrite (tl_back _ _ L _ _ _ _ (I_tr _ _ _ _ _ H) F). reflexivity.
Qed.
Lemma now_saved I s0 es s : saved_now I s0 es s -> saved I s0 es s.
Proof. intros H. left. exact H. Qed.
Lemma now_kept I s0 es s : saved_now I s0 es s -> kept I s0 es s.
Proof. intros (es1 & l & ch & es2 & E & Hs & OK & _). exists es1, l, ch, es2. auto. Qed.
Lemma saved_kept I s0 es s : saved I s0 es s -> kept I s0 es s.
Proof. intros [H|[H _]]; [apply now_kept, H|exact H]. Qed.
Lemma kept_given I s0 es s : kept I s0 es s -> In s (given es).
Proof. intros (es1 & l & ch & es2 & E & Hs & _). rewrite E. unfold given. rewrite flat_map_app. apply in_app_iff. right. cbn [flat_map]. apply in_app_iff. left. exact Hs. Qed.
(** C28 for samples saved since the last restart (or whose shards are open again): exactly their labels and one marker. *)
Theorem C28_labels_read_back_partial : forall I inv s0 es s v order, tr_laws I inv -> history I inv s0 es ->
  let st := after I s0 es in
  saved I s0 es s -> In v (home (smp_data s)) -> Permutation (sh_open (st_shards st)) order ->
  exists ls z, labels_of I st v (smp_id s) order = Some ls /\
    forall key, In key ls <-> exists l, (documented_label (smp_data s) l \/ l = Label z PREFIX_UNKNOWN "" "") /\ key = encode l.
Proof.
  intros I inv s0 es s v order L HI st Sv Hv P. pose proof (hist_inv I inv L s0 es HI) as H. fold st in H.
  destruct (saved_filing I inv L s0 es HI s Sv) as (x & g & Hx & Hg & <- & Hc & Hr).
  assert (Hga : In g (all_filings (trace I (new_store I s0) es))) by (apply in_all_filings; eauto).
  assert (Hid : smp_id (g_sample g) < 2^44 - 1) by (apply (filing_small I inv 0 st _ H (hist_small I inv L s0 es HI) g Hga)).
  destruct (C28_labels_exact I inv s0 es v (smp_id (g_sample g)) order L HI Hid P) as (ls & cols & E & _ & _ & M). fold st in E, M.
  exists ls, (g_marker g). split; [exact E|]. intros key. rewrite M. split.
  - intros (col & F & C & _).
    destruct (carried_stored I inv 0 st _ H (hist_small I inv L s0 es HI) v _ col C) as (g' & Hg' & Eid & _ & _ & Hcol).
    assert (g' = g) by (apply (filing_unique I inv 0 st _ H (hist_inc I inv L s0 es HI)); auto). subst g'.
    apply (filing_cols I inv 0 st _ H g col Hg') in Hcol as (l & Hl & F'). exists l. split; [exact Hl|].
    apply (tl_inj _ _ L _ _ _ _ _ (I_tr _ _ _ _ _ H) F F').
  - intros (l & Hl & ->). destruct (filing_known I inv 0 st _ H g l Hga Hl) as [col F]. exists col. split; [exact F|].
    assert (Hcol : In col (f_cols (g_filed g))) by (apply (filing_cols I inv 0 st _ H g col Hga); exists l; auto).
    destruct (Hc col Hcol) as [C1 C2]. split; [|exact C2].
    apply (carries_iff I inv 0 st _ H (hist_small I inv L s0 es HI)). exists x, g. repeat (split; [assumption|]). split; [|reflexivity].
    rewrite (filing_home I inv 0 st _ H g Hga). exact Hv.
Qed.
(** Missing: after a restart nothing is open, and no labels are found for any sample. *)
Theorem C28_labels_after_restart_refuted : forall I (st : store I) keys v id order,
  Permutation (sh_open (st_shards (restart I st keys))) order -> labels_of I (restart I st keys) v id order = Some [].
Proof. intros I st keys v id order P. cbn in P. apply Permutation_nil in P. subst order. reflexivity. Qed.

(* ------------------------------------------------------------------ C34 *)
(** The columns searched for are exactly those of the asked labels; one unknown label and nothing is
    searched.  (A scan all of whose filters are valueless asks nothing and matches nothing.) *)
Theorem C34_filters_are_a_conjunction : forall I (s : ti_state I) sc,
  exists cols, compile_filters I (fun _ => false) s sc = Some cols /\
    ((exists l, asks sc l /\ ti_find I s (encode l) = None) -> cols = []) /\
    ((forall l, asks sc l -> ti_find I s (encode l) <> None) ->
       lists_exactly cols (fun c => exists l, asks sc l /\ ti_find I s (encode l) = Some c)).
Proof. exact compile_spec. Qed.
(** Failing look-ups of the store: either an error is reported, or the answer is the same. *)
Theorem C34_failures : forall I fails (s : ti_state I) sc,
  (compile_filters I fails s sc = None -> exists l, asks sc l /\ fails (encode l) = true) /\
  (forall r, compile_filters I fails s sc = Some r -> compile_filters I (fun _ => false) s sc = Some r).
Proof. intros. split; [apply compile_fails|intros r; apply compile_agree]. Qed.
(** An unknown label makes the scan answer the empty container of its signal. *)
Theorem C34_unknown_label_matches_nothing : forall I (st : store I) wall sc order l,
  asks sc l -> ti_find I (st_tr st) (encode l) = None -> scan_rows I st (calm wall) sc order = RZero.
Proof.
  intros I st wall sc order l A F. destruct (compile_spec I (st_tr st) sc) as (cols & E & H & _). unfold scan_rows. cbn [calm e_wall e_find_fails].
  destruct (time_bounds wall (sc_times sc)) as [a b]. rewrite E, (H (ex_intro _ l (conj A F))). reflexivity.
Qed.

(* ------------------------------------------------------------------ scans *)
(** The views a scan consults. *)
Definition window (e : env) (sc : scan) (vs : list string) : Prop :=
  search (fst (time_bounds (e_wall e) (sc_times sc))) (snd (time_bounds (e_wall e) (sc_times sc))) = Some vs.
Definition selected (sc : scan) (hits : nset) : nset :=
  match sc_range (sc_times sc) with None => match smax hits with Some m => [m] | None => hits end | Some _ => hits end.
Lemma sempty_nil (l : nset) : sempty l = true -> l = []. Proof. destruct l; [reflexivity|discriminate]. Qed.
Lemma scope_signals sc : existsb (Z.eqb (sc_scope sc)) [RESOURCE_METRICS; RESOURCE_LOGS; RESOURCE_TRACES] = true <-> In (sc_scope sc) signals.
Proof.
  unfold signals. rewrite existsb_exists. split.
  - intros (x & Hx & E). apply Z.eqb_eq in E. subst x. cbn [In] in *. tauto.
  - intros H. exists (sc_scope sc). split; [cbn [In] in *; tauto|apply Z.eqb_refl].
Qed.
Lemma scan_rows_cases I (st : store I) e sc order rows : scan_rows I st e sc order = RRows rows ->
  exists cols vs hits, compile_filters I (fun _ => false) (st_tr st) sc = Some cols /\ cols <> [] /\ window e sc vs /\
    lookup (st_shards st) vs cols (order cols) = Some hits /\ hits <> [] /\ In (sc_scope sc) signals /\
    rows = match read_views (e_frame_fails e) (st_frames st) (sc_scope sc) (selected sc hits) vs with Some r => r | None => [] end.
Proof.
  unfold scan_rows, window, lookup. destruct (time_bounds (e_wall e) (sc_times sc)) as [a b]. cbn [fst snd].
  destruct (compile_filters I (e_find_fails e) (st_tr st) sc) as [cols|] eqn:EC; [|discriminate].
  apply compile_agree in EC. destruct (sempty cols) eqn:S1; [discriminate|]. destruct (e_index_fails e); [discriminate|].
  destruct (search a b) as [vs|]; [|discriminate]. destruct (rows_loop (st_shards st) vs (order cols) None) as [hits|] eqn:ER; [|discriminate].
  destruct (sempty hits) eqn:S2; [discriminate|].
  destruct (existsb (Z.eqb (sc_scope sc)) [RESOURCE_METRICS; RESOURCE_LOGS; RESOURCE_TRACES]) eqn:ES; [|discriminate].
  intros E. exists cols, vs, hits. split; [exact EC|]. split; [intros ->; discriminate|]. split; [reflexivity|]. split; [exact ER|].
  split; [intros ->; discriminate|]. split; [apply scope_signals, ES|]. unfold selected.
  destruct (read_views (e_frame_fails e) (st_frames st) (sc_scope sc) _ vs) as [r|]; congruence.
Qed.
Lemma scan_rows_hit I (st : store I) wall sc order cols vs hits :
  compile_filters I (fun _ => false) (st_tr st) sc = Some cols -> cols <> [] -> window (calm wall) sc vs ->
  lookup (st_shards st) vs cols (order cols) = Some hits -> hits <> [] -> In (sc_scope sc) signals ->
  exists rows, scan_rows I st (calm wall) sc order = RRows rows /\ read_views no_fault (st_frames st) (sc_scope sc) (selected sc hits) vs = Some rows.
Proof.
  intros EC NC W LK NH SG. unfold scan_rows, window in *. cbn [calm e_wall e_find_fails e_index_fails e_frame_fails] in *.
  destruct (time_bounds wall (sc_times sc)) as [a b]. cbn [fst snd] in W. rewrite EC, W. unfold lookup in LK. rewrite LK.
  apply scope_signals in SG. rewrite SG. destruct cols as [|c0 cols]; [congruence|]. destruct hits as [|h0 hits]; [congruence|]. cbn [sempty].
  destruct (read_views no_fault (st_frames st) (sc_scope sc) (selected sc (h0 :: hits)) vs) as [r|] eqn:RV; [|rewrite read_views_ok in RV; discriminate].
  exists r. split; [|reflexivity]. unfold selected in RV. unfold no_fault in RV. rewrite RV. reflexivity.
Qed.
Lemma smax_in s m : smax s = Some m -> In m s.
Proof.
  induction s as [|x s IH]; [discriminate|]. destruct s as [|y s]; cbn in *; [intros E; apply some_inj in E; auto|]. intros E. right. apply IH, E.
Qed.
Lemma selected_sub sc hits id : In id (selected sc hits) -> In id hits.
Proof.
  unfold selected. destruct (sc_range (sc_times sc)); [auto|]. destruct (smax hits) as [m|] eqn:E; [|auto]. intros [<-|[]].
  apply smax_in, E.
Qed.
Lemma in_view_ids fls v signal rows id : Forall flush_ok fls -> In signal signals ->
  In id (view_ids (run_flushes fls) signal rows v) <-> In id rows /\ exists s, stored v fls s /\ smp_id s = id /\ signal_of (smp_data s) = signal.
Proof.
  intros OK T. destruct (C31_membership_exact fls v signal OK T) as [_ M].
  assert (E : view_ids (run_flushes fls) signal rows v = sinter (members (run_flushes fls) v signal) rows).
  { unfold view_ids, members. destruct (aget String.eqb v (run_flushes fls)); reflexivity. }
  rewrite E, in_sinter, M. tauto.
Qed.

(** A saved sample that has all asked labels, in a consulted view: its shards are open and it has the columns. *)
Lemma saved_carries I inv s0 es sc s v cols : tr_stable I inv -> history I inv s0 es ->
  let st := after I s0 es in
  saved I s0 es s -> In v (home (smp_data s)) -> (forall l, asks sc l -> documented_label (smp_data s) l) ->
  (forall l, asks sc l -> ti_find I (st_tr st) (encode l) <> None) /\
  (compile_filters I (fun _ => false) (st_tr st) sc = Some cols ->
   forall c, In c cols -> In (c / 2^20) (sh_open (st_shards st)) /\ carries (st_shards st) v (smp_id s) c).
Proof.
  intros L HI st Sv Hh Doc. pose proof (hist_inv I inv L s0 es HI) as H. fold st in H.
  destruct (saved_filing I inv L s0 es HI s Sv) as (x & g & Hx & Hg & <- & Hc & Hr).
  assert (Hga : In g (all_filings (trace I (new_store I s0) es))) by (apply in_all_filings; eauto).
  assert (Hvg : In v (views_of g)) by (rewrite (filing_home I inv 0 st _ H g Hga); exact Hh).
  assert (K : forall l, asks sc l -> ti_find I (st_tr st) (encode l) <> None).
  { intros l Al. destruct (filing_known I inv 0 st _ H g l Hga (or_introl (Doc l Al))) as [n F]. congruence. }
  split; [exact K|]. intros EC c Hin. destruct (compile_spec I (st_tr st) sc) as (cols' & EC' & _ & X). rewrite EC in EC'. apply some_inj in EC'. subst cols'.
  destruct (X K) as [_ XC]. apply XC in Hin as (l & Al & F). assert (Hcol : In c (f_cols (g_filed g))).
  { apply (filing_cols I inv 0 st _ H g c Hga). exists l. split; [left; apply Doc, Al|exact F]. }
  destruct (Hc c Hcol) as [C1 C2]. split; [exact C2|]. apply (carries_iff I inv 0 st _ H (hist_small I inv L s0 es HI)). exists x, g. auto 10.
Qed.
(** No shard of the asked labels is passed over (see C24): all of them are in one shard, or some saved
    sample has them all, in one consulted view. *)
Definition conclusive (I : tr_impl) (s0 : ti_state I) (es : list event) (sc : scan) (vs : list string) : Prop :=
  one_shard I (after I s0 es) sc \/
  exists s v, saved I s0 es s /\ In v vs /\ In v (home (smp_data s)) /\ forall l, asks sc l -> documented_label (smp_data s) l.

(** A hit carries the asked labels. *)
Lemma hit_documented I inv s0 es vs sc cols order hits id : tr_laws I inv -> history I inv s0 es -> some_order order ->
  let st := after I s0 es in
  compile_filters I (fun _ => false) (st_tr st) sc = Some cols -> cols <> [] -> lookup (st_shards st) vs cols (order cols) = Some hits -> In id hits ->
  conclusive I s0 es sc vs ->
  exists g, In g (all_filings (trace I (new_store I s0) es)) /\ smp_id (g_sample g) = id /\
    (forall l, asks sc l -> exists l', labelled g l' /\ encode l' = encode l) /\
    exists v, In v vs /\ In v (views_of g) /\ stored v (flushes I s0 es) (g_sample g).
Proof.
  intros L HI OO st EC NC LK Hid OS. pose proof (hist_inv I inv L s0 es HI) as H. fold st in H.
  assert (R : res_in id (lookup (st_shards st) vs cols (order cols))) by (rewrite LK; exact Hid).
  destruct (compile_spec I (st_tr st) sc) as (cols' & EC' & U & X). rewrite EC in EC'. apply some_inj in EC'. subst cols'.
  assert (K : forall l, asks sc l -> ti_find I (st_tr st) (encode l) <> None).
  { intros l Hl E. apply NC. apply U. exists l. auto. }
  destruct (X K) as [_ XC]. apply (C24_lookup_exact _ _ _ _ (OO cols)) in R as (_ & (c0 & Hc0 & id' & Hid') & M).
  assert (CV : forall c, In c cols -> exists v, In v vs /\ carries (st_shards st) v id c).
  { destruct OS as [OS|(s & v & Sv & Hv & Hh & Doc)].
    - destruct (M c0 Hc0 (ex_intro _ id' Hid')) as (v & Hv & Cv).
      assert (SH : forall c, In c cols -> c / 2^20 = c0 / 2^20).
      { intros c Hc. apply XC in Hc as (l & Al & Fl), Hc0 as (l0 & Al0 & Fl0). exact (OS l l0 c c0 Al Al0 Fl Fl0). }
      intros c Hc. exists v. auto.
    - destruct (saved_carries I inv s0 es sc s v cols L HI Sv Hh Doc) as [_ C]. specialize (C EC). fold st in C.
      intros c Hc. destruct (M c Hc) as (w & Hw & Cw); [exists (smp_id s), v; split; [exact Hv|]; intros c' Hc' _; apply C, Hc'|].
      exists w. auto. }
  clear M Hid' id'. destruct (CV c0 Hc0) as (v & Hv & Cv0).
  destruct (carried_stored I inv 0 st _ H (hist_small I inv L s0 es HI) v id c0 Cv0) as (g & Hg & Eg & Hvg & Sg & _).
  exists g. split; [exact Hg|]. split; [exact Eg|]. split; [|exists v; auto].
  intros l Hl. destruct (ti_find I (st_tr st) (encode l)) as [c|] eqn:F; [|exfalso; exact (K l Hl F)].
  assert (Hc : In c cols) by (apply XC; eauto). destruct (CV c Hc) as (w & _ & Cw).
  destruct (carried_stored I inv 0 st _ H (hist_small I inv L s0 es HI) w id c Cw) as (g' & Hg' & Eg' & _ & _ & Hcol).
  assert (g' = g) by (apply (filing_unique I inv 0 st _ H (hist_inc I inv L s0 es HI)); congruence). subst g'.
  apply (filing_cols I inv 0 st _ H g c Hg) in Hcol as (l' & Hl' & F'). exists l'. split; [exact Hl'|].
  apply (tl_inj _ _ L _ _ _ _ _ (I_tr _ _ _ _ _ H) F' F).
Qed.
Lemma aligned_row I inv s0 es v s : tr_stable I inv -> history I inv s0 es -> stored v (flushes I s0 es) s -> aligned (flushes I s0 es) v s ->
  row_at (st_frames (after I s0 es)) v (smp_id s) = Some (smp_data s).
Proof.
  intros L HI St Al. pose proof (hist_inv I inv L s0 es HI) as H. rewrite (I_frames _ _ _ _ _ H).
  apply C29_row_number_is_id_partial; [exact (good_trace I inv 0 _ _ H (hist_inc I inv L s0 es HI))|exact St|exact Al].
Qed.
Lemma only_signal_self d : only_signal (signal_of d) d = d.
Proof. destruct d; reflexivity. Qed.

(* ------------------------------------------------------------------ C35 *)
(** Every row a scan collects is the row, in a consulted view, of a stored sample of the requested signal
    that was filed in that view, and that the index reports; the row is that sample's data when aligned. *)
Theorem C35_rows_are_stored_samples_partial : forall I inv s0 es e sc order rows row, tr_stable I inv -> history I inv s0 es ->
  let st := after I s0 es in
  scan_rows I st e sc order = RRows rows -> In row rows ->
  exists s v vs, window e sc vs /\ In v vs /\ In s (given es) /\ signal_of (smp_data s) = sc_scope sc /\ In v (home (smp_data s)) /\
    stored v (flushes I s0 es) s /\
    (exists cols hits, compile_filters I (fun _ => false) (st_tr st) sc = Some cols /\ cols <> [] /\ lookup (st_shards st) vs cols (order cols) = Some hits /\ In (smp_id s) hits) /\
    (aligned (flushes I s0 es) v s -> row = Some (smp_data s)).
Proof.
  intros I inv s0 es e sc order rows row L HI st ER Hrow. pose proof (hist_inv I inv L s0 es HI) as H. fold st in H.
  apply scan_rows_cases in ER as (cols & vs & hits & EC & NC & W & LK & NH & SG & Er).
  destruct (read_views (e_frame_fails e) (st_frames st) (sc_scope sc) (selected sc hits) vs) as [r|] eqn:RV; [|subst rows; destruct Hrow].
  subst r. apply C32_read_errors in RV. rewrite read_views_ok in RV. apply some_inj in RV. subst rows.
  apply in_flat_map in Hrow as (v & Hv & Hrow). apply in_map_iff in Hrow as (id & Erow & Hid).
  rewrite (I_frames _ _ _ _ _ H) in Hid. apply in_view_ids in Hid as [Hsel (s & Ss & Es & Esig)]; [|apply (I_flush _ _ _ _ _ H)|exact SG].
  apply selected_sub in Hsel. destruct (stored_filing I inv 0 st _ H v s Ss) as (x & g & Hx & Hg & Egs & Hv' & _).
  assert (Hga : In g (all_filings (trace I (new_store I s0) es))) by (apply in_all_filings; eauto).
  exists s, v, vs. split; [exact W|]. split; [exact Hv|]. split; [rewrite <- Egs; apply (filing_given I inv L s0 es HI g Hga)|]. split; [exact Esig|].
  split; [rewrite <- Egs, <- (filing_home I inv 0 st _ H g Hga); exact Hv'|]. split; [exact Ss|]. split; [exists cols, hits; rewrite Es; auto|].
  intros Al. rewrite <- Erow, <- Es. unfold st. rewrite (aligned_row I inv s0 es v s L HI Ss Al). cbn [option_map]. rewrite <- Esig, only_signal_self. reflexivity.
Qed.
(** And the sample carries every asked label (of a prefix other than the marker's), as far as encoded labels
    can tell, unless a shard of the labels was passed over. *)
Theorem C35_scan_sound_partial : forall I inv s0 es e sc order rows row, tr_laws I inv -> history I inv s0 es -> some_order order ->
  let st := after I s0 es in
  (forall vs, window e sc vs -> conclusive I s0 es sc vs) -> scan_rows I st e sc order = RRows rows -> In row rows ->
  exists s v vs, window e sc vs /\ In v vs /\ In s (given es) /\ signal_of (smp_data s) = sc_scope sc /\ In v (home (smp_data s)) /\
    (forall l, asks sc l -> l_prefix l <> PREFIX_UNKNOWN -> exists l', documented_label (smp_data s) l' /\ encode l' = encode l) /\
    (aligned (flushes I s0 es) v s -> row = Some (smp_data s)).
Proof.
  intros I inv s0 es e sc order rows row L HI OO st OS ER Hrow. pose proof (hist_inv I inv L s0 es HI) as H. fold st in H.
  destruct (C35_rows_are_stored_samples_partial I inv s0 es e sc order rows row L HI ER Hrow) as (s & v & vs & W & Hv & Gs & Esig & Hh & Ss & (cols & hits & EC & NC & LK & Hid) & Al).
  destruct (hit_documented I inv s0 es vs sc cols order hits _ L HI OO EC NC LK Hid (OS vs W)) as (g & Hg & Eg & Lab & _).
  destruct (stored_filing I inv 0 st _ H v s Ss) as (x & g' & Hx & Hg' & Egs & Hv' & _).
  assert (g' = g). { apply (filing_unique I inv 0 st _ H (hist_inc I inv L s0 es HI)); [apply in_all_filings; eauto|exact Hg|congruence]. }
  subst g'. exists s, v, vs. repeat (split; [assumption|]). split; [|exact Al].
  intros l Al' NP. destruct (Lab l Al') as (l' & [D|D] & E); [exists l'; rewrite <- Egs; auto|].
  exfalso. apply NP. destruct (C02_signal_and_prefix_recoverable _ _ E) as [_ E2]. rewrite <- E2, D. reflexivity.
Qed.

(* ------------------------------------------------------------------ C36 *)
(** A saved sample with all asked labels, in a consulted view, is found by the index ... *)
Lemma saved_hit I inv s0 es sc vs s v order : tr_stable I inv -> history I inv s0 es -> some_order order ->
  let st := after I s0 es in
  saved I s0 es s -> In v vs -> In v (home (smp_data s)) -> (exists l, asks sc l) ->
  (forall l, asks sc l -> documented_label (smp_data s) l) ->
  exists cols hits, compile_filters I (fun _ => false) (st_tr st) sc = Some cols /\ cols <> [] /\
    lookup (st_shards st) vs cols (order cols) = Some hits /\ In (smp_id s) hits /\ stored v (flushes I s0 es) s.
Proof.
  intros L HI OO st Sv Hv Hh (l0 & Al0) Doc. pose proof (hist_inv I inv L s0 es HI) as H. fold st in H.
  destruct (saved_filing I inv L s0 es HI s Sv) as (x & g & Hx & Hg & <- & Hc & Hr).
  assert (Hga : In g (all_filings (trace I (new_store I s0) es))) by (apply in_all_filings; eauto).
  assert (Hvg : In v (views_of g)) by (rewrite (filing_home I inv 0 st _ H g Hga); exact Hh).
  destruct (compile_spec I (st_tr st) sc) as (cols & EC & _ & X).
  destruct (saved_carries I inv s0 es sc (g_sample g) v cols L HI Sv Hh Doc) as [K CC]. specialize (CC EC). fold st in K, CC. destruct (X K) as [_ XC].
  assert (NC : cols <> []).
  { destruct (ti_find I (st_tr st) (encode l0)) as [n|] eqn:F; [|exfalso; exact (K l0 Al0 F)]. intros C. assert (In n cols) by (apply XC; eauto). rewrite C in *. auto. }
  assert (R : res_in (smp_id (g_sample g)) (lookup (st_shards st) vs cols (order cols))).
  { apply C24_lookup_complete; [apply OO|exact NC|intros c Hin; apply CC, Hin|].
    intros c Hin. exists v. split; [exact Hv|]. intros c' Hin' _. apply CC, Hin'. }
  destruct (lookup (st_shards st) vs cols (order cols)) as [hits|] eqn:LK; [|destruct R].
  exists cols, hits. split; [exact EC|]. split; [exact NC|]. split; [exact LK|]. split; [exact R|].
  apply (filing_stored I inv 0 st _ H x g v Hx Hg Hvg). apply Hr, Hvg.
Qed.
(** ... and returned, in scans with a time range, when aligned. *)
Theorem C36_scan_complete_partial : forall I inv s0 es wall sc order vs s v, tr_stable I inv -> history I inv s0 es -> some_order order ->
  let st := after I s0 es in
  saved I s0 es s -> In (signal_of (smp_data s)) signals -> sc_scope sc = signal_of (smp_data s) ->
  (exists l, asks sc l) -> (forall l, asks sc l -> documented_label (smp_data s) l) ->
  sc_range (sc_times sc) <> None -> window (calm wall) sc vs -> In v vs -> In v (home (smp_data s)) ->
  aligned (flushes I s0 es) v s ->
  exists rows, scan_rows I st (calm wall) sc order = RRows rows /\ In (Some (smp_data s)) rows.
Proof.
  intros I inv s0 es wall sc order vs s v L HI OO st Sv Sg Sc EA Doc NR W Hv Hh Al. pose proof (hist_inv I inv L s0 es HI) as H. fold st in H.
  destruct (saved_hit I inv s0 es sc vs s v order L HI OO Sv Hv Hh EA Doc) as (cols & hits & EC & NC & LK & Hin & Ss).
  fold st in EC, LK. assert (NH : hits <> []) by (intros ->; destruct Hin).
  rewrite <- Sc in Sg. destruct (scan_rows_hit I st wall sc order cols vs hits EC NC W LK NH Sg) as (rows & ER & RV). exists rows. split; [exact ER|].
  rewrite read_views_ok in RV. apply some_inj in RV. subst rows. apply in_flat_map. exists v. split; [exact Hv|]. apply in_map_iff. exists (smp_id s). split.
  - unfold st. rewrite (aligned_row I inv s0 es v s L HI Ss Al). cbn [option_map]. rewrite Sc, only_signal_self. reflexivity.
  - rewrite (I_frames _ _ _ _ _ H). apply in_view_ids; [apply (I_flush _ _ _ _ _ H)|exact Sg|]. split.
    + unfold selected. destruct (sc_range (sc_times sc)); [exact Hin|congruence].
    + exists s. auto.
Qed.
(** After a restart no scan answers anything, until new saves reopen the shards. *)
Theorem C36_scan_after_restart_is_empty_refuted : forall I (st : store I) keys e sc order rows,
  some_order order -> scan_rows I (restart I st keys) e sc order <> RRows rows.
Proof.
  intros I st keys e sc order rows OO C. apply scan_rows_cases in C as (cols & vs & hits & _ & NC & _ & LK & NH & _).
  destruct hits as [|h hits]; [congruence|]. assert (R : res_in h (lookup (st_shards (restart I st keys)) vs cols (order cols))) by (rewrite LK; left; reflexivity).
  apply (C24_lookup_exact _ _ _ _ (OO cols)) in R as (O & _). destruct cols as [|c cols]; [congruence|]. exact (O c (or_introl eq_refl)).
Qed.
(** In terms of times: the filing time is in the requested range and the range is one the search covers
    (C15: whole hours below a day, and not in the last, partial unit above). *)
Theorem C36_scan_range_complete_partial : forall I inv s0 es wall sc order s, tr_stable I inv -> history I inv s0 es -> some_order order ->
  let st := after I s0 es in
  let a := fst (time_bounds wall (sc_times sc)) in
  let e := snd (time_bounds wall (sc_times sc)) in
  let t := int64_of_u64 (filed_at (smp_data s)) in
  saved I s0 es s -> In (signal_of (smp_data s)) signals -> sc_scope sc = signal_of (smp_data s) ->
  (exists l, asks sc l) -> (forall l, asks sc l -> documented_label (smp_data s) l) ->
  sc_range (sc_times sc) <> None -> (a <= t < e)%Z ->
  (e - a < 24 * 3600000000000 -> a mod 3600000000000 = 0)%Z ->
  (24 * 3600000000000 <= e - a < 30 * 24 * 3600000000000 -> t / 86400000000000 <> e / 86400000000000)%Z ->
  (30 * 24 * 3600000000000 <= e - a < 360 * 24 * 3600000000000 -> ~ short_next_month a e /\ (year_of t, month_of t) <> (year_of e, month_of e))%Z ->
  (360 * 24 * 3600000000000 <= e - a -> year_of t <> year_of e)%Z ->
  (forall v, In v (home (smp_data s)) -> aligned (flushes I s0 es) v s) ->
  exists rows, scan_rows I st (calm wall) sc order = RRows rows /\ In (Some (smp_data s)) rows.
Proof.
  intros I inv s0 es wall sc order s L HI OO st a e t Sv Sg Sc EA Doc NR Ht C1 C2 C3 C4 Al.
  destruct (C15_search_terminates a e) as [vs W].
  destruct (C15_covers_window_partial a e vs t W Ht C1 C2 C3 C4) as (v & Hv & Hh).
  apply (C36_scan_complete_partial I inv s0 es wall sc order vs s v); auto.
Qed.

(* ------------------------------------------------------------------ C37 *)
Lemma instant_window e sc vs : sc_range (sc_times sc) = None -> window e sc vs -> exists v, vs = [v].
Proof.
  unfold window. destruct (sc_times sc) as [now off r] eqn:E. cbn [sc_range]. intros ->.
  destruct (C14_default_window (e_wall e) now off) as (D & _). set (w := time_bounds (e_wall e) (ScanTimes now off None)) in *. clearbody w.
  destruct w as [a z]. cbn [fst snd] in *. intros W. unfold search in W. rewrite C13_search_granularity in W.
  rewrite (proj1 (C13_granularity (z - a)%Z)) in W by lia. apply range_H in W as (n & -> & Hn). rewrite ns_hour_val in Hn.
  assert (n = 1%nat). { pose proof (Hn 0%nat) as H0. pose proof (Hn 1%nat) as H1. cbn [Z.of_nat] in H0. lia. }
  subst n. eexists. reflexivity.
Qed.
Lemma lookup_sorted s views cols order hits : lookup s views cols order = Some hits -> ssorted hits.
Proof. intros E. destruct (rows_loop_spec s views order None Logic.I) as [S _]. unfold lookup in E. rewrite E in S. exact S. Qed.
(** Without a time range the scan looks at one hour view and collects at most one row: that of the largest
    matching id.  Every saved sample in that view with the asked labels has an id at most that. *)
Theorem C37_instant_scan_partial : forall I inv s0 es wall sc order rows, tr_laws I inv -> history I inv s0 es -> some_order order ->
  let st := after I s0 es in
  sc_range (sc_times sc) = None -> (forall vs, window (calm wall) sc vs -> conclusive I s0 es sc vs) -> (exists l, asks sc l) ->
  (forall l, asks sc l -> l_prefix l <> PREFIX_UNKNOWN) ->
  scan_rows I st (calm wall) sc order = RRows rows ->
  exists s v row, window (calm wall) sc [v] /\ rows = [row] /\ In s (given es) /\ In v (home (smp_data s)) /\ signal_of (smp_data s) = sc_scope sc /\
    (forall l, asks sc l -> exists l', documented_label (smp_data s) l' /\ encode l' = encode l) /\
    (aligned (flushes I s0 es) v s -> row = Some (smp_data s)) /\
    (forall s', saved I s0 es s' -> In v (home (smp_data s')) -> (forall l, asks sc l -> documented_label (smp_data s') l) -> smp_id s' <= smp_id s).
Proof.
  intros I inv s0 es wall sc order rows L HI OO st NR OS EA NP ER. pose proof (hist_inv I inv L s0 es HI) as H. fold st in H.
  apply scan_rows_cases in ER as (cols & vs & hits & EC & NC & W & LK & NH & SG & Er).
  cbn [calm e_frame_fails] in Er. change (fun _ : string => false) with no_fault in Er. rewrite read_views_ok in Er.
  destruct (instant_window (calm wall) sc vs NR W) as [v ->]. cbn [flat_map] in Er. rewrite app_nil_r in Er.
  unfold selected in Er. rewrite NR in Er. destruct (smax_some hits NH) as [m Em]. rewrite Em in Er.
  destruct (smax_spec hits m (lookup_sorted _ _ _ _ _ LK) Em) as [Hm Mx].
  destruct (hit_documented I inv s0 es [v] sc cols order hits m L HI OO EC NC LK Hm (OS _ W)) as (g & Hg & Eg & Lab & v' & [<-|[]] & Hvg & Sg).
  assert (D : forall l, asks sc l -> exists l', documented_label (smp_data (g_sample g)) l' /\ encode l' = encode l).
  { intros l Al. destruct (Lab l Al) as (l' & [D|D] & E); [eauto|]. exfalso. apply (NP l Al).
    destruct (C02_signal_and_prefix_recoverable _ _ E) as [_ E2]. rewrite <- E2, D. reflexivity. }
  assert (Sig : signal_of (smp_data (g_sample g)) = sc_scope sc).
  { destruct EA as (l & Al). destruct (D l Al) as (l' & D' & E). rewrite <- (documented_resource _ _ D').
    destruct (C02_signal_and_prefix_recoverable _ _ E) as [-> _]. destruct Al as [[_ ->]|[(p & w & _ & ->)|(p & k & w & _ & ->)]]; reflexivity. }
  assert (VI : view_ids (st_frames st) (sc_scope sc) [m] v = [m]).
  { rewrite (I_frames _ _ _ _ _ H). set (l := view_ids _ _ _ _).
    assert (A : forall id, In id l <-> id = m).
    { intros id. unfold l. rewrite in_view_ids; [|apply (I_flush _ _ _ _ _ H)|exact SG]. split; [intros [[<-|[]] _]; reflexivity|].
      intros ->. split; [left; reflexivity|]. exists (g_sample g). auto. }
    assert (S : ssorted l).
    { unfold l, view_ids. destruct (aget String.eqb v (run_flushes (map p_flush (trace I (new_store I s0) es)))) as [f|] eqn:Ef; [|constructor].
      apply ssorted_sinter. destruct (C31_membership_exact _ v (sc_scope sc) (I_flush _ _ _ _ _ H) SG) as [S _]. unfold members in S. rewrite Ef in S. exact S. }
    apply (ssorted_ext l [m] S); [repeat constructor|]. intros id. rewrite A. cbn [In]. intuition. }
  exists (g_sample g), v, (option_map (only_signal (sc_scope sc)) (row_at (st_frames st) v m)). split; [exact W|]. split; [rewrite Er, VI; reflexivity|].
  split; [apply (filing_given I inv L s0 es HI g Hg)|]. split; [rewrite <- (filing_home I inv 0 st _ H g Hg); exact Hvg|]. split; [exact Sig|]. split; [exact D|]. split.
  - intros Al. rewrite <- Eg. unfold st. rewrite (aligned_row I inv s0 es v (g_sample g) L HI Sg Al). cbn [option_map]. rewrite <- Sig, only_signal_self. reflexivity.
  - intros s' Sv Hh Doc. destruct (saved_hit I inv s0 es sc [v] s' v order L HI OO Sv (or_introl eq_refl) Hh EA Doc) as (cols' & hits' & EC' & _ & LK' & Hin & _).
    fold st in EC', LK'. rewrite EC in EC'. apply some_inj in EC'. subst cols'. rewrite LK in LK'. apply some_inj in LK'. subst hits'.
    rewrite Eg. apply Mx, Hin.
Qed.

(* ------------------------------------------------------------------ C38 *)
(** Limit and reverse change nothing at all. *)
Theorem C38_limit_and_reverse_ignored_refuted : forall I (st : store I) h kvb e scope fs times order limit limit' rev rev',
  do_scan I h kvb st e (Scan scope fs times limit rev) order = do_scan I h kvb st e (Scan scope fs times limit' rev') order.
Proof. reflexivity. Qed.

(* ------------------------------------------------------------------ C39 *)
(** Errors of the translation table and of the index reach the client ... *)
Theorem C39_index_errors_reported_partial : forall I (st : store I) h kvb e sc order,
  (compile_filters I (e_find_fails e) (st_tr st) sc = None -> do_scan I h kvb st e sc order = SErr) /\
  (e_index_fails e = true -> (forall cols, compile_filters I (e_find_fails e) (st_tr st) sc = Some cols -> cols <> []) -> do_scan I h kvb st e sc order = SErr).
Proof.
  intros I st h kvb e sc order. unfold do_scan, scan_rows. destruct (time_bounds (e_wall e) (sc_times sc)) as [a b].
  split; [intros ->; reflexivity|]. intros -> NE. destruct (compile_filters I (e_find_fails e) (st_tr st) sc) as [cols|]; [|reflexivity].
  specialize (NE cols eq_refl). destruct cols; [congruence|]. reflexivity.
Qed.
(** ... but a failure to read the stored data is answered with a nil result and no error. *)
Theorem C39_frame_errors_swallowed_refuted : forall I (st : store I) h kvb e sc order rows vs v,
  scan_rows I st (calm (e_wall e)) sc order = RRows rows -> window e sc vs -> In v vs ->
  e_find_fails e = (fun _ => false) -> e_index_fails e = false -> e_frame_fails e v = true ->
  do_scan I h kvb st e sc order = SData None.
Proof.
  intros I st h kvb e sc order rows vs v ER W Hv F1 F2 F3. unfold do_scan. revert ER. unfold scan_rows, window in *. cbn [calm e_wall e_find_fails e_index_fails e_frame_fails].
  destruct (time_bounds (e_wall e) (sc_times sc)) as [a b]. cbn [fst snd] in W. rewrite F1, F2.
  destruct (compile_filters I (fun _ => false) (st_tr st) sc) as [cols|]; [|discriminate]. destruct (sempty cols); [discriminate|]. rewrite W.
  destruct (rows_loop (st_shards st) vs (order cols) None) as [hits|]; [|discriminate]. destruct (sempty hits); [discriminate|].
  destruct (existsb _ _); [|discriminate]. intros _.
  set (ids := match sc_range (sc_times sc) with Some _ => hits | None => _ end).
  assert (N : read_views (e_frame_fails e) (st_frames st) (sc_scope sc) ids vs = None) by (apply C32_read_errors; eauto).
  rewrite N. reflexivity.
Qed.

(* ------------------------------------------------------------------ C40 *)
(** When the index has no match the answer is the empty container of the signal; *)
Theorem C40_no_match_is_empty_container_partial : forall I (st : store I) h kvb wall sc order vs, In (sc_scope sc) signals -> window (calm wall) sc vs ->
  (forall cols id, compile_filters I (fun _ => false) (st_tr st) sc = Some cols -> ~ res_in id (lookup (st_shards st) vs cols (order cols))) ->
  do_scan I h kvb st (calm wall) sc order = SData (Some (if Z.eqb (sc_scope sc) RESOURCE_METRICS then DMetrics [] else if Z.eqb (sc_scope sc) RESOURCE_TRACES then DTraces [] else DLogs [])).
Proof.
  intros I st h kvb wall sc order vs SG W NM. destruct (compile_spec I (st_tr st) sc) as (cols & EC & _). specialize (NM cols).
  assert (Z : zero_data (sc_scope sc) = Some (if Z.eqb (sc_scope sc) RESOURCE_METRICS then DMetrics [] else if Z.eqb (sc_scope sc) RESOURCE_TRACES then DTraces [] else DLogs [])).
  { destruct SG as [<-|[<-|[<-|[]]]]; reflexivity. }
  unfold do_scan, scan_rows, window in *. cbn [calm e_wall e_find_fails e_index_fails e_frame_fails] in *.
  destruct (time_bounds wall (sc_times sc)) as [a b]. cbn [fst snd] in W. rewrite EC, W. unfold lookup in NM.
  destruct (sempty cols); [cbn [finish]; rewrite Z; reflexivity|].
  destruct (rows_loop (st_shards st) vs (order cols) None) as [hits|]; [|cbn [finish]; rewrite Z; reflexivity].
  destruct hits as [|x hits]; [cbn [sempty finish]; rewrite Z; reflexivity|]. exfalso. apply (NM x EC). left. reflexivity.
Qed.
(** in particular when no sample of the history has the asked labels in a consulted view. *)
Theorem C40_nothing_saved_matches_partial : forall I inv s0 es h kvb wall sc order vs, tr_laws I inv -> history I inv s0 es -> some_order order ->
  let st := after I s0 es in
  In (sc_scope sc) signals -> window (calm wall) sc vs -> one_shard I st sc ->
  (forall s v, In s (given es) -> In v vs -> In v (home (smp_data s)) ->
     exists l, asks sc l /\ l_prefix l <> PREFIX_UNKNOWN /\ forall l', documented_label (smp_data s) l' -> encode l' <> encode l) ->
  do_scan I h kvb st (calm wall) sc order = SData (Some (if Z.eqb (sc_scope sc) RESOURCE_METRICS then DMetrics [] else if Z.eqb (sc_scope sc) RESOURCE_TRACES then DTraces [] else DLogs [])).
Proof.
  intros I inv s0 es h kvb wall sc order vs L HI OO st SG W OS NM. apply (C40_no_match_is_empty_container_partial I st h kvb wall sc order vs SG W).
  intros cols id EC R. destruct (lookup (st_shards st) vs cols (order cols)) as [hits|] eqn:LK; [|exact R].
  assert (NC : cols <> []).
  { intros ->. unfold lookup in LK. pose proof (OO []) as P. unfold visits in P. cbn in P. apply Permutation_nil in P. rewrite P in LK. discriminate. }
  destruct (hit_documented I inv s0 es vs sc cols order hits id L HI OO EC NC LK R (or_introl OS)) as (g & Hg & _ & Lab & v & Hv & Hvg & _).
  rewrite (filing_home I inv 0 _ _ (hist_inv I inv L s0 es HI) g Hg) in Hvg.
  destruct (NM (g_sample g) v (filing_given I inv L s0 es HI g Hg) Hv Hvg) as (l & Al & NP & No).
  destruct (Lab l Al) as (l' & [D|D] & E); [exact (No l' D E)|]. apply NP.
  destruct (C02_signal_and_prefix_recoverable _ _ E) as [_ E2]. rewrite <- E2, D. reflexivity.
Qed.

(* ------------------------------------------------------------------ C41 *)
(** Whatever happened (saves cut short anywhere, restarts): every index entry belongs to a sample that was
    given to a save, whose data is in the rows of that view, which the view's set of ids of its signal
    contains, and to a column that translates back to one of the sample's labels. *)
Theorem C41_index_never_ahead_of_data : forall I inv s0 es v id col, tr_laws I inv -> history I inv s0 es ->
  let st := after I s0 es in
  carries (st_shards st) v id col ->
  exists s l, In s (given es) /\ smp_id s = id /\ In v (home (smp_data s)) /\
    (exists i, row_at (st_frames st) v i = Some (smp_data s)) /\
    (In (signal_of (smp_data s)) signals -> In id (members (st_frames st) v (signal_of (smp_data s)))) /\
    ti_back I (st_tr st) col = Some (encode l) /\ (documented_label (smp_data s) l \/ exists z, l = Label z PREFIX_UNKNOWN "" "").
Proof.
  intros I inv s0 es v id col L HI st C. pose proof (hist_inv I inv L s0 es HI) as H. fold st in H.
  destruct (carried_stored I inv 0 st _ H (hist_small I inv L s0 es HI) v id col C) as (g & Hg & Eg & Hv & Sg & Hcol).
  apply (filing_cols I inv 0 st _ H g col Hg) in Hcol as (l & Hl & F). exists (g_sample g), l.
  split; [apply (filing_given I inv L s0 es HI g Hg)|]. split; [exact Eg|]. split; [rewrite <- (filing_home I inv 0 st _ H g Hg); exact Hv|].
  rewrite (I_frames _ _ _ _ _ H). split; [|split; [|split]].
  - pose proof Sg as Sg'. apply stored_iff in Sg'. assert (NE : view_history v (map p_flush (trace I (new_store I s0) es)) <> []) by (intros Q; rewrite Q in Sg'; destruct Sg').
    destruct (C29_row_numbers_exact _ v (good_trace I inv 0 _ _ H (hist_inc I inv L s0 es HI)) NE) as (f & Ef & Lay & _).
    eexists. unfold row_at. rewrite Ef. apply Lay, Sg'.
  - intros SG. apply C31_membership_exact; [apply (I_flush _ _ _ _ _ H)|exact SG|]. exists (g_sample g). auto.
  - apply (tl_back _ _ L _ _ _ _ (I_tr _ _ _ _ _ H) F).
  - destruct Hl as [D|D]; [auto|]. right. eauto.
Qed.

(* ------------------------------------------------------------------ C42 *)
Lemma append_view_keeps o ss i d : (match o with Some f => nth_error (fr_rows f) i | None => None end) = Some d ->
  nth_error (fr_rows (append_view o ss)) i = Some d.
Proof.
  destruct o as [f|]; [|discriminate]. intros E. cbn [append_view fr_rows]. rewrite nth_error_app1; [exact E|]. apply nth_error_Some. congruence.
Qed.
Lemma append_steps_keeps l : forall fs v i d, row_at fs v i = Some d -> row_at (append_steps fs l) v i = Some d.
Proof.
  induction l as [|[w ss] l IH]; intros fs v i d E; [exact E|]. cbn [append_steps fold_left]. change (fold_left append_step l ?x) with (append_steps x l).
  apply IH. unfold append_step, row_at in *. cbn [fst snd]. destruct (String.eqb_spec v w) as [->|NE].
  - rewrite (aget_aset_eq _ string_eqb_reflect). apply append_view_keeps. exact E.
  - rewrite (aget_aset_ne _ string_eqb_reflect) by exact NE. exact E.
Qed.
Lemma append_steps_members l : forall fs v sg id, In sg signals -> In id (members fs v sg) -> In id (members (append_steps fs l) v sg).
Proof.
  induction l as [|[w ss] l IH]; intros fs v sg id T E; [exact E|]. cbn [append_steps fold_left]. change (fold_left append_step l ?x) with (append_steps x l).
  apply IH; [exact T|]. unfold append_step, members in *. cbn [fst snd]. destruct (String.eqb_spec v w) as [->|NE].
  - rewrite (aget_aset_eq _ string_eqb_reflect). destruct (aget String.eqb w fs) as [f|] eqn:Ef; [|destruct E].
    apply append_view_set; [destruct T as [<-|[<-|[<-|[]]]]; unfold three; auto|]. left. exact E.
  - rewrite (aget_aset_ne _ string_eqb_reflect) by exact NE. exact E.
Qed.
(** Whatever happens next, everything already there stays: index entries, translations, membership, rows. *)
Theorem C42_saving_only_adds : forall I inv s0 es more, tr_laws I inv -> history I inv s0 (es ++ more) ->
  let st := after I s0 es in
  let st' := after I s0 (es ++ more) in
  (forall v id col, carries (st_shards st) v id col -> carries (st_shards st') v id col) /\
  (forall key col, ti_find I (st_tr st) key = Some col -> ti_find I (st_tr st') key = Some col) /\
  (forall key col, ti_find I (st_tr st) key = Some col -> ti_back I (st_tr st') col = Some key) /\
  (forall v sg id, In sg signals -> In id (members (st_frames st) v sg) -> In id (members (st_frames st') v sg)) /\
  (forall v i d, row_at (st_frames st) v i = Some d -> row_at (st_frames st') v i = Some d).
Proof.
  intros I inv s0 es more L HI st st'. pose proof (hist_inv I inv L s0 _ HI) as H'. fold st' in H'.
  assert (HI0 : history I inv s0 es).
  { destruct HI as (A & B & C & D). apply possible_app in B as [B _]. split; [revert A; apply (inv_le I inv L); rewrite events_cost_app; lia|]. split; [exact B|].
    unfold given in *. rewrite flat_map_app in *. split; [apply increasing_app in C as (C & _); exact C|]. intros s Hs. apply D. apply in_app_iff. auto. }
  pose proof (hist_inv I inv L s0 es HI0) as H. fold st in H. rewrite trace_app in H'. fold (after I s0 es) in H'. fold st in H'.
  assert (FR : st_frames st' = append_steps (st_frames st) (flat_map written (map p_flush (trace I st more)))).
  { rewrite (I_frames _ _ _ _ _ H'), (I_frames _ _ _ _ _ H). unfold run_flushes. rewrite map_app, flat_map_app. apply append_steps_app. }
  assert (X : forall key col, ti_find I (st_tr st) key = Some col -> ti_find I (st_tr st') key = Some col).
  { destruct HI as (A & B & _). apply possible_app in B as [B1 B2]. rewrite events_cost_app in A.
    assert (B0 : Inv I inv (events_cost more + 0) st (trace I (new_store I s0) es)).
    { apply (life I inv L _ s0 es); [|exact B1]. rewrite Nat.add_0_r. exact A. }
    destruct (run_inv I inv L more 0 st _ B0 B2) as [_ X]. unfold st', after. rewrite run_app. exact X. }
  split; [|split; [exact X|split; [|split]]].
  - intros v id col C. unfold carries in *. apply (I_bits _ _ _ _ _ H) in C.
    apply (I_bits _ _ _ _ _ H'). destruct C as (x & g & c & Hx & R). exists x, g, c. split; [apply in_app_iff; auto|exact R].
  - intros key col F. apply (tl_back _ _ L _ _ _ _ (I_tr _ _ _ _ _ H') (X _ _ F)).
  - intros v sg id T E. rewrite FR. apply append_steps_members; auto.
  - intros v i d E. rewrite FR. apply append_steps_keeps, E.
Qed.

(* ------------------------------------------------------------------ concrete lives *)
(** A save that meets no trouble, the maps iterated in some fixed order. *)
Definition smooth (I : tr_impl) (st : store I) (l : list sample) : choices :=
  let fs := snd (process_samples (ti_translate I) (st_ctx st) l) in
  let vs := match group_samples zero_qt (combine l (map f_min fs)) [] with Some m => m | None => [] end in
  let frags := match snd (batch_build (add_filed [] fs batch_new)) with Some f => f | None => [] end in
  Choices [] zero_qt vs (List.length vs) (map (fun p => (fst p, map fst (snd p))) frags) (map (fun _ => true) frags).
(** Such a save is always possible. *)
Lemma smooth_ok I st l : choices_ok I st l (smooth I st l).
Proof.
  unfold choices_ok, smooth. set (fs := snd (process_samples (ti_translate I) (st_ctx st) l)) in *. cbn [ch_pools ch_pool ch_views ch_shards].
  split; [intros q []|]. split; [reflexivity|]. split; [intros m ->; apply Permutation_refl|]. intros frags E. rewrite E in *.
  split; [rewrite map_map; apply Permutation_refl|]. intros k vs Hin. apply in_map_iff in Hin as ([k' m] & E' & Hin). apply pair_inj in E' as [<- <-].
  exists m. split; [apply (in_aget _ N_eqb_reflect); [apply (build_nodup _ _ _ E)|exact Hin]|apply Permutation_refl].
Qed.
Lemma possible_snoc I st es e : possible I st es -> event_ok I (run I st es) e -> possible I st (es ++ [e]).
Proof. intros H1 H2. apply possible_app. split; [exact H1|]. split; [exact H2|exact Logic.I]. Qed.
(** Sample 0 at 00:30 UTC on 1970-01-01 (metric "a"), then samples 1 ("b") and 2 ("c") at 01:30, then
    sample 3 (metric "b" again) at 01:30. *)
Definition mt (name : string) (t : N) : data := DMetrics [RGroup "" None [SGroup "" None [Metric name "" "" (Some (MData KGauge 0 false [Point t [] name]))]]].
Definition half1 : N := 1800000000000.
Definition ev (l : list sample) (es : list event) : event := ESave l (smooth list_impl (after list_impl [] es) l).
Definition life0 : list event := [].
Definition life1 : list event := life0 ++ [ev [Sample 0 (mt "a" half1)] life0].
Definition life2 : list event := life1 ++ [ev [Sample 1 (mt "b" hour2); Sample 2 (mt "c" hour2)] life1].
Definition life3 : list event := life2 ++ [ev [Sample 3 (mt "b" hour2)] life2].
Definition ask (name : string) (a b : Z) : scan := Scan RESOURCE_METRICS [FBase PREFIX_NAME name] (ScanTimes None None (Some (Some (a, 0%Z), Some (b, 0%Z)))) 1 true.
Definition ask_now (fs : list scan_filter) (t : Z) : scan := Scan RESOURCE_METRICS fs (ScanTimes (Some (t, 0%Z)) None None) 0 false.
Definition go (st : store list_impl) (sc : scan) : scan_rows_out := scan_rows list_impl st (calm 0) sc group_columns.
Lemma group_order : some_order group_columns. Proof. intros cols. apply Permutation_refl. Qed.
Lemma one_col I st scope p v times lim rev : one_shard I st (Scan scope [FBase p v] times lim rev).
Proof.
  assert (A : forall l, asks (Scan scope [FBase p v] times lim rev) l -> l = Label scope p v "").
  { intros l [[E _]|[(p' & v' & Hin & ->)|(p' & k & v' & Hin & ->)]]; cbn in *; [discriminate| |]; destruct Hin as [Hin|[]]; [|discriminate].
    injection Hin as -> ->. reflexivity. }
  intros l l' c c' H1 H2 F1 F2. apply A in H1, H2. subst. congruence.
Qed.
Lemma ev_ok l es : (forall s t1 t2, In s l -> In (t1, t2) (record_times (smp_data s)) -> t1 < two64 /\ t2 < two64) -> event_ok list_impl (after list_impl [] es) (ev l es).
Proof. intros H. split; [apply smooth_ok|exact H]. Qed.
Definition times_ok (l : list sample) : Prop := forall s t1 t2, In s l -> In (t1, t2) (record_times (smp_data s)) -> t1 < two64 /\ t2 < two64.
Lemma life_snoc l es : possible list_impl (new_store list_impl []) es -> times_ok l -> possible list_impl (new_store list_impl []) (es ++ [ev l es]).
Proof. intros H T. apply possible_snoc; [exact H|]. apply (ev_ok l es T). Qed.
Lemma times_forall l : Forall (fun s => Forall (fun t => fst t < two64 /\ snd t < two64) (record_times (smp_data s))) l -> times_ok l.
Proof. intros F s t1 t2 Hs Ht. rewrite Forall_forall in F. specialize (F s Hs). rewrite Forall_forall in F. apply (F _ Ht). Qed.
Example life3_history : history list_impl list_inv [] life3.
Proof.
  split; [vm_compute; reflexivity|]. split; [|split].
  - unfold life3. apply life_snoc; [|apply times_forall; repeat constructor]. unfold life2. apply life_snoc; [|apply times_forall; repeat constructor].
    unfold life1. apply life_snoc; [exact Logic.I|apply times_forall; repeat constructor].
  - vm_compute. repeat constructor.
  - intros s Hs. vm_compute in Hs. repeat (destruct Hs as [<-|Hs]; [reflexivity|]). destruct Hs.
Qed.
(** Two flushes of view "1970-01-01 01h": its first held samples 1 and 2, so both are one row low there. *)
Example C35_wrong_sample_refuted :
  history list_impl list_inv [] life3 /\
  go (after list_impl [] life2) (ask "b" 3600 7200) = RRows [Some (mt "c" hour2)] /\
  go (after list_impl [] life2) (ask "c" 3600 7200) = RRows [None] /\
  ~ documented_label (mt "c" hour2) (Label RESOURCE_METRICS PREFIX_NAME "b" "").
Proof.
  split; [exact life3_history|]. split; [vm_compute; reflexivity|]. split; [vm_compute; reflexivity|].
  intros H. apply in_L_data in H. vm_compute in H. destruct H as [H|[]]. discriminate.
Qed.
(** A row of another sample can be returned: the full C35 is false. *)
Theorem C35_scan_sound_refuted : exists es sc rows row,
  history list_impl list_inv [] es /\ one_shard list_impl (after list_impl [] es) sc /\
  go (after list_impl [] es) sc = RRows rows /\ In row rows /\
  forall s, In s (given es) -> row = Some (smp_data s) -> exists l, asks sc l /\ ~ documented_label (smp_data s) l.
Proof.
  exists life3, (ask "b" 3600 7200), [Some (mt "c" hour2); Some (mt "b" hour2)], (Some (mt "c" hour2)).
  split; [exact life3_history|]. split; [apply one_col|]. split; [vm_compute; reflexivity|]. split; [left; reflexivity|].
  intros s _ E. apply some_inj in E. exists (Label RESOURCE_METRICS PREFIX_NAME "b" ""). split; [right; left; exists PREFIX_NAME, "b"%string; split; [left; reflexivity|reflexivity]|].
  rewrite <- E. intros H. apply in_L_data in H. vm_compute in H. destruct H as [H|[]]. discriminate.
Qed.
(** The hypotheses of C36 are met: sample 3 is saved, aligned in the hour view, and returned. *)
Example C36_example : saved list_impl [] life3 (Sample 3 (mt "b" hour2)) /\ aligned (flushes list_impl [] life3) "std_1970010101" (Sample 3 (mt "b" hour2)) /\
  home (mt "b" hour2) = ["std_1970"; "std_197001"; "std_19700101"; "std_1970010101"]%string /\
  window (calm 0) (ask "b" 3600 7200) ["std_1970010101"%string] /\
  go (after list_impl [] life3) (ask "b" 3600 7200) = RRows [Some (mt "c" hour2); Some (mt "b" hour2)].
Proof.
  split; [left; exists life2, [Sample 3 (mt "b" hour2)], (smooth list_impl (after list_impl [] life2) [Sample 3 (mt "b" hour2)]), []; split; [reflexivity|]; split; [left; reflexivity|]; split; [vm_compute; reflexivity|reflexivity]|].
  split; [right; vm_compute; reflexivity|]. split; [vm_compute; reflexivity|]. split; vm_compute; reflexivity.
Qed.
(** The year view begins with sample 0: all is aligned there. *)
Example C36_year_example : go (after list_impl [] life3) (ask "b" 0 40000000) = RRows [Some (mt "b" hour2); Some (mt "b" hour2)].
Proof. vm_compute. reflexivity. Qed.
(** An unfiltered scan does not find a saved sample (its marker names the signal of the sample before it),
    nor does any scan after a restart. *)
Theorem C36_unfiltered_scan_misses_refuted : exists es s sc, history list_impl list_inv [] es /\ saved list_impl [] es s /\
  sc_filters sc = [] /\ sc_scope sc = signal_of (smp_data s) /\ (exists v, window (calm 0) sc [v] /\ In v (home (smp_data s)) /\ aligned (flushes list_impl [] es) v s) /\
  go (after list_impl [] es) sc = RZero.
Proof.
  exists life1, (Sample 0 (mt "a" half1)), (ask_now [] 1900). split.
  - split; [vm_compute; reflexivity|]. split; [unfold life1; apply life_snoc; [exact Logic.I|apply times_forall; repeat constructor]|].
    split; [vm_compute; repeat constructor|]. intros s Hs. vm_compute in Hs. destruct Hs as [<-|[]]. reflexivity.
  - split; [left; exists life0, [Sample 0 (mt "a" half1)], (smooth list_impl (after list_impl [] life0) [Sample 0 (mt "a" half1)]), []; split; [reflexivity|]; split; [left; reflexivity|]; split; [vm_compute; reflexivity|reflexivity]|].
    split; [reflexivity|]. split; [reflexivity|]. split; [|vm_compute; reflexivity].
    exists "std_1970010100"%string. split; [vm_compute; reflexivity|]. split; [vm_compute; auto|]. left. vm_compute. reflexivity.
Qed.
(** C37: the newest of the two samples named "b" within the hour. *)
Example C37_example : go (after list_impl [] life3) (ask_now [FBase PREFIX_NAME "b"] 5500) = RRows [Some (mt "b" hour2)] /\
  go (after list_impl [] life2) (ask_now [FBase PREFIX_NAME "b"] 5500) = RRows [Some (mt "c" hour2)].
Proof. split; vm_compute; reflexivity. Qed.
(** C38: limit 1 in [ask], two rows collected (C36_example). *)
Example C38_example : sc_limit (ask "b" 3600 7200) = 1 /\ sc_reverse (ask "b" 3600 7200) = true /\
  exists r1 r2, go (after list_impl [] life3) (ask "b" 3600 7200) = RRows [r1; r2].
Proof. split; [reflexivity|]. split; [reflexivity|]. do 2 eexists. vm_compute. reflexivity. Qed.
Example C39_example : scan_rows list_impl (after list_impl [] life3) (Env 0 (fun _ => false) false (fun v => String.eqb v "std_1970010101")) (ask "b" 3600 7200) group_columns = RRows [].
Proof. vm_compute. reflexivity. Qed.
(** C40: a metric in the first hour, a log record in the second; an unfiltered scan of metrics in the second
    hour finds the log record's marker and answers nil. *)
Definition lg (t : N) : data := DLogs [RGroup "" None [SGroup "" None [LogRecord t "" [] None None ""]]].
Definition life5 : list event := life1 ++ [ev [Sample 1 (lg hour2)] life1].
Theorem C40_no_match_may_be_nil_refuted : exists es sc, history list_impl list_inv [] es /\ In (sc_scope sc) signals /\
  (forall s v vs, In s (given es) -> window (calm 0) sc vs -> In v vs -> In v (home (smp_data s)) -> signal_of (smp_data s) <> sc_scope sc) /\
  forall h kvb, do_scan list_impl h kvb (after list_impl [] es) (calm 0) sc group_columns = SData None.
Proof.
  exists life5, (ask_now [] 5500). split; [|split; [left; reflexivity|split]].
  - split; [vm_compute; reflexivity|]. split.
    + unfold life5. apply life_snoc; [|apply times_forall; repeat constructor]. unfold life1. apply life_snoc; [exact Logic.I|apply times_forall; repeat constructor].
    + split; [vm_compute; repeat constructor|]. intros s Hs. vm_compute in Hs. destruct Hs as [<-|[<-|[]]]; reflexivity.
  - intros s v vs Hs W Hv Hh. assert (E : window (calm 0) (ask_now [] 5500) ["std_1970010101"%string]) by (vm_compute; reflexivity).
    unfold window in *. rewrite W in E. apply some_inj in E. subst vs. destruct Hv as [<-|[]].
    vm_compute in Hs. destruct Hs as [<-|[<-|[]]]; [vm_compute in Hh; repeat (destruct Hh as [Hh|Hh]; [discriminate|]); destruct Hh|discriminate].
  - intros h kvb. assert (E : scan_rows list_impl (after list_impl [] life5) (calm 0) (ask_now [] 5500) group_columns = RRows []) by (vm_compute; reflexivity).
    unfold do_scan. rewrite E. reflexivity.
Qed.
Example C41_example : carries (st_shards (after list_impl [] life3)) "std_1970010101" 3 3 /\ ti_back list_impl (st_tr (after list_impl [] life3)) 3 = Some "1:6:b"%string.
Proof. split; [vm_compute; auto 10|reflexivity]. Qed.
Example C28_example_labels : labels_of list_impl (after list_impl [] life3) "std_1970010101" 3 [0] = Some ["1:0:"; "1:6:b"]%string.
Proof. vm_compute. reflexivity. Qed.

(** Labels in different shards: every label has a shard of its own.  Samples 0 (resource schema "s", metric
    "a"), 1 ("t", "b") and 2 ("s", "b"), all at 00:30. *)
Definition mts (schema name : string) : data := DMetrics [RGroup schema None [SGroup "" None [Metric name "" "" (Some (MData KGauge 0 false [Point half1 [] name]))]]].
Definition evw (l : list sample) (es : list event) : event := ESave l (smooth wide_impl (after wide_impl [] es) l).
Definition wide1 : list event := [evw [Sample 0 (mts "s" "a"); Sample 1 (mts "t" "b")] []].
Definition wide2 : list event := wide1 ++ [evw [Sample 2 (mts "s" "b")] wide1].
Definition ask2 (schema name : string) : scan :=
  Scan RESOURCE_METRICS [FBase PREFIX_RESOURCE_SCHEMA schema; FBase PREFIX_NAME name] (ScanTimes None None (Some (Some (0%Z, 0%Z), Some (3600%Z, 0%Z)))) 0 false.
Lemma wide_snoc l es : possible wide_impl (new_store wide_impl []) es -> times_ok l -> possible wide_impl (new_store wide_impl []) (es ++ [evw l es]).
Proof. intros H T. apply possible_snoc; [exact H|]. split; [apply smooth_ok|exact T]. Qed.
Example wide2_history : history wide_impl wide_inv [] wide2.
Proof.
  split; [vm_compute; reflexivity|]. split; [|split].
  - unfold wide2. apply wide_snoc; [|apply times_forall; repeat constructor]. apply (wide_snoc _ []); [exact Logic.I|apply times_forall; repeat constructor].
  - vm_compute. repeat constructor.
  - intros s Hs. vm_compute in Hs. repeat (destruct Hs as [<-|Hs]; [reflexivity|]). destruct Hs.
Qed.
(** Sample 2 has both asked labels, so the scan is conclusive although the labels are in two shards, and
    finds just that sample. *)
Example C35_two_shards_example : history wide_impl wide_inv [] wide2 /\ ~ one_shard wide_impl (after wide_impl [] wide2) (ask2 "s" "b") /\
  conclusive wide_impl [] wide2 (ask2 "s" "b") ["std_1970010100"%string] /\ window (calm 0) (ask2 "s" "b") ["std_1970010100"%string] /\
  scan_rows wide_impl (after wide_impl [] wide2) (calm 0) (ask2 "s" "b") group_columns = RRows [Some (mts "s" "b")].
Proof.
  split; [exact wide2_history|]. split; [|split; [right|split; [vm_compute; reflexivity|vm_compute; reflexivity]]].
  - intros OS. specialize (OS (Label RESOURCE_METRICS PREFIX_RESOURCE_SCHEMA "s" "") (Label RESOURCE_METRICS PREFIX_NAME "b" "")).
    assert (K : 1 = 5).
    { apply (OS 1048576 5242880); [right; left; do 2 eexists; split; [left; reflexivity|reflexivity]|right; left; do 2 eexists; split; [right; left; reflexivity|reflexivity]|vm_compute; reflexivity|vm_compute; reflexivity]. }
    discriminate.
  - exists (Sample 2 (mts "s" "b")), "std_1970010100"%string. split; [|split; [left; reflexivity|split; [vm_compute; auto|]]].
    + left. exists wide1, [Sample 2 (mts "s" "b")], (smooth wide_impl (after wide_impl [] wide1) [Sample 2 (mts "s" "b")]), []. split; [reflexivity|]. split; [left; reflexivity|]. split; vm_compute; reflexivity.
    + intros l [[E _]|[(p & w & Hin & ->)|(p & k & w & Hin & ->)]]; cbn [ask2 sc_filters sc_scope] in *; [discriminate| |].
      * apply in_L_data. destruct Hin as [E|[E|[]]]; injection E as <- <-; vm_compute; auto.
      * destruct Hin as [E|[E|[]]]; discriminate.
Qed.
(** When nothing consulted has all asked labels, a shard without a match is passed over, and a sample with
    only the other labels is answered: metric "b" is recorded only in the second hour, the scan asks for
    schema "s" and "b" in the first. *)
Definition mts2 (schema name : string) : data := DMetrics [RGroup schema None [SGroup "" None [Metric name "" "" (Some (MData KGauge 0 false [Point hour2 [] name]))]]].
Definition wide3 : list event := [evw [Sample 0 (mts "s" "a"); Sample 1 (mts2 "s" "b")] []].
Theorem C35_two_shards_refuted : exists es sc rows row, history wide_impl wide_inv [] es /\
  scan_rows wide_impl (after wide_impl [] es) (calm 0) sc group_columns = RRows rows /\ In row rows /\
  (forall v vs s, window (calm 0) sc vs -> In v vs -> aligned (flushes wide_impl [] es) v s) /\
  forall s, row = Some (smp_data s) -> exists l, asks sc l /\ ~ documented_label (smp_data s) l.
Proof.
  exists wide3, (ask2 "s" "b"), [Some (mts "s" "a")], (Some (mts "s" "a")). split; [|split; [vm_compute; reflexivity|split; [left; reflexivity|split]]].
  - split; [vm_compute; reflexivity|]. split; [|split].
    + apply (wide_snoc _ []); [exact Logic.I|apply times_forall; repeat constructor].
    + vm_compute. repeat constructor.
    + intros s Hs. vm_compute in Hs. repeat (destruct Hs as [<-|Hs]; [reflexivity|]). destruct Hs.
  - intros v vs s W Hv. assert (E : window (calm 0) (ask2 "s" "b") ["std_1970010100"%string]) by (vm_compute; reflexivity).
    unfold window in *. rewrite W in E. apply some_inj in E. subst vs. destruct Hv as [<-|[]]. left. vm_compute. reflexivity.
  - intros s E. apply some_inj in E. rewrite <- E. exists (Label RESOURCE_METRICS PREFIX_NAME "b" ""). split; [right; left; do 2 eexists; split; [right; left; reflexivity|reflexivity]|].
    intros H. apply in_L_data in H. vm_compute in H. repeat (destruct H as [H|H]; [discriminate|]). destruct H.
Qed.
