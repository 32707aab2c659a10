(** Scans of a store with a history. *)
From Verif.Model Require Import Base Labels Calendar View Otlp Transform Batch Rows Shards Dataframe Collapse Store.
From Verif.Spec Require Import Indexing Translator Frames Saves Sets.
From Verif.Proofs Require Import BaseFacts LabelsFacts CalendarFacts ViewFacts TransformFacts TransformLaws BatchFacts RowsFacts ShardsFacts DataframeFacts StoreFacts.
From Verif.Props Require Import P_Shards P_Dataframe.
Open Scope N_scope.

Lemma documented_resource d l : documented_label d l -> l_resource l = signal_of d.
Proof. intros H. apply in_L_data in H. pose proof (L_data_res (S := unit) (fun s _ => (s, 0)) d) as F. rewrite Forall_forall in F. apply F, H. Qed.

(* ------------------------------------------------------------------ CompileFilters *)
Section Compile.
Context (I : tr_impl).
Lemma asks_filters sc l : sc_filters sc <> [] -> asks sc l <-> exists f, In f (sc_filters sc) /\ filter_label (sc_scope sc) f = Some l.
Proof.
  intros NE. unfold asks. split.
  - intros [[E _]|[(p & v & Hin & ->)|(p & k & v & Hin & ->)]]; [congruence| |]; eexists; (split; [exact Hin|reflexivity]).
  - intros ([p v|p k v|] & Hin & E); cbn in E; [| |discriminate]; apply some_inj in E; subst l; right; [left|right]; eauto 6.
Qed.
Lemma compile_loop_spec s scope fs : forall r, ssorted r ->
  match compile_loop I (fun _ => false) s scope fs r with
  | None => False
  | Some r' =>
      ((exists f l, In f fs /\ filter_label scope f = Some l /\ ti_find I s (encode l) = None) -> r' = []) /\
      ((forall f l, In f fs -> filter_label scope f = Some l -> ti_find I s (encode l) <> None) ->
         ssorted r' /\ forall c, In c r' <-> In c r \/ exists f l, In f fs /\ filter_label scope f = Some l /\ ti_find I s (encode l) = Some c)
  end.
Proof.
  induction fs as [|f fs IH]; intros r Hr; cbn [compile_loop].
  - split; [intros (f & l & [] & _)|]. intros _. split; [exact Hr|]. intros c. split; [auto|intros [H|(f & l & [] & _)]; exact H].
  - destruct (filter_label scope f) as [l|] eqn:Ef.
    + unfold find_col. destruct (ti_find I s (encode l)) as [n|] eqn:En.
      * assert (Hr' : ssorted (sadd n r)) by (apply ssorted_sadd, Hr). specialize (IH (sadd n r) Hr').
        destruct (compile_loop I (fun _ => false) s scope fs (sadd n r)) as [r'|]; [|exact IH]. destruct IH as [IH1 IH2]. split.
        -- intros (f' & l' & [<-|Hin] & E1 & E2); [congruence|]. apply IH1. eauto.
        -- intros Hall. destruct IH2 as [S2 C2]. { intros f' l' Hin. apply Hall. right. exact Hin. }
           split; [exact S2|]. intros c. rewrite C2, in_sadd. split.
           ++ intros [[->|H]|(f' & l' & Hin & E1 & E2)]; [right; exists f, l; cbn [In]; auto|auto|right; exists f', l'; cbn [In]; auto].
           ++ intros [H|(f' & l' & [<-|Hin] & E1 & E2)]; [auto| |right; exists f', l'; auto].
              left. left. congruence.
      * split; [reflexivity|]. intros Hall. exfalso. apply (Hall f l (or_introl eq_refl) Ef). exact En.
    + specialize (IH r Hr). destruct (compile_loop I (fun _ => false) s scope fs r) as [r'|]; [|exact IH]. destruct IH as [IH1 IH2]. split.
      * intros (f' & l' & [<-|Hin] & E1 & E2); [congruence|]. apply IH1. eauto.
      * intros Hall. destruct IH2 as [S2 C2]. { intros f' l' Hin. apply Hall. right. exact Hin. }
        split; [exact S2|]. intros c. rewrite C2. split; (intros [H|(f' & l' & Hin & E1 & E2)]; [auto|right; exists f', l']).
        -- cbn [In]. auto.
        -- destruct Hin as [<-|Hin]; [congruence|auto].
Qed.
Lemma compile_spec s sc : exists cols, compile_filters I (fun _ => false) s sc = Some cols /\
  ((exists l, asks sc l /\ ti_find I s (encode l) = None) -> cols = []) /\
  ((forall l, asks sc l -> ti_find I s (encode l) <> None) -> lists_exactly cols (fun c => exists l, asks sc l /\ ti_find I s (encode l) = Some c)).
Proof.
  unfold compile_filters. destruct (sc_filters sc) as [|f0 fs0] eqn:EF.
  - assert (A : forall l, asks sc l <-> l = Label (sc_scope sc) PREFIX_UNKNOWN "" "").
    { intros l. unfold asks. rewrite EF. split; [|auto]. intros [[_ H]|[(p & v & [] & _)|(p & k & v & [] & _)]]; exact H. }
    unfold find_col. destruct (ti_find I s (encode (Label (sc_scope sc) PREFIX_UNKNOWN "" ""))) as [n|] eqn:En.
    + exists [n]. split; [reflexivity|]. split.
      * intros (l & Hl & E). apply A in Hl. subst l. congruence.
      * intros _. split; [repeat constructor|]. intros c. split.
        -- intros [<-|[]]. eexists. split; [apply A; reflexivity|exact En].
        -- intros (l & Hl & E). apply A in Hl. subst l. left. congruence.
    + exists []. split; [reflexivity|]. split; [reflexivity|]. intros Hall. exfalso. apply (Hall _ (proj2 (A _) eq_refl)). exact En.
  - rewrite <- EF. assert (NE : sc_filters sc <> []) by (rewrite EF; discriminate). pose proof (asks_filters sc) as AF.
    pose proof (compile_loop_spec s (sc_scope sc) (sc_filters sc) [] ltac:(constructor)) as H.
    destruct (compile_loop I (fun _ => false) s (sc_scope sc) (sc_filters sc) []) as [r|]; [|destruct H]. destruct H as [H1 H2].
    exists r. split; [reflexivity|]. split.
    + intros (l & Hl & E). apply (AF l NE) in Hl as (f & Hin & Ef). apply H1. exists f, l. auto.
    + intros Hall. destruct H2 as [S C].
      { intros f l Hin Ef. apply Hall. apply (AF l NE). eauto. }
      split; [exact S|]. intros c. rewrite C. split.
      * intros [[]|(f & l & Hin & Ef & E)]. exists l. split; [apply (AF l NE); eauto|exact E].
      * intros (l & Hl & E). apply (AF l NE) in Hl as (f & Hin & Ef). right. exists f, l. auto.
Qed.
(** Failing look-ups. *)
Lemma compile_loop_fails fails s scope fs : forall r, compile_loop I fails s scope fs r = None ->
  exists f l, In f fs /\ filter_label scope f = Some l /\ fails (encode l) = true.
Proof.
  induction fs as [|f fs IH]; intros r H; cbn [compile_loop] in H; [discriminate|].
  destruct (filter_label scope f) as [l|] eqn:Ef.
  - unfold find_col in H. destruct (fails (encode l)) eqn:Fl; [exists f, l; cbn [In]; auto|].
    destruct (ti_find I s (encode l)); [|discriminate]. apply IH in H as (f' & l' & Hin & E1 & E2). exists f', l'. cbn [In]. auto.
  - apply IH in H as (f' & l' & Hin & E1 & E2). exists f', l'. cbn [In]. auto.
Qed.
Lemma compile_loop_agree fails s scope fs : forall r r', compile_loop I fails s scope fs r = Some r' ->
  compile_loop I (fun _ => false) s scope fs r = Some r'.
Proof.
  induction fs as [|f fs IH]; intros r r' H; cbn [compile_loop] in *; [exact H|].
  destruct (filter_label scope f) as [l|] eqn:Ef; [|auto]. unfold find_col in *. destruct (fails (encode l)); [discriminate|].
  destruct (ti_find I s (encode l)); auto.
Qed.
Lemma compile_fails fails s sc : compile_filters I fails s sc = None -> exists l, asks sc l /\ fails (encode l) = true.
Proof.
  unfold compile_filters. destruct (sc_filters sc) as [|f0 fs0] eqn:EF.
  - unfold find_col. destruct (fails (encode _)) eqn:Fl; [|destruct (ti_find I s _); discriminate]. intros _. eexists. split; [|exact Fl]. left. auto.
  - rewrite <- EF. intros H. apply compile_loop_fails in H as (f & l & Hin & Ef & Fl). exists l. split; [|exact Fl].
    apply asks_filters; [rewrite EF; discriminate|]. eauto.
Qed.
Lemma compile_agree fails s sc r : compile_filters I fails s sc = Some r -> compile_filters I (fun _ => false) s sc = Some r.
Proof.
  unfold compile_filters. destruct (sc_filters sc) as [|f0 fs0] eqn:EF.
  - unfold find_col. destruct (fails (encode _)); [discriminate|auto].
  - rewrite <- EF. apply compile_loop_agree.
Qed.
End Compile.

(* ------------------------------------------------------------------ the index and the frames of a store *)
Section Scan.
Context (I : tr_impl) (inv : nat -> ti_state I -> Prop) (L : tr_stable I inv) (b : nat) (st : store I) (ps : list past).
Hypothesis H : Inv I inv b st ps.
Notation fls := (map p_flush ps).
Hypothesis INC : increasing (all_samples fls).
Hypothesis SM : forall s, In s (all_samples fls) -> smp_id s < 2^44 - 1.
Definition all_filings (ps : list past) : list filing := flat_map p_filings ps.

Lemma map_flat_map {A B C} (f : B -> C) (g : A -> list B) l : map f (flat_map g l) = flat_map (fun a => map f (g a)) l.
Proof. induction l as [|a l IH]; [reflexivity|]. cbn. rewrite map_app, IH. reflexivity. Qed.
Lemma filings_all : map g_sample (all_filings ps) = all_samples fls.
Proof.
  unfold all_filings, all_samples. rewrite map_flat_map, flat_map_concat_map, flat_map_concat_map, map_map. f_equal. apply map_ext_in.
  intros x Hx. rewrite (I_samples _ _ _ _ _ H x Hx), map_map. reflexivity.
Qed.
Lemma in_all_filings g : In g (all_filings ps) <-> exists x, In x ps /\ In g (p_filings x).
Proof. unfold all_filings. rewrite in_flat_map. tauto. Qed.
Lemma increasing_unique {A} (f : A -> sample) l x y : increasing (map f l) -> In x l -> In y l -> smp_id (f x) = smp_id (f y) -> x = y.
Proof.
  induction l as [|a l IH]; intros S Hx Hy E; [destruct Hx|]. cbn [map] in S. inversion S as [|? ? S1 F1]; subst. rewrite Forall_forall in F1.
  destruct Hx as [<-|Hx], Hy as [<-|Hy]; auto.
  - specialize (F1 _ (in_map f _ _ Hy)). cbn in F1. lia.
  - specialize (F1 _ (in_map f _ _ Hx)). cbn in F1. lia.
Qed.
Lemma filing_unique g g' : In g (all_filings ps) -> In g' (all_filings ps) -> smp_id (g_sample g) = smp_id (g_sample g') -> g = g'.
Proof. apply increasing_unique. rewrite filings_all. exact INC. Qed.
Lemma filing_small g : In g (all_filings ps) -> smp_id (g_sample g) < 2^44 - 1.
Proof. intros Hg. apply SM. rewrite <- filings_all. apply in_map, Hg. Qed.
Lemma filing_cols g col : In g (all_filings ps) ->
  In col (f_cols (g_filed g)) <-> exists l, labelled g l /\ ti_find I (st_tr st) (encode l) = Some col.
Proof. intros Hg. apply in_all_filings in Hg as (x & Hx & Hg). destruct (I_filed _ _ _ _ _ H x g Hx Hg) as [(_ & _ & _ & C & _) _]. apply C. Qed.
Lemma filing_known g l : In g (all_filings ps) -> labelled g l -> exists n, ti_find I (st_tr st) (encode l) = Some n.
Proof. intros Hg. apply in_all_filings in Hg as (x & Hx & Hg). destruct (I_filed _ _ _ _ _ H x g Hx Hg) as [(_ & _ & _ & _ & C) _]. apply C. Qed.
Lemma fold_time_fst l : forall m, fst (fold_left time_step l m) = fold_left fmin (map fst l) (fst m).
Proof. induction l as [|[t1 t2] l IH]; intros [m1 m2]; [reflexivity|]. cbn [fold_left map]. rewrite IH. reflexivity. Qed.
Lemma filing_home g : In g (all_filings ps) -> views_of g = home (smp_data (g_sample g)).
Proof.
  intros Hg. apply in_all_filings in Hg as (x & Hx & Hg). destruct (I_filed _ _ _ _ _ H x g Hx Hg) as [(_ & T & _) _].
  unfold views_of, home, filed_at. apply (f_equal fst) in T. rewrite fold_time_fst in T. cbn [fst] in T. rewrite T. reflexivity.
Qed.
Lemma pos_small id col : id < 2^44 -> pos id col = id * 2^20 + col mod 2^20.
Proof.
  intros Hid. unfold pos, shard_width, two64. change 1048576 with (2^20). pose proof (N.mod_lt col (2^20) ltac:(discriminate)) as M.
  apply N.mod_small. change (2^64) with (2^44 * 2^20). revert M Hid. generalize (col mod 2^20). intros m. change (2^44) with 17592186044416. change (2^20) with 1048576. lia.
Qed.
Lemma sw_val : shard_width = 2^20. Proof. reflexivity. Qed.
Lemma carries_iff v id col : carries (st_shards st) v id col <->
  exists x g, In x ps /\ In g (p_filings x) /\ In (col / 2^20) (p_shards x) /\ In col (f_cols (g_filed g)) /\ In v (views_of g) /\ smp_id (g_sample g) = id.
Proof.
  unfold carries. rewrite (I_bits _ _ _ _ _ H). unfold shard_of. rewrite !sw_val. split.
  - intros (x & g & c & Hx & Hk & Hg & Hc & Ek & Hv & Ep).
    assert (S : smp_id (g_sample g) < 2^44). { eapply N.lt_trans; [apply filing_small; apply in_all_filings; eauto|reflexivity]. }
    rewrite (pos_small _ _ S) in Ep. exists x, g.
    pose proof (N.mod_lt col (2^20) ltac:(discriminate)) as M1. pose proof (N.mod_lt c (2^20) ltac:(discriminate)) as M2.
    assert (Q : id = smp_id (g_sample g) /\ col mod 2^20 = c mod 2^20).
    { revert Ep M1 M2. generalize (col mod 2^20), (c mod 2^20), (smp_id (g_sample g)). change (2^20) with 1048576. intros; split; lia. }
    destruct Q as [Q1 Q2]. assert (col = c).
    { rewrite (N.div_mod col (2^20)), (N.div_mod c (2^20)) by discriminate. rewrite Ek, Q2. reflexivity. }
    subst c. repeat (split; [assumption|]). symmetry. exact Q1.
  - intros (x & g & Hx & Hg & Hk & Hc & Hv & <-). exists x, g, col. repeat (split; [first [assumption|reflexivity]|]). symmetry. apply pos_small.
    eapply N.lt_trans; [apply filing_small; apply in_all_filings; eauto|reflexivity].
Qed.
Lemma reached_full x g v : In x ps -> p_shards x <> [] -> In g (p_filings x) -> In v (views_of g) -> reached v (p_flush x) = true.
Proof.
  intros Hx NE Hg Hv. pose proof (I_done _ _ _ _ _ H x Hx NE) as W. apply reached_in.
  assert (OK : flush_ok (p_flush x)). { pose proof (I_flush _ _ _ _ _ H) as F. rewrite Forall_forall in F. apply F, in_map, Hx. }
  rewrite W. destruct OK as (Hq & Hts & m & E & P). destruct (groups_exact _ _ Hq Hts) as (m' & E' & ND & G). rewrite E in E'. apply some_inj in E'. subst m'.
  exists (filed_in v (fl_samples (p_flush x))). apply Permutation_in with (l := m); [exact P|]. apply G. split; [reflexivity|].
  intros C. assert (In (g_sample g) (filed_in v (fl_samples (p_flush x)))); [|rewrite C in H0; destruct H0].
  unfold filed_in. apply in_map_iff. exists (g_sample g, f_min (g_filed g)). split; [reflexivity|]. apply filter_In. split.
  - rewrite (I_samples _ _ _ _ _ H x Hx). apply (in_map (fun g => (g_sample g, f_min (g_filed g)))), Hg.
  - apply in_view_iff. exact Hv.
Qed.
Lemma filing_stored x g v : In x ps -> In g (p_filings x) -> In v (views_of g) -> reached v (p_flush x) = true -> stored v fls (g_sample g).
Proof.
  intros Hx Hg Hv R. exists (p_flush x), (f_min (g_filed g)). split; [apply in_map, Hx|]. split; [exact R|]. split; [|exact Hv].
  rewrite (I_samples _ _ _ _ _ H x Hx). apply (in_map (fun g => (g_sample g, f_min (g_filed g)))), Hg.
Qed.
Lemma stored_filing v s : stored v fls s -> exists x g, In x ps /\ In g (p_filings x) /\ g_sample g = s /\ In v (views_of g) /\ reached v (p_flush x) = true.
Proof.
  intros (fl & ts & Hfl & R & Hin & Hv). apply in_map_iff in Hfl as (x & <- & Hx). rewrite (I_samples _ _ _ _ _ H x Hx) in Hin.
  apply in_map_iff in Hin as (g & E & Hg). apply pair_inj in E as [E1 E2]. exists x, g. subst ts. auto.
Qed.
Lemma carried_stored v id col : carries (st_shards st) v id col ->
  exists g, In g (all_filings ps) /\ smp_id (g_sample g) = id /\ In v (views_of g) /\ stored v fls (g_sample g) /\ In col (f_cols (g_filed g)).
Proof.
  intros C. apply carries_iff in C as (x & g & Hx & Hg & Hk & Hc & Hv & E). exists g. split; [apply in_all_filings; eauto|]. repeat (split; [assumption|]).
  split; [|exact Hc]. eapply filing_stored; eauto. eapply reached_full; eauto. intros C. rewrite C in Hk. destruct Hk.
Qed.
Lemma good_trace : good fls. Proof. split; [apply (I_flush _ _ _ _ _ H)|exact INC]. Qed.
End Scan.
