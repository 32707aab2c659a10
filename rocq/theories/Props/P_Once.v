(** C83: no record is delivered twice; and the exact answer of a query (C82). *)
From Verif.Model Require Import Base Labels Calendar View Otlp Transform Batch Rows Shards Dataframe Collapse Store Sequence Translate Visit XxHash Query.
From Verif.Spec Require Import Indexing Translator Frames Saves Sets Merge Trim Queries.
From Verif.Proofs Require Import BaseFacts CalendarFacts LabelsFacts TransformFacts DataframeFacts StoreFacts ScanFacts ListTranslator VisitFacts OnceFacts.
From Verif.Props Require Import P_Dataframe P_Store P_Collapse P_EndToEnd P_Query.
From Verif.Props Require P_Visit P_Time.
Open Scope N_scope.
Notation entries := Trim.entries.

Definition opt {A} (o : option A) : list A := match o with Some a => [a] | None => [] end.
Lemma nodup_flat {A B} (f : A -> list B) l : ForallOrdPairs (fun x y => forall b, In b (f x) -> In b (f y) -> False) l -> (forall x, In x l -> NoDup (f x)) -> NoDup (flat_map f l).
Proof.
  induction 1 as [|x l F O IH]; intros N; [constructor|]. cbn [flat_map].
  assert (G : forall m, NoDup m -> (forall b, In b m -> ~ In b (flat_map f l)) -> NoDup (m ++ flat_map f l)).
  { induction m as [|b m IHm]; intros Nm D; [apply IH; intros y Hy; apply N; right; exact Hy|]. inversion Nm; subst. cbn. constructor.
    - intros K. apply in_app_iff in K as [K|K]; [auto|]. exact (D b (or_introl eq_refl) K).
    - apply IHm; [assumption|]. intros c Hc. apply D. right. exact Hc. }
  apply G; [apply N; left; reflexivity|]. intros b Hb K. apply in_flat_map in K as (y & Hy & Hb'). rewrite Forall_forall in F. exact (F y Hy b Hb Hb').
Qed.
Lemma sorted_pairs (P : N -> N -> Prop) l : StronglySorted N.lt l -> (forall x y, In x l -> In y l -> x < y -> P x y) -> ForallOrdPairs P l.
Proof.
  induction 1 as [|x l S IH F]; intros H; constructor.
  - rewrite Forall_forall in *. intros y Hy. apply H; [left; reflexivity|right; exact Hy|apply F, Hy].
  - apply IH. intros a b Ha Hb. apply H; right; assumption.
Qed.
Lemma pairs_impl {A} (P Q : A -> A -> Prop) l : (forall x y, In x l -> In y l -> P x y -> Q x y) -> ForallOrdPairs P l -> ForallOrdPairs Q l.
Proof.
  intros H. induction 1 as [|x l F O IH]; constructor.
  - rewrite Forall_forall in *. intros y Hy. apply H; [left; reflexivity|right; exact Hy|apply F, Hy].
  - apply IH. intros a b Ha Hb. apply H; right; assumption.
Qed.

(** The sample of the signal at a row of a view, if any. *)
Definition holder (fls : list flush) (signal : Z) (v : string) (id : N) : option sample :=
  find (fun s => (place_in (view_history v fls) s =? id) && Z.eqb (signal_of (smp_data s)) signal) (List.concat (view_history v fls)).
Lemma holder_spec fls signal v id s : holder fls signal v id = Some s -> stored v fls s /\ place_in (view_history v fls) s = id /\ signal_of (smp_data s) = signal.
Proof.
  intros H. apply find_some in H as [H1 H2]. apply andb_true_iff in H2 as [H2 H3]. apply N.eqb_eq in H2. apply Z.eqb_eq in H3.
  split; [apply stored_iff, H1|]. auto.
Qed.
Definition comes_from (es : list event) (signal : Z) (row : option data) (o : option sample) : Prop :=
  match o with Some s => In s (given es) /\ signal_of (smp_data s) = signal /\ row = Some (smp_data s) | None => row = None \/ row = Some DNone end.
Lemma place_same h s s' : smp_id s = smp_id s' -> place_in h s = place_in h s'.
Proof. unfold place_in. intros ->. reflexivity. Qed.

Section Once.
Context (I : tr_impl) (inv : nat -> ti_state I -> Prop) (L : tr_stable I inv) (s0 : ti_state I) (es : list event) (HI : history I inv s0 es).
Notation fls := (flushes I s0 es).
Notation frames0 := (st_frames (after I s0 es)).
Lemma stored_given v s : stored v fls s -> In s (given es).
Proof.
  intros S. destruct (stored_filing I inv 0 _ _ (hist_inv I inv L s0 es HI) v s S) as (x & g & Hx & Hg & <- & _). apply (filing_given I inv L s0 es HI). apply in_all_filings. eauto.
Qed.
Lemma given_unique s s' : In s (given es) -> In s' (given es) -> smp_id s = smp_id s' -> s = s'.
Proof. intros H H' E. destruct HI as (_ & _ & INC & _). apply (increasing_unique (fun x => x) (given es)); auto. rewrite map_id. exact INC. Qed.
Lemma stored_home v s : stored v fls s -> In v (home (smp_data s)).
Proof.
  intros S. pose proof (hist_inv I inv L s0 es HI) as H. destruct (stored_filing I inv 0 _ _ H v s S) as (x & g & Hx & Hg & <- & Hv & _).
  rewrite <- (filing_home I inv 0 _ _ H g); [exact Hv|]. apply in_all_filings. eauto.
Qed.
Lemma stored_year v s : stored v fls s -> year4 (int64_of_u64 (filed_at (smp_data s))).
Proof.
  intros S. pose proof (hist_inv I inv L s0 es HI) as H. destruct (stored_filing I inv 0 _ _ H v s S) as (x & g & Hx & Hg & <- & Hv & _).
  destruct (I_filed _ _ _ _ _ H x g Hx Hg) as [(_ & T & _) _]. pose proof (I_flush _ _ _ _ _ H) as FO. rewrite Forall_forall in FO.
  assert (B : f_min (g_filed g) < two64).
  { destruct (FO (p_flush x) (in_map p_flush _ _ Hx)) as (_ & B & _). apply (B (g_sample g, f_min (g_filed g))). rewrite (I_samples _ _ _ _ _ H x Hx).
    apply in_map_iff. exists g. auto. }
  apply (f_equal fst) in T. rewrite fold_time_fst in T. cbn [fst] in T. unfold filed_at. rewrite <- T. exact (when_year4 _ B).
Qed.

Lemma row_held v id signal : In signal signals -> view_history v fls <> [] ->
  comes_from es signal (option_map (only_signal signal) (row_at frames0 v id)) (holder fls signal v id).
Proof.
  intros SG NE. pose proof (hist_inv I inv L s0 es HI) as H. pose proof (good_trace I inv 0 _ _ H (hist_inc I inv L s0 es HI)) as Gd.
  destruct (C29_row_numbers_exact fls v Gd NE) as (f & Ef & L1 & L2). rewrite (I_frames _ _ _ _ _ H). unfold row_at. fold fls. rewrite Ef.
  destruct (holder fls signal v id) as [s|] eqn:Eh; cbn [comes_from].
  - apply holder_spec in Eh as (St & Pl & Sg). split; [apply (stored_given v), St|]. split; [exact Sg|].
    apply stored_iff in St. specialize (L1 s St). rewrite Pl in L1. rewrite L1. cbn [option_map]. rewrite <- Sg, only_signal_self. reflexivity.
  - destruct (nth_error (fr_rows f) (N.to_nat id)) as [d|] eqn:En; [right|left; reflexivity]. cbn [option_map]. f_equal.
    destruct (L2 _ _ En) as [(s & Hs & Pl & ->)|[_ ->]]; [|destruct SG as [<-|[<-|[<-|[]]]]; reflexivity].
    rewrite N2Nat.id in Pl. assert (NS : signal_of (smp_data s) <> signal).
    { intros Sg. unfold holder in Eh. apply find_none with (x := s) in Eh; [|exact Hs]. rewrite <- Pl, N.eqb_refl, Sg, Z.eqb_refl in Eh. discriminate. }
    destruct SG as [<-|[<-|[<-|[]]]]; destruct (smp_data s); cbn in *; try reflexivity; congruence.
Qed.
Definition origins (signal : Z) (ids : string -> list N) (vs : list string) : list (option sample) :=
  flat_map (fun v => map (holder fls signal v) (ids v)) vs.
Lemma origins_rows signal (ids : string -> list N) vs : In signal signals -> (forall v id, In id (ids v) -> view_history v fls <> []) ->
  Forall2 (comes_from es signal) (flat_map (fun v => map (fun id => option_map (only_signal signal) (row_at frames0 v id)) (ids v)) vs) (origins signal ids vs).
Proof.
  intros SG NE. unfold origins. induction vs as [|v vs IH]; [constructor|]. cbn [flat_map]. apply Forall2_app; [|exact IH].
  assert (G : forall l, (forall id, In id l -> In id (ids v)) -> Forall2 (comes_from es signal) (map (fun id => option_map (only_signal signal) (row_at frames0 v id)) l) (map (holder fls signal v) l)).
  { induction l as [|id l IHl]; intros Hl; [constructor|]. cbn [map]. constructor; [apply row_held; [exact SG|apply (NE v id), Hl; left; reflexivity]|apply IHl; intros i Hi; apply Hl; right; exact Hi]. }
  apply G. auto.
Qed.
Definition samples_in (l : list (option sample)) : list sample := flat_map opt l.
Lemma origins_once signal ids vs : ForallOrdPairs apart vs -> (forall v, StronglySorted N.lt (ids v)) -> NoDup (map smp_id (samples_in (origins signal ids vs))).
Proof.
  intros AP SO. unfold samples_in, origins.
  assert (E : map smp_id (flat_map opt (flat_map (fun v => map (holder fls signal v) (ids v)) vs)) = flat_map (fun v => flat_map (fun id => map smp_id (opt (holder fls signal v id))) (ids v)) vs).
  { clear. induction vs as [|v vs IH]; [reflexivity|]. cbn [flat_map]. rewrite flat_map_app, map_app, IH. f_equal. clear IH. generalize (ids v). intros l.
    induction l as [|id l IHl]; [reflexivity|]. cbn [map flat_map]. rewrite map_app, IHl. reflexivity. }
  rewrite E. clear E.
  assert (In1 : forall v b, In b (flat_map (fun id => map smp_id (opt (holder fls signal v id))) (ids v)) -> exists s, stored v fls s /\ smp_id s = b).
  { intros v b Hb. apply in_flat_map in Hb as (id & _ & Hb). destruct (holder fls signal v id) as [s|] eqn:Eh; [|destruct Hb]. destruct Hb as [<-|[]].
    apply holder_spec in Eh as (St & _). eauto. }
  apply nodup_flat.
  - eapply pairs_impl; [|exact AP]. cbv beta. intros v v' _ _ A b Hb Hb'. apply In1 in Hb as (s & St & E1). apply In1 in Hb' as (s' & St' & E2).
    assert (s' = s) by (apply given_unique; [apply (stored_given v'), St'|apply (stored_given v), St|congruence]). subst s'.
    apply (A (int64_of_u64 (filed_at (smp_data s)))); [apply (stored_year v), St|apply stored_home, St|apply stored_home, St'].
  - intros v _. apply nodup_flat.
    + apply sorted_pairs; [apply SO|]. intros i j _ _ Lt b Hb Hb'. destruct (holder fls signal v i) as [s|] eqn:Ei; [|destruct Hb]. destruct (holder fls signal v j) as [s'|] eqn:Ej; [|destruct Hb'].
      destruct Hb as [<-|[]]. destruct Hb' as [E|[]]. apply holder_spec in Ei as (_ & Pi & _). apply holder_spec in Ej as (_ & Pj & _).
      rewrite (place_same _ s' s E) in Pj. lia.
    + intros id _. destruct (holder fls signal v id); [|constructor]. constructor; [intros []|constructor].
Qed.
End Once.

(** The window lies in the years 0 to 9999, as every valid protobuf time does. *)
Definition four_digit_years (wall : Z) (ts : scan_times) : Prop := (0 <= year_of (fst (time_bounds wall ts)) /\ year_of (snd (time_bounds wall ts)) < 10000)%Z.

(** C83.  The rows of a scan come from different samples, whatever the history: every row is blank or holds
    the data of a sample given to the store, and no sample is there twice. *)
Theorem C83_no_sample_twice : forall I inv s0 es e sc order rows, tr_stable I inv -> history I inv s0 es ->
  four_digit_years (e_wall e) (sc_times sc) -> scan_rows I (after I s0 es) e sc order = RRows rows ->
  exists from : list (option sample), Forall2 (comes_from es (sc_scope sc)) rows from /\ NoDup (map smp_id (flat_map opt from)).
Proof.
  intros I inv s0 es e sc order rows L HI [Y1 Y2] ER. pose proof (hist_inv I inv L s0 es HI) as H.
  apply scan_rows_cases in ER as (cols & vs & hits & EC & NC & W & LK & NH & SG & ->).
  destruct (read_views (e_frame_fails e) (st_frames (after I s0 es)) (sc_scope sc) (selected sc hits) vs) as [r|] eqn:RV; [|exists []; split; constructor].
  apply C32_read_errors in RV. rewrite read_views_ok in RV. apply some_inj in RV. subst r.
  set (ids := view_ids (st_frames (after I s0 es)) (sc_scope sc) (selected sc hits)).
  exists (origins I s0 es (sc_scope sc) ids vs). split.
  - apply (origins_rows I inv L s0 es HI); [exact SG|]. intros v id Hid. unfold ids in Hid. rewrite (I_frames _ _ _ _ _ H) in Hid.
    apply in_view_ids in Hid as [_ (s & St & _)]; [|apply (I_flush _ _ _ _ _ H)|exact SG]. apply stored_iff in St. intros C. fold (flushes I s0 es) in *. rewrite C in St. destruct St.
  - apply (origins_once I inv L s0 es HI); [exact (search_apart _ _ _ W Y1 Y2)|].
    intros v. unfold ids, view_ids. rewrite (I_frames _ _ _ _ _ H). destruct (C31_membership_exact (flushes I s0 es) v (sc_scope sc) (I_flush _ _ _ _ _ H) SG) as [S _]. unfold members in S.
    fold (flushes I s0 es) in *. destruct (aget String.eqb v (run_flushes (flushes I s0 es))); [|constructor]. apply ssorted_sinter, S.
Qed.

(** ------ the exact answer *)
Section Exact.
Context (I : tr_impl) (inv : nat -> ti_state I -> Prop) (L : tr_stable I inv) (s0 : ti_state I) (es : list event) (HI : history I inv s0 es).
Notation fls := (flushes I s0 es).
Lemma holder_aligned v s : stored v fls s -> (forall s', In s' (given es) -> In v (home (smp_data s')) -> aligned fls v s') ->
  holder fls (signal_of (smp_data s)) v (smp_id s) = Some s.
Proof.
  intros St Al.
  assert (PL : forall s', stored v fls s' -> place_in (view_history v fls) s' = smp_id s').
  { intros s' St'. unfold place_in, row_number. destruct (N.eqb_spec (first_id (view_history v fls)) 0) as [|NZ]; [reflexivity|].
    destruct (Al s' (stored_given I inv L s0 es HI v s' St') (stored_home I inv L s0 es HI v s' St')) as [A|A]; [congruence|]. rewrite A. reflexivity. }
  destruct (holder fls (signal_of (smp_data s)) v (smp_id s)) as [s'|] eqn:E.
  - apply holder_spec in E as (St' & P & _). rewrite (PL s' St') in P. f_equal. apply (given_unique I inv s0 es HI); [eapply stored_given; eauto|eapply stored_given; eauto|exact P].
  - exfalso. unfold holder in E. apply find_none with (x := s) in E; [|apply stored_iff, St]. rewrite (PL s St), N.eqb_refl, Z.eqb_refl in E. discriminate.
Qed.
Lemma all_from signal rows from : Forall2 (comes_from es signal) rows from -> (forall o, In o from -> o <> None) -> exists ss, from = map Some ss /\ rows = map (fun s => Some (smp_data s)) ss /\ flat_map opt from = ss /\ Forall (fun s => In s (given es) /\ signal_of (smp_data s) = signal) ss.
Proof.
  induction 1 as [|row o rows from C F IH]; intros N; [exists []; repeat split; constructor|].
  destruct IH as (ss & -> & -> & E & G); [intros x Hx; apply N; right; exact Hx|]. destruct o as [s|]; [|exfalso; exact (N None (or_introl eq_refl) eq_refl)].
  destruct C as (C1 & C2 & ->). exists (s :: ss). cbn [map flat_map opt app]. rewrite E. repeat split; constructor; auto.
Qed.
(** The samples a scan with a time range delivers. *)
Lemma scan_samples wall sc order vs rows : some_order order -> four_digit_years wall (sc_times sc) -> window (calm wall) sc vs ->
  (forall s v, In s (given es) -> In v vs -> In v (home (smp_data s)) -> aligned fls v s) ->
  scan_rows I (after I s0 es) (calm wall) sc order = RRows rows ->
  exists ss, rows = map (fun s => Some (smp_data s)) ss /\ NoDup (map smp_id ss) /\ Forall (fun s => In s (given es) /\ signal_of (smp_data s) = sc_scope sc) ss /\
    (forall s v, sc_range (sc_times sc) <> None -> saved I s0 es s -> sc_scope sc = signal_of (smp_data s) -> (exists l, asks sc l) -> (forall l, asks sc l -> documented_label (smp_data s) l) ->
       In v vs -> In v (home (smp_data s)) -> In s ss).
Proof.
  intros OO [Y1 Y2] W0 Al ER. pose proof (hist_inv I inv L s0 es HI) as H.
  apply scan_rows_cases in ER as (cols & vs' & hits & EC & NC & W & LK & NH & SG & ->).
  assert (vs' = vs) by (unfold window in *; congruence). subst vs'.
  change (e_frame_fails (calm wall)) with (e_frame_fails (calm 0)). unfold calm. cbn [e_frame_fails]. fold no_fault. rewrite read_views_ok.
  set (ids := view_ids (st_frames (after I s0 es)) (sc_scope sc) (selected sc hits)).
  assert (Ids : forall v id, In id (ids v) <-> In id (selected sc hits) /\ exists s, stored v fls s /\ smp_id s = id /\ signal_of (smp_data s) = sc_scope sc).
  { intros v id. unfold ids. rewrite (I_frames _ _ _ _ _ H). apply in_view_ids; [apply (I_flush _ _ _ _ _ H)|exact SG]. }
  assert (Held : forall v s, In v vs -> stored v fls s -> signal_of (smp_data s) = sc_scope sc -> holder fls (sc_scope sc) v (smp_id s) = Some s).
  { intros v s Hv St Sg. rewrite <- Sg. apply holder_aligned; [exact St|]. intros s' G Hh. apply Al; assumption. }
  assert (F2 : Forall2 (comes_from es (sc_scope sc)) (flat_map (fun v => map (fun id => option_map (only_signal (sc_scope sc)) (row_at (st_frames (after I s0 es)) v id)) (ids v)) vs) (origins I s0 es (sc_scope sc) ids vs)).
  { apply (origins_rows I inv L s0 es HI); [exact SG|]. intros v id Hid. apply Ids in Hid as [_ (s & St & _)]. apply stored_iff in St. intros C. rewrite C in St. destruct St. }
  destruct (all_from _ _ _ F2) as (ss & Eo & Er & Es & Fs).
  { intros o Ho. unfold origins in Ho. apply in_flat_map in Ho as (v & Hv & Ho). apply in_map_iff in Ho as (id & <- & Hid). apply Ids in Hid as [_ (s & St & <- & Sg)].
    rewrite (Held v s Hv St Sg). discriminate. }
  exists ss. split; [exact Er|]. split.
  { rewrite <- Es. apply (origins_once I inv L s0 es HI); [exact (search_apart _ _ _ W Y1 Y2)|].
    intros v. unfold ids, view_ids. rewrite (I_frames _ _ _ _ _ H). destruct (C31_membership_exact fls v (sc_scope sc) (I_flush _ _ _ _ _ H) SG) as [S _]. unfold members in S.
    fold fls in *. destruct (aget String.eqb v (run_flushes fls)); [|constructor]. apply ssorted_sinter, S. }
  split; [exact Fs|]. intros s v NR Sv Sc EA Doc Hv Hh.
  destruct (saved_hit I inv s0 es sc vs s v order L HI OO Sv Hv Hh EA Doc) as (cols' & hits' & EC' & _ & LK' & Hin & St).
  assert (cols' = cols) by congruence. subst cols'. assert (hits' = hits) by congruence. subst hits'.
  assert (K : In (Some s) (map Some ss)).
  { rewrite <- Eo. unfold origins. apply in_flat_map. exists v. split; [exact Hv|]. apply in_map_iff. exists (smp_id s). split; [apply Held; auto|].
    apply Ids. split; [|exists s; auto]. unfold selected. destruct (sc_range (sc_times sc)); [exact Hin|congruence]. }
  apply in_map_iff in K as (s' & E & K). apply some_inj in E. subst s'. exact K.
Qed.
End Exact.

Lemma flat_map_nil {A B} (f : A -> list B) l : (forall x, In x l -> f x = []) -> flat_map f l = [].
Proof. induction l as [|a l IH]; intros H; [reflexivity|]. cbn. rewrite (H a (or_introl eq_refl)). apply IH. intros x Hx. apply H. right. exact Hx. Qed.
Lemma flat_map_perm {A B} (f : A -> list B) l l' : Permutation l l' -> Permutation (flat_map f l) (flat_map f l').
Proof. apply Permutation_flat_map. Qed.
Lemma flat_map_sub {A B} (f : A -> list B) l' : forall l, NoDup l' -> NoDup l -> (forall x, In x l' -> In x l) -> (forall x, In x l -> ~ In x l' -> f x = []) ->
  Permutation (flat_map f l') (flat_map f l).
Proof.
  induction l' as [|a l' IH]; intros l N' N Sub Nil; [rewrite (flat_map_nil f l); [reflexivity|intros x Hx; apply Nil; auto]|].
  destruct (in_split a l (Sub a (or_introl eq_refl))) as (l1 & l2 & ->). inversion N'; subst. apply NoDup_remove in N as [N Na].
  rewrite flat_map_app. cbn [flat_map]. etransitivity; [|apply Permutation_app_swap_app]. apply Permutation_app_head. rewrite <- flat_map_app.
  apply IH; auto.
  - intros x Hx. specialize (Sub x (or_intror Hx)). apply in_app_iff in Sub as [K|[<-|K]]; [apply in_app_iff; auto|contradiction|apply in_app_iff; auto].
  - intros x Hx NI. apply Nil; [apply in_app_iff in Hx as [K|K]; apply in_app_iff; cbn; auto|]. intros [<-|K]; [contradiction|auto].
Qed.
Lemma seen_filter fs st en l l' : Permutation (map as_seen l) (map as_seen l') ->
  Permutation (map (fun e => as_seen (forget e)) (filter (wanted fs st en) l)) (map (fun e => as_seen (forget e)) (filter (wanted fs st en) l')).
Proof.
  intros P. apply Permutation_map_inv in P as (l3 & E & P3). transitivity (map (fun e => as_seen (forget e)) (filter (wanted fs st en) l3)).
  - clear P3. revert l3 E. induction l as [|a l IH]; intros [|b l3] E; try discriminate E; [constructor|]. cbn [map] in E. assert (E1 : as_seen a = as_seen b) by congruence. assert (E2 : map as_seen l = map as_seen l3) by congruence.
    cbn [filter]. rewrite (wanted_seen _ _ _ _ _ E1). destruct (wanted fs st en b); [|apply IH, E2]. cbn [map]. rewrite (seen_forget _ _ E1). constructor. apply IH, E2.
  - apply Permutation_map, Permutation_sym. clear E. revert l' l3 P3. 
    intros l' l3 P3. induction P3 as [|x a b P IH|x y a|a b c P IH P' IH']; cbn [filter]; [constructor| | |etransitivity; eassumption].
    + destruct (wanted fs st en x); [constructor|]; exact IH.
    + destruct (wanted fs st en x), (wanted fs st en y); try reflexivity. apply perm_swap.
Qed.
Lemma increasing_nodup l : increasing l -> NoDup l.
Proof.
  induction 1 as [|a l S IH F]; constructor; [|exact IH]. intros K. rewrite Forall_forall in F. specialize (F a K). cbn in F. lia.
Qed.
Lemma nodup_of_map {A B} (f : A -> B) l : NoDup (map f l) -> NoDup l.
Proof. apply NoDup_map_inv. Qed.

(** All matching records saved so far: the answer a query should give. *)
Definition matching (es : list event) (sc : scan) (st en : Z) : list seen :=
  map (fun e => as_seen (forget e)) (filter (wanted (sc_filters sc) st en) (flat_map (fun s => entries (smp_data s)) (filter (fun s => Z.eqb (signal_of (smp_data s)) (sc_scope sc)) (given es)))).

(** C82, exactly: if every sample given to the store that holds a matching record was saved since the last
    start and filed in a consulted view, the answer consists of the matching records of all samples, each
    as often as it was given. *)
Theorem C82_exact_answer_partial : forall I inv s0 es h h0 kvb wall client sc order vs st en, tr_stable I inv -> history I inv s0 es -> some_order order ->
  let state := after I s0 es in
  In (sc_scope sc) signals -> answerable (sc_scope sc) (sc_filters sc) -> sc_range (sc_times sc) <> None ->
  four_digit_years wall (sc_times sc) -> P_Visit.window client sc st en -> window (calm wall) sc vs ->
  (forall s e, In s (given es) -> signal_of (smp_data s) = sc_scope sc -> In e (entries (smp_data s)) -> wanted (sc_filters sc) st en e = true ->
     saved I s0 es s /\ exists v, In v vs /\ In v (home (smp_data s))) ->
  (forall s v, In s (given es) -> In v vs -> In v (home (smp_data s)) -> aligned (flushes I s0 es) v s) ->
  mergeable h kvb (map smp_data (given es)) ->
  (forall d, do_scan I h kvb state (calm wall) sc order = SData (Some d) -> P_Visit.fair h h0 sc d) ->
  exists out, query I h h0 kvb state (calm wall) client sc order = AData out /\ Permutation (records out) (matching es sc st en).
Proof.
  intros I inv s0 es h h0 kvb wall client sc order vs st en L HI OO state Sig An NR Y PW W Cov Al Mg Fair.
  assert (Ask : P_Visit.asks sc) by (left; exact NR).
  assert (Cov' : forall s e, In s (given es) -> signal_of (smp_data s) = sc_scope sc -> In e (entries (smp_data s)) -> wanted (sc_filters sc) st en e = true ->
    saved I s0 es s /\ (exists l, asks sc l) /\ (forall l, asks sc l -> documented_label (smp_data s) l) /\ exists v, In v vs /\ In v (home (smp_data s))).
  { intros s e G Sg He Hw. destruct (Cov s e G Sg He Hw) as (Sv & v & Hv). split; [exact Sv|]. split; [apply answerable_asks, An|]. split; [|eauto].
    intros l Hl. eapply wanted_labels; eauto. }
  (* no matching record at all *)
  assert (None_ : (forall rows, scan_rows I state (calm wall) sc order = RRows rows -> rows = []) -> matching es sc st en = []).
  { intros NoRows. unfold matching. destruct (filter (wanted (sc_filters sc) st en) _) as [|e l] eqn:E; [reflexivity|exfalso].
    assert (K : In e (e :: l)) by (left; reflexivity). rewrite <- E in K. apply filter_In in K as [K Hw]. apply in_flat_map in K as (s & Hs & He). apply filter_In in Hs as [G Sg]. apply Z.eqb_eq in Sg.
    destruct (Cov' s e G Sg He Hw) as (Sv & EA & Doc & v & Hv & Hh).
    destruct (C36_scan_complete_partial I inv s0 es wall sc order vs s v L HI OO Sv) as (rows & ER & Hrow); auto; [rewrite Sg; exact Sig|].
    rewrite (NoRows rows ER) in Hrow. destruct Hrow. }
  assert (Zero : forall d, records d = [] -> entries d = [] -> signal_of d = sc_scope sc \/ d = DNone -> do_scan I h kvb state (calm wall) sc order = SData (Some d) \/ (d = DNone /\ do_scan I h kvb state (calm wall) sc order = SData None) ->
     matching es sc st en = [] -> exists out, query I h h0 kvb state (calm wall) client sc order = AData out /\ Permutation (records out) (matching es sc st en)).
  { intros d Rd Ed Sd [DS|[-> DS]] M; unfold query; rewrite DS; cbn [over_grpc].
    - destruct (P_Visit.C46_what_remains h h0 client sc d st en Ask PW (Fair d DS)) as (out & EJ & _ & EO & _). rewrite EJ. exists out. split; [reflexivity|].
      rewrite M, records_seen, EO, Ed. constructor.
    - rewrite (P_Visit.js_scan_visit _ _ _ _ _ _ _ Ask PW). cbn. exists DNone. split; [reflexivity|]. rewrite M. constructor. }
  destruct (scan_rows I state (calm wall) sc order) as [| |rows] eqn:ER.
  - (* no error without faults *)
    exfalso. clear - ER Sig. unfold scan_rows in ER. cbn [calm e_wall e_find_fails e_index_fails e_frame_fails] in ER. destruct (time_bounds wall (sc_times sc)) as [a b].
    destruct (compile_spec I (st_tr state) sc) as (cols & EC & _). rewrite EC in ER.
    destruct (sempty cols); [discriminate|]. destruct (P_Time.C15_search_terminates a b) as [ws EW]. rewrite EW in ER.
    destruct (rows_loop (st_shards state) ws (order cols) None) as [hits|]; [|discriminate]. destruct (sempty hits); [discriminate|].
    apply scope_signals in Sig. rewrite Sig in ER. destruct (read_views _ _ _ _ _); discriminate.
  - assert (DS : do_scan I h kvb state (calm wall) sc order = SData (zero_data (sc_scope sc))) by (unfold do_scan; rewrite ER; reflexivity).
    assert (Zd : exists d, zero_data (sc_scope sc) = Some d /\ records d = [] /\ entries d = [] /\ signal_of d = sc_scope sc) by (destruct Sig as [<-|[<-|[<-|[]]]]; eexists; repeat split; reflexivity).
    destruct Zd as (d & E & R1 & R2 & R3). rewrite E in DS. apply (Zero d); auto. apply None_. intros rows C. congruence.
  - destruct (scan_samples I inv L s0 es HI wall sc order vs rows OO Y W Al ER) as (ss & -> & ND & Fs & Comp). rewrite Forall_forall in Fs.
    destruct ss as [|s1 ss1].
    + apply (Zero DNone); auto; [right; split; [reflexivity|unfold do_scan; rewrite ER; reflexivity]|]. apply None_. intros rows E. cbn [map] in E. congruence.
    + set (ss := s1 :: ss1) in *.
      destruct (C52_merge_loses_nothing h kvb (map smp_data ss) (sc_scope sc)) as (merged & EC & ES & P).
      * cbn in *; tauto.
      * discriminate.
      * intros d Hd. apply in_map_iff in Hd as (s & <- & Hs). apply (Fs s Hs).
      * eapply mergeable_sub; [|exact Mg]. intros d Hd. apply in_map_iff in Hd as (s & <- & Hs). apply in_map, (Fs s Hs).
      * assert (DS : do_scan I h kvb state (calm wall) sc order = SData (Some merged)).
        { unfold do_scan. rewrite ER. cbn [finish]. rewrite (P_Store.all_some_map (fun s => Some (smp_data s)) smp_data) by auto. rewrite EC. reflexivity. }
        assert (Sup : supported (sc_filters sc) merged) by (apply answerable_supported; rewrite ES; assumption).
        destruct (P_Visit.C46_matching_records_remain_partial h h0 client sc merged st en Ask PW (Fair merged DS) Sup) as (out & EJ & _ & EO & _).
        exists out. unfold query. rewrite DS. cbn [over_grpc]. rewrite EJ. split; [reflexivity|].
        rewrite records_seen, EO, map_map. unfold matching. set (g := filter (fun s => Z.eqb (signal_of (smp_data s)) (sc_scope sc)) (given es)).
        transitivity (map (fun e => as_seen (forget e)) (filter (wanted (sc_filters sc) st en) (flat_map (fun s => entries (smp_data s)) ss))).
        -- apply seen_filter. rewrite <- records_seen, map_flat_map. etransitivity; [exact P|]. rewrite flat_map_concat_map, map_map, <- flat_map_concat_map.
           erewrite flat_map_ext; [reflexivity|]. intros s. apply records_seen.
        -- apply Permutation_map. 
           assert (FF : forall l, filter (wanted (sc_filters sc) st en) (flat_map (fun s => entries (smp_data s)) l) = flat_map (fun s => filter (wanted (sc_filters sc) st en) (entries (smp_data s))) l).
           { clear. induction l as [|a l IH]; [reflexivity|]. cbn [flat_map]. rewrite filter_app, IH. reflexivity. }
           rewrite !FF. apply flat_map_sub.
           ++ apply (nodup_of_map smp_id), ND.
           ++ apply NoDup_filter, increasing_nodup. apply HI.
           ++ intros s Hs. apply filter_In. destruct (Fs s Hs) as [G Sg]. split; [exact G|apply Z.eqb_eq, Sg].
           ++ intros s Hs NI. apply filter_In in Hs as [G Sg]. apply Z.eqb_eq in Sg. destruct (filter (wanted (sc_filters sc) st en) (entries (smp_data s))) as [|e l] eqn:E; [reflexivity|exfalso].
              assert (K : In e (e :: l)) by (left; reflexivity). rewrite <- E in K. apply filter_In in K as [He Hw].
              destruct (Cov' s e G Sg He Hw) as (Sv & EA & Doc & v & Hv & Hh). apply NI. apply (Comp s v); auto.
Qed.

(** The life of P_Query.v satisfies the hypotheses; its two matching records are each answered once. *)
Example C82_exact_example :
  four_digit_years 0 (sc_times (ask "b" 0 3600)) /\ window (calm 0) (ask "b" 0 3600) ["std_1970010100"%string] /\
  (forall s e, In s (given life7) -> signal_of (smp_data s) = RESOURCE_METRICS -> In e (entries (smp_data s)) -> wanted (sc_filters (ask "b" 0 3600)) 0 3600000000000 e = true ->
     saved list_impl [] life7 s /\ exists v, In v ["std_1970010100"%string] /\ In v (home (smp_data s))) /\
  matching life7 (ask "b" 0 3600) 0 3600000000000 = [as_seen (seen_b "y"); as_seen (seen_b "z")].
Proof.
  split; [vm_compute; split; congruence|]. split; [vm_compute; reflexivity|]. split; [|vm_compute; reflexivity].
  assert (Sv : forall s, In s [Sample 1 (mtp "b" "y"); Sample 2 (mtp "b" "z")] -> saved list_impl [] life7 s).
  { intros s Hs. left. exists life6, [Sample 1 (mtp "b" "y"); Sample 2 (mtp "b" "z")], (smooth list_impl (after list_impl [] life6) [Sample 1 (mtp "b" "y"); Sample 2 (mtp "b" "z")]), [].
    split; [reflexivity|]. split; [exact Hs|]. split; vm_compute; reflexivity. }
  intros s e G _ He Hw. assert (G' : In s [Sample 0 (mtp "a" "x"); Sample 1 (mtp "b" "y"); Sample 2 (mtp "b" "z")]) by exact G. clear G.
  destruct G' as [<-|[<-|[<-|[]]]].
  - destruct He as [<-|[]]. vm_compute in Hw. discriminate.
  - split; [apply Sv; left; reflexivity|]. exists "std_1970010100"%string. split; [left; reflexivity|vm_compute; auto].
  - split; [apply Sv; right; left; reflexivity|]. exists "std_1970010100"%string. split; [left; reflexivity|vm_compute; auto].
Qed.
(** C83: the scan of that life, and where its rows come from. *)
Example C83_example : history list_impl list_inv [] life7 /\ four_digit_years 0 (sc_times (ask "b" 0 3600)) /\
  scan_rows list_impl (after list_impl [] life7) (calm 0) (ask "b" 0 3600) group_columns = RRows [Some (mtp "b" "y"); Some (mtp "b" "z")] /\
  Forall2 (comes_from life7 RESOURCE_METRICS) [Some (mtp "b" "y"); Some (mtp "b" "z")] [Some (Sample 1 (mtp "b" "y")); Some (Sample 2 (mtp "b" "z"))].
Proof.
  split; [exact life7_history|]. split; [vm_compute; split; congruence|]. split; [vm_compute; reflexivity|].
  repeat constructor; (right; left; reflexivity) || (right; right; left; reflexivity).
Qed.
