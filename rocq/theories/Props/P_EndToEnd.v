(** C67: from saving to the merged result of a scan. *)
From Verif.Model Require Import Base Labels Calendar View Otlp Transform Batch Rows Shards Dataframe Collapse Store Sequence Translate.
From Verif.Spec Require Import Indexing Translator Frames Saves Sets Merge.
From Verif.Proofs Require Import BaseFacts LabelsFacts TransformFacts StoreFacts ScanFacts ListTranslator.
From Verif.Props Require Import P_Store P_Collapse.
Open Scope N_scope.

Lemma separates_sub h kvb {A} (name : A -> option string) gs gs' : (forall g, In g gs -> In g gs') -> separates h kvb name gs' -> separates h kvb name gs.
Proof. intros Sub (S1 & S2 & S3). split; [|split]; cbv zeta in *; intros; [apply S1|apply (S2 g s g' s')|apply (S3 g s a n g' s' a' n')]; auto. Qed.
Lemma mergeable_sub h kvb ds ds' : (forall d, In d ds -> In d ds') -> mergeable h kvb ds' -> mergeable h kvb ds.
Proof.
  intros Sub (M1 & M2 & M3 & M4). assert (F : forall A (f : data -> list A) x, In x (flat_map f ds) -> In x (flat_map f ds')).
  { intros A f x H. apply in_flat_map in H as (d & H1 & H2). apply in_flat_map. eauto. }
  split; [eapply separates_sub; [|exact M1]; apply F|]. split; [|split; [eapply separates_sub; [|exact M3]; apply F|eapply separates_sub; [|exact M4]; apply F]].
  intros X Y a b (g & s & H1 & H2) (g' & s' & H1' & H2') E. apply (M2 X Y); [exists g, s|exists g', s'|exact E]; split; auto.
Qed.
Lemma all_some_map {A} (rows : list (option A)) : (forall r, In r rows -> exists a, r = Some a) -> exists l, all_some rows = Some l /\ rows = map Some l.
Proof.
  induction rows as [|r rows IH]; intros H; [exists []; auto|]. destruct (H r (or_introl eq_refl)) as (a & ->). destruct IH as (l & E1 & E2); [intros x Hx; apply H; right; exact Hx|].
  exists (a :: l). cbn [all_some map]. rewrite E1, E2. auto.
Qed.

(** Everything saved and asked for is delivered, and everything delivered was saved and asked for:
    a sample saved and filed in a consulted view, with all the asked labels, has all its records, under
    their resources and scopes, in the result of the scan; and every record in the result belongs to a
    stored sample of the signal with the asked labels, filed in a consulted view. *)
Theorem C67_scan_delivers_partial : forall I inv s0 es h kvb wall sc order vs s v, tr_laws I inv -> history I inv s0 es -> some_order order ->
  let st := after I s0 es in
  saved I s0 es s -> In (signal_of (smp_data s)) signals -> sc_scope sc = signal_of (smp_data s) ->
  (exists l, asks sc l) -> (forall l, asks sc l -> documented_label (smp_data s) l) ->
  sc_range (sc_times sc) <> None -> window (calm wall) sc vs -> In v vs -> In v (home (smp_data s)) ->
  (forall s' v', In s' (given es) -> In v' vs -> In v' (home (smp_data s')) -> aligned (flushes I s0 es) v' s') ->
  mergeable h kvb (map smp_data (given es)) ->
  exists out, do_scan I h kvb st (calm wall) sc order = SData (Some out) /\ signal_of out = sc_scope sc /\
    (forall r, In r (records (smp_data s)) -> In r (records out)) /\
    (forall r, In r (records out) -> exists s' v', In s' (given es) /\ signal_of (smp_data s') = sc_scope sc /\ In r (records (smp_data s')) /\
       In v' vs /\ In v' (home (smp_data s')) /\
       (forall l, asks sc l -> l_prefix l <> PREFIX_UNKNOWN -> exists l', documented_label (smp_data s') l' /\ encode l' = encode l)).
Proof.
  intros I inv s0 es h kvb wall sc order vs s v L HI OO st Sv Sig Esc A1 A2 NR W Hv Hh Al Mg.
  assert (OS : forall vs', window (calm wall) sc vs' -> conclusive I s0 es sc vs').
  { intros vs' W'. assert (vs' = vs) by (unfold window in *; congruence). subst vs'. right. exists s, v. auto. }
  assert (Hgiven : In s (given es)).
  { apply (kept_given I s0), saved_kept, Sv. }
  destruct (C36_scan_complete_partial I inv s0 es wall sc order vs s v L HI OO Sv Sig Esc A1 A2 NR W Hv Hh (Al s v Hgiven Hv Hh)) as (rows & ER & Hrow). fold st in ER.
  assert (Snd : forall row, In row rows -> exists s' v', row = Some (smp_data s') /\ In s' (given es) /\ signal_of (smp_data s') = sc_scope sc /\ In v' vs /\ In v' (home (smp_data s')) /\
    (forall l, asks sc l -> l_prefix l <> PREFIX_UNKNOWN -> exists l', documented_label (smp_data s') l' /\ encode l' = encode l)).
  { intros row Hr. destruct (C35_scan_sound_partial I inv s0 es (calm wall) sc order rows row L HI OO OS ER Hr) as (s' & v' & vs' & W' & Hv' & G' & Sg' & Hh' & Lab & Ad).
    assert (vs' = vs) by (unfold window in *; congruence). subst vs'. exists s', v'. split; [apply Ad, Al; assumption|]. auto 6. }
  destruct (all_some_map rows) as (ds & E1 & E2); [intros r Hr; destruct (Snd r Hr) as (s' & _ & -> & _); eauto|].
  assert (Dsub : forall d, In d ds -> exists s' v', d = smp_data s' /\ In s' (given es) /\ signal_of (smp_data s') = sc_scope sc /\ In v' vs /\ In v' (home (smp_data s')) /\
    (forall l, asks sc l -> l_prefix l <> PREFIX_UNKNOWN -> exists l', documented_label (smp_data s') l' /\ encode l' = encode l)).
  { intros d Hd. destruct (Snd (Some d)) as (s' & v' & E & R); [rewrite E2; apply in_map, Hd|]. apply some_inj in E. exists s', v'. auto. }
  assert (Hsd : In (smp_data s) ds).
  { rewrite E2 in Hrow. apply in_map_iff in Hrow as (d & E & Hd). apply some_inj in E. subst d. exact Hd. }
  destruct (C52_merge_loses_nothing h kvb ds (sc_scope sc)) as (out & EC & ES & P).
  - rewrite Esc. destruct Sig as [<-|[<-|[<-|[]]]]; cbn; auto.
  - intros ->. destruct Hsd.
  - intros d Hd. destruct (Dsub d Hd) as (s' & v' & -> & _ & E & _). exact E.
  - eapply mergeable_sub; [|exact Mg]. intros d Hd. destruct (Dsub d Hd) as (s' & v' & -> & G & _). apply in_map, G.
  - exists out. unfold do_scan. rewrite ER. cbn [finish]. rewrite E1, EC. split; [reflexivity|]. split; [exact ES|]. split.
    + intros r Hr. apply (Permutation_in _ (Permutation_sym P)). apply in_flat_map. eauto.
    + intros r Hr. apply (Permutation_in _ P) in Hr. apply in_flat_map in Hr as (d & Hd & Hr). destruct (Dsub d Hd) as (s' & v' & -> & R1 & R2 & R3 & R4 & R5). exists s', v'. auto 7.
Qed.

(** Sample 0 with metric "a", then samples 1 and 2 with metric "b", all at 00:30; asking for "b" in that
    hour delivers the points of samples 1 and 2, merged into one metric. *)
Definition mtp (name r : string) : data := DMetrics [RGroup "" None [SGroup "" None [Metric name "" "" (Some (MData KGauge 0 false [Point half1 [] r]))]]].
Definition life6 : list event := life0 ++ [ev [Sample 0 (mtp "a" "x")] life0].
Definition life7 : list event := life6 ++ [ev [Sample 1 (mtp "b" "y"); Sample 2 (mtp "b" "z")] life6].
Example life7_history : history list_impl list_inv [] life7.
Proof.
  split; [vm_compute; reflexivity|]. split; [|split].
  - unfold life7. apply life_snoc; [|apply times_forall; repeat constructor]. unfold life6. apply life_snoc; [exact Logic.I|apply times_forall; repeat constructor].
  - vm_compute. repeat constructor.
  - intros s Hs. vm_compute in Hs. repeat (destruct Hs as [<-|Hs]; [reflexivity|]). destruct Hs.
Qed.
Example C67_example : history list_impl list_inv [] life7 /\
  saved list_impl [] life7 (Sample 2 (mtp "b" "z")) /\ window (calm 0) (ask "b" 0 3600) ["std_1970010100"%string] /\
  In "std_1970010100"%string (home (mtp "b" "z")) /\
  (forall s v, In s (given life7) -> In v ["std_1970010100"%string] -> In v (home (smp_data s)) -> aligned (flushes list_impl [] life7) v s) /\
  mergeable toy_h toy_kvb (map smp_data (given life7)) /\
  do_scan list_impl toy_h toy_kvb (after list_impl [] life7) (calm 0) (ask "b" 0 3600) group_columns =
    SData (Some (DMetrics [RGroup "" None [SGroup "" None [Metric "b" "" "" (Some (MData KGauge 0 false [Point half1 [] "y"; Point half1 [] "z"]))]]])).
Proof.
  split; [exact life7_history|]. split; [|split; [vm_compute; reflexivity|split; [vm_compute; auto|split; [|split]]]].
  - left. exists life6, [Sample 1 (mtp "b" "y"); Sample 2 (mtp "b" "z")], (smooth list_impl (after list_impl [] life6) [Sample 1 (mtp "b" "y"); Sample 2 (mtp "b" "z")]), [].
    split; [reflexivity|]. split; [right; left; reflexivity|]. split; vm_compute; reflexivity.
  - intros s v _ [<-|[]] _. left. vm_compute. reflexivity.
  - assert (G : map smp_data (given life7) = [mtp "a" "x"; mtp "b" "y"; mtp "b" "z"]) by reflexivity. rewrite G. split; [|split; [|split]].
    + split; [|split]; cbv zeta; cbn [flat_map metric_groups mtp app].
      * intros g g' H1 H2 E. pick; reflexivity.
      * intros g s g' s' H1 H2 H3 H4 E. pick; split; reflexivity.
      * intros g s a n g' s' a' n' H1 H2 H3 H4 H5 H6 Ea Ea' E. pick; unfold metric_name in Ea, Ea'; cbn in Ea, Ea'; apply some_inj in Ea; apply some_inj in Ea'; subst n n'; first [split; [reflexivity|split; reflexivity]|vm_compute in E; discriminate E].
    + intros X Y a b (g & s & H1 & H2 & H3 & _) (g' & s' & H4 & H5 & H6 & _) _. cbn in H1, H4. pick; reflexivity.
    + split; [|split]; cbv zeta; cbn; intros; contradiction.
    + split; [|split]; cbv zeta; cbn; intros; contradiction.
  - vm_compute. reflexivity.
Qed.
