(** C100: what a query answers in views that do not begin with sample 0 (every hour but the first). *)
From Verif.Model Require Import Base Labels Calendar View KV Otlp Transform Batch Rows Shards Dataframe Collapse Store Sequence Translate Visit XxHash Query.
From Verif.Spec Require Import Indexing Translator Frames Saves Sets Merge Trim Queries Serving Limits.
From Verif.Proofs Require Import BaseFacts CalendarFacts LabelsFacts TransformFacts ShardsFacts DataframeFacts StoreFacts ScanFacts ListTranslator TranslatorFacts VisitFacts OnceFacts.
From Verif.Props Require Import P_Labels P_Shards P_Dataframe P_Store P_Collapse P_EndToEnd P_Query P_Once P_Serving P_Restart P_Wiring.
From Verif.Props Require P_Visit P_Time.
Open Scope N_scope.
Notation entries := Trim.entries.

(** The sample has (a label that reads like) one of the asked labels. *)
Definition has_asked (sc : scan) (d : data) : Prop := exists l l', asks sc l /\ documented_label d l' /\ encode l' = encode l.

(** The sample has a label, or a marker of a signal, with the column of one of the asked labels. *)
Definition shares_column (I : tr_impl) (tr : ti_state I) (sc : scan) (d : data) : Prop :=
  exists l l' c, asks sc l /\ (documented_label d l' \/ exists z, l' = Label z PREFIX_UNKNOWN "" "") /\ ti_find I tr (encode l) = Some c /\ ti_find I tr (encode l') = Some c.

(* ------------------------------------------------------------------ rows and samples *)
Lemma first_le h s : increasing (List.concat h) -> In s (List.concat h) -> first_id h <= smp_id s.
Proof.
  unfold first_id. destruct (List.concat h) as [|a l]; [intros _ []|]. intros S [<-|K]; [lia|]. apply StronglySorted_inv in S as [_ F]. rewrite Forall_forall in F. specialize (F s K). cbn in F. lia.
Qed.
Lemma in_first_iff h id : in_first h id = true <-> exists ss rest s, h = ss :: rest /\ In s ss /\ smp_id s = id.
Proof.
  unfold in_first. destruct h as [|ss rest]; [split; [discriminate|intros (? & ? & ? & E & _); discriminate]|]. rewrite existsb_exists. split.
  - intros (s & Hs & E). apply N.eqb_eq in E. eauto 6.
  - intros (ss' & rest' & s & E & Hs & Ei). injection E as <- <-. exists s. split; [exact Hs|apply N.eqb_eq, Ei].
Qed.
Lemma first_before h a b : increasing (List.concat h) -> In b (List.concat h) -> in_first h (smp_id a) = true -> in_first h (smp_id b) = false -> smp_id a < smp_id b.
Proof.
  intros S Hb A B. apply in_first_iff in A as (ss & rest & s & -> & Hs & Es). cbn [List.concat] in *. apply in_app_iff in Hb as [Hb|Hb].
  - exfalso. assert (in_first (ss :: rest) (smp_id b) = true) by (apply in_first_iff; eauto 6). congruence.
  - rewrite <- Es. clear -S Hs Hb. induction ss as [|x ss IH]; [destruct Hs|]. cbn in S. apply StronglySorted_inv in S as [S F]. destruct Hs as [<-|Hs]; [|apply IH; assumption].
    rewrite Forall_forall in F. apply (F b). apply in_app_iff. auto.
Qed.
Lemma place_inj h s s' : increasing (List.concat h) -> In s (List.concat h) -> In s' (List.concat h) -> place_in h s = place_in h s' -> smp_id s = smp_id s'.
Proof.
  intros S H H' E. pose proof (first_le h s S H) as A. pose proof (first_le h s' S H') as B. unfold place_in, row_number in E.
  destruct (N.eqb_spec (first_id h) 0) as [|NZ]; [exact E|].
  destruct (in_first h (smp_id s)) eqn:F, (in_first h (smp_id s')) eqn:F'; try lia.
  - pose proof (first_before h s s' S H' F F'). lia.
  - pose proof (first_before h s' s S H F' F). lia.
Qed.

Section Displaced.
Context (I : tr_impl) (inv : nat -> ti_state I -> Prop) (L : tr_stable I inv) (s0 : ti_state I) (es : list event) (HI : history I inv s0 es).
Notation fls := (flushes I s0 es).
Notation state := (after I s0 es).

Lemma view_increasing v : increasing (List.concat (view_history v fls)).
Proof.
  pose proof (good_trace I inv 0 _ _ (hist_inv I inv L s0 es HI) (hist_inc I inv L s0 es HI)) as [OK INC]. apply (view_history_ok v _ OK INC).
Qed.
Lemma holder_place v s : stored v fls s -> holder fls (signal_of (smp_data s)) v (place_in (view_history v fls) s) = Some s.
Proof.
  intros St. destruct (holder fls _ v _) as [s'|] eqn:E.
  - apply holder_spec in E as (St' & P & _). f_equal. apply (given_unique I inv s0 es HI); [eapply stored_given; eauto|eapply stored_given; eauto|].
    apply (place_inj (view_history v fls)); [apply view_increasing|apply stored_iff, St'|apply stored_iff, St|exact P].
  - exfalso. unfold holder in E. apply find_none with (x := s) in E; [|apply stored_iff, St]. rewrite N.eqb_refl, Z.eqb_refl in E. discriminate.
Qed.
Lemma aligned_place v s : aligned fls v s -> place_in (view_history v fls) s = smp_id s.
Proof. unfold aligned, place_in, row_number. intros [-> | ->]; [reflexivity|]. destruct (_ =? 0); reflexivity. Qed.
(** Rows below the first sample's are never looked at: the first sample of a displaced view is at the row before its id. *)
Lemma first_not_held signal v s id : stored v fls s -> smp_id s = first_id (view_history v fls) -> smp_id s <> 0 ->
  (exists x, stored v fls x /\ smp_id x = id) -> holder fls signal v id <> Some s.
Proof.
  intros St E NZ (x & Sx & Ex) C. apply holder_spec in C as (_ & P & _). apply stored_iff in Sx. pose proof (first_le _ x (view_increasing v) Sx) as F.
  unfold place_in, row_number in P. destruct (N.eqb_spec (first_id (view_history v fls)) 0) as [Z|_]; [congruence|].
  destruct (in_first (view_history v fls) (smp_id s)) eqn:A; [lia|]. apply stored_iff in St. destruct (view_history v fls) as [|ss rest] eqn:Eh; [destruct St|].
  (* the first sample is in the first flush *)
  assert (G : good fls) by exact (good_trace I inv 0 _ _ (hist_inv I inv L s0 es HI) (hist_inc I inv L s0 es HI)).
  destruct (view_history_ok v fls (proj1 G) (proj2 G)) as [NE _]. rewrite Eh in NE. unfold first_id in E. cbn [List.concat] in E.
  destruct ss as [|y ss]; [apply (NE []); [left; reflexivity|reflexivity]|]. cbn [app] in E.
  assert (in_first ((y :: ss) :: rest) (smp_id s) = true) by (apply in_first_iff; exists (y :: ss), rest, y; split; [reflexivity|split; [left; reflexivity|congruence]]). congruence.
Qed.
Lemma displaced_holder signal v s s' : stored v fls s -> ~ aligned fls v s -> holder fls signal v (smp_id s) = Some s' ->
  stored v fls s' /\ in_first (view_history v fls) (smp_id s') = true /\ signal_of (smp_data s') = signal /\ smp_id s' = smp_id s + 1.
Proof.
  intros St NA E. apply holder_spec in E as (St' & P & Sg). split; [exact St'|]. unfold aligned in NA. unfold place_in, row_number in P.
  destruct (N.eqb_spec (first_id (view_history v fls)) 0) as [Z|NZ]; [tauto|]. apply stored_iff in St, St'.
  pose proof (first_le _ _ (view_increasing v) St'). destruct (in_first (view_history v fls) (smp_id s')) eqn:F; [repeat split; auto; lia|].
  exfalso. apply NA. right. rewrite <- P. exact F.
Qed.

(** A blank among the rows, or a row that is not there, spoils the answer. *)
Lemma poisoned h kvb scope rows : In None rows \/ In (Some DNone) rows -> let r := finish h kvb scope (RRows rows) in r = SPanic \/ r = SData None \/ r = SData (Some DNone).
Proof.
  intros B. cbn [finish]. destruct (all_some rows) as [ds|] eqn:E; [|left; reflexivity]. assert (R : rows = map Some ds).
  { clear B. revert ds E. induction rows as [|[a|] rows IH]; intros ds E; cbn in E; [apply some_inj in E; subst; reflexivity| |discriminate].
    destruct (all_some rows) as [r|]; [|discriminate]. apply some_inj in E. subst ds. cbn. f_equal. apply IH. reflexivity. }
  assert (D : In DNone ds). { subst rows. destruct B as [B|B]; apply in_map_iff in B as (d & Ed & Hd); [discriminate|apply some_inj in Ed; subst; exact Hd]. }
  assert (G : forall A (f : data -> option A), f DNone = None -> all_some (map f ds) = None).
  { intros A f F. clear -D F. induction ds as [|d ds IH]; [destruct D|]. cbn. destruct D as [ -> |D]; [rewrite F; reflexivity|]. destruct (f d); [rewrite (IH D); reflexivity|reflexivity]. }
  clear R B E. destruct ds as [|d [|d2 t]]; [destruct D|destruct D as [ -> |[]]; cbn; auto|].
  unfold collapse. destruct d as [l|l|l|]; [rewrite (G _ get_metrics eq_refl)|rewrite (G _ get_traces eq_refl)|rewrite (G _ get_logs eq_refl)|]; auto.
Qed.
Lemma query_poisoned h h0 kvb wall client sc order st en rows : sc_range (sc_times sc) <> None -> P_Visit.window client sc st en ->
  scan_rows I state (calm wall) sc order = RRows rows -> In None rows \/ In (Some DNone) rows ->
  query I h h0 kvb state (calm wall) client sc order = AError \/ query I h h0 kvb state (calm wall) client sc order = AData DNone.
Proof.
  intros NR PW ER B. unfold query, do_scan. rewrite ER. assert (Ask : P_Visit.asks sc) by (left; exact NR).
  destruct (poisoned h kvb (sc_scope sc) rows B) as [ -> | [ -> | -> ]]; [left; reflexivity| |]; cbn [over_grpc]; rewrite (P_Visit.js_scan_visit _ _ _ _ _ _ _ Ask PW); right; reflexivity.
Qed.

(** The rows of a scan with a time range, and where they come from. *)
Lemma scan_origins wall sc order vs rows : four_digit_years wall (sc_times sc) -> window (calm wall) sc vs -> scan_rows I state (calm wall) sc order = RRows rows ->
  exists cols hits from, compile_filters I (fun _ => false) (st_tr state) sc = Some cols /\ cols <> [] /\ lookup (st_shards state) vs cols (order cols) = Some hits /\
    Forall2 (comes_from es (sc_scope sc)) rows from /\ NoDup (map smp_id (flat_map opt from)) /\
    (forall o, In o from <-> exists v s, In v vs /\ In (smp_id s) (selected sc hits) /\ stored v fls s /\ signal_of (smp_data s) = sc_scope sc /\ o = holder fls (sc_scope sc) v (smp_id s)).
Proof.
  intros [Y1 Y2] W0 ER. pose proof (hist_inv I inv L s0 es HI) as H.
  apply scan_rows_cases in ER as (cols & vs' & hits & EC & NC & W & LK & NH & SG & ->).
  assert (vs' = vs) by (unfold window in *; congruence). subst vs'.
  change (e_frame_fails (calm wall)) with (e_frame_fails (calm 0)). unfold calm. cbn [e_frame_fails]. fold no_fault. rewrite read_views_ok.
  set (ids := view_ids (st_frames state) (sc_scope sc) (selected sc hits)).
  assert (Ids : forall v id, In id (ids v) <-> In id (selected sc hits) /\ exists s, stored v fls s /\ smp_id s = id /\ signal_of (smp_data s) = sc_scope sc).
  { intros v id. unfold ids. rewrite (I_frames _ _ _ _ _ H). apply in_view_ids; [apply (I_flush _ _ _ _ _ H)|exact SG]. }
  exists cols, hits, (origins I s0 es (sc_scope sc) ids vs). split; [exact EC|]. split; [exact NC|]. split; [exact LK|]. split; [|split].
  - apply (origins_rows I inv L s0 es HI); [exact SG|]. intros v id Hid. apply Ids in Hid as [_ (s & St & _)]. apply stored_iff in St. intros C. rewrite C in St. destruct St.
  - apply (origins_once I inv L s0 es HI); [exact (search_apart _ _ _ W Y1 Y2)|].
    intros v. unfold ids, view_ids. rewrite (I_frames _ _ _ _ _ H). destruct (C31_membership_exact fls v (sc_scope sc) (I_flush _ _ _ _ _ H) SG) as [S _]. unfold members in S.
    fold fls in *. destruct (aget String.eqb v (run_flushes fls)); [|constructor]. apply ssorted_sinter, S.
  - intros o. unfold origins. rewrite in_flat_map. split.
    + intros (v & Hv & Ho). apply in_map_iff in Ho as (id & <- & Hid). apply Ids in Hid as [Hs (s & St & <- & Sg)]. exists v, s. auto.
    + intros (v & s & Hv & Hs & St & Sg & ->). exists v. split; [exact Hv|]. apply in_map, Ids. split; [exact Hs|]. eauto.
Qed.
(** A sample that is looked up has the column of one of the asked labels. *)
Lemma hit_shares sc vs order cols hits id v s : some_order order ->
  compile_filters I (fun _ => false) (st_tr state) sc = Some cols -> cols <> [] -> lookup (st_shards state) vs cols (order cols) = Some hits -> In id hits ->
  stored v fls s -> smp_id s = id -> shares_column I (st_tr state) sc (smp_data s).
Proof.
  intros OO EC NC LK Hid Ss Es. pose proof (hist_inv I inv L s0 es HI) as H.
  assert (R : res_in id (lookup (st_shards state) vs cols (order cols))) by (rewrite LK; exact Hid).
  destruct (compile_spec I (st_tr state) sc) as (cols' & EC' & U & X). rewrite EC in EC'. apply some_inj in EC'. subst cols'.
  assert (K : forall l, asks sc l -> ti_find I (st_tr state) (encode l) <> None) by (intros l Hl E; apply NC, U; exists l; auto).
  destruct (X K) as [_ XC]. apply (C24_lookup_exact _ _ _ _ (OO cols)) in R as (_ & (c0 & Hc0 & id' & Hid') & M).
  destruct (M c0 Hc0 (ex_intro _ id' Hid')) as (w & Hw & Cw). specialize (Cw c0 Hc0 eq_refl).
  destruct (carried_stored I inv 0 state _ H (hist_small I inv L s0 es HI) w id c0 Cw) as (g & Hg & Eg & _ & _ & Hcol).
  apply (filing_cols I inv 0 state _ H g c0 Hg) in Hcol as (l' & Hl' & F'). apply XC in Hc0 as (l & Al & F).
  assert (Eq : g_sample g = s) by (apply (given_unique I inv s0 es HI); [apply (filing_given I inv L s0 es HI g Hg)|eapply stored_given; eauto|congruence]).
  exists l, l', c0. split; [exact Al|]. split; [|auto]. destruct Hl' as [D|D]; [left; rewrite <- Eq; exact D|right; eauto].
Qed.
End Displaced.
Lemma shares_asked I inv s0 es sc d : tr_laws I inv -> history I inv s0 es -> answerable (sc_scope sc) (sc_filters sc) ->
  shares_column I (st_tr (after I s0 es)) sc d -> has_asked sc d.
Proof.
  intros L HI An (l & l' & c & Al & Hl' & F & F'). pose proof (hist_inv I inv L s0 es HI) as H. pose proof (tl_inj _ _ L _ _ _ _ _ (I_tr _ _ _ _ _ H) F' F) as E.
  exists l, l'. split; [exact Al|]. split; [|exact E]. destruct Hl' as [D|[z D]]; [exact D|exfalso].
  destruct (C02_signal_and_prefix_recoverable _ _ E) as [_ E2]. rewrite D in E2. cbn [l_prefix] in E2. destruct An as ((f0 & Hf0 & _) & HB & _ & HA).
  destruct Al as [[C _]|[(p & x & Hf & ->)|(p & k & x & Hf & ->)]]; [rewrite C in Hf0; destruct Hf0| |]; cbn [l_prefix] in E2; subst p.
  - apply HB in Hf as [Hf _]. revert Hf. unfold text_properties. destruct (_ =? _)%Z; [|destruct (_ =? _)%Z]; cbn; intuition discriminate.
  - apply HA in Hf as [Hf _]. revert Hf. cbn. intuition discriminate.
Qed.

(* ------------------------------------------------------------------ what is answered *)
Lemma scan_rows_no_error I (st : store I) wall sc order : In (sc_scope sc) signals -> scan_rows I st (calm wall) sc order <> RErr.
Proof.
  intros Sig ER. unfold scan_rows in ER. cbn [calm e_wall e_find_fails e_index_fails e_frame_fails] in ER. destruct (time_bounds wall (sc_times sc)) as [a b].
  destruct (compile_spec I (st_tr st) sc) as (cols & EC & _). rewrite EC in ER.
  destruct (sempty cols); [discriminate|]. destruct (P_Time.C15_search_terminates a b) as [ws EW]. rewrite EW in ER.
  destruct (rows_loop (st_shards st) ws (order cols) None) as [hits|]; [|discriminate]. destruct (sempty hits); [discriminate|].
  apply scope_signals in Sig. rewrite Sig in ER. destruct (read_views _ _ _ _ _); discriminate.
Qed.
(** The answer, given the samples the rows of the scan come from. *)
Lemma answer_of I s0 es h h0 kvb wall client sc order st en rows ss : let state := after I s0 es in
  In (sc_scope sc) signals -> answerable (sc_scope sc) (sc_filters sc) -> sc_range (sc_times sc) <> None -> P_Visit.window client sc st en ->
  mergeable h kvb (map smp_data (given es)) -> (forall d, do_scan I h kvb state (calm wall) sc order = SData (Some d) -> P_Visit.fair h h0 sc d) ->
  scan_rows I state (calm wall) sc order = RRows rows -> rows = map (fun s => Some (smp_data s)) ss ->
  Forall (fun s => In s (given es) /\ signal_of (smp_data s) = sc_scope sc) ss ->
  exists out, query I h h0 kvb state (calm wall) client sc order = AData out /\ Permutation (records out) (matching_of (map smp_data ss) sc st en).
Proof.
  intros state Sig An NR PW Mg Fair ER -> Fs. assert (Ask : P_Visit.asks sc) by (left; exact NR). rewrite Forall_forall in Fs. destruct ss as [|s1 ss1].
  - unfold query, do_scan. rewrite ER. cbn [map finish all_some collapse over_grpc]. rewrite (P_Visit.js_scan_visit _ _ _ _ _ _ _ Ask PW). exists DNone. split; [reflexivity|constructor].
  - set (ss := s1 :: ss1) in *.
    destruct (C52_merge_loses_nothing h kvb (map smp_data ss) (sc_scope sc)) as (merged & EC & ES & P).
    + cbn in *; tauto.
    + discriminate.
    + intros d Hd. apply in_map_iff in Hd as (s & <- & Hs). apply (Fs s Hs).
    + eapply mergeable_sub; [|exact Mg]. intros d Hd. apply in_map_iff in Hd as (s & <- & Hs). apply in_map, (Fs s Hs).
    + assert (DS : do_scan I h kvb state (calm wall) sc order = SData (Some merged)).
      { unfold do_scan. rewrite ER. cbn [finish]. rewrite (P_Store.all_some_map (fun s => Some (smp_data s)) smp_data) by auto. rewrite EC. reflexivity. }
      assert (Sup : supported (sc_filters sc) merged) by (apply answerable_supported; rewrite ES; assumption).
      destruct (P_Visit.C46_matching_records_remain_partial h h0 client sc merged st en Ask PW (Fair merged DS) Sup) as (out & EJ & _ & EO & _).
      exists out. split; [unfold query; rewrite DS; cbn [over_grpc]; rewrite EJ; reflexivity|].
      rewrite records_seen, EO, map_map. unfold matching_of.
      assert (FS : filter (fun d => Z.eqb (signal_of d) (sc_scope sc)) (map smp_data ss) = map smp_data ss).
      { clear - Fs. induction ss as [|s l IH]; [reflexivity|]. cbn [map filter]. destruct (Fs s (or_introl eq_refl)) as [_ ->]. rewrite Z.eqb_refl, IH; [reflexivity|]. intros x Hx. apply Fs. right. exact Hx. }
      rewrite FS. apply seen_filter. rewrite <- records_seen, map_flat_map. etransitivity; [exact P|].
      rewrite !flat_map_concat_map, !map_map. erewrite map_ext; [reflexivity|]. intros s. apply records_seen.
Qed.
Lemma answer_zero I (st0 : store I) h h0 kvb wall client sc order st en :
  In (sc_scope sc) signals -> sc_range (sc_times sc) <> None -> P_Visit.window client sc st en ->
  (forall d, do_scan I h kvb st0 (calm wall) sc order = SData (Some d) -> P_Visit.fair h h0 sc d) ->
  scan_rows I st0 (calm wall) sc order = RZero -> exists out, query I h h0 kvb st0 (calm wall) client sc order = AData out /\ records out = [].
Proof.
  intros Sig NR PW Fair ER. assert (Ask : P_Visit.asks sc) by (left; exact NR).
  assert (DS : do_scan I h kvb st0 (calm wall) sc order = SData (zero_data (sc_scope sc))) by (unfold do_scan; rewrite ER; reflexivity).
  assert (Zd : exists d, zero_data (sc_scope sc) = Some d /\ records d = [] /\ entries d = []) by (destruct Sig as [<-|[<-|[<-|[]]]]; eexists; repeat split; reflexivity).
  destruct Zd as (d & E & R1 & R2). rewrite E in DS. destruct (P_Visit.C46_what_remains h h0 client sc d st en Ask PW (Fair d DS)) as (out & EJ & _ & EO & _).
  exists out. split; [unfold query; rewrite DS; cbn [over_grpc]; rewrite EJ; reflexivity|]. rewrite records_seen, EO, R2. reflexivity.
Qed.

(** Nothing is answered that was not sent, and nothing more often than it was sent, in any view of any history; but the
    sample a view begins with, if it is not sample 0, is never answered from that view. *)
Theorem C100_only_what_was_sent_partial : forall I inv s0 es h h0 kvb wall client sc order vs st en, tr_stable I inv -> history I inv s0 es ->
  let state := after I s0 es in
  In (sc_scope sc) signals -> answerable (sc_scope sc) (sc_filters sc) -> sc_range (sc_times sc) <> None ->
  four_digit_years wall (sc_times sc) -> P_Visit.window client sc st en -> window (calm wall) sc vs ->
  mergeable h kvb (map smp_data (given es)) ->
  (forall d, do_scan I h kvb state (calm wall) sc order = SData (Some d) -> P_Visit.fair h h0 sc d) ->
  query I h h0 kvb state (calm wall) client sc order = AError \/
  exists out ss, query I h h0 kvb state (calm wall) client sc order = AData out /\ NoDup ss /\ incl ss (given es) /\
    (forall s, In s ss -> exists v, In v vs /\ In v (home (smp_data s)) /\ ~ (smp_id s <> 0 /\ smp_id s = first_id (view_history v (flushes I s0 es)))) /\
    Permutation (records out) (matching_of (map smp_data ss) sc st en).
Proof.
  intros I inv s0 es h h0 kvb wall client sc order vs st en L HI state Sig An NR Y PW W Mg Fair.
  assert (None_ : forall out, query I h h0 kvb state (calm wall) client sc order = AData out -> records out = [] ->
    exists out ss, query I h h0 kvb state (calm wall) client sc order = AData out /\ NoDup ss /\ incl ss (given es) /\
    (forall s, In s ss -> exists v, In v vs /\ In v (home (smp_data s)) /\ ~ (smp_id s <> 0 /\ smp_id s = first_id (view_history v (flushes I s0 es)))) /\
    Permutation (records out) (matching_of (map smp_data ss) sc st en)).
  { intros out E R. exists out, []. split; [exact E|]. split; [constructor|]. split; [intros x []|]. split; [intros x []|]. rewrite R. constructor. }
  destruct (scan_rows I state (calm wall) sc order) as [| |rows] eqn:ER.
  - exfalso. exact (scan_rows_no_error I state wall sc order Sig ER).
  - right. destruct (answer_zero I state h h0 kvb wall client sc order st en Sig NR PW Fair ER) as (out & E & R). exact (None_ out E R).
  - destruct (scan_origins I inv L s0 es HI wall sc order vs rows Y W ER) as (cols & hits & from & EC & NC & LK & F2 & ND & From).
    destruct (existsb (fun o => match o with None => true | Some _ => false end) from) eqn:X.
    + apply existsb_exists in X as ([s|] & Ho & X); [discriminate|]. assert (B : In None rows \/ In (Some DNone) rows).
      { clear -F2 Ho. induction F2 as [|row o rows from C F IH]; [destruct Ho|]. destruct Ho as [ -> |Ho]; [destruct C as [ -> | -> ]; [left|right]; left; reflexivity|]. destruct (IH Ho); [left|right]; right; assumption. }
      destruct (query_poisoned I s0 es h h0 kvb wall client sc order st en rows NR PW ER B) as [E|E]; [left; exact E|right]. exact (None_ _ E eq_refl).
    + right. destruct (all_from es _ _ _ F2) as (ss & Eo & Er & Es & Fs).
      { intros o Ho C. subst o. assert (existsb (fun o : option sample => match o with None => true | Some _ => false end) from = true) by (apply existsb_exists; exists None; auto). congruence. }
      destruct (answer_of I s0 es h h0 kvb wall client sc order st en rows ss Sig An NR PW Mg Fair ER Er Fs) as (out & E & P).
      exists out, ss. split; [exact E|]. rewrite Es in ND. split; [apply (nodup_of_map smp_id), ND|]. rewrite Forall_forall in Fs. split; [intros s Hs; apply (Fs s Hs)|]. split; [|exact P].
      intros s Hs. assert (K : In (Some s) from) by (rewrite Eo; apply in_map, Hs). apply From in K as (v & x & Hv & _ & Sx & _ & Hh). exists v. split; [exact Hv|]. symmetry in Hh.
      pose proof (holder_spec _ _ _ _ _ Hh) as (St & _). split; [exact (stored_home I inv L s0 es HI v s St)|]. intros [NZ F].
      apply (first_not_held I inv L s0 es HI (sc_scope sc) v s (smp_id x) St F NZ); [exists x; auto|exact Hh].
Qed.
(** The sample is filed in one of these views. *)
Definition filed_among (vs : list string) (s : sample) : bool := existsb (fun v => existsb (String.eqb v) (home (smp_data s))) vs.
Lemma filed_among_iff vs s : filed_among vs s = true <-> exists v, In v vs /\ In v (home (smp_data s)).
Proof.
  unfold filed_among. rewrite existsb_exists. split; intros (v & Hv & K); exists v; (split; [exact Hv|]).
  - apply existsb_exists in K as (x & Hx & E). apply String.eqb_eq in E. subst x. exact Hx.
  - apply existsb_exists. exists v. split; [exact K|apply String.eqb_refl].
Qed.
(** What a query answers, whatever the window: the matching records of the samples that are filed in the views it looks at,
    each as often as sent, and nothing else; also in views with displaced rows, as long as no looked up sample is displaced;
    for translators that may give several labels one column. *)
Lemma exact_where_consulted : forall I inv s0 es h h0 kvb wall client sc order vs st en, tr_stable I inv -> history I inv s0 es -> some_order order ->
  let state := after I s0 es in
  In (sc_scope sc) signals -> answerable (sc_scope sc) (sc_filters sc) -> sc_range (sc_times sc) <> None ->
  four_digit_years wall (sc_times sc) -> P_Visit.window client sc st en -> window (calm wall) sc vs ->
  (forall s e, In s (given es) -> signal_of (smp_data s) = sc_scope sc -> In e (entries (smp_data s)) -> wanted (sc_filters sc) st en e = true ->
     (exists v, In v vs /\ In v (home (smp_data s))) -> saved I s0 es s) ->
  (forall s v, In s (given es) -> signal_of (smp_data s) = sc_scope sc -> shares_column I (st_tr state) sc (smp_data s) -> In v vs -> In v (home (smp_data s)) -> aligned (flushes I s0 es) v s) ->
  mergeable h kvb (map smp_data (given es)) ->
  (forall d, do_scan I h kvb state (calm wall) sc order = SData (Some d) -> P_Visit.fair h h0 sc d) ->
  exists out, query I h h0 kvb state (calm wall) client sc order = AData out /\
    Permutation (records out) (matching_of (map smp_data (filter (filed_among vs) (given es))) sc st en).
Proof.
  intros I inv s0 es h h0 kvb wall client sc order vs st en L HI OO state Sig An NR Y PW W Sv Al Mg Fair.
  set (fls := flushes I s0 es) in *.
  assert (Hit : forall s e, In s (given es) -> signal_of (smp_data s) = sc_scope sc -> In e (entries (smp_data s)) -> wanted (sc_filters sc) st en e = true -> filed_among vs s = true ->
     exists v cols hits, In v vs /\ compile_filters I (fun _ => false) (st_tr state) sc = Some cols /\ cols <> [] /\ lookup (st_shards state) vs cols (order cols) = Some hits /\ In (smp_id s) hits /\ stored v fls s).
  { intros s e G Sg He Hw Fi. apply filed_among_iff in Fi as Fi'. specialize (Sv s e G Sg He Hw Fi'). destruct Fi' as (v & Hv & Hh).
    destruct (saved_hit I inv s0 es sc vs s v order L HI OO Sv Hv Hh (answerable_asks _ An)) as (cols & hits & A & B & C & D & E); [intros l Hl; eapply wanted_labels; eauto|]. exists v, cols, hits. auto 7. }
  assert (Held : forall v s cols hits, In v vs -> compile_filters I (fun _ => false) (st_tr state) sc = Some cols -> cols <> [] -> lookup (st_shards state) vs cols (order cols) = Some hits -> In (smp_id s) hits ->
     stored v fls s -> signal_of (smp_data s) = sc_scope sc -> holder fls (sc_scope sc) v (smp_id s) = Some s).
  { intros v s cols hits Hv EC NC LK Hid St Sg. rewrite <- Sg. rewrite <- (aligned_place I s0 es v s) at 1; [apply (holder_place I inv L s0 es HI), St|].
    apply Al; [exact (stored_given I inv L s0 es HI v s St)|exact Sg| |exact Hv|exact (stored_home I inv L s0 es HI v s St)].
    eapply (hit_shares I inv L s0 es HI); eauto. }
  assert (Nil : (forall rows, scan_rows I state (calm wall) sc order <> RRows rows) -> matching_of (map smp_data (filter (filed_among vs) (given es))) sc st en = []).
  { intros NoRows. unfold matching_of. destruct (filter (wanted (sc_filters sc) st en) _) as [|e l] eqn:E; [reflexivity|exfalso].
    assert (K : In e (e :: l)) by (left; reflexivity). rewrite <- E in K. apply filter_In in K as [K Hw]. apply in_flat_map in K as (d & Hd & He). apply filter_In in Hd as [Hd Sg]. apply Z.eqb_eq in Sg.
    apply in_map_iff in Hd as (s & <- & G). apply filter_In in G as [G Fi]. destruct (Hit s e G Sg He Hw Fi) as (v & cols & hits & Hv & EC & NC & LK & Hid & St).
    destruct (scan_rows_hit I state wall sc order cols vs hits EC NC W LK) as (rows & ER & _); [intros ->; destruct Hid|exact Sig|]. exact (NoRows rows ER). }
  destruct (scan_rows I state (calm wall) sc order) as [| |rows] eqn:ER.
  - exfalso. exact (scan_rows_no_error I state wall sc order Sig ER).
  - destruct (answer_zero I state h h0 kvb wall client sc order st en Sig NR PW Fair ER) as (out & E & R). exists out. split; [exact E|]. rewrite R, Nil; [constructor|]. congruence.
  - destruct (scan_origins I inv L s0 es HI wall sc order vs rows Y W ER) as (cols & hits & from & EC & NC & LK & F2 & ND & From). fold fls in From.
    assert (Sel : selected sc hits = hits) by (unfold selected; destruct (sc_range (sc_times sc)); [reflexivity|congruence]). rewrite Sel in From.
    destruct (all_from es _ _ _ F2) as (ss & Eo & Er & Es & Fs).
    { intros o Ho C. apply From in Ho as (v & s & Hv & Hs & St & Sg & ->). rewrite (Held v s cols hits Hv EC NC LK Hs St Sg) in C. discriminate. }
    destruct (answer_of I s0 es h h0 kvb wall client sc order st en rows ss Sig An NR PW Mg Fair ER Er Fs) as (out & E & P).
    exists out. split; [exact E|]. etransitivity; [exact P|]. rewrite Es in ND. rewrite Forall_forall in Fs. apply (nodup_of_map smp_id) in ND. clear F2 Er E P Fair.
    assert (M : forall l, matching_of (map smp_data l) sc st en = flat_map (fun s => matching_of [smp_data s] sc st en) l).
    { intros l. induction l as [|s l IH]; [reflexivity|]. cbn [map flat_map]. rewrite <- IH. unfold matching_of. cbn [filter].
      destruct (Z.eqb (signal_of (smp_data s)) (sc_scope sc)); cbn [flat_map]; [|reflexivity]. rewrite filter_app, map_app, app_nil_r. reflexivity. }
    rewrite !M. apply flat_map_sub; [exact ND|apply NoDup_filter, increasing_nodup; destruct HI as (_ & _ & INC & _); exact INC| |].
    { intros x Hx. apply filter_In. split; [apply (Fs x Hx)|]. apply filed_among_iff. assert (K : In (Some x) from) by (rewrite Eo; apply in_map, Hx).
      apply From in K as (v & y & Hv & _ & _ & _ & Hh). symmetry in Hh. exists v. split; [exact Hv|]. apply (stored_home I inv L s0 es HI v x), (holder_spec _ _ _ _ _ Hh). }
    intros s G NI. apply filter_In in G as [G Fi]. unfold matching_of. cbn [filter]. destruct (Z.eqb_spec (signal_of (smp_data s)) (sc_scope sc)) as [Sg|_]; [|reflexivity]. cbn [flat_map]. rewrite app_nil_r.
    destruct (filter (wanted (sc_filters sc) st en) (entries (smp_data s))) as [|e l] eqn:Ef; [reflexivity|exfalso]. apply NI.
    assert (K : In e (e :: l)) by (left; reflexivity). rewrite <- Ef in K. apply filter_In in K as [He Hw]. destruct (Hit s e G Sg He Hw Fi) as (v & cols' & hits' & Hv & EC' & NC' & LK' & Hid & St).
    assert (cols' = cols) by (apply some_inj; etransitivity; [symmetry; exact EC'|exact EC]). subst cols'. assert (hits' = hits) by (apply some_inj; etransitivity; [symmetry; exact LK'|exact LK]). subst hits'.
    pose proof (Held v s cols hits Hv EC NC LK Hid St Sg) as Hh.
    assert (X : In (Some s) from) by (apply From; exists v, s; auto 7). rewrite Eo in X. apply in_map_iff in X as (x & Ex & X). apply some_inj in Ex. subst x. exact X.
Qed.
(** The exact answer, if everything that matches is filed in a view the query looks at. *)
Lemma exact_if_shared_aligned : forall I inv s0 es h h0 kvb wall client sc order vs st en, tr_stable I inv -> history I inv s0 es -> some_order order ->
  let state := after I s0 es in
  In (sc_scope sc) signals -> answerable (sc_scope sc) (sc_filters sc) -> sc_range (sc_times sc) <> None ->
  four_digit_years wall (sc_times sc) -> P_Visit.window client sc st en -> window (calm wall) sc vs ->
  (forall s e, In s (given es) -> signal_of (smp_data s) = sc_scope sc -> In e (entries (smp_data s)) -> wanted (sc_filters sc) st en e = true ->
     saved I s0 es s /\ exists v, In v vs /\ In v (home (smp_data s))) ->
  (forall s v, In s (given es) -> signal_of (smp_data s) = sc_scope sc -> shares_column I (st_tr state) sc (smp_data s) -> In v vs -> In v (home (smp_data s)) -> aligned (flushes I s0 es) v s) ->
  mergeable h kvb (map smp_data (given es)) ->
  (forall d, do_scan I h kvb state (calm wall) sc order = SData (Some d) -> P_Visit.fair h h0 sc d) ->
  exists out, query I h h0 kvb state (calm wall) client sc order = AData out /\ Permutation (records out) (matching_of (map smp_data (given es)) sc st en).
Proof.
  intros I inv s0 es h h0 kvb wall client sc order vs st en L HI OO state Sig An NR Y PW W Cov Al Mg Fair.
  destruct (exact_where_consulted I inv s0 es h h0 kvb wall client sc order vs st en L HI OO Sig An NR Y PW W) as (out & E & P); auto.
  { intros s e G Sg He Hw _. apply (Cov s e G Sg He Hw). }
  exists out. split; [exact E|]. assert (Eq : matching_of (map smp_data (filter (filed_among vs) (given es))) sc st en = matching_of (map smp_data (given es)) sc st en); [|rewrite <- Eq; exact P].
  assert (Cov' : forall s e, In s (given es) -> signal_of (smp_data s) = sc_scope sc -> In e (entries (smp_data s)) -> wanted (sc_filters sc) st en e = true -> filed_among vs s = true).
  { intros s e G Sg He Hw. apply filed_among_iff, (Cov s e G Sg He Hw). }
  clear - Cov'. induction (given es) as [|s l IH]; [reflexivity|]. assert (IH' : matching_of (map smp_data (filter (filed_among vs) l)) sc st en = matching_of (map smp_data l) sc st en).
  { apply IH. intros x e G. apply Cov'. right. exact G. }
  clear IH. unfold matching_of in *. cbn [filter map]. destruct (filed_among vs s) eqn:F; cbn [filter map]; destruct (Z.eqb_spec (signal_of (smp_data s)) (sc_scope sc)) as [Sg|_]; auto; cbn [flat_map]; rewrite !filter_app, !map_app, IH'; auto.
  destruct (filter (wanted (sc_filters sc) st en) (entries (smp_data s))) as [|e t] eqn:Ef; [reflexivity|]. assert (K : In e (e :: t)) by (left; reflexivity). rewrite <- Ef in K. apply filter_In in K as [He Hw].
  specialize (Cov' s e (or_introl eq_refl) Sg He Hw). congruence.
Qed.
(** The exact answer, also in views with displaced rows, as long as no looked up sample is displaced. *)
Theorem C100_exact_answer_partial : forall I inv s0 es h h0 kvb wall client sc order vs st en, tr_laws I inv -> history I inv s0 es -> some_order order ->
  let state := after I s0 es in
  In (sc_scope sc) signals -> answerable (sc_scope sc) (sc_filters sc) -> sc_range (sc_times sc) <> None ->
  four_digit_years wall (sc_times sc) -> P_Visit.window client sc st en -> window (calm wall) sc vs ->
  (forall s e, In s (given es) -> signal_of (smp_data s) = sc_scope sc -> In e (entries (smp_data s)) -> wanted (sc_filters sc) st en e = true ->
     saved I s0 es s /\ exists v, In v vs /\ In v (home (smp_data s))) ->
  (forall s v, In s (given es) -> signal_of (smp_data s) = sc_scope sc -> has_asked sc (smp_data s) -> In v vs -> In v (home (smp_data s)) -> aligned (flushes I s0 es) v s) ->
  mergeable h kvb (map smp_data (given es)) ->
  (forall d, do_scan I h kvb state (calm wall) sc order = SData (Some d) -> P_Visit.fair h h0 sc d) ->
  exists out, query I h h0 kvb state (calm wall) client sc order = AData out /\ Permutation (records out) (matching_of (map smp_data (given es)) sc st en).
Proof.
  intros I inv s0 es h h0 kvb wall client sc order vs st en L HI OO state Sig An NR Y PW W Cov Al Mg Fair.
  apply (exact_if_shared_aligned I inv s0 es h h0 kvb wall client sc order vs st en); auto; [exact L|].
  intros s v G Sg Sh. apply Al; auto. apply (shares_asked I inv s0 es); auto.
Qed.

(** With few labels and one successful save since the last start: everything ever saved (as C98, for displaced views too). *)
Theorem C100_found_again_partial : forall I inv s0 es h h0 kvb wall client sc order vs st en, tr_laws I inv -> history I inv s0 es -> some_order order ->
  let state := after I s0 es in
  few_labels I state -> saves_again I s0 es ->
  In (sc_scope sc) signals -> answerable (sc_scope sc) (sc_filters sc) -> sc_range (sc_times sc) <> None ->
  four_digit_years wall (sc_times sc) -> P_Visit.window client sc st en -> window (calm wall) sc vs ->
  (forall s e, In s (given es) -> signal_of (smp_data s) = sc_scope sc -> In e (entries (smp_data s)) -> wanted (sc_filters sc) st en e = true ->
     kept I s0 es s /\ exists v, In v vs /\ In v (home (smp_data s))) ->
  (forall s v, In s (given es) -> signal_of (smp_data s) = sc_scope sc -> has_asked sc (smp_data s) -> In v vs -> In v (home (smp_data s)) -> aligned (flushes I s0 es) v s) ->
  mergeable h kvb (map smp_data (given es)) ->
  (forall d, do_scan I h kvb state (calm wall) sc order = SData (Some d) -> P_Visit.fair h h0 sc d) ->
  exists out, query I h h0 kvb state (calm wall) client sc order = AData out /\ Permutation (records out) (matching_of (map smp_data (given es)) sc st en).
Proof.
  intros I inv s0 es h h0 kvb wall client sc order vs st en L HI OO state Few Again Sig An NR Y PW W Cov Al Mg Fair.
  apply (C100_exact_answer_partial I inv s0 es h h0 kvb wall client sc order vs st en); auto.
  intros s e G Sg He Hw. destruct (Cov s e G Sg He Hw) as [K V]. split; [apply (back I inv s0 es s L); assumption|exact V].
Qed.

(** And so for the server as it is wired, within the limits of C99. *)
Theorem C100_as_wired_partial : forall grow hash world d es h h0 kvb wall client sc order vs st en, server_life grow hash world d es -> some_order order ->
  let W := wired_server grow hash world in let s0 := wired_first grow hash world d in let state := after W s0 es in
  few_labels W state -> saves_again W s0 es ->
  In (sc_scope sc) signals -> answerable (sc_scope sc) (sc_filters sc) -> sc_range (sc_times sc) <> None ->
  four_digit_years wall (sc_times sc) -> P_Visit.window client sc st en -> window (calm wall) sc vs ->
  (forall s e, In s (given es) -> signal_of (smp_data s) = sc_scope sc -> In e (entries (smp_data s)) -> wanted (sc_filters sc) st en e = true ->
     kept W s0 es s /\ exists v, In v vs /\ In v (home (smp_data s))) ->
  (forall s v, In s (given es) -> signal_of (smp_data s) = sc_scope sc -> has_asked sc (smp_data s) -> In v vs -> In v (home (smp_data s)) -> aligned (flushes W s0 es) v s) ->
  mergeable h kvb (map smp_data (given es)) ->
  (forall x, do_scan W h kvb state (calm wall) sc order = SData (Some x) -> P_Visit.fair h h0 sc x) ->
  exists out, query W h h0 kvb state (calm wall) client sc order = AData out /\ Permutation (records out) (matching_of (map smp_data (given es)) sc st en).
Proof.
  intros grow hash world d es h h0 kvb wall client sc order vs st en H OO W s0 state Few Again Sig An NR Y PW Wd Cov Al Mg Fair.
  destruct (C99_no_difference_partial grow hash world d es H) as (HI & Kp & _ & _ & _ & DS & QS & _). unfold state, W, s0 in *. rewrite QS.
  apply (C100_found_again_partial (plain_server grow) (kv_inv "5") (plain_first grow d) es h h0 kvb wall client sc order vs st en (kv_laws "5" grow (sl_grow _ _ _ _ _ H)) HI OO
    (life_few grow hash world d es H Few) (life_again grow hash world d es H Again)); auto.
  - intros s e G Sg He Hw. destruct (Cov s e G Sg He Hw) as [K V]. split; [apply Kp, K|exact V].
  - rewrite <- (life_flushes grow hash world d es H). exact Al.
  - intros x E. apply Fair. rewrite DS. exact E.
Qed.

(* ------------------------------------------------------------------ what is lost *)
(** A query that matches a sample of the first flush of a view that does not begin with sample 0, and whose next number is
    not in that flush, view and signal, too: the query fails or answers nothing at all, whatever else it matches. *)
Theorem C100_answers_nothing_refuted : forall I inv s0 es h h0 kvb wall client sc order vs st en s v, tr_stable I inv -> history I inv s0 es -> some_order order ->
  let state := after I s0 es in let fls := flushes I s0 es in
  In (sc_scope sc) signals -> sc_range (sc_times sc) <> None ->
  four_digit_years wall (sc_times sc) -> P_Visit.window client sc st en -> window (calm wall) sc vs ->
  saved I s0 es s -> signal_of (smp_data s) = sc_scope sc -> (exists l, asks sc l) -> (forall l, asks sc l -> documented_label (smp_data s) l) -> In v vs -> In v (home (smp_data s)) ->
  first_id (view_history v fls) <> 0 -> in_first (view_history v fls) (smp_id s) = true ->
  (forall s', stored v fls s' -> in_first (view_history v fls) (smp_id s') = true -> signal_of (smp_data s') = sc_scope sc -> smp_id s' <> smp_id s + 1) ->
  query I h h0 kvb state (calm wall) client sc order = AError \/ query I h h0 kvb state (calm wall) client sc order = AData DNone.
Proof.
  intros I inv s0 es h h0 kvb wall client sc order vs st en s v L HI OO state fls Sig NR Y PW W Sv Sg EA Doc Hv Hh NZ F1 Gap.
  destruct (saved_hit I inv s0 es sc vs s v order L HI OO Sv Hv Hh EA Doc) as (cols & hits & EC & NC & LK & Hin & Ss).
  destruct (scan_rows_hit I state wall sc order cols vs hits EC NC W LK) as (rows & ER & _); [intros ->; destruct Hin|exact Sig|].
  apply (query_poisoned I s0 es h h0 kvb wall client sc order st en rows NR PW ER).
  destruct (scan_origins I inv L s0 es HI wall sc order vs rows Y W ER) as (cols' & hits' & from & EC' & NC' & LK' & F2 & _ & From).
  assert (cols' = cols) by (apply some_inj; etransitivity; [symmetry; exact EC'|exact EC]). subst cols'. assert (hits' = hits) by (apply some_inj; etransitivity; [symmetry; exact LK'|exact LK]). subst hits'.
  assert (Ho : In None from).
  { apply From. exists v, s. split; [exact Hv|]. split; [unfold selected; destruct (sc_range (sc_times sc)); [exact Hin|congruence]|]. split; [exact Ss|]. split; [exact Sg|].
    destruct (holder (flushes I s0 es) (sc_scope sc) v (smp_id s)) as [s'|] eqn:E; [|reflexivity]. exfalso.
    apply (displaced_holder I inv L s0 es HI) in E as (St' & F' & Sg' & Ei); [|exact Ss|intros [C|C]; unfold fls in *; congruence]. exact (Gap s' St' F' Sg' Ei). }
  clear -F2 Ho. induction F2 as [|row o rows from C F IH]; [destruct Ho|]. destruct Ho as [ -> |Ho]; [destruct C as [ -> | -> ]; [left|right]; left; reflexivity|]. destruct (IH Ho); [left|right]; right; assumption.
Qed.
(** Right after the first flush into such a view, every query that matches its newest sample fails. *)
Theorem C100_fails_after_first_flush_refuted : forall I inv s0 es h h0 kvb wall client sc order vs s v, tr_stable I inv -> history I inv s0 es -> some_order order ->
  let state := after I s0 es in let fls := flushes I s0 es in
  In (sc_scope sc) signals -> sc_range (sc_times sc) <> None -> window (calm wall) sc vs ->
  saved I s0 es s -> signal_of (smp_data s) = sc_scope sc -> (exists l, asks sc l) -> (forall l, asks sc l -> documented_label (smp_data s) l) -> In v vs -> In v (home (smp_data s)) ->
  first_id (view_history v fls) <> 0 -> List.length (view_history v fls) = 1%nat -> (forall s', stored v fls s' -> smp_id s' <= smp_id s) ->
  query I h h0 kvb state (calm wall) client sc order = AError.
Proof.
  intros I inv s0 es h h0 kvb wall client sc order vs s v L HI OO state fls Sig NR W Sv Sg EA Doc Hv Hh NZ One Max. pose proof (hist_inv I inv L s0 es HI) as H.
  destruct (saved_hit I inv s0 es sc vs s v order L HI OO Sv Hv Hh EA Doc) as (cols & hits & EC & NC & LK & Hin & Ss).
  destruct (scan_rows_hit I state wall sc order cols vs hits EC NC W LK) as (rows & ER & RV); [intros ->; destruct Hin|exact Sig|].
  assert (N : In None rows).
  { rewrite read_views_ok in RV. apply some_inj in RV. subst rows. apply in_flat_map. exists v. split; [exact Hv|]. apply in_map_iff. exists (smp_id s). split.
    - assert (RA : row_at (st_frames state) v (smp_id s) = None).
      { unfold state. rewrite (I_frames _ _ _ _ _ H). apply (proj1 C29_row_number_is_id_refuted); auto. exact (good_trace I inv 0 _ _ H (hist_inc I inv L s0 es HI)). }
      rewrite RA. reflexivity.
    - unfold state. rewrite (I_frames _ _ _ _ _ H). apply in_view_ids; [apply (I_flush _ _ _ _ _ H)|exact Sig|]. split.
      + unfold selected. destruct (sc_range (sc_times sc)); [exact Hin|congruence].
      + exists s. auto. }
  unfold query, do_scan. rewrite ER. cbn [finish]. assert (AS : all_some rows = None).
  { clear -N. induction rows as [|[d|] rows IH]; [destruct N| |reflexivity]. cbn. destruct N as [N|N]; [discriminate|]. rewrite (IH N). reflexivity. }
  rewrite AS. reflexivity.
Qed.

(* ------------------------------------------------------------------ two hours *)
(** Sample 0 ("a") in the first hour; then samples 1 ("b") and 2 ("c") in one flush, and 3 ("d") in another, in the second. *)
Definition two_hours : list event := life2 ++ [ev [Sample 3 (mt "d" hour2)] life2].
Definition hour_of_d : scan := ask "d" 3600 7200.
Definition in_second (n : string) : answer := query list_impl xxh64 xxh64_zero toy_kvb (after list_impl [] two_hours) (calm 0) 0 (ask n 3600 7200) group_columns.
Lemma two_hours_history : history list_impl list_inv [] two_hours.
Proof.
  split; [vm_compute; reflexivity|]. split; [|split].
  - unfold two_hours. apply life_snoc; [|apply times_forall; repeat constructor]. unfold life2. apply life_snoc; [|apply times_forall; repeat constructor].
    unfold life1. apply life_snoc; [exact Logic.I|apply times_forall; repeat constructor].
  - vm_compute. repeat constructor.
  - intros s Hs. vm_compute in Hs. repeat (destruct Hs as [<-|Hs]; [reflexivity|]). destruct Hs.
Qed.
Example C100_example_answers :
  (exists out, in_second "d" = AData out /\ List.length (records out) = 1%nat) /\
  in_second "c" = AData DNone /\ (exists out, in_second "b" = AData out /\ records out = []) /\
  query list_impl xxh64 xxh64_zero toy_kvb (after list_impl [] life2) (calm 0) 0 (ask "c" 3600 7200) group_columns = AError.
Proof.
  split; [eexists; split; vm_compute; reflexivity|]. split; [vm_compute; reflexivity|]. split; [eexists; split; vm_compute; reflexivity|]. vm_compute. reflexivity.
Qed.
Lemma mt_labels n t l : documented_label (mt n t) l -> l = Label RESOURCE_METRICS PREFIX_NAME n "".
Proof. intros H. apply in_L_data in H. cbn in H. destruct H as [<-|[]]. reflexivity. Qed.
Lemma ask_one n a b l : asks (ask n a b) l -> l = Label RESOURCE_METRICS PREFIX_NAME n "".
Proof. intros [[E _]|[(p & v & [E|[]] & ->)|(p & k & v & [E|[]] & _)]]; [discriminate E| |discriminate E]. injection E as <- <-. reflexivity. Qed.
Lemma mt_documented n t a b l : n <> ""%string -> asks (ask n a b) l -> documented_label (mt n t) l.
Proof. intros NE H. apply ask_one in H as ->. apply in_L_data. cbn. destruct n; [congruence|]. left. reflexivity. Qed.
Notation h2 := "std_1970010101"%string.
Definition d_saved (n : string) (id : N) : Prop := saved list_impl [] two_hours (Sample id (mt n hour2)).
Lemma saved_d : d_saved "d" 3.
Proof.
  left. exists life2, [Sample 3 (mt "d" hour2)], (smooth list_impl (after list_impl [] life2) [Sample 3 (mt "d" hour2)]), []. split; [reflexivity|]. split; [left; reflexivity|]. split; vm_compute; reflexivity.
Qed.
Lemma saved_c es2 : existsb is_restart es2 = false -> saved list_impl [] (life2 ++ es2) (Sample 2 (mt "c" hour2)).
Proof.
  intros NR. left. exists life1, [Sample 1 (mt "b" hour2); Sample 2 (mt "c" hour2)], (smooth list_impl (after list_impl [] life1) [Sample 1 (mt "b" hour2); Sample 2 (mt "c" hour2)]), es2.
  split; [unfold life2, ev; rewrite <- app_assoc; reflexivity|]. split; [right; left; reflexivity|]. split; [vm_compute; reflexivity|exact NR].
Qed.
(** The hypotheses of the exact answer hold for "d", though the view is displaced ... *)
Example C100_example_exact :
  answerable RESOURCE_METRICS (sc_filters hour_of_d) /\ four_digit_years 0 (sc_times hour_of_d) /\ P_Visit.window 0 hour_of_d 3600000000000 7200000000000 /\ window (calm 0) hour_of_d [h2] /\
  (forall s e, In s (given two_hours) -> signal_of (smp_data s) = RESOURCE_METRICS -> In e (entries (smp_data s)) -> wanted (sc_filters hour_of_d) 3600000000000 7200000000000 e = true ->
     saved list_impl [] two_hours s /\ exists v, In v [h2] /\ In v (home (smp_data s))) /\
  (forall s v, In s (given two_hours) -> signal_of (smp_data s) = RESOURCE_METRICS -> has_asked hour_of_d (smp_data s) -> In v [h2] -> In v (home (smp_data s)) -> aligned (flushes list_impl [] two_hours) v s) /\
  ~ aligned (flushes list_impl [] two_hours) h2 (Sample 1 (mt "b" hour2)) /\
  mergeable xxh64 toy_kvb (map smp_data (given two_hours)) /\
  (forall d, do_scan list_impl xxh64 toy_kvb (after list_impl [] two_hours) (calm 0) hour_of_d group_columns = SData (Some d) -> P_Visit.fair xxh64 xxh64_zero hour_of_d d).
Proof.
  assert (G : given two_hours = [Sample 0 (mt "a" half1); Sample 1 (mt "b" hour2); Sample 2 (mt "c" hour2); Sample 3 (mt "d" hour2)]) by reflexivity.
  split; [apply ask_answerable; discriminate|]. split; [vm_compute; split; congruence|]. split; [repeat split; vm_compute; congruence|]. split; [vm_compute; reflexivity|]. rewrite G. split; [|split; [|split; [|split]]].
  - intros s e Hs _ He Hw. repeat (destruct Hs as [<-|Hs]; [|]); [| | | |destruct Hs]; cbn in He; destruct He as [<-|[]]; try (vm_compute in Hw; discriminate Hw).
    split; [exact saved_d|]. exists h2. split; [left; reflexivity|vm_compute; auto].
  - intros s v Hs _ (l & l' & Hl & D & E) Hv _. destruct Hv as [<-|[]]. apply ask_one in Hl as ->.
    repeat (destruct Hs as [<-|Hs]; [apply mt_labels in D as ->; first [discriminate E|right; vm_compute; reflexivity]|]). destruct Hs.
  - intros [C|C]; vm_compute in C; discriminate C.
  - cbn [map smp_data]. split; [|split; [|split]].
    + split; [|split]; cbv zeta; cbn [flat_map metric_groups mt app].
      * intros g g' H1 H2 E. pick; reflexivity.
      * intros g s g' s' H1 H2 H3 H4 E. pick; split; reflexivity.
      * intros g s a n g' s' a' n' H1 H2 H3 H4 H5 H6 Ea Ea' E. pick; unfold metric_name in Ea, Ea'; cbn in Ea, Ea'; apply some_inj in Ea; apply some_inj in Ea'; subst n n'; first [split; [reflexivity|split; reflexivity]|vm_compute in E; discriminate E].
    + intros X Y a b (g & s & H1 & H2 & H3 & _) (g' & s' & H4 & H5 & H6 & _) Ea. cbn in H1, H4. pick; cbn in Ea; first [reflexivity|discriminate Ea].
    + split; [|split]; cbv zeta; cbn; intros; contradiction.
    + split; [|split]; cbv zeta; cbn; intros; contradiction.
  - intros d E. assert (K : do_scan list_impl xxh64 toy_kvb (after list_impl [] two_hours) (calm 0) hour_of_d group_columns = SData (Some (mt "d" hour2))) by (vm_compute; reflexivity).
    rewrite K in E. injection E as <-. apply (P_Visit.fair_of [FBase PREFIX_NAME "d"] (mt "d" hour2) 3600 7200); vm_compute; reflexivity.
Qed.
(** ... and those of the failures for "c", right after the flush and later. *)
Example C100_example_lost :
  saved list_impl [] life2 (Sample 2 (mt "c" hour2)) /\ saved list_impl [] two_hours (Sample 2 (mt "c" hour2)) /\
  (forall l, asks (ask "c" 3600 7200) l -> documented_label (mt "c" hour2) l) /\ In h2 (home (mt "c" hour2)) /\ window (calm 0) (ask "c" 3600 7200) [h2] /\
  first_id (view_history h2 (flushes list_impl [] life2)) = 1 /\ List.length (view_history h2 (flushes list_impl [] life2)) = 1%nat /\
  map (map smp_id) (view_history h2 (flushes list_impl [] life2)) = [[1; 2]] /\ map (map smp_id) (view_history h2 (flushes list_impl [] two_hours)) = [[1; 2]; [3]] /\
  in_first (view_history h2 (flushes list_impl [] two_hours)) 2 = true.
Proof.
  split; [rewrite <- (app_nil_r life2); apply saved_c; reflexivity|]. split; [apply saved_c; reflexivity|]. split; [intros l; apply mt_documented; discriminate|].
  split; [vm_compute; auto|]. split; [vm_compute; reflexivity|]. split; [vm_compute; reflexivity|]. split; [vm_compute; reflexivity|]. split; [vm_compute; reflexivity|]. split; vm_compute; reflexivity.
Qed.
Print Assumptions C100_exact_answer_partial.
Print Assumptions C100_only_what_was_sent_partial.
Print Assumptions C100_answers_nothing_refuted.
