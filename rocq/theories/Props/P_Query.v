(** C82: from the script to the store and back. *)
From Verif.Model Require Import Base Labels Calendar View Otlp Transform Batch Rows Shards Dataframe Collapse Store Sequence Translate Visit XxHash Query.
From Verif.Spec Require Import Indexing Translator Frames Saves Sets Merge Trim Queries.
From Verif.Proofs Require Import BaseFacts LabelsFacts TransformFacts StoreFacts ScanFacts ListTranslator VisitFacts.
From Verif.Props Require Import P_Store P_Collapse P_EndToEnd.
From Verif.Props Require P_Visit P_Time.
Open Scope N_scope.
Notation entries := Trim.entries.

(** ------ records and entries *)
Lemma map_flat_map {A B C} (f : B -> C) (g : A -> list B) l : map f (flat_map g l) = flat_map (fun a => map f (g a)) l.
Proof. induction l as [|a l IH]; [reflexivity|]. cbn. rewrite map_app, IH. reflexivity. Qed.
Lemma records_seen d : records d = map as_seen (entries d).
Proof.
  destruct d as [gs|gs|gs|]; cbn [records entries]; [| | |reflexivity]; unfold located, entries_of;
    rewrite !map_flat_map; apply flat_map_ext; intros g; rewrite !map_flat_map; apply flat_map_ext; intros s; rewrite !map_flat_map; apply flat_map_ext; intros a; rewrite !map_map.
  - unfold points_of, metric_parts. destruct (m_data a) as [dd|]; [|reflexivity]. rewrite !map_map. apply map_ext. intros p. cbn.
    unfold resource_id, scope_id. destruct (rg_resource g), (sg_scope s); reflexivity.
  - cbn. unfold resource_id, scope_id. destruct (rg_resource g), (sg_scope s); reflexivity.
  - cbn. unfold resource_id, scope_id. destruct (rg_resource g), (sg_scope s); reflexivity.
Qed.
Lemma wanted_seen fs st en e e' : as_seen e = as_seen e' -> wanted fs st en e = wanted fs st en e'.
Proof.
  destruct e as [[[rs r] [ss s]] x], e' as [[[rs' r'] [ss' s']] x']. unfold as_seen. intros E.
  apply pair_inj in E as [E Ex]. apply pair_inj in E as [E Es]. apply pair_inj in E as [-> Er].
  apply pair_inj in Es as [-> Es]. apply pair_inj in Es as [Es Ea]. apply pair_inj in Es as [En Ev].
  unfold wanted, wanted_resource, wanted_scope. rewrite Er, En, Ev, Ea. f_equal. destruct x, x'; cbn [seen_record] in Ex; try discriminate Ex; injection Ex; intros; subst; reflexivity.
Qed.
Lemma seen_forget e e' : as_seen e = as_seen e' -> as_seen (forget e) = as_seen (forget e').
Proof.
  destruct e as [[[rs r] [ss s]] x], e' as [[[rs' r'] [ss' s']] x']. unfold as_seen, forget. intros E.
  apply pair_inj in E as [E Ex]. apply pair_inj in E as [E Es]. apply pair_inj in E as [-> Er].
  apply pair_inj in Es as [-> Es]. rewrite Er, Es. f_equal. destruct x, x'; cbn [seen_record forget_record] in *; congruence.
Qed.

(** ------ a wanted record gives its sample the asked labels *)
Lemma in_texts fs p v : In (FBase p v) fs -> In v (texts fs p).
Proof. intros H. unfold texts. apply in_flat_map. exists (FBase p v). split; [exact H|]. rewrite Z.eqb_refl. left. reflexivity. Qed.
Lemma texts_in fs p v : In v (texts fs p) -> In (FBase p v) fs.
Proof. unfold texts. intros H. apply in_flat_map in H as ([q w|q k w|] & H1 & H2); [|destruct H2|destruct H2]. destruct (Z.eqb_spec q p) as [->|]; [|destruct H2]. destruct H2 as [->|[]]. exact H1. Qed.
Lemma in_pairs fs p k v : In (FAttr p k v) fs -> In (k, v) (pairs fs p).
Proof. intros H. unfold pairs. apply in_flat_map. exists (FAttr p k v). split; [exact H|]. rewrite Z.eqb_refl. left. reflexivity. Qed.
Lemma one_of_single fs p v x : (forall v', In (FBase p v') fs -> v' = v) -> In (FBase p v) fs -> one_of (texts fs p) x = true -> x = v.
Proof.
  intros U H O. apply in_texts in H. unfold one_of in O. destruct (texts fs p) as [|a l] eqn:E; [destruct H|]. rewrite <- E in O.
  apply existsb_exists in O as (w & Hw & Ew). apply String.eqb_eq in Ew. subst w. apply U, texts_in, Hw.
Qed.
Lemma id_one_single fs p v b : (forall v', In (FBase p v') fs -> v' = v) -> In (FBase p v) fs -> id_one_of (texts fs p) b = true -> lower v = hex_encode (the_id b).
Proof.
  intros U H O. apply in_texts in H. unfold id_one_of in O. destruct (texts fs p) as [|a l] eqn:E; [destruct H|]. rewrite <- E in O.
  apply existsb_exists in O as (w & Hw & Ew). apply String.eqb_eq in Ew. rewrite <- (U w) by (apply texts_in, Hw). exact Ew.
Qed.
Lemma all_there_attr fs p k v attrs : In (FAttr p k v) fs -> v <> "" -> all_there (pairs fs p) attrs = true -> has_attr attrs k v.
Proof.
  intros H NE T. apply in_pairs in H. unfold all_there in T. rewrite forallb_forall in T. specialize (T _ H). apply existsb_exists in T as ([k' o] & H1 & H2).
  unfold is_attr in H2. cbn [kv_key kv_val fst snd] in H2. apply andb_true_iff in H2 as [K V]. apply String.eqb_eq in K. subst k'.
  destruct o as [[w|w]|]; try discriminate V. apply String.eqb_eq in V. subst w. split; [exact H1|exact NE].
Qed.
Section Labels.
Context {A : Type} (signal : Z) (item_label : A -> label -> Prop) (gs : list (resource_group A)) (fs : list scan_filter) (g : resource_group A) (s : scope_group A).
Hypothesis Hg : In g gs.
Hypothesis Hs : In s (rg_scopes g).
Hypothesis U : forall p v v', In (FBase p v) fs -> In (FBase p v') fs -> v = v'.
Hypothesis WR : wanted_resource fs (rg_schema g) (rg_resource g) = true.
Hypothesis WS : wanted_scope fs (sg_schema s) (sg_scope s) = true.
Notation glabel := (group_label signal item_label gs).
Lemma resource_labelled l : resource_label signal g l -> glabel l. Proof. intros H. exists g. auto. Qed.
Lemma scope_labelled l : scope_label signal s l -> glabel l. Proof. intros H. exists g. split; [exact Hg|]. right. exists s. auto. Qed.
Lemma resource_schema_label v : In (FBase PREFIX_RESOURCE_SCHEMA v) fs -> v <> "" -> glabel (Label signal PREFIX_RESOURCE_SCHEMA v "").
Proof.
  intros H NE. apply resource_labelled. left. unfold wanted_resource in WR. apply andb_true_iff in WR as [W _].
  apply (one_of_single fs PREFIX_RESOURCE_SCHEMA v) in W; [|intros; eapply U; eassumption|exact H]. subst v. auto.
Qed.
Lemma resource_attr_label k v : In (FAttr PREFIX_RESOURCE_ATTRIBUTES k v) fs -> v <> "" -> glabel (Label signal PREFIX_RESOURCE_ATTRIBUTES k v).
Proof.
  intros H NE. apply resource_labelled. right. unfold wanted_resource in WR. apply andb_true_iff in WR as [_ W].
  pose proof (all_there_attr _ _ _ _ _ H NE W) as K. destruct (rg_resource g) as [r|] eqn:E; [|destruct K as [[] _]]. exists r, k, v. auto.
Qed.
Lemma scope_text_label p v : In p [PREFIX_SCOPE_SCHEMA; PREFIX_SCOPE_NAME; PREFIX_SCOPE_VERSION] -> In (FBase p v) fs -> v <> "" -> glabel (Label signal p v "").
Proof.
  intros P H NE. apply scope_labelled. unfold wanted_scope in WS. apply andb_true_iff in WS as [W _]. apply andb_true_iff in W as [W W3]. apply andb_true_iff in W as [W1 W2].
  destruct P as [<-|[<-|[<-|[]]]].
  - left. apply (one_of_single fs _ v) in W1; [|intros; eapply U; eassumption|exact H]. subst v. auto.
  - right. apply (one_of_single fs _ v) in W2; [|intros; eapply U; eassumption|exact H]. subst v. destruct (sg_scope s) as [x|]; [|cbn in NE; congruence]. exists x. cbn in *. auto.
  - right. apply (one_of_single fs _ v) in W3; [|intros; eapply U; eassumption|exact H]. subst v. destruct (sg_scope s) as [x|]; [|cbn in NE; congruence]. exists x. cbn in *. auto 6.
Qed.
Lemma scope_attr_label k v : In (FAttr PREFIX_SCOPE_ATTRIBUTES k v) fs -> v <> "" -> glabel (Label signal PREFIX_SCOPE_ATTRIBUTES k v).
Proof.
  intros H NE. apply scope_labelled. right. unfold wanted_scope in WS. apply andb_true_iff in WS as [_ W].
  pose proof (all_there_attr _ _ _ _ _ H NE W) as K. destruct (sg_scope s) as [x|] eqn:E; [|destruct K as [[] _]]. exists x. split; [reflexivity|]. right. right. exists k, v. auto.
Qed.
Lemma item_labelled a l : In a (sg_items s) -> item_label a l -> glabel l.
Proof. intros Ha H. exists g. split; [exact Hg|]. right. exists s. split; [exact Hs|]. right. eauto. Qed.
End Labels.

Lemma in_entries_of {A} (parts : A -> list full_record) gs e : In e (entries_of parts gs) ->
  exists g s a r, In g gs /\ In s (rg_scopes g) /\ In a (sg_items s) /\ In r (parts a) /\ e = ((rg_schema g, rg_resource g), (sg_schema s, sg_scope s), r).
Proof.
  unfold entries_of. intros H. apply in_flat_map in H as (g & Hg & H). apply in_flat_map in H as (s & Hs & H). apply in_flat_map in H as (a & Ha & H).
  apply in_map_iff in H as (r & <- & Hr). exists g, s, a, r. auto 6.
Qed.
Ltac known P := unfold attr_properties in P; repeat match type of P with In _ (_ :: _) => destruct P as [<-|P] | In _ [] => destruct P end.

Lemma wanted_labels sc d st en e l : signal_of d = sc_scope sc -> answerable (sc_scope sc) (sc_filters sc) -> In e (entries d) ->
  wanted (sc_filters sc) st en e = true -> asks sc l -> documented_label d l.
Proof.
  intros Sg ((f0 & Hf0 & _) & HB & U & HA) He Hw Hl. set (fs := sc_filters sc) in *.
  destruct Hl as [[E _]|Hl]; [unfold fs in *; rewrite E in Hf0; destruct Hf0|]. fold fs in Hl.
  assert (U' : forall p v v', In (FBase p v) fs -> In (FBase p v') fs -> v' = v) by (intros; eapply U; eassumption).
  destruct d as [gs|gs|gs|]; cbn [signal_of documented_label entries] in *; [| | |destruct He];
    apply in_entries_of in He as (g & s & a & r & Hg & Hs & Ha & Hr & ->); unfold wanted in Hw; apply andb_true_iff in Hw as [Hw Wx]; apply andb_true_iff in Hw as [Wr Ws];
    rewrite <- Sg in HB;
    (destruct Hl as [(p & v & Hin & ->)|(p & k & v & Hin & ->)];
     [pose proof (HB p v Hin) as (P & NE & Tid); unfold text_properties in P; cbn [Z.eqb RESOURCE_METRICS RESOURCE_TRACES RESOURCE_LOGS Pos.eqb app] in P
     |pose proof (HA p k v Hin) as (P & NE)]); rewrite <- Sg.
  (* metrics *)
  - unfold metric_parts in Hr. destruct (m_data a) as [dd|]; [|destruct Hr]. apply in_map_iff in Hr as (pt & <- & Hpt). cbn [wanted_record] in Wx.
    apply andb_true_iff in Wx as [Wx _]. apply andb_true_iff in Wx as [Wn _]. known P.
    + eapply resource_schema_label; eauto.
    + eapply scope_text_label; eauto; cbn; auto.
    + eapply scope_text_label; eauto; cbn; auto.
    + eapply scope_text_label; eauto; cbn; auto.
    + eapply item_labelled; eauto. left. apply (one_of_single fs _ v) in Wn; [|intros; eapply U'; eassumption|exact Hin]. subst v. reflexivity.
  - known P; [eapply resource_attr_label; eauto|eapply scope_attr_label; eauto].
  (* traces *)
  - destruct Hr as [<-|[]]. cbn [wanted_record] in Wx. apply andb_true_iff in Wx as [Wx _]. apply andb_true_iff in Wx as [Wx _]. apply andb_true_iff in Wx as [Wx Wt].
    apply andb_true_iff in Wx as [Wx _]. apply andb_true_iff in Wx as [Wn _]. known P.
    + eapply resource_schema_label; eauto.
    + eapply scope_text_label; eauto; cbn; auto.
    + eapply scope_text_label; eauto; cbn; auto.
    + eapply scope_text_label; eauto; cbn; auto.
    + eapply item_labelled; eauto. left. apply (one_of_single fs _ v) in Wn; [|intros; eapply U'; eassumption|exact Hin]. subst v. auto.
    + eapply item_labelled; eauto. right. left. apply (id_one_single fs _ v) in Wt; [|intros; eapply U'; eassumption|exact Hin].
      destruct (Tid eq_refl) as [_ Lv]. rewrite Lv in Wt. destruct (sp_trace a) as [b|]; [|cbn in Wt; congruence]. exists b. cbn [the_id] in Wt. subst v. auto.
  - known P; [eapply resource_attr_label; eauto|eapply scope_attr_label; eauto].
  (* logs *)
  - destruct Hr as [<-|[]]. cbn [wanted_record] in Wx. apply andb_true_iff in Wx as [Wx _]. apply andb_true_iff in Wx as [Wx _]. apply andb_true_iff in Wx as [Wx _]. apply andb_true_iff in Wx as [Wn _]. known P.
    + eapply resource_schema_label; eauto.
    + eapply scope_text_label; eauto; cbn; auto.
    + eapply scope_text_label; eauto; cbn; auto.
    + eapply scope_text_label; eauto; cbn; auto.
    + eapply item_labelled; eauto. left. apply (one_of_single fs _ v) in Wn; [|intros; eapply U'; eassumption|exact Hin]. subst v. auto.
  - known P; [eapply resource_attr_label; eauto|eapply scope_attr_label; eauto].
Qed.
Lemma answerable_supported d fs : In (signal_of d) signals -> answerable (signal_of d) fs -> supported fs d.
Proof.
  intros SG (_ & HB & _ & HA). assert (T : forall p v, In v (texts fs p) -> In p (text_properties (signal_of d))) by (intros p v H; apply texts_in in H; apply (HB _ _ H)).
  assert (TN : forall p, ~ In p (text_properties (signal_of d)) -> texts fs p = []) by (intros p H; destruct (texts fs p) as [|v l] eqn:E; [reflexivity|]; exfalso; apply H, (T p v); rewrite E; left; reflexivity).
  assert (PN : forall p, ~ In p attr_properties -> pairs fs p = []).
  { intros p H. destruct (pairs fs p) as [|[k v] l] eqn:E; [reflexivity|]. exfalso. apply H. assert (In (k, v) (pairs fs p)) as K by (rewrite E; left; reflexivity).
    unfold pairs in K. apply in_flat_map in K as ([q w|q k' w|] & H1 & H2); [destruct H2| |destruct H2]. destruct (Z.eqb_spec q p) as [->|]; [|destruct H2]. apply (HA _ _ _ H1). }
  assert (NT : forall p, In p [PREFIX_ATTRIBUTES; PREFIX_SPAN_ID; PREFIX_PARENT_SPAN_ID] -> ~ In p (text_properties (signal_of d))).
  { intros p Hp K. destruct SG as [E|[E|[E|[]]]]; rewrite <- E in K; vm_compute in Hp, K; intuition (subst; discriminate). }
  assert (NA : forall p, In p [PREFIX_ATTRIBUTES; PREFIX_SPAN_ID; PREFIX_PARENT_SPAN_ID; PREFIX_TRACE_ID] -> ~ In p attr_properties).
  { intros p Hp K. vm_compute in Hp, K. intuition (subst; discriminate). }
  split; [split; [apply TN, NT|apply PN, NA]; cbn; auto|]. split; [split; [apply TN, NT|apply PN, NA]; cbn; auto|]. split; [split; [apply TN, NT|apply PN, NA]; cbn; auto|]. split.
  - apply Forall_forall. intros v Hv. apply texts_in in Hv. destruct (HB _ _ Hv) as (_ & _ & K). apply K. reflexivity.
  - intros Lg. destruct d; try discriminate Lg. split; [|apply PN, NA; cbn; auto]. apply TN. intros K. vm_compute in K. intuition discriminate.
Qed.
Lemma answerable_asks sc : answerable (sc_scope sc) (sc_filters sc) -> exists l, asks sc l.
Proof.
  intros ((f & Hf & NF) & _). destruct f as [p v|p k v|]; [| |congruence].
  - exists (Label (sc_scope sc) p v ""). right. left. eauto.
  - exists (Label (sc_scope sc) p k v). right. right. eauto.
Qed.

(** Everything saved that matches is answered: ... *)
Theorem C82_matching_records_returned_partial : forall I inv s0 es h h0 kvb wall client sc order vs st en s v e, tr_laws I inv -> history I inv s0 es -> some_order order ->
  let state := after I s0 es in
  saved I s0 es s -> In (signal_of (smp_data s)) signals -> sc_scope sc = signal_of (smp_data s) ->
  answerable (sc_scope sc) (sc_filters sc) -> sc_range (sc_times sc) <> None -> P_Visit.window client sc st en ->
  window (calm wall) sc vs -> In v vs -> In v (home (smp_data s)) ->
  (forall s' v', In s' (given es) -> In v' vs -> In v' (home (smp_data s')) -> aligned (flushes I s0 es) v' s') ->
  mergeable h kvb (map smp_data (given es)) ->
  (forall d, do_scan I h kvb state (calm wall) sc order = SData (Some d) -> P_Visit.fair h h0 sc d) ->
  In e (entries (smp_data s)) -> wanted (sc_filters sc) st en e = true ->
  exists out, query I h h0 kvb state (calm wall) client sc order = AData out /\ In (as_seen (forget e)) (records out).
Proof.
  intros I inv s0 es h h0 kvb wall client sc order vs st en s v e L HI OO state Sv Sig Esc An NR PW W Hv Hh Al Mg Fair He Hw.
  destruct (C67_scan_delivers_partial I inv s0 es h kvb wall sc order vs s v L HI OO Sv Sig Esc (answerable_asks sc An)) as (merged & ED & Sm & Sub & _); auto.
  { intros l Hl. eapply wanted_labels; eauto. }
  fold state in ED. assert (He' : exists e', In e' (entries merged) /\ as_seen e' = as_seen e).
  { specialize (Sub (as_seen e)). rewrite !records_seen in Sub. assert (K : In (as_seen e) (map as_seen (entries merged))) by (apply Sub, in_map, He).
    apply in_map_iff in K as (e' & K1 & K2). eauto. }
  destruct He' as (e' & He' & Ee).
  assert (Sup : supported (sc_filters sc) merged) by (apply answerable_supported; rewrite Sm; [rewrite Esc; exact Sig|exact An]).
  destruct (P_Visit.C46_matching_records_remain_partial h h0 client sc merged st en) as (out & EJ & _ & EO & _); [left; exact NR|exact PW|apply Fair, ED|exact Sup|].
  exists out. unfold query. rewrite ED. cbn [over_grpc]. rewrite EJ. split; [reflexivity|]. rewrite records_seen, EO, map_map.
  rewrite <- (seen_forget _ _ Ee). apply in_map_iff. exists e'. split; [reflexivity|]. apply filter_In. split; [exact He'|]. rewrite (wanted_seen _ _ _ _ _ Ee). exact Hw.
Qed.

(** ... and everything answered was saved and matches. *)
Theorem C82_only_matching_records_partial : forall I inv s0 es h h0 kvb wall client sc order st en out r, tr_stable I inv -> history I inv s0 es -> some_order order ->
  let state := after I s0 es in
  In (sc_scope sc) signals -> answerable (sc_scope sc) (sc_filters sc) -> P_Visit.window client sc st en ->
  (forall s' v' vs, In s' (given es) -> window (calm wall) sc vs -> In v' vs -> In v' (home (smp_data s')) -> aligned (flushes I s0 es) v' s') ->
  mergeable h kvb (map smp_data (given es)) ->
  (forall d, do_scan I h kvb state (calm wall) sc order = SData (Some d) -> P_Visit.fair h h0 sc d) ->
  query I h h0 kvb state (calm wall) client sc order = AData out -> In r (records out) ->
  exists s e, In s (given es) /\ signal_of (smp_data s) = sc_scope sc /\ In e (entries (smp_data s)) /\ wanted (sc_filters sc) st en e = true /\ r = as_seen (forget e).
Proof.
  intros I inv s0 es h h0 kvb wall client sc order st en out r L HI OO state Sig An PW Al Mg Fair EQ Hr.
  assert (Ask : P_Visit.asks sc) by (right; destruct An as ((f & Hf & _) & _); intros E; rewrite E in Hf; destruct Hf).
  unfold query in EQ. destruct (do_scan I h kvb state (calm wall) sc order) as [|o|] eqn:ED; [discriminate| |discriminate].
  destruct o as [merged|]; cbn [over_grpc] in EQ.
  2:{ exfalso. rewrite (P_Visit.js_scan_visit _ _ _ _ _ _ _ Ask PW) in EQ. cbn in EQ. injection EQ as <-. destruct Hr. }
  assert (Src : signal_of merged = sc_scope sc /\ forall x, In x (records merged) -> exists s, In s (given es) /\ signal_of (smp_data s) = sc_scope sc /\ In x (records (smp_data s))).
  { unfold do_scan, finish in ED. destruct (scan_rows I state (calm wall) sc order) as [| |rows] eqn:ER; [discriminate| |].
    - assert (Z : zero_data (sc_scope sc) = Some merged) by congruence. destruct Sig as [E|[E|[E|[]]]]; rewrite <- E in Z |- *; apply some_inj in Z; subst merged; (split; [reflexivity|intros x []]).
    - destruct (all_some rows) as [ds|] eqn:EA; [|discriminate]. destruct (collapse h kvb ds) as [o|] eqn:EC; [|discriminate]. assert (o = Some merged) by congruence. subst o. clear ED.
      assert (Rows : rows = map Some ds).
      { clear - EA. revert ds EA. induction rows as [|[x|] rows IH]; intros ds EA; cbn in EA; [apply some_inj in EA; subst; reflexivity| |discriminate].
        destruct (all_some rows) as [l|]; [|discriminate]. apply some_inj in EA. subst ds. cbn. f_equal. apply IH. reflexivity. }
      assert (Dsub : forall d, In d ds -> exists s, d = smp_data s /\ In s (given es) /\ signal_of (smp_data s) = sc_scope sc).
      { intros d Hd. destruct (C35_rows_are_stored_samples_partial I inv s0 es (calm wall) sc order rows (Some d) L HI ER) as (s' & v' & vs' & W' & Hv' & G' & Sg' & Hh' & _ & _ & Ad); [rewrite Rows; apply in_map, Hd|].
        exists s'. split; [|split; assumption]. apply some_inj, Ad. eapply Al; eauto. }
      destruct (C52_merge_loses_nothing h kvb ds (sc_scope sc)) as (out' & EC' & ES & P).
      + cbn in *; tauto.
      + intros ->. cbn in EC. discriminate.
      + intros d Hd. destruct (Dsub d Hd) as (s' & -> & _ & E). exact E.
      + eapply mergeable_sub; [|exact Mg]. intros d Hd. destruct (Dsub d Hd) as (s' & -> & G & _). apply in_map, G.
      + rewrite EC in EC'. apply some_inj, some_inj in EC'. subst out'. split; [exact ES|].
        intros x Hx. apply (Permutation_in _ P) in Hx. apply in_flat_map in Hx as (d & Hd & Hx). destruct (Dsub d Hd) as (s' & -> & G & E). eauto. }
  destruct Src as [Sm Src].
  assert (Sup : supported (sc_filters sc) merged) by (apply answerable_supported; rewrite Sm; assumption).
  destruct (P_Visit.C46_matching_records_remain_partial h h0 client sc merged st en Ask PW (Fair merged eq_refl) Sup) as (out' & EJ & _ & EO & _).
  rewrite EJ in EQ. injection EQ as ->. rewrite records_seen, EO, map_map in Hr. apply in_map_iff in Hr as (e' & <- & He'). apply filter_In in He' as [He' Hw].
  destruct (Src (as_seen e')) as (s & G & E & Hx); [rewrite records_seen; apply in_map, He'|]. rewrite records_seen in Hx. apply in_map_iff in Hx as (e & Ee & He).
  exists s, e. repeat split; try assumption; [|symmetry; apply seen_forget, Ee]. rewrite (wanted_seen _ _ _ _ _ Ee). exact Hw.
Qed.

(** In terms of time: the sample is filed at the time of its earliest record; if that time lies in the window
    and in no part of the window that the search of views leaves out (C15), what matches of it is answered. *)
Theorem C82_matching_records_in_window_partial : forall I inv s0 es h h0 kvb wall client sc order st en s e, tr_laws I inv -> history I inv s0 es -> some_order order ->
  let state := after I s0 es in
  let a := fst (time_bounds wall (sc_times sc)) in
  let b := snd (time_bounds wall (sc_times sc)) in
  let t := int64_of_u64 (filed_at (smp_data s)) in
  saved I s0 es s -> In (signal_of (smp_data s)) signals -> sc_scope sc = signal_of (smp_data s) ->
  answerable (sc_scope sc) (sc_filters sc) -> sc_range (sc_times sc) <> None -> P_Visit.window client sc st en ->
  (a <= t < b)%Z ->
  (b - a < 24 * 3600000000000 -> a mod 3600000000000 = 0)%Z ->
  (24 * 3600000000000 <= b - a < 30 * 24 * 3600000000000 -> t / 86400000000000 <> b / 86400000000000)%Z ->
  (30 * 24 * 3600000000000 <= b - a < 360 * 24 * 3600000000000 -> ~ P_Time.short_next_month a b /\ (year_of t, month_of t) <> (year_of b, month_of b))%Z ->
  (360 * 24 * 3600000000000 <= b - a -> year_of t <> year_of b)%Z ->
  (forall s' v', In s' (given es) -> In v' (home (smp_data s')) -> aligned (flushes I s0 es) v' s') ->
  mergeable h kvb (map smp_data (given es)) ->
  (forall d, do_scan I h kvb state (calm wall) sc order = SData (Some d) -> P_Visit.fair h h0 sc d) ->
  In e (entries (smp_data s)) -> wanted (sc_filters sc) st en e = true ->
  exists out, query I h h0 kvb state (calm wall) client sc order = AData out /\ In (as_seen (forget e)) (records out).
Proof.
  intros I inv s0 es h h0 kvb wall client sc order st en s e L HI OO state a b t Sv Sig Esc An NR PW Ht C1 C2 C3 C4 Al Mg Fair He Hw.
  destruct (P_Time.C15_search_terminates a b) as [vs W]. destruct (P_Time.C15_covers_window_partial a b vs t W Ht C1 C2 C3 C4) as (v & Hv & Hh).
  apply (C82_matching_records_returned_partial I inv s0 es h h0 kvb wall client sc order vs st en s v e); auto.
Qed.

(** ------ a concrete life: samples "a", "b", "b", all at 00:30, asking for "b" in that hour *)
Definition seen_b (r : string) : entry := (("", None), ("", None), RPoint "b" "" "" KGauge 0 false (Point half1 [] r)).
Lemma ask_answerable n a b : n <> ""%string -> answerable RESOURCE_METRICS (sc_filters (ask n a b)).
Proof.
  intros NE. split; [eexists; split; [left; reflexivity|discriminate]|]. cbn [ask sc_filters]. split; [|split].
  - intros p v [E|[]]. injection E as <- <-. split; [vm_compute; auto 6|]. split; [exact NE|]. discriminate.
  - intros p v v' [E|[]] [E'|[]]. congruence.
  - intros p k v [E|[]]. discriminate.
Qed.
Definition answer7 : data := DMetrics [RGroup "" None [SGroup "" None [Metric "b" "" "" (Some (MData KGauge 0 false [Point half1 [] "y"; Point half1 [] "z"]))]]].
Lemma life7_scan : do_scan list_impl xxh64 toy_kvb (after list_impl [] life7) (calm 0) (ask "b" 0 3600) group_columns = SData (Some answer7).
Proof. vm_compute. reflexivity. Qed.
Example C82_example :
  history list_impl list_inv [] life7 /\ saved list_impl [] life7 (Sample 2 (mtp "b" "z")) /\
  answerable RESOURCE_METRICS (sc_filters (ask "b" 0 3600)) /\ P_Visit.window 0 (ask "b" 0 3600) 0 3600000000000 /\
  mergeable xxh64 toy_kvb (map smp_data (given life7)) /\
  (forall s' v', In s' (given life7) -> In v' (home (smp_data s')) -> aligned (flushes list_impl [] life7) v' s') /\
  (forall d, do_scan list_impl xxh64 toy_kvb (after list_impl [] life7) (calm 0) (ask "b" 0 3600) group_columns = SData (Some d) -> P_Visit.fair xxh64 xxh64_zero (ask "b" 0 3600) d) /\
  In (seen_b "z") (entries (mtp "b" "z")) /\ wanted (sc_filters (ask "b" 0 3600)) 0 3600000000000 (seen_b "z") = true /\
  query list_impl xxh64 xxh64_zero toy_kvb (after list_impl [] life7) (calm 0) 0 (ask "b" 0 3600) group_columns = AData answer7.
Proof.
  split; [exact life7_history|]. split; [apply C67_example|]. split; [apply ask_answerable; discriminate|]. split; [repeat split; vm_compute; congruence|].
  split; [|split; [|split; [|split; [|split]]]].
  - assert (G : map smp_data (given life7) = [mtp "a" "x"; mtp "b" "y"; mtp "b" "z"]) by reflexivity. rewrite G. split; [|split; [|split]].
    + split; [|split]; cbv zeta; cbn [flat_map metric_groups mtp app].
      * intros g g' H1 H2 E. pick; reflexivity.
      * intros g s g' s' H1 H2 H3 H4 E. pick; split; reflexivity.
      * intros g s a n g' s' a' n' H1 H2 H3 H4 H5 H6 Ea Ea' E. pick; unfold metric_name in Ea, Ea'; cbn in Ea, Ea'; apply some_inj in Ea; apply some_inj in Ea'; subst n n'; first [split; [reflexivity|split; reflexivity]|vm_compute in E; discriminate E].
    + intros X Y a b (g & s & H1 & H2 & H3 & _) (g' & s' & H4 & H5 & H6 & _) _. cbn in H1, H4. pick; reflexivity.
    + split; [|split]; cbv zeta; cbn; intros; contradiction.
    + split; [|split]; cbv zeta; cbn; intros; contradiction.
  - intros s' v' Hs Hv. left. vm_compute in Hs. repeat (destruct Hs as [<-|Hs]; [vm_compute in Hv; repeat (destruct Hv as [<-|Hv]; [vm_compute; reflexivity|]); destruct Hv|]). destruct Hs.
  - intros d E. rewrite life7_scan in E. injection E as <-. apply (P_Visit.fair_of [FBase PREFIX_NAME "b"] answer7 0 0); vm_compute; reflexivity.
  - left. reflexivity.
  - vm_compute. reflexivity.
  - unfold query. rewrite life7_scan. vm_compute. reflexivity.
Qed.

(** ------ where index and trimming disagree *)
Definition two_hours : data := DMetrics [RGroup "" None [SGroup "" None [Metric "a" "" "" (Some (MData KGauge 0 false [Point half1 [] "x"; Point 5400000000000 [] "y"]))]]].
Definition life8 : list event := life0 ++ [ev [Sample 0 two_hours] life0].
Definition spanAB : data := DTraces [RGroup "" None [SGroup "" None [Span "get" (Some (String (ascii_of_N 171) "")) None None half1 half1 [] ""]]].
Definition life9 : list event := life0 ++ [ev [Sample 0 spanAB] life0].
Definition asking (signal : Z) (fs : list scan_filter) (a b : Z) : scan := Scan signal fs (ScanTimes None None (Some (Some (a, 0%Z), Some (b, 0%Z)))) 0 false.
(** A saved record that satisfies the conditions, in a calm life with sample 0 first, is not answered. *)
Definition missed (es : list event) (sc : scan) (st en : Z) : Prop :=
  history list_impl list_inv [] es /\ sc_range (sc_times sc) <> None /\ P_Visit.window 0 sc st en /\
  (exists s e, saved list_impl [] es s /\ sc_scope sc = signal_of (smp_data s) /\ In e (entries (smp_data s)) /\ wanted (sc_filters sc) st en e = true) /\
  exists out, query list_impl xxh64 xxh64_zero toy_kvb (after list_impl [] es) (calm 0) 0 sc group_columns = AData out /\ records out = [].
Ltac one_life := split; [vm_compute; reflexivity|]; split; [apply life_snoc; [exact Logic.I|apply times_forall; repeat constructor]|];
  split; [vm_compute; repeat constructor|]; intros s Hs; vm_compute in Hs; repeat (destruct Hs as [<-|Hs]; [reflexivity|]); destruct Hs.
Ltac saved_first d := left; exists life0, [Sample 0 d], (smooth list_impl (after list_impl [] life0) [Sample 0 d]), []; split; [reflexivity|]; split; [left; reflexivity|]; split; vm_compute; reflexivity.
(** A sample is filed in the hour of its earliest record only: the record at 01:30 is not found there. *)
Theorem C82_later_record_refuted : missed life8 (asking RESOURCE_METRICS [FBase PREFIX_NAME "a"] 3600 7200) 3600000000000 7200000000000.
Proof.
  split; [one_life|]. split; [discriminate|]. split; [repeat split; vm_compute; congruence|]. split.
  - exists (Sample 0 two_hours), (("", None), ("", None), RPoint "a" "" "" KGauge 0 false (Point 5400000000000 [] "y")).
    split; [saved_first two_hours|]. split; [reflexivity|]. split; [right; left; reflexivity|vm_compute; reflexivity].
  - eexists. split; vm_compute; reflexivity.
Qed.
(** A trace id asked in upper case: trimming would accept it, the index does not know it. *)
Theorem C82_upper_case_id_refuted : missed life9 (asking RESOURCE_TRACES [FBase PREFIX_TRACE_ID "AB"] 0 3600) 0 3600000000000.
Proof.
  split; [one_life|]. split; [discriminate|]. split; [repeat split; vm_compute; congruence|]. split.
  - exists (Sample 0 spanAB), (("", None), ("", None), RSpan (Span "get" (Some (String (ascii_of_N 171) "")) None None half1 half1 [] "")).
    split; [saved_first spanAB|]. split; [reflexivity|]. split; [left; reflexivity|vm_compute; reflexivity].
  - eexists. split; vm_compute; reflexivity.
Qed.
(** Asked for name "a" or "b": trimming accepts either, the index wants a sample with both. *)
Theorem C82_two_names_refuted : missed life7 (asking RESOURCE_METRICS [FBase PREFIX_NAME "a"; FBase PREFIX_NAME "b"] 0 3600) 0 3600000000000.
Proof.
  split; [exact life7_history|]. split; [discriminate|]. split; [repeat split; vm_compute; congruence|]. split.
  - exists (Sample 2 (mtp "b" "z")), (seen_b "z"). split; [apply C67_example|]. split; [reflexivity|]. split; [left; reflexivity|vm_compute; reflexivity].
  - eexists. split; vm_compute; reflexivity.
Qed.
