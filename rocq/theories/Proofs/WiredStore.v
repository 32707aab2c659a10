(** Within the limits of Spec/Limits.v, a store over the translator as the server wires it goes through the states of a store over
    a translator with separate key prefixes and no cache. *)
From Verif.Model Require Import Base Labels KV View Otlp Transform Batch Rows Shards Dataframe Collapse Store Sequence Translate ColumnCache Wiring.
From Verif.Spec Require Import Indexing Translator Frames Saves Limits.
From Verif.Proofs Require Import BaseFacts TransformFacts TransformLaws TranslateFacts TranslatorFacts StoreFacts WiringFacts.
Open Scope N_scope.

Section Wired.
Context (grow : nat -> nat) (hash : string -> N) (world : nat -> around).
Hypothesis grow_ok : forall n, (n <= grow n)%nat.
Notation J := (kv_impl "5" grow).
Notation I := (wired_impl grow hash world).
Notation like := (like hash).

Definition four : list Z := [0; RESOURCE_METRICS; RESOURCE_TRACES; RESOURCE_LOGS]%Z.
Lemma like_inv b P s t : like b P s t -> kv_inv "5" b t.
Proof.
  intros (ts & tt & lo & hi & A & B & C & G & D). exists lo, hi, tt. split; [exact B|]. split; [apply (g_inv _ _ _ _ _ _ _ _ G)|]. split; [apply (g_lo _ _ _ _ _ _ _ _ G)|].
  clear -C. change translate_bandwidth with 4096 in *. change two64 with (2^64). lia.
Qed.

Lemma sim_tr_all (P : string -> Prop) ls : forall b (s : ti_state I) (t : ti_state J) pos, (forall l, In l ls -> P (encode l)) -> like (List.length ls + b) P s t ->
  exists s' t' pos', tr_all (ti_translate I) s pos ls = (s', pos') /\ tr_all (ti_translate J) t pos ls = (t', pos') /\ like b P s' t'.
Proof.
  induction ls as [|l ls IH]; intros b s t pos HP H; cbn [tr_all].
  - cbn in H. eauto 10.
  - cbn [List.length plus] in H. destruct (wired_step grow hash world grow_ok (List.length ls + b) P s t (encode l)) as (s1 & t1 & m & E1 & E2 & H1); [apply HP; left; reflexivity|exact H|].
    rewrite E1, E2. apply IH; [|exact H1]. intros l' Hl. apply HP. right. exact Hl.
Qed.

(** The labels of a sample. *)
Definition holds (P : string -> Prop) (s : sample) : Prop := forall l, documented_label (smp_data s) l -> P (encode l).
Lemma sim_sample (P : string -> Prop) b (c : ctx (ti_state I)) (c' : ctx (ti_state J)) s : (forall k, In k signal_keys -> P k) -> holds P s -> res c = res c' -> In (res c) four ->
  like (S (List.length (L_data (smp_data s))) + b) P (c_tr c) (c_tr c') ->
  exists c1 c1' f, process_sample (ti_translate I) c s = (c1, f) /\ process_sample (ti_translate J) c' s = (c1', f) /\
    res c1 = res c1' /\ In (res c1) four /\ like b P (c_tr c1) (c_tr c1').
Proof.
  intros HS HP ER R4 H. destruct (process_sample_spec (ti_translate I) c s) as (c1 & E1 & T1 & R1). destruct (process_sample_spec (ti_translate J) c' s) as (c2 & E2 & T2 & R2).
  destruct (sim_tr_all P (marker (res c) :: L_data (smp_data s)) b (c_tr c) (c_tr c') []) as (s1 & t1 & pos & F1 & F2 & H1).
  - intros l [<-|Hl]; [|apply HP, in_L_data, Hl]. apply HS. unfold signal_keys. change [0%Z; RESOURCE_METRICS; RESOURCE_TRACES; RESOURCE_LOGS] with four. unfold marker. apply (in_map (fun z => encode (Label z PREFIX_UNKNOWN "" ""))), R4.
  - exact H.
  - rewrite <- ER in E2, T2, R2. rewrite F1 in E1, T1. rewrite F2 in E2, T2. cbn [fst snd] in *. exists c1, c2. eexists. split; [exact E1|]. split; [exact E2|]. split; [congruence|]. split; [|rewrite T1, T2; exact H1].
    rewrite R1. unfold next_res. destruct (smp_data s); [right; left|right; right; left|right; right; right; left|exact R4]; reflexivity.
Qed.
Lemma cost_cons s l : cost (s :: l) = (S (List.length (L_data (smp_data s))) + cost l)%nat.
Proof. reflexivity. Qed.
Lemma sim_samples (P : string -> Prop) l : forall b (c : ctx (ti_state I)) (c' : ctx (ti_state J)), (forall k, In k signal_keys -> P k) -> (forall s, In s l -> holds P s) -> res c = res c' -> In (res c) four ->
  like (cost l + b) P (c_tr c) (c_tr c') ->
  exists c1 c1' fs, process_samples (ti_translate I) c l = (c1, fs) /\ process_samples (ti_translate J) c' l = (c1', fs) /\
    res c1 = res c1' /\ In (res c1) four /\ like b P (c_tr c1) (c_tr c1').
Proof.
  induction l as [|s l IH]; intros b c c' HS HP ER R4 H; cbn [process_samples].
  - cbn in H. exists c, c', []. auto.
  - rewrite cost_cons in H. rewrite <- Nat.add_assoc in H. destruct (sim_sample P (cost l + b) c c' s HS) as (c1 & c1' & f & E1 & E2 & R1 & R2 & H1); auto; [apply HP; left; reflexivity|].
    rewrite E1, E2. destruct (IH b c1 c1' HS) as (c2 & c2' & fs & F1 & F2 & R3 & R5 & H2); auto; [intros x Hx; apply HP; right; exact Hx|].
    rewrite F1, F2. eauto 10.
Qed.

Record alike (b : nat) (P : string -> Prop) (st : store I) (st' : store J) : Prop := {
  a_frames : st_frames st = st_frames st';
  a_shards : st_shards st = st_shards st';
  a_res : res (st_ctx st) = res (st_ctx st');
  a_four : In (res (st_ctx st)) four;
  a_like : like b P (st_tr st) (st_tr st') }.

Lemma sim_save (P : string -> Prop) b st st' l ch : (forall k, In k signal_keys -> P k) -> (forall s, In s l -> holds P s) -> alike (cost l + b) P st st' ->
  alike b P (fst (save I st l ch)) (fst (save J st' l ch)) /\ snd (save I st l ch) = snd (save J st' l ch) /\ (choices_ok I st l ch <-> choices_ok J st' l ch) /\
  snd (process_samples (ti_translate I) (st_ctx st) l) = snd (process_samples (ti_translate J) (st_ctx st') l).
Proof.
  intros HS HP [Af As Ar A4 Al]. destruct (sim_samples P l b (st_ctx st) (st_ctx st') HS HP Ar A4 Al) as (c1 & c1' & fs & E1 & E2 & R1 & R2 & H1).
  unfold choices_ok, save. rewrite E1, E2. cbn [snd]. rewrite Af, As.
  destruct (snd (batch_build (add_filed (ch_pools ch) fs batch_new))) as [frags|]; [destruct (group_samples (ch_pool ch) (combine l (map f_min fs)) []) as [m|]|].
  - destruct (Nat.ltb (ch_views_done ch) (List.length (ch_views ch))); [|destruct (update_shards frags (st_shards st') (ch_shards ch) (ch_commits ch)) as [sh ok]]; cbn [fst snd]; (split; [split; cbn [st_frames st_shards st_ctx st_tr]; auto|]); (split; [reflexivity|]); split; reflexivity.
  - cbn [fst snd]; (split; [split; cbn [st_frames st_shards st_ctx st_tr]; auto|]); (split; [reflexivity|]); split; reflexivity.
  - cbn [fst snd]; (split; [split; cbn [st_frames st_shards st_ctx st_tr]; auto|]); (split; [reflexivity|]); split; reflexivity.
Qed.

Lemma sim_keys (P : string -> Prop) keys : forall b s t, (forall k, In k keys -> P k) -> like (List.length keys + b) P s t -> like b P (translate_all I s keys) (translate_all J t keys).
Proof.
  induction keys as [|k keys IH]; intros b s t HP H; [exact H|]. unfold translate_all. cbn [fold_left].
  destruct (wired_step grow hash world grow_ok (List.length keys + b) P s t k) as (s1 & t1 & m & E1 & E2 & H1); [apply HP; left; reflexivity|exact H|].
  rewrite E1, E2. cbn [fst]. apply IH; [|exact H1]. intros k' Hk. apply HP. right. exact Hk.
Qed.
Lemma sim_restart (P P' : string -> Prop) b st st' keys : (forall k, In k keys -> P k) -> alike (S (List.length keys) + b) P st st' ->
  (forall k k', P' k -> P' k' -> hash k = hash k' -> k = k') ->
  (exists V, (forall k, P' k -> ti_find J (translate_all J (st_tr st') keys) k = None -> In k V) /\ (List.length V <= 4096)%nat) ->
  alike b P' (restart I st keys) (restart J st' keys).
Proof.
  intros HP [Af As Ar A4 Al] Hh HV. split; cbn [restart st_frames st_shards st_ctx]; [exact Af|rewrite As; reflexivity|reflexivity|left; reflexivity|].
  change (like b P' (ti_reopen I (translate_all I (st_tr st) keys)) (ti_reopen J (translate_all J (st_tr st') keys))). apply (wired_reopen grow hash world grow_ok b P P'); [|exact Hh|exact HV].
  apply sim_keys; [exact HP|]. revert Al. apply (like_le hash). lia.
Qed.

(* ------------------------------------------------------------------ lives *)
(** The rest of the current process. *)
Fixpoint this_process (es : list event) : list event :=
  match es with [] => [] | ESave l ch :: t => ESave l ch :: this_process t | ERestart keys :: _ => [ERestart keys] end.
Definition no_restart (es : list event) : Prop := forall e, In e es -> match e with ERestart _ => False | _ => True end.
Definition used (es : list event) (k : string) : Prop := met es k \/ In k signal_keys.

Lemma this_process_prefix es : exists rest, es = this_process es ++ rest.
Proof.
  induction es as [|[l ch|keys] es [rest IH]]; [exists []; reflexivity| |exists es; reflexivity]. exists rest. cbn [this_process app]. congruence.
Qed.
Lemma this_process_last es : no_restart (removelast (this_process es)).
Proof.
  induction es as [|[l ch|keys] es IH]; [intros e []| |intros e []]. cbn [this_process]. intros e He. cbn [removelast] in He.
  destruct (this_process es) as [|x p] eqn:E; [destruct He|]. destruct He as [<-|He]; [exact Logic.I|]. apply IH, He.
Qed.
Lemma process_last d es : no_restart d -> no_restart (removelast (d ++ this_process es)).
Proof.
  intros H. destruct (this_process es) as [|x p] eqn:E.
  - rewrite app_nil_r. intros e He. apply H. clear -He. induction d as [|y d IH]; [destruct He|]. cbn [removelast] in He. destruct d; [destruct He|]. destruct He as [<-|He]; [left; reflexivity|right; apply IH, He].
  - rewrite removelast_app by discriminate. intros e He. apply in_app_iff in He as [He|He]; [apply H, He|]. rewrite <- E in He. apply (this_process_last es), He.
Qed.

Record stage (es before done todo : list event) (b : nat) (st : store I) (st' : store J) : Prop := {
  s_es : es = before ++ done ++ todo;
  s_start : is_start before;
  s_done : no_restart done;
  s_known : forall k, labels_key (before ++ done) k -> ti_find J (st_tr st') k <> None;
  s_alike : alike (events_cost todo + b) (used (done ++ this_process todo)) st st' }.

Lemma sample_key_app a b k : labels_key (a ++ b) k <-> labels_key a k \/ labels_key b k.
Proof.
  unfold labels_key, given. rewrite flat_map_app. split.
  - intros (s & l & H & D). apply in_app_iff in H as [H|H]; [left|right]; eauto.
  - intros [(s & l & H & D)|(s & l & H & D)]; exists s, l; (split; [apply in_app_iff; auto|exact D]).
Qed.
Lemma keys_known keys b t k : kv_inv "5" (List.length keys + b) t -> ti_find J t k <> None ->
  ti_find J (translate_all J t keys) k <> None /\ kv_inv "5" b (translate_all J t keys).
Proof.
  revert t. induction keys as [|x keys IH]; intros t H F; [auto|]. unfold translate_all. cbn [fold_left].
  destruct (ti_translate J t x) as [t1 m] eqn:E. cbn [List.length plus] in H. pose proof (kv_laws "5" grow grow_ok) as L.
  destruct (tl_step _ _ L _ _ _ _ _ H E) as (H1 & _). cbn [fst]. apply IH; [exact H1|].
  destruct (ti_find J t k) as [n|] eqn:F0; [|congruence]. rewrite (tr_step_ext _ _ L _ _ _ _ _ H E _ _ F0). discriminate.
Qed.

Lemma stage_step es before done e todo b st st' : within_limits hash es -> stage es before done (e :: todo) b st st' ->
  exists before' done', stage es before' done' todo b (step I st e) (step J st' e).
Proof.
  intros W [Es Ss Sd Sk Sa]. rewrite events_cost_cons in Sa. destruct e as [l ch|keys]; cbn [step event_cost this_process] in *.
  - exists before, (done ++ [ESave l ch]).
    assert (HP : forall s, In s l -> holds (used (done ++ ESave l ch :: this_process todo)) s).
    { intros s Hs x Dx. left. left. exists s, x. split; [|auto]. unfold given. rewrite flat_map_app. apply in_app_iff. right. cbn [flat_map]. apply in_app_iff. left. exact Hs. }
    rewrite <- Nat.add_assoc in Sa. pose proof (like_inv _ _ _ _ (a_like _ _ _ _ Sa)) as Kv.
    destruct (sim_save _ (events_cost todo + b) st st' l ch (fun k Hk => or_intror Hk) HP Sa) as (Sa' & _).
    split; auto.
    + rewrite Es, <- !app_assoc. reflexivity.
    + intros x Hx. apply in_app_iff in Hx as [Hx|[<-|[]]]; [apply Sd, Hx|exact Logic.I].
    + intros k Hk. rewrite app_assoc in Hk. apply sample_key_app in Hk. pose proof (kv_laws "5" grow grow_ok) as L.
      destruct (process_samples (ti_translate J) (st_ctx st') l) as [c fs] eqn:EP.
      destruct (process_samples_laws J _ L l _ _ _ _ Kv EP) as (_ & X & _ & LEN & Ok).
      assert (T : st_tr (fst (save J st' l ch)) = c_tr c).
      { unfold save. rewrite EP. destruct (snd (batch_build _)); [destruct (group_samples _ _ _)|]; try reflexivity. destruct (Nat.ltb _ _); [reflexivity|]. destruct (update_shards _ _ _ _). reflexivity. }
      rewrite T. destruct Hk as [Hk|(s & x & Hs & Dx & ->)].
      * specialize (Sk k Hk). destruct (ti_find J (st_tr st') k) as [n|] eqn:F; [|congruence]. rewrite (X _ _ F). discriminate.
      * unfold given in Hs. cbn [flat_map] in Hs. rewrite app_nil_r in Hs. apply In_nth_error in Hs as [i Hi].
        assert (Hf : exists f, nth_error fs i = Some f).
        { destruct (nth_error fs i) eqn:E; [eauto|]. apply nth_error_None in E. rewrite LEN in E. apply nth_error_None in E. congruence. }
        destruct Hf as [f Hf]. destruct (Ok _ _ _ Hi Hf) as (_ & _ & _ & _ & K). destruct (K x (or_introl Dx)) as [n Hn]. rewrite Hn. discriminate.
    + rewrite <- app_assoc. exact Sa'.
  - exists (before ++ done ++ [ERestart keys]), [].
    assert (Es' : es = (before ++ done ++ [ERestart keys]) ++ todo) by (rewrite Es, <- !app_assoc; reflexivity).
    assert (St' : is_start (before ++ done ++ [ERestart keys])) by (right; exists (before ++ done), keys; rewrite app_assoc; reflexivity).
    assert (Kv : kv_inv "5" (List.length keys + S (events_cost todo + b)) (st_tr st')).
    { pose proof (like_inv _ _ _ _ (a_like _ _ _ _ Sa)) as Kv. replace (List.length keys + S (events_cost todo + b))%nat with (S (List.length keys) + events_cost todo + b)%nat by lia. exact Kv. }
    assert (SK : forall k, labels_key (before ++ done ++ [ERestart keys]) k -> ti_find J (translate_all J (st_tr st') keys) k <> None /\ kv_inv "5" (S (events_cost todo + b)) (translate_all J (st_tr st') keys)).
    { intros k Hk. apply (keys_known keys); [exact Kv|]. apply Sk. rewrite app_assoc in Hk. apply sample_key_app in Hk as [Hk|(s & x & [] & _)]. exact Hk. }
    destruct (this_process_prefix todo) as [rest Er].
    destruct (W (before ++ done ++ [ERestart keys]) (this_process todo) rest) as [(new & LN & New) HH].
    { rewrite <- Er. exact Es'. } { exact St'. } { apply (process_last [] todo). intros x []. }
    split; [exact Es'|exact St'|intros x []| |].
    + intros k Hk. rewrite app_nil_r in Hk. destruct (SK k Hk) as [F Kv2]. pose proof (kv_laws "5" grow grow_ok) as L. destruct (tl_reopen _ _ L _ _ Kv2) as [_ R].
      change (st_tr (restart J st' keys)) with (ti_reopen J (translate_all J (st_tr st') keys)). rewrite R. exact F.
    + apply (sim_restart (used (done ++ [ERestart keys]))).
      * intros k Hk. left. right. exists keys. split; [apply in_app_iff; right; left; reflexivity|exact Hk].
      * rewrite Nat.add_assoc. exact Sa.
      * exact HH.
      * exists (new ++ signal_keys). split; [|rewrite app_length; cbn; lia]. intros k [Hk|Hk] F; apply in_app_iff; [|auto]. destruct (New k Hk) as [Hb|Hn]; [|auto]. destruct (SK k Hb) as [X _]. congruence.
Qed.
Lemma stage_run es t1 : forall before done t2 b st st', within_limits hash es -> stage es before done (t1 ++ t2) b st st' ->
  exists before' done', stage es before' done' t2 b (run I st t1) (run J st' t1).
Proof.
  induction t1 as [|e t1 IH]; intros before done t2 b st st' W H; [eauto|]. cbn [app] in H.
  destruct (stage_step _ _ _ _ _ _ _ _ W H) as (b1 & d1 & H1). cbn [run fold_left]. apply (IH _ _ _ _ _ _ W H1).
Qed.

(** The two stores, started on a database without labels. *)
Variable (d : kv).
Hypothesis empty : forall x, kvget (append "5" x) d = None.
Definition s0 : wired := wired_start grow hash d.
Definition t0 : tr_state := fst (tr_step (TrConfig grow "5" (String.length "5")) (TrState d None) (TOpen false)).
Lemma stage_start es : within_limits hash es -> N.of_nat (events_cost es) < 2^43 -> stage es [] [] es 0 (new_store I s0) (new_store J t0).
Proof.
  intros W Hc. split; [reflexivity|left; reflexivity|intros x []|intros k (s & l & [] & _)|]. cbn [app].
  destruct (this_process_prefix es) as [rest Er]. destruct (W [] (this_process es) rest) as [(new & LN & New) HH]; [exact Er|left; reflexivity|apply (process_last [] es); intros x []|].
  split; try reflexivity; [left; reflexivity|]. apply (wired_starts grow hash grow_ok); [exact empty|rewrite Nat.add_0_r; exact Hc|exact HH|].
  exists (new ++ signal_keys). split; [|rewrite app_length; cbn; lia]. intros k [Hk|Hk]; apply in_app_iff; [|auto]. destruct (New k Hk) as [(s & l & [] & _)|Hn]. auto.
Qed.
Lemma within_prefix a b : within_limits hash (a ++ b) -> within_limits hash a.
Proof. intros W before process rest E S1 S2. apply (W before process (rest ++ b)); auto. rewrite E, <- !app_assoc. reflexivity. Qed.
Lemma cost_prefix a b : N.of_nat (events_cost (a ++ b)) < 2^43 -> N.of_nat (events_cost a) < 2^43.
Proof. rewrite events_cost_app. lia. Qed.

Theorem wired_alike es : within_limits hash es -> N.of_nat (events_cost es) < 2^43 -> exists P, alike 0 P (run I (new_store I s0) es) (run J (new_store J t0) es).
Proof.
  intros W Hc. pose proof (stage_start es W Hc) as H. rewrite <- (app_nil_r es) in H at 2. destruct (stage_run es es _ _ [] _ _ _ W H) as (b1 & d1 & [_ _ _ _ Sa]). eexists. exact Sa.
Qed.
Theorem wired_save es l ch : within_limits hash (es ++ [ESave l ch]) -> N.of_nat (events_cost (es ++ [ESave l ch])) < 2^43 ->
  let st := run I (new_store I s0) es in let st' := run J (new_store J t0) es in
  snd (save I st l ch) = snd (save J st' l ch) /\ (choices_ok I st l ch <-> choices_ok J st' l ch) /\
  snd (process_samples (ti_translate I) (st_ctx st) l) = snd (process_samples (ti_translate J) (st_ctx st') l) /\
  res (st_ctx st) = res (st_ctx st').
Proof.
  intros W Hc st st'. pose proof (stage_start _ W Hc) as H. destruct (stage_run _ es _ _ [ESave l ch] _ _ _ W H) as (b1 & d1 & [_ _ _ _ Sa]). fold st st' in Sa.
  pose proof (a_res _ _ _ _ Sa) as R. rewrite events_cost_cons in Sa. cbn [event_cost this_process] in Sa. rewrite <- Nat.add_assoc in Sa. apply sim_save with (ch := ch) in Sa as (_ & A & B & C); auto.
  - intros k Hk. right. exact Hk.
  - intros s Hs x Dx. left. left. exists s, x. split; [|auto]. unfold given. rewrite flat_map_app. apply in_app_iff. right. cbn [flat_map]. apply in_app_iff. left. exact Hs.
Qed.
End Wired.
