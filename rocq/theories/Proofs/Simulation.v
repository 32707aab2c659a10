(** A store over one translator goes through the states of a store over another one, if the translators do: what is
    saved, found and answered is the same. *)
From Verif.Model Require Import Base Labels KV View Otlp Transform Batch Rows Shards Dataframe Collapse Store.
From Verif.Spec Require Import Indexing Translator Frames Saves Limits.
From Verif.Proofs Require Import BaseFacts TransformFacts TransformLaws StoreFacts WiredStore.
Open Scope N_scope.

Section Simulation.
Context (I J : tr_impl) (like : nat -> (string -> Prop) -> ti_state I -> ti_state J -> Prop) (ok : (string -> Prop) -> Prop).
Hypothesis like_le : forall b b' P s t, (b' <= b)%nat -> like b P s t -> like b' P s t.
Hypothesis like_step : forall b (P : string -> Prop) s t k, P k -> like (S b) P s t ->
  exists s' t' m, ti_translate I s k = (s', m) /\ ti_translate J t k = (t', m) /\ like b P s' t'.
Hypothesis like_reopen : forall b (P P' : string -> Prop) s t, like (S b) P s t -> ok P' -> like b P' (ti_reopen I s) (ti_reopen J t).

Lemma sim_tr_all (P : string -> Prop) ls : forall b (s : ti_state I) (t : ti_state J) pos, (forall l, In l ls -> P (encode l)) -> like (List.length ls + b) P s t ->
  exists s' t' pos', tr_all (ti_translate I) s pos ls = (s', pos') /\ tr_all (ti_translate J) t pos ls = (t', pos') /\ like b P s' t'.
Proof.
  induction ls as [|l ls IH]; intros b s t pos HP H; cbn [tr_all].
  - cbn in H. eauto 10.
  - cbn [List.length plus] in H. destruct (like_step (List.length ls + b) P s t (encode l)) as (s1 & t1 & m & E1 & E2 & H1); [apply HP; left; reflexivity|exact H|].
    rewrite E1, E2. apply IH; [|exact H1]. intros l' Hl. apply HP. right. exact Hl.
Qed.
Lemma sim_sample (P : string -> Prop) b (c : ctx (ti_state I)) (c' : ctx (ti_state J)) s : (forall k, In k signal_keys -> P k) -> holds P s -> res c = res c' -> In (res c) four ->
  like (S (List.length (L_data (smp_data s))) + b) P (c_tr c) (c_tr c') ->
  exists c1 c1' f, process_sample (ti_translate I) c s = (c1, f) /\ process_sample (ti_translate J) c' s = (c1', f) /\
    res c1 = res c1' /\ In (res c1) four /\ like b P (c_tr c1) (c_tr c1').
Proof.
  intros HS HP ER R4 H. destruct (process_sample_spec (ti_translate I) c s) as (c1 & E1 & T1 & R1). destruct (process_sample_spec (ti_translate J) c' s) as (c2 & E2 & T2 & R2).
  destruct (sim_tr_all P (marker (res c) :: L_data (smp_data s)) b (c_tr c) (c_tr c') []) as (s1 & t1 & pos & F1 & F2 & H1).
  - intros l [<-|Hl]; [|apply HP, in_L_data, Hl]. apply HS. unfold signal_keys. change [0%Z; RESOURCE_METRICS; RESOURCE_TRACES; RESOURCE_LOGS] with four. unfold marker. apply (in_map (fun z => encode (Label z PREFIX_UNKNOWN "" ""))), R4.
  - exact H.
  - rewrite <- ER in E2, T2, R2. rewrite F1 in E1, T1. rewrite F2 in E2, T2. cbn [fst snd] in *. exists c1, c2. eexists. split; [exact E1|]. split; [exact E2|]. split; [congruence|]. split; [|rewrite T1, T2; exact H1].
    rewrite R1. unfold next_res. destruct (smp_data s); [right; left|right; right; left|right; right; right; left|exact R4]; reflexivity.
Qed.
Lemma sim_samples (P : string -> Prop) l : forall b (c : ctx (ti_state I)) (c' : ctx (ti_state J)), (forall k, In k signal_keys -> P k) -> (forall s, In s l -> holds P s) -> res c = res c' -> In (res c) four ->
  like (cost l + b) P (c_tr c) (c_tr c') ->
  exists c1 c1' fs, process_samples (ti_translate I) c l = (c1, fs) /\ process_samples (ti_translate J) c' l = (c1', fs) /\
    res c1 = res c1' /\ In (res c1) four /\ like b P (c_tr c1) (c_tr c1').
Proof.
  induction l as [|s l IH]; intros b c c' HS HP ER R4 H; cbn [process_samples].
  - cbn in H. exists c, c', []. auto.
  - rewrite cost_cons in H. rewrite <- Nat.add_assoc in H. destruct (sim_sample P (cost l + b) c c' s HS) as (c1 & c1' & f & E1 & E2 & R1 & R2 & H1); auto; [apply HP; left; reflexivity|].
    rewrite E1, E2. destruct (IH b c1 c1' HS) as (c2 & c2' & fs & F1 & F2 & R3 & R5 & H2); auto; [intros x Hx; apply HP; right; exact Hx|].
    rewrite F1, F2. eauto 10.
Qed.

Record same_store (b : nat) (P : string -> Prop) (st : store I) (st' : store J) : Prop := {
  m_frames : st_frames st = st_frames st';
  m_shards : st_shards st = st_shards st';
  m_res : res (st_ctx st) = res (st_ctx st');
  m_four : In (res (st_ctx st)) four;
  m_like : like b P (st_tr st) (st_tr st') }.

Lemma sim_save (P : string -> Prop) b st st' l ch : (forall k, In k signal_keys -> P k) -> (forall s, In s l -> holds P s) -> same_store (cost l + b) P st st' ->
  same_store b P (fst (save I st l ch)) (fst (save J st' l ch)) /\ snd (save I st l ch) = snd (save J st' l ch) /\ (choices_ok I st l ch <-> choices_ok J st' l ch) /\
  snd (process_samples (ti_translate I) (st_ctx st) l) = snd (process_samples (ti_translate J) (st_ctx st') l).
Proof.
  intros HS HP [Af As Ar A4 Al]. destruct (sim_samples P l b (st_ctx st) (st_ctx st') HS HP Ar A4 Al) as (c1 & c1' & fs & E1 & E2 & R1 & R2 & H1).
  unfold choices_ok, save. rewrite E1, E2. cbn [snd]. rewrite Af, As.
  destruct (snd (batch_build (add_filed (ch_pools ch) fs batch_new))) as [frags|]; [destruct (group_samples (ch_pool ch) (combine l (map f_min fs)) []) as [m|]|].
  - destruct (Nat.ltb (ch_views_done ch) (List.length (ch_views ch))); [|destruct (update_shards frags (st_shards st') (ch_shards ch) (ch_commits ch)) as [sh r]]; cbn [fst snd]; (split; [split; cbn [st_frames st_shards st_ctx st_tr]; auto|]); (split; [reflexivity|]); split; reflexivity.
  - cbn [fst snd]; (split; [split; cbn [st_frames st_shards st_ctx st_tr]; auto|]); (split; [reflexivity|]); split; reflexivity.
  - cbn [fst snd]; (split; [split; cbn [st_frames st_shards st_ctx st_tr]; auto|]); (split; [reflexivity|]); split; reflexivity.
Qed.
Lemma sim_keys (P : string -> Prop) keys : forall b s t, (forall k, In k keys -> P k) -> like (List.length keys + b) P s t -> like b P (translate_all I s keys) (translate_all J t keys).
Proof.
  induction keys as [|k keys IH]; intros b s t HP H; [exact H|]. unfold translate_all. cbn [fold_left].
  destruct (like_step (List.length keys + b) P s t k) as (s1 & t1 & m & E1 & E2 & H1); [apply HP; left; reflexivity|exact H|].
  rewrite E1, E2. cbn [fst]. apply IH; [|exact H1]. intros k' Hk. apply HP. right. exact Hk.
Qed.
Lemma sim_restart (P P' : string -> Prop) b st st' keys : (forall k, In k keys -> P k) -> same_store (S (List.length keys) + b) P st st' -> ok P' ->
  same_store b P' (restart I st keys) (restart J st' keys).
Proof.
  intros HP [Af As Ar A4 Al] HO. split; cbn [restart st_frames st_shards st_ctx]; [exact Af|rewrite As; reflexivity|reflexivity|left; reflexivity|].
  change (like b P' (ti_reopen I (translate_all I (st_tr st) keys)) (ti_reopen J (translate_all J (st_tr st') keys))). apply (like_reopen b P P'); [|exact HO].
  apply sim_keys; [exact HP|]. revert Al. apply like_le. lia.
Qed.

(* ------------------------------------------------------------------ lives *)
(** The labels of every process are such that the simulation can be started. *)
Definition each_process (es : list event) : Prop :=
  forall before process rest, es = before ++ process ++ rest -> is_start before ->
    (forall e, In e (removelast process) -> match e with ERestart _ => False | _ => True end) -> ok (used process).
Record stage (es before done todo : list event) (b : nat) (st : store I) (st' : store J) : Prop := {
  s_es : es = before ++ done ++ todo;
  s_start : is_start before;
  s_done : no_restart done;
  s_same : same_store (events_cost todo + b) (used (done ++ this_process todo)) st st' }.

Lemma stage_step es before done e todo b st st' : each_process es -> stage es before done (e :: todo) b st st' ->
  exists before' done', stage es before' done' todo b (step I st e) (step J st' e).
Proof.
  intros W [Es Ss Sd Sa]. rewrite events_cost_cons in Sa. destruct e as [l ch|keys]; cbn [step event_cost this_process] in *.
  - exists before, (done ++ [ESave l ch]).
    assert (HP : forall s, In s l -> holds (used (done ++ ESave l ch :: this_process todo)) s).
    { intros s Hs x Dx. left. left. exists s, x. split; [|auto]. unfold given. rewrite flat_map_app. apply in_app_iff. right. cbn [flat_map]. apply in_app_iff. left. exact Hs. }
    rewrite <- Nat.add_assoc in Sa.
    destruct (sim_save _ (events_cost todo + b) st st' l ch (fun k Hk => or_intror Hk) HP Sa) as (Sa' & _).
    split; auto.
    + rewrite Es, <- !app_assoc. reflexivity.
    + intros x Hx. apply in_app_iff in Hx as [Hx|[<-|[]]]; [apply Sd, Hx|exact Logic.I].
    + rewrite <- app_assoc. exact Sa'.
  - exists (before ++ done ++ [ERestart keys]), [].
    assert (Es' : es = (before ++ done ++ [ERestart keys]) ++ todo) by (rewrite Es, <- !app_assoc; reflexivity).
    assert (St' : is_start (before ++ done ++ [ERestart keys])) by (right; exists (before ++ done), keys; rewrite app_assoc; reflexivity).
    destruct (this_process_prefix todo) as [rest Er].
    assert (HH := W (before ++ done ++ [ERestart keys]) (this_process todo) rest ltac:(rewrite <- Er; exact Es') St' (process_last [] todo ltac:(intros x []))).
    split; [exact Es'|exact St'|intros x []|].
    apply (sim_restart (used (done ++ [ERestart keys]))).
    + intros k Hk. left. right. exists keys. split; [apply in_app_iff; right; left; reflexivity|exact Hk].
    + rewrite Nat.add_assoc. exact Sa.
    + exact HH.
Qed.
Lemma stage_run es t1 : forall before done t2 b st st', each_process es -> stage es before done (t1 ++ t2) b st st' ->
  exists before' done', stage es before' done' t2 b (run I st t1) (run J st' t1).
Proof.
  induction t1 as [|e t1 IH]; intros before done t2 b st st' W H; [eauto|]. cbn [app] in H.
  destruct (stage_step _ _ _ _ _ _ _ _ W H) as (b1 & d1 & H1). cbn [run fold_left]. apply (IH _ _ _ _ _ _ W H1).
Qed.

Variables (s0 : ti_state I) (t0 : ti_state J) (limit : nat).
Hypothesis like_start : forall P b, ok P -> (b <= limit)%nat -> like b P s0 t0.
Lemma each_prefix a b : each_process (a ++ b) -> each_process a.
Proof. intros W before process rest E S1 S2. apply (W before process (rest ++ b)); auto. rewrite E, <- !app_assoc. reflexivity. Qed.
Lemma stage_start es : each_process es -> (events_cost es <= limit)%nat -> stage es [] [] es 0 (new_store I s0) (new_store J t0).
Proof.
  intros W Hc. split; [reflexivity|left; reflexivity|intros x []|]. cbn [app].
  destruct (this_process_prefix es) as [rest Er]. assert (HH := W [] (this_process es) rest Er (or_introl eq_refl) (process_last [] es ltac:(intros x []))).
  split; try reflexivity; [left; reflexivity|]. apply like_start; [exact HH|lia].
Qed.
Theorem sim_run es : each_process es -> (events_cost es <= limit)%nat -> exists P, same_store 0 P (run I (new_store I s0) es) (run J (new_store J t0) es).
Proof.
  intros W Hc. pose proof (stage_start es W Hc) as H. rewrite <- (app_nil_r es) in H at 2. destruct (stage_run es es _ _ [] _ _ _ W H) as (b1 & d1 & [_ _ _ Sa]). eexists. exact Sa.
Qed.
Theorem sim_saves es l ch : each_process (es ++ [ESave l ch]) -> (events_cost (es ++ [ESave l ch]) <= limit)%nat ->
  let st := run I (new_store I s0) es in let st' := run J (new_store J t0) es in
  snd (save I st l ch) = snd (save J st' l ch) /\ (choices_ok I st l ch <-> choices_ok J st' l ch) /\
  snd (process_samples (ti_translate I) (st_ctx st) l) = snd (process_samples (ti_translate J) (st_ctx st') l) /\
  res (st_ctx st) = res (st_ctx st').
Proof.
  intros W Hc st st'. pose proof (stage_start _ W Hc) as H. destruct (stage_run _ es _ _ [ESave l ch] _ _ _ W H) as (b1 & d1 & [_ _ _ Sa]). fold st st' in Sa.
  pose proof (m_res _ _ _ _ Sa) as R. rewrite events_cost_cons in Sa. cbn [event_cost this_process] in Sa. rewrite <- Nat.add_assoc in Sa. apply sim_save with (ch := ch) in Sa as (_ & A & B & C); auto.
  - intros k Hk. right. exact Hk.
  - intros s Hs x Dx. left. left. exists s, x. split; [|auto]. unfold given. rewrite flat_map_app. apply in_app_iff. right. cbn [flat_map]. apply in_app_iff. left. exact Hs.
Qed.
Lemma cost_le a b : (events_cost (a ++ b) <= limit)%nat -> (events_cost a <= limit)%nat.
Proof. rewrite events_cost_app. lia. Qed.

(** A history of the first store is one of the second, with the same past. *)
Lemma sim_possible es : each_process es -> (events_cost es <= limit)%nat -> possible I (new_store I s0) es -> possible J (new_store J t0) es.
Proof.
  induction es as [|e es IH] using rev_ind; intros W C P; [exact Logic.I|]. apply possible_app in P as [P1 P2]. apply possible_app. split; [apply IH; [eapply each_prefix, W|eapply cost_le, C|exact P1]|].
  destruct P2 as [P2 _]. split; [|exact Logic.I]. destruct e as [l ch|keys]; [|exact Logic.I]. destruct P2 as [P2 P3]. split; [|exact P3].
  destruct (sim_saves es l ch W C) as (_ & X & _). apply X, P2.
Qed.
Lemma sim_trace es : each_process es -> (events_cost es <= limit)%nat -> trace I (new_store I s0) es = trace J (new_store J t0) es.
Proof.
  induction es as [|e es IH] using rev_ind; intros W C; [reflexivity|]. rewrite !trace_app, IH; [|eapply each_prefix, W|eapply cost_le, C]. f_equal. cbn [trace]. rewrite !app_nil_r.
  destruct e as [l ch|keys]; [|reflexivity]. destruct (sim_saves es l ch W C) as (_ & _ & Fs & R). unfold past_of. rewrite Fs. f_equal. f_equal.
  unfold ctx_signal. unfold res in R. rewrite R. reflexivity.
Qed.
End Simulation.
