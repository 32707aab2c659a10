(** C97: query commands that run at the same time. *)
From Verif.Model Require Import Base XxHash ProgramCache Compile.
From Verif.Spec Require Import Bundles.
From Verif.Proofs Require Import BaseFacts.

Lemma nth_put_eq {A} (l : list A) i x y : nth_error l i = Some y -> nth_error (put i x l) i = Some x.
Proof. revert i. induction l as [|a l IH]; intros [|i] E; cbn in *; try discriminate; [reflexivity|apply IH, E]. Qed.
Lemma nth_put_ne {A} (l : list A) i j x : i <> j -> nth_error (put i x l) j = nth_error l j.
Proof. revert i j. induction l as [|a l IH]; intros [|i] [|j] E; cbn; try reflexivity; [congruence|]. apply IH. congruence. Qed.
Lemma map_fst_put {A B} (l : list (A * B)) : forall i x y y', nth_error l i = Some (x, y) -> map fst (put i (x, y') l) = map fst l.
Proof. induction l as [|[s p] l IH]; intros [|i] x y y' E; cbn in *; try discriminate; [injection E as -> ->; reflexivity|]. f_equal. eapply IH, E. Qed.
Lemma aget_adel {V} k k' (m : amap string V) : aget String.eqb k (adel k' m) = if String.eqb k' k then None else aget String.eqb k m.
Proof.
  unfold adel. induction m as [|[a v] m IH]; cbn; [destruct (String.eqb k' k); reflexivity|]. destruct (String.eqb_spec k' a) as [->|N]; cbn [negb].
  - rewrite IH. destruct (String.eqb_spec a k) as [->|N']; [reflexivity|]. cbn. destruct (String.eqb_spec k a); [congruence|reflexivity].
  - cbn. rewrite IH. destruct (String.eqb_spec k a) as [->|N']; [|reflexivity]. destruct (String.eqb_spec k' a); [congruence|reflexivity].
Qed.

Section C97.
  Context {program : Type} (load : string -> option program) (esbuild : files -> files -> string + string) (lib : string).
  Notation advance := (advance program load esbuild lib).
  Notation tick := (tick program load esbuild lib).
  Notation running := (running program load esbuild lib).
  Notation phase := (phase program).
  Notation machine := (machine program).
  Notation bundled := (bundled esbuild lib).
  Notation alone := (alone load esbuild lib).

  Definition own_dir (ph : phase) : option string :=
    match ph with Setting _ d _ _ | Scripting _ d _ | Bundling _ d _ | Removing _ d _ => Some d | _ => None end.
  Definition the_alias : files := [("@requiemdb/rq"%string, "./rq.js"%string)].
  Definition at_dir (w : world) (d : string) : option files := aget String.eqb d (w_temp w).
  Definition phase_ok (w : world) (src : string) (ph : phase) : Prop :=
    match ph with
    | Setting _ d todo alias => (todo = packages lib /\ alias = [] /\ at_dir w d = Some []) \/ (todo = [] /\ alias = the_alias /\ at_dir w d = Some [("rq.js"%string, lib)])
    | Scripting _ d alias => alias = the_alias /\ at_dir w d = Some [("rq.js"%string, lib)]
    | Bundling _ d alias => alias = the_alias /\ at_dir w d = Some [("rq.js"%string, lib); ("index.ts"%string, src)]
    | Removing _ d r => r = bundled src /\ at_dir w d <> None
    | Truncating _ out | Storing _ out => bundled src = inr out
    | _ => True
    end.
  Lemma own_there w src ph d : phase_ok w src ph -> own_dir ph = Some d -> at_dir w d <> None.
  Proof. destruct ph; cbn; intros H E; try discriminate E; apply some_inj in E; subst; [destruct H as [(_ & _ & ->)|(_ & _ & ->)]|destruct H as [_ ->]|destruct H as [_ ->]|apply H]; discriminate. Qed.
  Lemma phase_frame w w' src ph : phase_ok w src ph -> (forall d, own_dir ph = Some d -> at_dir w' d = at_dir w d) -> phase_ok w' src ph.
  Proof. destruct ph; cbn; intros H F; try exact H; rewrite (F _ eq_refl); exact H. Qed.

  (** A step touches no directory but its own, or one that was not there. *)
  Lemma put_file_at w d name text d' : at_dir (put_file w d name text) d' = if String.eqb d' d then option_map (aset String.eqb name text) (at_dir w d) else at_dir w d'.
  Proof.
    unfold put_file, at_dir. destruct (aget String.eqb d (w_temp w)) as [fs|] eqn:E; cbn [w_temp option_map].
    - rewrite (aget_aset _ string_eqb_reflect). reflexivity.
    - destruct (String.eqb_spec d' d) as [->|]; [exact E|reflexivity].
  Qed.
  Lemma put_file_cache w d name text : w_cache (put_file w d name text) = w_cache w.
  Proof. unfold put_file. destruct (aget String.eqb d (w_temp w)); reflexivity. Qed.
  Lemma step_temp src w ph c w' ph' d : advance src w ph c = (w', ph') -> own_dir ph <> Some d ->
    at_dir w' d = at_dir w d \/ (at_dir w d = None /\ own_dir ph' = Some d).
  Proof.
    intros E N. destruct ph as [| |dir [|[nm tx] todo] alias|dir alias|dir alias|dir r|out|out|tx|e]; destruct c as [name|k|]; cbn in E, N;
      repeat match type of E with (match ?x with _ => _ end) = _ => destruct x eqn:? end; apply pair_inj in E as [<- <-]; try (left; reflexivity);
      try (left; rewrite put_file_at; destruct (String.eqb_spec d dir); [congruence|reflexivity]).
    - unfold at_dir. cbn [w_temp own_dir]. rewrite (aget_aset _ string_eqb_reflect). destruct (String.eqb_spec d name) as [->|]; [right; auto|left; reflexivity].
    - left. unfold at_dir. cbn [w_temp]. rewrite aget_adel. destruct (String.eqb_spec dir d); [congruence|reflexivity].
    - left. unfold at_dir. cbn [w_temp]. destruct (aget String.eqb dir (w_temp w)); [|reflexivity]. rewrite (aget_aset _ string_eqb_reflect). destruct (String.eqb_spec d dir); [congruence|reflexivity].
  Qed.
  Lemma step_ok src w ph c w' ph' : advance src w ph c = (w', ph') -> phase_ok w src ph -> phase_ok w' src ph'.
  Proof.
    intros E H. destruct ph as [| |dir [|[nm tx] todo] alias|dir alias|dir alias|dir r|out|out|tx|e]; destruct c as [name|k|]; cbn in E;
      repeat match type of E with (match ?x with _ => _ end) = _ => destruct x eqn:? end; apply pair_inj in E as [<- <-]; cbn [phase_ok] in *; try exact Logic.I.
    - left. split; [reflexivity|]. split; [reflexivity|]. unfold at_dir. cbn [w_temp]. apply (aget_aset_eq _ string_eqb_reflect).
    - destruct H as [(H & _)|(_ & A & B)]; [discriminate H|auto].
    - destruct H as [(H & _)|(_ & A & B)]; [discriminate H|auto].
    - destruct H as [(H & A & B)|(H & _)]; [|discriminate H]. unfold packages in H. injection H as -> -> ->. right. split; [reflexivity|]. split; [rewrite A; reflexivity|].
      rewrite put_file_at, String.eqb_refl, B. reflexivity.
    - destruct H as [A B]. split; [exact A|]. rewrite put_file_at, String.eqb_refl, B. reflexivity.
    - destruct H as [-> B]. unfold at_dir in *. rewrite B. split; [reflexivity|discriminate].
    - destruct H as [-> B]. unfold at_dir in *. rewrite B. split; [reflexivity|discriminate].
    - destruct r; [exact Logic.I|symmetry; apply H].
    - destruct r; [exact Logic.I|symmetry; apply H].
    - exact H.
  Qed.
  Lemma step_own src w ph c w' ph' d : advance src w ph c = (w', ph') -> own_dir ph' = Some d -> own_dir ph = Some d \/ (own_dir ph = None /\ at_dir w d = None).
  Proof.
    intros E O. destruct ph as [| |dir [|[nm tx] todo] alias|dir alias|dir alias|dir r|out|out|tx|e]; destruct c as [name|k|]; cbn in E;
      repeat match type of E with (match ?x with _ => _ end) = _ => destruct x eqn:? end; apply pair_inj in E as [<- <-]; cbn [own_dir] in *; try discriminate O; auto; try (destruct r; discriminate O).
    apply some_inj in O. subst. right. auto.
  Qed.

  (** ------ all commands together *)
  Record together (temp0 : amap string files) (m : machine) : Prop := {
    t_ok : forall i src ph, nth_error (m_procs _ m) i = Some (src, ph) -> phase_ok (m_world _ m) src ph;
    t_new : forall i src ph d, nth_error (m_procs _ m) i = Some (src, ph) -> own_dir ph = Some d -> aget String.eqb d temp0 = None;
    t_apart : forall i j src ph src' ph' d, nth_error (m_procs _ m) i = Some (src, ph) -> nth_error (m_procs _ m) j = Some (src', ph') ->
      own_dir ph = Some d -> own_dir ph' = Some d -> i = j;
    t_old : forall d fs, aget String.eqb d temp0 = Some fs -> at_dir (m_world _ m) d = Some fs }.
  Lemma tick_procs m i c src ph : nth_error (m_procs _ m) i = Some (src, ph) -> forall w' ph', advance src (m_world _ m) ph c = (w', ph') ->
    tick m (i, c) = Machine _ w' (put i (src, ph') (m_procs _ m)).
  Proof. intros E w' ph' Ea. unfold Compile.tick. cbn [fst snd]. rewrite E, Ea. reflexivity. Qed.
  Lemma together_tick temp0 m ic : together temp0 m -> together temp0 (tick m ic).
  Proof.
    intros T. destruct ic as [i c]. destruct (nth_error (m_procs _ m) i) as [[src ph]|] eqn:E; [|unfold Compile.tick; cbn [fst]; rewrite E; exact T].
    destruct (advance src (m_world _ m) ph c) as [w' ph'] eqn:Ea. rewrite (tick_procs _ _ _ _ _ E _ _ Ea).
    assert (Own : forall d, own_dir ph' = Some d -> aget String.eqb d temp0 = None /\ forall j src2 ph2, nth_error (m_procs _ m) j = Some (src2, ph2) -> own_dir ph2 = Some d -> j = i).
    { intros d Hd. destruct (step_own _ _ _ _ _ _ _ Ea Hd) as [K|[_ K]].
      - split; [eapply (t_new _ _ T); eauto|]. intros j src2 ph2 Hj Hd2. eapply (t_apart _ _ T); eauto.
      - split.
        + destruct (aget String.eqb d temp0) as [fs|] eqn:E0; [|reflexivity]. rewrite (t_old _ _ T _ _ E0) in K. discriminate K.
        + intros j src2 ph2 Hj Hd2. exfalso. apply (own_there _ _ _ _ (t_ok _ _ T _ _ _ Hj) Hd2 K). }
    split; cbn [m_procs m_world].
    - intros j src2 ph2 Hj. destruct (Nat.eq_dec i j) as [<-|N].
      + rewrite (nth_put_eq _ _ _ _ E) in Hj. apply some_inj, pair_inj in Hj as [<- <-]. eapply step_ok; eauto. eapply (t_ok _ _ T); eauto.
      + rewrite nth_put_ne in Hj by exact N. eapply phase_frame; [eapply (t_ok _ _ T); eauto|]. intros d Hd.
        destruct (step_temp _ _ _ _ _ _ d Ea) as [K|[K1 K2]]; [intros Hd'; apply N; eapply (t_apart _ _ T); eauto|exact K|].
        exfalso. apply (own_there _ _ _ _ (t_ok _ _ T _ _ _ Hj) Hd K1).
    - intros j src2 ph2 d Hj Hd. destruct (Nat.eq_dec i j) as [<-|N].
      + rewrite (nth_put_eq _ _ _ _ E) in Hj. apply some_inj, pair_inj in Hj as [<- <-]. apply Own, Hd.
      + rewrite nth_put_ne in Hj by exact N. eapply (t_new _ _ T); eauto.
    - intros j1 j2 s1 p1 s2 p2 d H1 H2 D1 D2. destruct (Nat.eq_dec i j1) as [<-|N1]; destruct (Nat.eq_dec i j2) as [<-|N2]; [reflexivity| | |].
      + rewrite (nth_put_eq _ _ _ _ E) in H1. apply some_inj, pair_inj in H1 as [<- <-]. rewrite nth_put_ne in H2 by exact N2. symmetry. eapply (proj2 (Own d D1)); eauto.
      + rewrite (nth_put_eq _ _ _ _ E) in H2. apply some_inj, pair_inj in H2 as [<- <-]. rewrite nth_put_ne in H1 by exact N1. eapply (proj2 (Own d D2)); eauto.
      + rewrite nth_put_ne in H1 by exact N1. rewrite nth_put_ne in H2 by exact N2. eapply (t_apart _ _ T); eauto.
    - intros d fs E0. destruct (step_temp _ _ _ _ _ _ d Ea) as [K|[K1 _]].
      + intros Hd. rewrite (t_new _ _ T _ _ _ _ E Hd) in E0. discriminate E0.
      + rewrite K. apply (t_old _ _ T), E0.
      + rewrite (t_old _ _ T _ _ E0) in K1. discriminate K1.
  Qed.
  Lemma nth_start (scripts : list string) i src ph : nth_error (map (fun s => (s, Reading program)) scripts) i = Some (src, ph) -> nth_error scripts i = Some src /\ ph = Reading program.
  Proof. rewrite nth_error_map. destruct (nth_error scripts i); [|discriminate]. cbn. intros E. apply some_inj, pair_inj in E as [-> <-]. auto. Qed.
  Lemma running_together w scripts sched : together (w_temp w) (running w scripts sched).
  Proof.
    unfold Compile.running. assert (T : together (w_temp w) (Machine program w (map (fun s => (s, Reading program)) scripts))).
    { split; cbn [m_procs m_world].
      - intros i src ph H. apply nth_start in H as [_ ->]. exact Logic.I.
      - intros i src ph d H. apply nth_start in H as [_ ->]. discriminate.
      - intros i j src ph src' ph' d H. apply nth_start in H as [_ ->]. discriminate.
      - auto. }
    revert T. generalize (Machine program w (map (fun s => (s, Reading program)) scripts)). induction sched as [|ic sched IH]; intros m T; [exact T|]. cbn [fold_left]. apply IH, together_tick, T.
  Qed.
  Lemma running_snoc w scripts sched ic : running w scripts (sched ++ [ic]) = tick (running w scripts sched) ic.
  Proof. unfold Compile.running. rewrite fold_left_app. reflexivity. Qed.
  Lemma running_scripts w scripts sched : map fst (m_procs _ (running w scripts sched)) = scripts.
  Proof.
    induction sched as [|[i c] sched IH] using rev_ind; [unfold Compile.running; cbn; rewrite map_map; cbn; apply map_id|].
    rewrite running_snoc. unfold Compile.tick. cbn [fst snd]. destruct (nth_error _ i) as [[src ph]|] eqn:E; [|exact IH]. destruct (advance _ _ _ _) as [w' ph']. cbn [m_procs]. rewrite (map_fst_put _ _ _ _ _ E). exact IH.
  Qed.

  (** ------ the temporary directory *)
  (** What was there before is untouched, whatever happens. *)
  Theorem C97_others_untouched : forall w scripts sched dir fs,
    aget String.eqb dir (w_temp w) = Some fs -> aget String.eqb dir (w_temp (m_world _ (running w scripts sched))) = Some fs.
  Proof. intros w scripts sched dir fs. apply (t_old _ _ (running_together w scripts sched)). Qed.
  (** If every step works nothing is left behind: when all commands have ended the temporary directory is as before. *)
  Lemma calm_dirs w scripts sched d : calm_schedule sched -> at_dir (m_world _ (running w scripts sched)) d <> None -> aget String.eqb d (w_temp w) = None ->
    exists i src ph, nth_error (m_procs _ (running w scripts sched)) i = Some (src, ph) /\ own_dir ph = Some d.
  Proof.
    induction sched as [|[i c] sched IH] using rev_ind; [intros _ H E; unfold Compile.running, at_dir in H; cbn in H; congruence|]. intros Ca H E.
    assert (Ca' : calm_schedule sched) by (intros j c' K; apply (Ca j c'), in_app_iff; auto).
    destruct (Ca i c) as [name ->]; [apply in_app_iff; right; left; reflexivity|]. rewrite running_snoc in *. set (m := running w scripts sched) in *.
    destruct (nth_error (m_procs _ m) i) as [[src ph]|] eqn:Ei; [|unfold Compile.tick in *; cbn [fst] in *; rewrite Ei in *; apply IH; assumption].
    destruct (advance src (m_world _ m) ph (Works name)) as [w' ph'] eqn:Ea. rewrite (tick_procs _ _ _ _ _ Ei _ _ Ea) in *. cbn [m_procs m_world] in *.
    assert (Old : forall j src2 ph2, i <> j -> nth_error (m_procs _ m) j = Some (src2, ph2) -> own_dir ph2 = Some d -> exists i0 src0 ph0, nth_error (put i (src, ph') (m_procs _ m)) i0 = Some (src0, ph0) /\ own_dir ph0 = Some d).
    { intros j src2 ph2 N Hj Hd. exists j, src2, ph2. rewrite nth_put_ne by exact N. auto. }
    assert (Stay : own_dir ph' = Some d -> exists i0 src0 ph0, nth_error (put i (src, ph') (m_procs _ m)) i0 = Some (src0, ph0) /\ own_dir ph0 = Some d).
    { intros Hd. exists i, src, ph'. split; [eapply nth_put_eq; eauto|exact Hd]. }
    destruct (own_dir ph) as [d'|] eqn:Ed.
    - destruct (String.eqb_spec d' d) as [->|N].
      + (* its own directory: it goes on to own it, or has just removed it *)
        pose proof (t_ok _ _ (running_together w scripts sched) i src ph Ei) as Ok. fold m in Ok.
        destruct ph as [| |dir [|[nm tx] todo] alias|dir alias|dir alias|dir r|out|out|tx|e]; cbn [own_dir] in Ed; try discriminate Ed; apply some_inj in Ed; subst dir; cbn in Ea; apply pair_inj in Ea as [<- <-]; try (apply Stay; reflexivity).
        exfalso. apply H. unfold at_dir. cbn [w_temp]. rewrite aget_adel, String.eqb_refl. reflexivity.
      + destruct (step_temp _ _ _ _ _ _ d Ea) as [K|[_ K]]; [congruence| |apply Stay, K]. rewrite K in H. destruct (IH Ca' H E) as (j & src2 & ph2 & Hj & Hd).
        apply (Old j src2 ph2); auto. intros <-. rewrite Ei in Hj. apply some_inj, pair_inj in Hj as [_ <-]. congruence.
    - destruct (step_temp _ _ _ _ _ _ d Ea) as [K|[_ K]]; [congruence| |apply Stay, K]. rewrite K in H. destruct (IH Ca' H E) as (j & src2 & ph2 & Hj & Hd).
      apply (Old j src2 ph2); auto. intros <-. rewrite Ei in Hj. apply some_inj, pair_inj in Hj as [_ <-]. congruence.
  Qed.
  Theorem C97_nothing_left_partial : forall w scripts sched, calm_schedule sched ->
    (forall i src ph, nth_error (m_procs _ (running w scripts sched)) i = Some (src, ph) -> exists e, ph = Ended _ e) ->
    forall dir, aget String.eqb dir (w_temp (m_world _ (running w scripts sched))) = aget String.eqb dir (w_temp w).
  Proof.
    intros w scripts sched Ca En dir. destruct (aget String.eqb dir (w_temp w)) as [fs|] eqn:E; [apply C97_others_untouched, E|].
    destruct (aget String.eqb dir (w_temp (m_world _ (running w scripts sched)))) as [fs|] eqn:E'; [|reflexivity]. exfalso.
    destruct (calm_dirs w scripts sched dir Ca) as (i & src & ph & Hi & Hd); [unfold at_dir; rewrite E'; discriminate|exact E|].
    destruct (En i src ph Hi) as [e ->]. discriminate Hd.
  Qed.

  (** ------ the program of each command *)
  Lemma step_cache src w ph c w' ph' k : advance src w ph c = (w', ph') -> k <> file_name src -> aget String.eqb k (w_cache w') = aget String.eqb k (w_cache w).
  Proof.
    intros E N. destruct ph as [| |dir [|[nm tx] todo] alias|dir alias|dir alias|dir r|out|out|tx|e]; destruct c as [name|kk|]; cbn in E;
      repeat match type of E with (match ?x with _ => _ end) = _ => destruct x eqn:? end; apply pair_inj in E as [<- <-]; cbn [w_cache]; rewrite ?put_file_cache; try reflexivity;
      apply (aget_aset_ne _ string_eqb_reflect), N.
  Qed.
  Lemma scripts_at w scripts sched j src ph : nth_error (m_procs _ (running w scripts sched)) j = Some (src, ph) -> nth_error scripts j = Some src.
  Proof. intros H. rewrite <- (running_scripts w scripts sched). rewrite nth_error_map, H. reflexivity. Qed.
  (** A bundle that is there already is used by all, and stays. *)
  Definition warm_phase (out : string) (i : nat) (src : string) (sched : list (nat * chance)) (ph : phase) : Prop :=
    match ph with Reading _ => True | Loading _ t => t = out | Ended _ e => e = alone src \/ (e = Failed _ \/ e = Killed _) /\ unlucky i sched | _ => False end.
  Lemma unlucky_snoc i sched ic : unlucky i sched -> unlucky i (sched ++ [ic]).
  Proof. intros (c & H & N). exists c. rewrite in_app_iff. auto. Qed.
  Lemma unlucky_last i sched c : (forall name, c <> Works name) -> unlucky i (sched ++ [(i, c)]).
  Proof. intros N. exists c. rewrite in_app_iff. cbn. auto. Qed.
  Lemma warm_run w scripts sched src out : (forall j src', nth_error scripts j = Some src' -> xxh64 src' = xxh64 src -> src' = src) ->
    aget String.eqb (file_name src) (w_cache w) = Some out -> bundled src = inr out ->
    aget String.eqb (file_name src) (w_cache (m_world _ (running w scripts sched))) = Some out /\
    forall i ph, nth_error (m_procs _ (running w scripts sched)) i = Some (src, ph) -> warm_phase out i src sched ph.
  Proof.
    intros NC C0 B. induction sched as [|[i c] sched [IH1 IH2]] using rev_ind.
    { split; [exact C0|]. intros i ph H. unfold Compile.running in H. cbn [fold_left m_procs] in H. apply nth_start in H as [_ ->]. exact Logic.I. }
    rewrite running_snoc. destruct (nth_error (m_procs _ (running w scripts sched)) i) as [[src' ph]|] eqn:Ei.
    2:{ unfold Compile.tick. cbn [fst]. rewrite Ei. split; [exact IH1|]. intros j ph H. specialize (IH2 j ph H). destruct ph; try exact IH2. destruct IH2 as [K|[K1 K2]]; [left; exact K|right; split; [exact K1|apply unlucky_snoc, K2]]. }
    destruct (advance src' (m_world _ (running w scripts sched)) ph c) as [w' ph'] eqn:Ea. rewrite (tick_procs _ _ _ _ _ Ei _ _ Ea). cbn [m_procs m_world].
    assert (Others : forall j ph2, i <> j -> nth_error (m_procs _ (running w scripts sched)) j = Some (src, ph2) -> warm_phase out j src (sched ++ [(i, c)]) ph2).
    { intros j ph2 _ H. specialize (IH2 j ph2 H). destruct ph2; try exact IH2. destruct IH2 as [K|[K1 K2]]; [left; exact K|right; split; [exact K1|apply unlucky_snoc, K2]]. }
    destruct (string_dec src' src) as [->|N].
    - pose proof (IH2 i ph Ei) as W. assert (G : aget String.eqb (file_name src) (w_cache w') = Some out /\ warm_phase out i src (sched ++ [(i, c)]) ph').
      { assert (Un : forall e, (exists name, c = Works name) \/ (e = Failed program \/ e = Killed program -> (e = alone src \/ (e = Failed _ \/ e = Killed _) /\ unlucky i (sched ++ [(i, c)])))).
        { intros e. destruct c as [name|k|]; [left; eauto|right; intros K; right; split; [exact K|apply unlucky_last; discriminate]|right; intros K; right; split; [exact K|apply unlucky_last; discriminate]]. }
        destruct ph; try destruct W; destruct c as [name|k|]; cbn in Ea; rewrite ?IH1 in Ea; apply pair_inj in Ea as [<- <-]; (split; [exact IH1|]); cbn [warm_phase]; try reflexivity; try assumption;
          try (destruct (Un (Failed program)) as [[n K]|K]; [discriminate K|apply K; auto]); try (destruct (Un (Killed program)) as [[n K]|K]; [discriminate K|apply K; auto]);
          try (left; unfold Bundles.alone; rewrite B; reflexivity);
          try (left; congruence); try (right; split; [tauto|apply unlucky_snoc; tauto]). }
      split; [apply G|]. intros j ph2 Hj. destruct (Nat.eq_dec i j) as [<-|N]; [|rewrite nth_put_ne in Hj by exact N; apply Others; assumption].
      rewrite (nth_put_eq _ _ _ _ Ei) in Hj. apply some_inj, pair_inj in Hj as [_ <-]. apply G.
    - split.
      + rewrite (step_cache _ _ _ _ _ _ _ Ea); [exact IH1|]. intros F. apply N. apply (NC i src' (scripts_at _ _ _ _ _ _ Ei)). symmetry. apply show_N_inj. exact F.
      + intros j ph2 Hj. destruct (Nat.eq_dec i j) as [<-|N']; [rewrite (nth_put_eq _ _ _ _ Ei) in Hj; apply some_inj, pair_inj in Hj as [K _]; congruence|]. rewrite nth_put_ne in Hj by exact N'. apply Others; assumption.
  Qed.
  (** A bundle that is not there: the one command with that script makes it. *)
  Definition cold_phase (cached : option string) (i : nat) (src : string) (sched : list (nat * chance)) (ph : phase) : Prop :=
    match ph with
    | Storing _ out => bundled src = inr out
    | Loading _ t => bundled src = inr t
    | Ended _ e => e = alone src \/ (e = Failed _ \/ e = Killed _) /\ unlucky i sched
    | _ => cached = None
    end.
  Lemma cold_run w scripts sched src i : (forall j src', nth_error scripts j = Some src' -> xxh64 src' = xxh64 src -> j = i) -> nth_error scripts i = Some src ->
    aget String.eqb (file_name src) (w_cache w) = None ->
    forall ph, nth_error (m_procs _ (running w scripts sched)) i = Some (src, ph) -> cold_phase (aget String.eqb (file_name src) (w_cache (m_world _ (running w scripts sched)))) i src sched ph.
  Proof.
    intros NC Si C0. induction sched as [|[j c] sched IH] using rev_ind.
    { intros ph H. unfold Compile.running in *. cbn [fold_left m_procs] in H. apply nth_start in H as [_ ->]. exact C0. }
    rewrite running_snoc. destruct (nth_error (m_procs _ (running w scripts sched)) j) as [[src' ph]|] eqn:Ej.
    2:{ unfold Compile.tick. cbn [fst]. rewrite Ej. intros ph H. specialize (IH ph H). destruct ph; try exact IH. destruct IH as [K|[K1 K2]]; [left; exact K|right; split; [exact K1|apply unlucky_snoc, K2]]. }
    destruct (advance src' (m_world _ (running w scripts sched)) ph c) as [w' ph'] eqn:Ea. rewrite (tick_procs _ _ _ _ _ Ej _ _ Ea). cbn [m_procs m_world].
    intros ph2 Hp. destruct (Nat.eq_dec j i) as [->|N].
    - rewrite (nth_put_eq _ _ _ _ Ej) in Hp. apply some_inj, pair_inj in Hp as [-> <-]. specialize (IH ph Ej).
      pose proof (t_ok _ _ (running_together w scripts sched) i src ph Ej) as Ok.
      assert (Un : forall e, (exists name, c = Works name) \/ (e = Failed program \/ e = Killed program -> (e = alone src \/ (e = Failed _ \/ e = Killed _) /\ unlucky i (sched ++ [(i, c)])))).
      { intros e. destruct c as [name|k|]; [left; eauto|right; intros K; right; split; [exact K|apply unlucky_last; discriminate]|right; intros K; right; split; [exact K|apply unlucky_last; discriminate]]. }
      destruct ph as [| |dir [|[nm tx] todo] alias|dir alias|dir alias|dir r|out|out|tx|e]; destruct c as [name|k|]; cbn [cold_phase] in IH; cbn [phase_ok] in Ok; cbn in Ea; rewrite ?IH in Ea;
        repeat match type of Ea with (match ?x with _ => _ end) = _ => destruct x eqn:? end; apply pair_inj in Ea as [<- <-]; cbn [cold_phase w_cache]; rewrite ?put_file_cache; try assumption;
        try (destruct (Un (Failed program)) as [[n K]|K]; [discriminate K|apply K; auto]); try (destruct (Un (Killed program)) as [[n K]|K]; [discriminate K|apply K; auto]);
        try (destruct r as [msg|out]; cbn [cold_phase]; [left; unfold Bundles.alone; destruct Ok as [<- _]; reflexivity|exact IH]);
        try (left; unfold Bundles.alone; rewrite IH; reflexivity);
        try (destruct IH as [K|[K1 K2]]; [left; exact K|right; split; [exact K1|apply unlucky_snoc, K2]]).
    - rewrite nth_put_ne in Hp by exact N. specialize (IH ph2 Hp).
      assert (F : aget String.eqb (file_name src) (w_cache w') = aget String.eqb (file_name src) (w_cache (m_world _ (running w scripts sched)))).
      { apply (step_cache _ _ _ _ _ _ _ Ea). intros F. apply N. apply (NC j src' (scripts_at _ _ _ _ _ _ Ej)). symmetry. apply show_N_inj. exact F. }
      rewrite F. destruct ph2; try exact IH. destruct IH as [K|[K1 K2]]; [left; exact K|right; split; [exact K1|apply unlucky_snoc, K2]].
  Qed.
  (** Each command runs the program of its own script and library, as if it were alone, however the commands' steps interleave and
      whatever befalls the others, if its bundle was in the cache already or no other command runs that script now. *)
  Theorem C97_own_program_partial : forall w scripts sched i src e,
    (forall j src', nth_error scripts j = Some src' -> xxh64 src' = xxh64 src -> src' = src) ->
    (exists out, aget String.eqb (file_name src) (w_cache w) = Some out /\ bundled src = inr out) \/
    (aget String.eqb (file_name src) (w_cache w) = None /\ forall j, nth_error scripts j = Some src -> j = i) ->
    nth_error (m_procs _ (running w scripts sched)) i = Some (src, Ended _ e) ->
    e = alone src \/ (e = Failed _ \/ e = Killed _) /\ unlucky i sched.
  Proof.
    intros w scripts sched i src e NC [(out & C0 & B)|[C0 U]] H.
    - exact (proj2 (warm_run w scripts sched src out NC C0 B) i _ H).
    - refine (cold_run w scripts sched src i _ (scripts_at _ _ _ _ _ _ H) C0 _ H). intros j src' Hj Hh. apply U. rewrite <- (NC j src' Hj Hh). exact Hj.
  Qed.
  (** Whatever fails and whoever runs the same script: what a command runs is its own script's bundle, or a beginning of it. *)
  Definition part_of (src t : string) : Prop := exists out, bundled src = inr out /\ (t = out \/ exists k, t = substring 0 k out).
  Lemma empty_part src out : bundled src = inr out -> part_of src "".
  Proof. intros B. exists out. split; [exact B|]. right. exists 0%nat. destruct out; reflexivity. Qed.
  Theorem C97_never_another_script : forall w scripts sched i src p,
    (forall j src', nth_error scripts j = Some src' -> xxh64 src' = xxh64 src -> src' = src) ->
    (forall t, aget String.eqb (file_name src) (w_cache w) = Some t -> part_of src t) ->
    nth_error (m_procs _ (running w scripts sched)) i = Some (src, Ended _ (Ran _ p)) ->
    exists out t, bundled src = inr out /\ (t = out \/ exists k, t = substring 0 k out) /\ load t = Some p.
  Proof.
    intros w scripts sched i src p NC C0 H.
    assert (K : (forall t, aget String.eqb (file_name src) (w_cache (m_world _ (running w scripts sched))) = Some t -> part_of src t) /\
      forall j ph, nth_error (m_procs _ (running w scripts sched)) j = Some (src, ph) ->
        match ph with Loading _ t => part_of src t | Ended _ (Ran _ q) => exists t, part_of src t /\ load t = Some q | _ => True end).
    { clear H. induction sched as [|[j c] sched [IH1 IH2]] using rev_ind.
      { split; [exact C0|]. intros j ph H. unfold Compile.running in H. cbn [fold_left m_procs] in H. apply nth_start in H as [_ ->]. exact Logic.I. }
      rewrite running_snoc. destruct (nth_error (m_procs _ (running w scripts sched)) j) as [[src' ph]|] eqn:Ej; [|unfold Compile.tick; cbn [fst]; rewrite Ej; split; assumption].
      destruct (advance src' (m_world _ (running w scripts sched)) ph c) as [w' ph'] eqn:Ea. rewrite (tick_procs _ _ _ _ _ Ej _ _ Ea). cbn [m_procs m_world].
      pose proof (t_ok _ _ (running_together w scripts sched) j src' ph Ej) as Ok.
      destruct (string_dec src' src) as [->|N].
      - specialize (IH2 j ph Ej) as IHp.
        assert (G : (forall t, aget String.eqb (file_name src) (w_cache w') = Some t -> part_of src t) /\
          match ph' with Loading _ t => part_of src t | Ended _ (Ran _ q) => exists t, part_of src t /\ load t = Some q | _ => True end).
        { destruct ph as [| |dir [|[nm tx] todo] alias|dir alias|dir alias|dir r|out|out|tx|e]; destruct c as [name|k|]; cbn [phase_ok] in Ok; cbn in Ea;
            repeat match type of Ea with (match ?x with _ => _ end) = _ => destruct x eqn:? end; apply pair_inj in Ea as [<- <-]; cbn [w_cache]; rewrite ?put_file_cache;
            try (split; [exact IH1|exact Logic.I]); try (split; [exact IH1|exact IHp]); try (split; [intros t0 E0; apply IH1; congruence|apply IH1; reflexivity]); try (split; [intros t0 E0; apply IH1; congruence|exact Logic.I]);
            try (split; [exact IH1|destruct r; exact Logic.I]);
            try (split; [exact IH1|destruct (load tx) eqn:EL; [exists tx; auto|exact Logic.I]]).
          - split; [|exact Logic.I]. intros t. rewrite (aget_aset_eq _ string_eqb_reflect). intros E. apply some_inj in E. subst t. eapply empty_part, Ok.
          - assert (P : part_of src out) by (exists out; auto). split; [|exact P]. intros t. rewrite (aget_aset_eq _ string_eqb_reflect). intros E. apply some_inj in E. subst t. exact P.
          - split; [|exact Logic.I]. intros t. rewrite (aget_aset_eq _ string_eqb_reflect). intros E. apply some_inj in E. subst t. exists out. split; [exact Ok|]. right. eauto. }
        split; [apply G|]. intros j2 ph2 Hj. destruct (Nat.eq_dec j j2) as [<-|N']; [|rewrite nth_put_ne in Hj by exact N'; apply (IH2 j2), Hj].
        rewrite (nth_put_eq _ _ _ _ Ej) in Hj. apply some_inj, pair_inj in Hj as [_ <-]. apply G.
      - split.
        + intros t. rewrite (step_cache _ _ _ _ _ _ _ Ea); [apply IH1|]. intros F. apply N. apply (NC j src' (scripts_at _ _ _ _ _ _ Ej)). symmetry. apply show_N_inj. exact F.
        + intros j2 ph2 Hj. destruct (Nat.eq_dec j j2) as [<-|N']; [rewrite (nth_put_eq _ _ _ _ Ej) in Hj; apply some_inj, pair_inj in Hj as [K _]; congruence|]. rewrite nth_put_ne in Hj by exact N'. apply (IH2 j2), Hj. }
    destruct (proj2 K i _ H) as (t & (out & B & T) & L). exists out, t. auto.
  Qed.
End C97.

(** ------ concrete commands: loading is the identity, bundling puts the library before the script *)
Definition toy_load (t : string) : option string := Some t.
Definition toy_bundler (fs alias : files) : string + string :=
  match aget String.eqb "@requiemdb/rq" alias, aget String.eqb "rq.js" fs, aget String.eqb "index.ts" fs with
  | Some p, Some l, Some s => if String.eqb p "./rq.js" then inr (append l s) else inl "no library"%string
  | _, _, _ => inl "no file"%string
  end.
Definition tmp : amap string files := [("other"%string, [("x"%string, "y"%string)])].
Definition toy_run (scripts : list string) (sched : list (nat * chance)) : machine string := running string toy_load toy_bundler "lib;" (World [] tmp) scripts sched.
Definition steps (i : nat) (n : nat) (name : string) : list (nat * chance) := repeat (i, Works name) n.
(** Two commands with different scripts, taking turns; the second tries the first one's directory name before another. *)
Definition turns : list (nat * chance) := steps 0 2 "a" ++ steps 1 2 "a" ++ steps 1 2 "b" ++ steps 0 3 "" ++ steps 1 3 "" ++ steps 0 6 "" ++ steps 1 6 "".
Example C97_turns : calm_schedule turns /\ toy_run ["s1"; "s2"]%string turns =
  Machine _ (World [(file_name "s1", "lib;s1"); (file_name "s2", "lib;s2")]%string tmp) [("s1", Ended _ (Ran _ "lib;s1")); ("s2", Ended _ (Ran _ "lib;s2"))]%string.
Proof.
  split; [|vm_compute; reflexivity]. intros i c H. unfold turns, steps in H. repeat match type of H with In _ (_ ++ _) => apply in_app_iff in H as [H|H] end; apply repeat_spec in H; injection H as -> ->; eauto.
Qed.
Example C97_turns_hashes : forall j src', nth_error ["s1"; "s2"]%string j = Some src' -> xxh64 src' = xxh64 "s1" -> src' = "s1"%string.
Proof. intros [|[|j]] src' E H; cbn in E; [congruence| |destruct j; discriminate E]. apply some_inj in E. subst src'. exfalso. vm_compute in H. discriminate H. Qed.
(** A full disk: the command reports the error and leaves its directory, with half the script, in the temporary directory. *)
Theorem C97_directory_left_refuted : toy_run ["script"]%string (steps 0 4 "a" ++ [(0%nat, Fails 3)]) =
  Machine _ (World [] (tmp ++ [("a", [("rq.js", "lib;"); ("index.ts", "scr")])]%string)%list) [("script", Ended _ (Failed _))]%string.
Proof. vm_compute. reflexivity. Qed.
(** The same script twice at the same time, everything working: the second command finds the file the first is about to write, still
    empty, and runs the empty program.  It reports no error. *)
Theorem C97_same_script_refuted : let sched := steps 0 8 "a" ++ steps 1 2 "" ++ steps 0 2 "" in
  calm_schedule sched /\ m_procs _ (toy_run ["s"; "s"]%string sched) = [("s", Ended _ (Ran _ "lib;s")); ("s", Ended _ (Ran _ ""))]%string /\
  alone toy_load toy_bundler "lib;" "s" = Ran _ "lib;s"%string.
Proof.
  cbv zeta. split; [|split; vm_compute; reflexivity]. intros i c H. unfold steps in H. repeat match type of H with In _ (_ ++ _) => apply in_app_iff in H as [H|H] end; apply repeat_spec in H; injection H as -> ->; eauto.
Qed.
Print Assumptions C97_others_untouched.
Print Assumptions C97_nothing_left_partial.
Print Assumptions C97_own_program_partial.
Print Assumptions C97_directory_left_refuted.
Print Assumptions C97_same_script_refuted.
Print Assumptions C97_never_another_script.
