From Verif.Model Require Import Base Codec.
From Verif.Spec Require Import Codecs.
From Verif.Proofs Require Import BaseFacts.
From Coq Require Import Lia.

Section Facts.
Context (target call : Type).
Notation instr := (instr target call).
Notation machine := (machine target call).
Lemma alone_app (t : target) (cs : list call) : forall past c, alone _ _ t past (cs ++ [c]) = alone _ _ t past cs ++ [((Some t, past ++ cs), c)].
Proof. induction cs as [|x cs IH]; intros past c; cbn; [rewrite app_nil_r; reflexivity|]. rewrite IH, <- app_assoc. reflexivity. Qed.
Lemma alone_length (t : target) (cs : list call) : forall past, List.length (alone _ _ t past cs) = List.length cs.
Proof. induction cs; intros past; cbn; auto. Qed.
Lemma alone_prefix (t : target) (a b : list call) : forall past, firstn (List.length a) (alone _ _ t past (a ++ b)) = alone _ _ t past a.
Proof. induction a as [|x a IH]; intros past; cbn; [reflexivity|]. rewrite IH. reflexivity. Qed.

(** Where a stream is in its use; [x]: the calls made after the end. *)
Inductive phase := PIdle | PGot | POpen (past : list call) | PClean | PFree | PGone.
Definition p_past (cs : list call) (p : phase) : list call := match p with PIdle | PGot => [] | POpen past => past | PClean | PFree | PGone => cs end.
Definition holds (p : phase) : bool := match p with PGot | POpen _ | PClean => true | _ => false end.
Inductive tail_ : list call -> list instr -> Prop :=
| tail_left : tail_ [] []
| tail_fn : tail_ [] [IReset None; IPut]
| tail_stream x : tail_ x (IReset None :: IReset None :: IPut :: IForget :: map ICall x).
Inductive at_ (t : target) (cs x : list call) : phase -> list instr -> Prop :=
| at_idle tl : tail_ x tl -> at_ t cs x PIdle (IGet :: IReset (Some t) :: map ICall cs ++ tl)
| at_got tl : tail_ x tl -> at_ t cs x PGot (IReset (Some t) :: map ICall cs ++ tl)
| at_open past rest tl : cs = past ++ rest -> tail_ x tl -> at_ t cs x (POpen past) (map ICall rest ++ tl)
| at_clean2 : at_ t cs x PClean (IReset None :: IPut :: IForget :: map ICall x)
| at_clean1 : at_ t cs x PClean (IPut :: IForget :: map ICall x)
| at_clean1f : x = [] -> at_ t cs x PClean [IPut]
| at_free1 : at_ t cs x PFree (IForget :: map ICall x)
| at_free0 : x = [] -> at_ t cs x PFree []
| at_gone : at_ t cs x PGone (map ICall x)
| at_dead : at_ t cs x PGone [].
Lemma flat_single {A B} (f : A -> B) l : flat_map (fun x => [f x]) l = map f l. Proof. induction l; cbn; congruence. Qed.
Definition cause (u : use target call * list call) : list call := misuse _ _ (fst u) (snd u).
Lemma program_shape u : exists tl, tail_ (cause u) tl /\ full_program target call u = IGet :: IReset (Some (goal _ _ (fst u))) :: map ICall (calls _ _ (fst u)) ++ tl.
Proof.
  destruct u as [u x]. unfold full_program, cause, misuse. cbn [fst snd].
  destruct u as [t ws [c|]|t rs [c|]|t rs c|t w c [|]|t c]; cbn [program calls goal opt_list ended]; unfold open_stream, get_codec, stream_write, stream_close, stream_read, stream_write_to, compress_fn, decompress_fn, put_codec, get_codec;
    rewrite ?flat_single, ?map_app, ?app_nil_r; cbn [map app].
  - exists (IReset None :: IReset None :: IPut :: IForget :: map ICall x). split; [constructor|]. rewrite <- !app_assoc. reflexivity.
  - exists []. split; [constructor|]. rewrite ?app_nil_r. reflexivity.
  - exists (IReset None :: IReset None :: IPut :: IForget :: map ICall x). split; [constructor|]. rewrite <- !app_assoc. reflexivity.
  - exists []. split; [constructor|]. rewrite ?app_nil_r. reflexivity.
  - exists (IReset None :: IReset None :: IPut :: IForget :: map ICall x). split; [constructor|]. rewrite <- !app_assoc. reflexivity.
  - exists [IReset None; IPut]. split; [constructor|reflexivity].
  - exists [IReset None; IPut]. split; [constructor|reflexivity].
  - exists [IReset None; IPut]. split; [constructor|reflexivity].
Qed.
Lemma upd_same {A} (f : nat -> A) i a : upd f i a i = a. Proof. unfold upd. rewrite Nat.eqb_refl. reflexivity. Qed.
Lemma upd_other {A} (f : nat -> A) i j a : j <> i -> upd f i a j = f j. Proof. unfold upd. destruct (Nat.eqb_spec j i); congruence. Qed.
Lemma lset_length {A} (l : list A) : forall n a, List.length (lset l n a) = List.length l. Proof. induction l; intros [|n] x; cbn; auto. Qed.
Lemma lset_same {A} (l : list A) d : forall n a, (n < List.length l)%nat -> nth n (lset l n a) d = a.
Proof. induction l; intros [|n] x H; cbn in *; try lia; [reflexivity|]. apply IHl. lia. Qed.
Lemma lset_other {A} (l : list A) d : forall n k a, n <> k -> nth k (lset l n a) d = nth k l d.
Proof. induction l; intros [|n] [|k] x H; cbn in *; try congruence; auto. Qed.

Record Inv (uses : nat -> use target call * list call) (ph : nat -> phase) (m : machine) : Prop := {
  I_at : forall i, at_ (goal _ _ (fst (uses i))) (calls _ _ (fst (uses i))) (cause (uses i)) (ph i) (m_todo _ _ m i);
  I_calm : forall i, ph i <> PGone -> m_crashed _ _ m i = false;
  I_gone : forall i, ph i = PGone -> m_field _ _ m i = None /\
             ((m_todo _ _ m i = map ICall (cause (uses i)) /\ m_crashed _ _ m i = false) \/ (m_todo _ _ m i = [] /\ m_crashed _ _ m i = true /\ cause (uses i) <> []));
  I_met : forall i, met _ _ m i = alone _ _ (goal _ _ (fst (uses i))) [] (p_past (calls _ _ (fst (uses i))) (ph i));
  I_held : forall i, holds (ph i) = true -> exists e, m_field _ _ m i = Some e /\ (e < List.length (m_heap _ _ m))%nat /\ ~ In e (m_pool _ _ m) /\
             (forall past, ph i = POpen past -> state_of _ _ m e = (Some (goal _ _ (fst (uses i))), past)) /\ (ph i = PClean -> state_of _ _ m e = (None, []));
  I_alone : forall i j e, holds (ph i) = true -> holds (ph j) = true -> m_field _ _ m i = Some e -> m_field _ _ m j = Some e -> i = j;
  I_pool : NoDup (m_pool _ _ m) /\ forall e, In e (m_pool _ _ m) -> (e < List.length (m_heap _ _ m))%nat /\ state_of _ _ m e = (None, []) }.
Lemma boot_inv uses : Inv uses (fun _ => PIdle) (boot _ _ (fun i => full_program _ _ (uses i))).
Proof.
  constructor; cbn.
  - intros i. destruct (program_shape (uses i)) as (tl & T & ->). constructor; exact T.
  - reflexivity.
  - discriminate.
  - reflexivity.
  - discriminate.
  - discriminate.
  - split; [constructor|intros e []].
Qed.
Lemma at_get t cs x p r : at_ t cs x p (IGet :: r) -> p = PIdle /\ at_ t cs x PGot r.
Proof.
  intros H. remember (IGet :: r) as l eqn:E. destruct H as [tl T|tl T|past rest tl C T| | |Ex| |Ex| |]; try discriminate E.
  - injection E as <-. split; [reflexivity|]. constructor; exact T.
  - destruct rest; [destruct T; discriminate E|discriminate E].
  - destruct x; discriminate E.
Qed.
Lemma at_reset t cs x p y r : at_ t cs x p (IReset y :: r) ->
  (p = PGot /\ y = Some t /\ at_ t cs x (POpen []) r) \/ ((p = POpen cs \/ p = PClean) /\ y = None /\ at_ t cs x PClean r).
Proof.
  intros H. remember (IReset y :: r) as l eqn:E. destruct H as [tl T|tl T|past rest tl C T| | |Ex| |Ex| |]; try discriminate E.
  - injection E as <- <-. left. split; [reflexivity|]. split; [reflexivity|]. apply (at_open t cs x [] cs); [reflexivity|exact T].
  - destruct rest as [|c rest]; [|discriminate E]. cbn [map app] in E. rewrite app_nil_r in C. subst past. right. destruct T; [discriminate E| |].
    + injection E as <- <-. split; [left; reflexivity|]. split; [reflexivity|]. apply at_clean1f. reflexivity.
    + injection E as <- <-. split; [left; reflexivity|]. split; [reflexivity|]. constructor.
  - injection E as <- <-. right. split; [right; reflexivity|]. split; [reflexivity|]. constructor.
  - destruct x; discriminate E.
Qed.
Lemma at_call t cs x p c r : at_ t cs x p (ICall c :: r) -> p = PGone \/ exists past, p = POpen past /\ at_ t cs x (POpen (past ++ [c])) r.
Proof.
  intros H. remember (ICall c :: r) as l eqn:E. destruct H as [tl T|tl T|past rest tl C T| | |Ex| |Ex| |]; try discriminate E; [|left; reflexivity].
  destruct rest as [|c' rest]; [destruct T; discriminate E|]. cbn [map app] in E. injection E as -> <-. right. exists past. split; [reflexivity|]. apply at_open; [|exact T]. rewrite C, <- app_assoc. reflexivity.
Qed.
Lemma at_put t cs x p r : at_ t cs x p (IPut :: r) -> p = PClean /\ at_ t cs x PFree r.
Proof.
  intros H. remember (IPut :: r) as l eqn:E. destruct H as [tl T|tl T|past rest tl C T| | |Ex| |Ex| |]; try discriminate E.
  - destruct rest; [destruct T; discriminate E|discriminate E].
  - injection E as <-. split; [reflexivity|constructor].
  - injection E as <-. split; [reflexivity|]. apply at_free0, Ex.
  - destruct x; discriminate E.
Qed.
Lemma at_forget t cs x p r : at_ t cs x p (IForget :: r) -> p = PFree /\ r = map ICall x.
Proof.
  intros H. remember (IForget :: r) as l eqn:E. destruct H as [tl T|tl T|past rest tl C T| | |Ex| |Ex| |]; try discriminate E.
  - destruct rest; [destruct T; discriminate E|discriminate E].
  - injection E as <-. split; reflexivity.
  - destruct x; discriminate E.
Qed.
Lemma at_todo (m : machine) t cs x ph p i r : (forall j, at_ (t j) (cs j) (x j) (ph j) (m_todo _ _ m j)) -> at_ (t i) (cs i) (x i) p r -> forall j, at_ (t j) (cs j) (x j) (upd ph i p j) (upd (m_todo _ _ m) i r j).
Proof. intros H A j. unfold upd. destruct (Nat.eqb_spec j i) as [->|N]; [exact A|apply H]. Qed.
Lemma holds_upd ph i p j : holds (upd ph i p j) = true -> (j = i /\ holds p = true) \/ (j <> i /\ holds (ph j) = true).
Proof. unfold upd. destruct (Nat.eqb_spec j i); auto. Qed.
Lemma met_snoc (m : machine) h pl f td cr i x k j : met target call (advance _ _ (Machine _ _ h pl f td (m_log _ _ m ++ [(i, x)]) cr) k) j = met _ _ m j ++ (if Nat.eqb i j then [x] else []).
Proof. unfold met, advance. cbn [m_log]. rewrite filter_app, map_app. cbn [filter fst]. destruct (Nat.eqb i j); reflexivity. Qed.

Lemma calm_upd (cr : nat -> bool) ph i p : (forall j, ph j <> PGone -> cr j = false) -> ph i <> PGone -> forall j, upd ph i p j <> PGone -> cr j = false.
Proof. intros H N j. unfold upd. destruct (Nat.eqb_spec j i) as [->|Nj]; intros G; apply H; assumption. Qed.
Lemma gone_upd (Q : nat -> option nat -> list instr -> bool -> Prop) (f f' : nat -> option nat) (td td' : nat -> list instr) (cr : nat -> bool) ph i p : (forall j, ph j = PGone -> Q j (f j) (td j) (cr j)) -> p <> PGone ->
  (forall j, j <> i -> f' j = f j) -> (forall j, j <> i -> td' j = td j) -> forall j, upd ph i p j = PGone -> Q j (f' j) (td' j) (cr j).
Proof. intros H N Ef Et j. unfold upd. destruct (Nat.eqb_spec j i) as [->|Nj]; [contradiction|]. intros G. rewrite Ef, Et by exact Nj. apply H, G. Qed.
Definition gone_ok uses (j : nat) (f : option nat) (td : list instr) (cr : bool) : Prop :=
  f = None /\ ((td = map ICall (cause (uses j)) /\ cr = false) \/ (td = [] /\ cr = true /\ cause (uses j) <> [])).

Lemma step_inv uses ph m m' : Inv uses ph m -> step _ _ m m' -> exists ph', Inv uses ph' m'.
Proof.
  intros [IA IC IG IM IH IX [IP1 IP2]] S. destruct S as [m a e b P|m i rest a e b T P|m i rest T|m i rest t e T F|m i rest c e T F|m i rest e T F|m i rest T|m i x rest T Nx1 Nx2 F].
  - (* the pool forgets one *)
    exists ph. rewrite P in *. constructor; cbn; auto.
    + intros i H. destruct (IH i H) as (e' & E1 & E2 & E3 & E4). exists e'. split; [exact E1|]. split; [exact E2|]. split; [|exact E4]. intros C. apply E3. apply in_app_iff in C. apply in_app_iff. cbn. tauto.
    + split; [eapply NoDup_remove_1, IP1|]. intros e' H. apply IP2. apply in_app_iff in H. apply in_app_iff. cbn. tauto.
  - (* Get of a pooled one *)
    pose proof (IA i) as A. rewrite T in A. apply at_get in A as [Pi A].
    assert (He : In e (m_pool _ _ m)) by (rewrite P; apply in_app_iff; right; left; reflexivity).
    exists (upd ph i PGot). constructor; cbn.
    + rewrite T. cbn [tl]. apply at_todo; assumption.
    + apply calm_upd; [exact IC|rewrite Pi; discriminate].
    + apply (gone_upd (gone_ok uses) (m_field _ _ m) _ (m_todo _ _ m) _ (m_crashed _ _ m)); [exact IG|discriminate|intros j N; cbn; rewrite ?upd_other by exact N; reflexivity|intros j N; cbn; rewrite upd_other by exact N; reflexivity].
    + intros j. unfold met. cbn. fold (met _ _ m j). rewrite IM. unfold upd. destruct (Nat.eqb_spec j i) as [->|N]; [rewrite Pi|]; reflexivity.
    + intros j H. apply holds_upd in H as [[-> _]|[N H]].
      * exists e. rewrite upd_same. split; [reflexivity|]. split; [apply IP2, He|]. split; [rewrite P in IP1; apply NoDup_remove_2, IP1|]. rewrite upd_same. split; intros; discriminate.
      * rewrite !upd_other by exact N. destruct (IH j H) as (e' & E1 & E2 & E3 & E4). exists e'. split; [exact E1|]. split; [exact E2|]. split; [|exact E4]. intros C. apply E3. rewrite P. apply in_app_iff in C. apply in_app_iff. cbn. tauto.
    + intros j k e' Hj Hk. apply holds_upd in Hj as [[-> _]|[Nj Hj]], Hk as [[-> _]|[Nk Hk]]; rewrite ?upd_same, ?upd_other by assumption; intros F1 F2; [reflexivity| | |apply (IX j k e' Hj Hk F1 F2)].
      * apply some_inj in F1. subst e'. destruct (IH k Hk) as (e' & E1 & _ & E3 & _). rewrite F2 in E1. apply some_inj in E1. subst e'. contradiction.
      * apply some_inj in F2. subst e'. destruct (IH j Hj) as (e' & E1 & _ & E3 & _). rewrite F1 in E1. apply some_inj in E1. subst e'. contradiction.
    + rewrite P in *. split; [eapply NoDup_remove_1, IP1|]. intros e' H. apply IP2. apply in_app_iff in H. apply in_app_iff. cbn. tauto.
  - (* Get of a new one *)
    pose proof (IA i) as A. rewrite T in A. apply at_get in A as [Pi A].
    assert (Old : forall e', (e' < List.length (m_heap _ _ m))%nat -> nth e' (m_heap _ _ m ++ [(None, [])]) (None, []) = state_of _ _ m e') by (intros e' H; apply app_nth1, H).
    exists (upd ph i PGot). constructor; cbn.
    + rewrite T. cbn [tl]. apply at_todo; assumption.
    + apply calm_upd; [exact IC|rewrite Pi; discriminate].
    + apply (gone_upd (gone_ok uses) (m_field _ _ m) _ (m_todo _ _ m) _ (m_crashed _ _ m)); [exact IG|discriminate|intros j N; cbn; rewrite ?upd_other by exact N; reflexivity|intros j N; cbn; rewrite upd_other by exact N; reflexivity].
    + intros j. unfold met. cbn. fold (met _ _ m j). rewrite IM. unfold upd. destruct (Nat.eqb_spec j i) as [->|N]; [rewrite Pi|]; reflexivity.
    + intros j H. rewrite app_length. cbn [List.length]. apply holds_upd in H as [[-> _]|[N H]].
      * exists (List.length (m_heap _ _ m)). rewrite upd_same. split; [reflexivity|]. split; [lia|]. split; [intros C; apply IP2 in C as [C _]; lia|]. rewrite upd_same. split; intros; discriminate.
      * rewrite !upd_other by exact N. destruct (IH j H) as (e' & E1 & E2 & E3 & E4). exists e'. split; [exact E1|]. split; [lia|]. split; [exact E3|]. unfold state_of in *. cbn [m_heap advance] in *. rewrite (Old _ E2). exact E4.
    + intros j k e' Hj Hk. apply holds_upd in Hj as [[-> _]|[Nj Hj]], Hk as [[-> _]|[Nk Hk]]; rewrite ?upd_same, ?upd_other by assumption; intros F1 F2; [reflexivity| | |apply (IX j k e' Hj Hk F1 F2)].
      * apply some_inj in F1. subst e'. destruct (IH k Hk) as (e' & E1 & E2 & _). rewrite F2 in E1. apply some_inj in E1. lia.
      * apply some_inj in F2. subst e'. destruct (IH j Hj) as (e' & E1 & E2 & _). rewrite F1 in E1. apply some_inj in E1. lia.
    + split; [exact IP1|]. intros e' H. apply IP2 in H as [H1 H2]. rewrite app_length. cbn [List.length]. split; [lia|]. unfold state_of in *. cbn [m_heap advance] in *. rewrite (Old _ H1). exact H2.
  - (* Reset *)
    pose proof (IA i) as A. rewrite T in A. apply at_reset in A.
    assert (Hi : holds (ph i) = true) by (destruct A as [(-> & _) | ([ -> | -> ] & _)]; reflexivity).
    destruct (IH i Hi) as (e0 & E1 & E2 & E3 & _). rewrite F in E1. apply some_inj in E1. subst e0.
    set (p := match t with Some _ => POpen [] | None => PClean end).
    assert (A' : at_ (goal _ _ (fst (uses i))) (calls _ _ (fst (uses i))) (cause (uses i)) p rest /\ p_past (calls _ _ (fst (uses i))) p = p_past (calls _ _ (fst (uses i))) (ph i) /\ (t = None \/ t = Some (goal _ _ (fst (uses i)))) /\ holds p = true).
    { unfold p. destruct A as [(-> & -> & A) | ([ -> | -> ] & -> & A)]; auto. }
    clear A. destruct A' as (A & Pp & Tt & Hp).
    assert (Oth : forall e', e' <> e -> nth e' (lset (m_heap _ _ m) e (t, [])) (None, []) = state_of _ _ m e') by (intros e' N; apply lset_other; congruence).
    exists (upd ph i p). constructor; cbn.
    + rewrite T. cbn [tl]. apply at_todo; assumption.
    + apply calm_upd; [exact IC|intros G; rewrite G in Hi; discriminate].
    + apply (gone_upd (gone_ok uses) (m_field _ _ m) _ (m_todo _ _ m) _ (m_crashed _ _ m)); [exact IG|intros G; rewrite G in Hp; discriminate|intros j N; cbn; rewrite ?upd_other by exact N; reflexivity|intros j N; cbn; rewrite upd_other by exact N; reflexivity].
    + intros j. unfold met. cbn. fold (met _ _ m j). rewrite IM. unfold upd. destruct (Nat.eqb_spec j i) as [->|N]; [rewrite Pp|]; reflexivity.
    + intros j H. rewrite lset_length. apply holds_upd in H as [[-> _]|[N H]].
      * exists e. rewrite upd_same. split; [exact F|]. split; [exact E2|]. split; [exact E3|]. unfold state_of in *. cbn [m_heap advance with_heap] in *. rewrite lset_same by exact E2. unfold p. split.
        -- intros past Q. destruct t; [|discriminate]. injection Q as <-. destruct Tt as [Tt|Tt]; [discriminate|]. rewrite Tt. reflexivity.
        -- destruct t; [discriminate|reflexivity].
      * rewrite !upd_other by exact N. destruct (IH j H) as (e' & G1 & G2 & G3 & G4). assert (Ne : e' <> e) by (intros ->; apply N; apply (IX j i e H Hi G1 F)). exists e'. split; [exact G1|]. split; [exact G2|]. split; [exact G3|]. unfold state_of in *. cbn [m_heap advance with_heap] in *. rewrite (Oth _ Ne). exact G4.
    + intros j k e' Hj Hk. apply holds_upd in Hj as [[-> _]|[Nj Hj]], Hk as [[-> _]|[Nk Hk]]; intros F1 F2; [reflexivity| | |apply (IX j k e' Hj Hk F1 F2)]; [apply (IX i k e'); assumption|apply (IX j i e'); assumption].
    + split; [exact IP1|]. intros e' H. rewrite lset_length. assert (Ne : e' <> e) by (intros ->; contradiction). unfold state_of in *. cbn [m_heap advance with_heap] in *. rewrite (Oth _ Ne). apply IP2, H.
  - (* a call *)
    pose proof (IA i) as A. rewrite T in A. apply at_call in A as [G|(past & Pi & A)]; [destruct (IG i G) as [G' _]; congruence|].
    assert (Hi : holds (ph i) = true) by (rewrite Pi; reflexivity).
    destruct (IH i Hi) as (e0 & E1 & E2 & E3 & E4 & _). rewrite F in E1. apply some_inj in E1. subst e0. specialize (E4 past Pi).
    assert (Oth : forall x e', e' <> e -> nth e' (lset (m_heap _ _ m) e x) (None, []) = state_of _ _ m e') by (intros x e' N; apply lset_other; congruence).
    exists (upd ph i (POpen (past ++ [c]))). constructor; cbn [m_heap m_pool m_field m_todo m_log m_crashed].
    + cbn [advance m_todo]. rewrite T. cbn [tl]. apply at_todo; assumption.
    + apply calm_upd; [exact IC|rewrite Pi; discriminate].
    + apply (gone_upd (gone_ok uses) (m_field _ _ m) _ (m_todo _ _ m) _ (m_crashed _ _ m)); [exact IG|discriminate|intros j N; cbn; rewrite ?upd_other by exact N; reflexivity|intros j N; cbn; rewrite upd_other by exact N; reflexivity].
    + intros j. rewrite met_snoc, IM, E4. unfold upd. rewrite (Nat.eqb_sym j i). destruct (Nat.eqb_spec i j) as [<-|N]; [|apply app_nil_r]. rewrite Pi. cbn [p_past]. rewrite alone_app. reflexivity.
    + intros j H. cbn [m_heap advance m_field m_pool]. rewrite lset_length. apply holds_upd in H as [[-> _]|[N H]].
      * exists e. rewrite upd_same. split; [exact F|]. split; [exact E2|]. split; [exact E3|]. unfold state_of in *. cbn [m_heap advance m_field m_pool] in *. rewrite !lset_same by exact E2. rewrite E4. cbn [fst snd]. split; [|discriminate]. intros past' Q. injection Q as <-. reflexivity.
      * rewrite !upd_other by exact N. destruct (IH j H) as (e' & G1 & G2 & G3 & G4). assert (Ne : e' <> e) by (intros ->; apply N; apply (IX j i e H Hi G1 F)). exists e'. split; [exact G1|]. split; [exact G2|]. split; [exact G3|]. unfold state_of in *. cbn [m_heap advance m_field m_pool] in *. rewrite !(Oth _ _ Ne). exact G4.
    + intros j k e' Hj Hk. apply holds_upd in Hj as [[-> _]|[Nj Hj]], Hk as [[-> _]|[Nk Hk]]; intros F1 F2; [reflexivity| | |apply (IX j k e' Hj Hk F1 F2)]; [apply (IX i k e'); assumption|apply (IX j i e'); assumption].
    + split; [exact IP1|]. intros e' H. cbn [m_heap advance m_field m_pool]. rewrite lset_length. assert (Ne : e' <> e) by (intros ->; contradiction). unfold state_of in *. cbn [m_heap advance m_field m_pool] in *. rewrite (Oth _ _ Ne). apply IP2, H.
  - (* Put *)
    pose proof (IA i) as A. rewrite T in A. apply at_put in A as (Pi & A).
    assert (Hi : holds (ph i) = true) by (rewrite Pi; reflexivity).
    destruct (IH i Hi) as (e0 & E1 & E2 & E3 & _ & E5). rewrite F in E1. apply some_inj in E1. subst e0. specialize (E5 Pi).
    exists (upd ph i PFree). constructor; cbn.
    + rewrite T. cbn [tl]. apply at_todo; assumption.
    + apply calm_upd; [exact IC|rewrite Pi; discriminate].
    + apply (gone_upd (gone_ok uses) (m_field _ _ m) _ (m_todo _ _ m) _ (m_crashed _ _ m)); [exact IG|discriminate|intros j N; cbn; rewrite ?upd_other by exact N; reflexivity|intros j N; cbn; rewrite upd_other by exact N; reflexivity].
    + intros j. unfold met. cbn. fold (met _ _ m j). rewrite IM. unfold upd. destruct (Nat.eqb_spec j i) as [->|N]; [rewrite Pi|]; reflexivity.
    + intros j H. apply holds_upd in H as [[_ H]|[N H]]; [discriminate|]. rewrite upd_other by exact N. destruct (IH j H) as (e' & G1 & G2 & G3 & G4). assert (Ne : e' <> e) by (intros ->; apply N; apply (IX j i e H Hi G1 F)). exists e'. split; [exact G1|]. split; [exact G2|]. split; [|exact G4]. intros [C|C]; [congruence|contradiction].
    + intros j k e' Hj Hk. apply holds_upd in Hj as [[_ Hj]|[Nj Hj]]; [discriminate|]. apply holds_upd in Hk as [[_ Hk]|[Nk Hk]]; [discriminate|]. apply (IX j k e' Hj Hk).
    + split; [constructor; assumption|]. intros e' [<-|H]; [split; assumption|apply IP2, H].
  - (* the field is cleared *)
    pose proof (IA i) as A. rewrite T in A. apply at_forget in A as (Pi & ->).
    assert (Cr : m_crashed _ _ m i = false) by (apply IC; rewrite Pi; discriminate).
    exists (upd ph i PGone). constructor; cbn.
    + rewrite T. cbn [tl]. apply at_todo; [exact IA|constructor].
    + intros j. unfold upd. destruct (Nat.eqb_spec j i) as [->|N]; [intros _; exact Cr|apply IC].
    + intros j. rewrite T. cbn [tl]. unfold upd. destruct (Nat.eqb_spec j i) as [->|N]; [intros _; split; [reflexivity|]; left; auto|apply IG].
    + intros j. unfold met. cbn. fold (met _ _ m j). rewrite IM. unfold upd. destruct (Nat.eqb_spec j i) as [->|N]; [rewrite Pi|]; reflexivity.
    + intros j H. apply holds_upd in H as [[_ H]|[N H]]; [discriminate|]. rewrite !upd_other by exact N. apply (IH j H).
    + intros j k e' Hj Hk. apply holds_upd in Hj as [[_ Hj]|[Nj Hj]]; [discriminate|]. apply holds_upd in Hk as [[_ Hk]|[Nk Hk]]; [discriminate|]. rewrite !upd_other by assumption. apply (IX j k e' Hj Hk).
    + split; assumption.
  - (* only a misused stream meets a nil codec *)
    assert (G : ph i = PGone).
    { pose proof (IA i) as A. rewrite T in A. destruct x as [|t|c| |]; [congruence| | | |congruence].
      - assert (Hi : holds (ph i) = true) by (apply at_reset in A as [(-> & _) | ([ -> | -> ] & _)]; reflexivity). destruct (IH i Hi) as (e & E & _). congruence.
      - apply at_call in A as [G|(past & Pi & A)]; [exact G|]. assert (Hi : holds (ph i) = true) by (rewrite Pi; reflexivity). destruct (IH i Hi) as (e & E & _). congruence.
      - apply at_put in A as (Pi & _). assert (Hi : holds (ph i) = true) by (rewrite Pi; reflexivity). destruct (IH i Hi) as (e & E & _). congruence. }
    destruct (IG i G) as [_ [[E C]|[E _]]]; [|congruence].
    exists ph. constructor; cbn.
    + intros j. unfold upd. destruct (Nat.eqb_spec j i) as [->|N]; [rewrite G; constructor|apply IA].
    + intros j Hj. unfold upd. destruct (Nat.eqb_spec j i) as [->|N]; [contradiction|apply IC, Hj].
    + intros j Hj. unfold upd. destruct (Nat.eqb_spec j i) as [->|N]; [|apply IG, Hj]. split; [exact F|]. right. split; [reflexivity|]. split; [reflexivity|]. intros Q. rewrite Q in E. cbn in E. congruence.
    + exact IM.
    + exact IH.
    + exact IX.
    + split; assumption.
Qed.
Lemma steps_inv uses m m' : (exists ph, Inv uses ph m) -> steps _ _ m m' -> exists ph, Inv uses ph m'.
Proof. intros H S. induction S as [m|m m' m'' S IHS St]; [exact H|]. destruct (IHS H) as [ph Q]. eapply step_inv; eassumption. Qed.
End Facts.
