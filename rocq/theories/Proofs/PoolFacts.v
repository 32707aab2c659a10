(** An object that is clean when it comes back isolates the requests that share it. *)
From Verif.Model Require Import Base View Pool.
From Verif.Spec Require Import Requests.

Section Facts.
  Context {T op R S : Type} (vis : R -> list S) (fresh : T) (act : op -> T -> T * list R) (clean : T -> T).
  (** The object a request holds, and the one it would hold if it were alone, cannot be told apart. *)
  Context (sim : T -> T -> Prop).
  Hypothesis sim_fresh : sim fresh fresh.
  Hypothesis sim_act : forall o t u, sim t u -> sim (fst (act o t)) (fst (act o u)) /\ flat_map vis (snd (act o t)) = flat_map vis (snd (act o u)).
  Hypothesis sim_clean : forall t u, sim t u -> sim (clean t) fresh.

  Lemma in_without {A} (n : nat) (l : list A) x : In x (without n l) -> In x l.
  Proof.
    unfold without. intros H. apply in_app_iff in H. destruct H as [H|H].
    - rewrite <- (firstn_skipn n l). apply in_app_iff. left. exact H.
    - rewrite <- (firstn_skipn (Datatypes.S n) l). apply in_app_iff. right. exact H.
  Qed.
  Lemma results_app h (a b : list (nat * R)) : results_of h (a ++ b) = results_of h a ++ results_of h b.
  Proof. unfold results_of. rewrite filter_app, map_app. reflexivity. Qed.
  Lemma results_same h (r : list R) : results_of h (map (pair h) r) = r.
  Proof. unfold results_of. induction r; [reflexivity|]. cbn [map filter fst]. rewrite Nat.eqb_refl. cbn [map snd]. f_equal. assumption. Qed.
  Lemma results_other h i (r : list R) : i <> h -> results_of h (map (pair i) r) = [].
  Proof. intros N. unfold results_of. induction r; [reflexivity|]. cbn [map filter fst]. destruct (Nat.eqb_spec i h); [contradiction|assumption]. Qed.

  Definition both (t u : option T) : Prop := match t, u with Some t, Some u => sim t u | None, None => True | _, _ => False end.
  Definition holds (w : world T R) (h : nat) : bool := match w_held w h with Some _ => true | None => false end.

  Lemma run_isolated l : forall w (own : nat -> option T), (forall t, In t (w_pool w) -> sim t fresh) -> (forall h, both (w_held w h) (own h)) -> (forall h, orderly (holds w h) (filter (mine h) l)) ->
    exists w', run fresh act clean w l = Some w' /\
      forall h, flat_map vis (results_of h (w_log w')) = flat_map vis (results_of h (w_log w)) ++ flat_map vis (alone fresh act (own h) (filter (mine h) l)).
  Proof.
    induction l as [|e l IH]; intros w own P H O.
    { exists w. split; [reflexivity|]. intros h. cbn [filter alone flat_map]. rewrite app_nil_r. reflexivity. }
    cbn [run]. destruct e as [i pick|i o|i|n].
    - assert (Oi := O i). cbn [filter mine] in Oi. rewrite Nat.eqb_refl in Oi. cbn [orderly] in Oi. destruct Oi as [Hi Oi]. unfold holds in Hi. cbn [step]. destruct (w_held w i) as [?|] eqn:E; [discriminate|].
      assert (X : exists pool t, (forall t, In t pool -> sim t fresh) /\ sim t fresh /\
        match pick with Some n => match nth_error (w_pool w) n with Some t => Some (World (without n (w_pool w)) (put (w_held w) i (Some t)) (w_log w)) | None => Some (World (w_pool w) (put (w_held w) i (Some fresh)) (w_log w)) end | None => Some (World (w_pool w) (put (w_held w) i (Some fresh)) (w_log w)) end
        = Some (World pool (put (w_held w) i (Some t)) (w_log w))).
      { destruct pick as [n|]; [|exists (w_pool w), fresh; split; [exact P|split; [exact sim_fresh|reflexivity]]].
        destruct (nth_error (w_pool w) n) as [t|] eqn:N; [|exists (w_pool w), fresh; split; [exact P|split; [exact sim_fresh|reflexivity]]].
        exists (without n (w_pool w)), t. split; [intros t' Ht'; eapply P, in_without, Ht'|]. split; [apply P; eapply nth_error_In; exact N|reflexivity]. }
      destruct X as (pool & t & P' & St & ->). destruct (IH (World pool (put (w_held w) i (Some t)) (w_log w)) (put own i (Some fresh))) as (w' & Rn & L).
      + exact P'.
      + cbn [w_held]. intros h. unfold put. destruct (Nat.eqb h i); [exact St|apply H].
      + intros h. unfold holds, put. cbn [w_held]. destruct (Nat.eqb_spec h i) as [->|N]; [exact Oi|]. specialize (O h). cbn [filter mine] in O. destruct (Nat.eqb_spec i h); [congruence|exact O].
      + exists w'. split; [exact Rn|]. intros h. rewrite L. cbn [w_log w_held filter mine]. f_equal. unfold put. destruct (Nat.eqb_spec h i) as [->|N]; [rewrite Nat.eqb_refl; reflexivity|]. destruct (Nat.eqb_spec i h); [congruence|reflexivity].
    - assert (Oi := O i). cbn [filter mine] in Oi. rewrite Nat.eqb_refl in Oi. cbn [orderly] in Oi. destruct Oi as [Hi Oi]. unfold holds in Hi. cbn [step]. assert (Bi := H i). destruct (w_held w i) as [t|] eqn:E; [|discriminate].
      destruct (own i) as [u|] eqn:Eu; [|destruct Bi]. cbn [both] in Bi. destruct (sim_act o t u Bi) as [S1 S2].
      destruct (act o t) as [t' r] eqn:A. destruct (act o u) as [u' r'] eqn:A'. cbn [fst snd] in S1, S2. destruct (IH (World (w_pool w) (put (w_held w) i (Some t')) (w_log w ++ map (pair i) r)) (put own i (Some u'))) as (w' & Rn & L).
      + exact P.
      + cbn [w_held]. intros h. unfold put. destruct (Nat.eqb h i); [exact S1|apply H].
      + intros h. unfold holds, put. cbn [w_held]. destruct (Nat.eqb_spec h i) as [->|N]; [exact Oi|]. specialize (O h). cbn [filter mine] in O. destruct (Nat.eqb_spec i h); [congruence|exact O].
      + exists w'. split; [exact Rn|]. intros h. rewrite L. cbn [w_log w_held filter mine]. rewrite results_app, flat_map_app, <- app_assoc. f_equal. unfold put. destruct (Nat.eqb_spec h i) as [->|N].
        * rewrite Nat.eqb_refl. cbn [alone]. rewrite Eu, A', results_same, flat_map_app, S2. reflexivity.
        * destruct (Nat.eqb_spec i h); [congruence|]. rewrite results_other by assumption. reflexivity.
    - assert (Oi := O i). cbn [filter mine] in Oi. rewrite Nat.eqb_refl in Oi. cbn [orderly] in Oi. destruct Oi as [Hi Oi]. unfold holds in Hi. cbn [step]. assert (Bi := H i). destruct (w_held w i) as [t|] eqn:E; [|discriminate].
      destruct (own i) as [u|] eqn:Eu; [|destruct Bi]. cbn [both] in Bi. destruct (IH (World (clean t :: w_pool w) (put (w_held w) i None) (w_log w)) (put own i None)) as (w' & Rn & L).
      + cbn [w_pool]. intros x [<-|Hx]; [exact (sim_clean _ _ Bi)|apply P, Hx].
      + cbn [w_held]. intros h. unfold put. destruct (Nat.eqb h i); [exact Logic.I|apply H].
      + intros h. unfold holds, put. cbn [w_held]. destruct (Nat.eqb_spec h i) as [->|N]; [exact Oi|]. specialize (O h). cbn [filter mine] in O. destruct (Nat.eqb_spec i h); [congruence|exact O].
      + exists w'. split; [exact Rn|]. intros h. rewrite L. cbn [w_log w_held filter mine]. f_equal. unfold put. destruct (Nat.eqb_spec h i) as [->|N]; [rewrite Nat.eqb_refl; reflexivity|]. destruct (Nat.eqb_spec i h); [congruence|reflexivity].
    - cbn [step]. apply (IH (World (without n (w_pool w)) (w_held w) (w_log w)) own).
      + cbn [w_pool]. intros t Ht. eapply P, in_without, Ht.
      + exact H.
      + intros h. exact (O h).
  Qed.
  Lemma sim_isolates : isolated_up_to vis fresh act clean.
  Proof.
    intros l O. destruct (run_isolated l start (fun _ => None)) as (w & Rn & L); [intros t []|intros h; exact Logic.I|exact O|]. exists w. split; [exact Rn|]. intros h. rewrite L. reflexivity.
  Qed.
End Facts.

(** Release gives back the object in the state of a new one. *)
Lemma clean_isolates {T op R} (fresh : T) (act : op -> T -> T * list R) (clean : T -> T) (ok : T -> Prop) :
  ok fresh -> (forall o t, ok t -> ok (fst (act o t))) -> (forall t, ok t -> clean t = fresh) -> isolated fresh act clean.
Proof.
  intros F A C l O. destruct (sim_isolates (fun r : R => [r]) fresh act clean (fun t u => t = u /\ ok t)) with (l := l) as (w & Rn & L).
  - auto.
  - intros o t u [<- K]. auto.
  - intros t u [_ K]. rewrite (C t K). auto.
  - exact O.
  - exists w. split; [exact Rn|]. intros h. specialize (L h).
    assert (X : forall x : list R, flat_map (fun r => [r]) x = x) by (induction x as [|? x IHx]; [reflexivity|cbn [flat_map app]; rewrite IHx; reflexivity]). rewrite !X in L. exact L.
Qed.

(** An operation that is never used may as well do nothing. *)
Lemma never_isolates {T op R} (never : op -> Prop) (dec : forall o, {never o} + {~ never o}) (fresh : T) (act : op -> T -> T * list R) (clean : T -> T) (ok : T -> Prop) :
  ok fresh -> (forall o t, ~ never o -> ok t -> ok (fst (act o t))) -> (forall t, ok t -> clean t = fresh) -> isolated_without never fresh act clean.
Proof.
  intros F A C l O N. set (act' := fun o t => if dec o then (t, []) else act o t).
  destruct (clean_isolates fresh act' clean ok F) with (l := l) as (w & Rn & L).
  - intros o t K. unfold act'. destruct (dec o); [exact K|]. auto.
  - exact C.
  - exact O.
  - assert (E : forall h o t, In (EUse h o) l -> act' o t = act o t). { intros h o t I. unfold act'. destruct (dec o) as [X|]; [destruct (N _ _ I X)|reflexivity]. }
    exists w. split.
    + rewrite <- Rn. clear - E. generalize (start (T := T) (R := R)). induction l as [|e l IH]; intros w; [reflexivity|]. cbn [run].
      assert (X : step fresh act clean w e = step fresh act' clean w e). { destruct e; try reflexivity. cbn [step]. destruct (w_held w h); [|reflexivity]. rewrite (E h o t); [reflexivity|left; reflexivity]. }
      rewrite X. destruct (step fresh act' clean w e); [|reflexivity]. apply IH. intros h o t I. apply (E h). right. exact I.
    + intros h. rewrite L. clear - E. assert (E' : forall i o t, In (EUse i o) (filter (mine h) l) -> act' o t = act o t) by (intros i o t I; apply filter_In in I; apply (E i), I).
      revert E'. generalize (filter (mine h) l) as m. clear. intros m. generalize (@None T). induction m as [|e m IH]; intros t E'; [reflexivity|].
      assert (K : forall i o t, In (EUse i o) m -> act' o t = act o t) by (intros i o u I; apply (E' i); right; exact I).
      destruct e as [? ?|i o|?|?]; cbn [alone]; try (apply IH, K). destruct t as [t|]; [|reflexivity]. rewrite (E' i o t) by (left; reflexivity). destruct (act o t). f_equal. apply IH, K.
Qed.

Lemma length_append a b : String.length (append a b) = (String.length a + String.length b)%nat.
Proof. induction a; [reflexivity|]. cbn [append String.length]. rewrite IHa. reflexivity. Qed.
Lemma length_substring : forall s n m, String.length (substring n m s) = Nat.min m (String.length s - n).
Proof.
  induction s as [|c s IH]; intros n m.
  - destruct n, m; reflexivity.
  - destruct n as [|n].
    + destruct m as [|m]; [reflexivity|]. cbn [substring String.length]. rewrite IH. rewrite !Nat.sub_0_r. reflexivity.
    + cbn [substring String.length]. rewrite IH. reflexivity.
Qed.
Lemma length_copy_into dst src : String.length (copy_into dst src) = String.length dst.
Proof. unfold copy_into. rewrite length_append, !length_substring. lia. Qed.
Lemma length_copy_part a b qt s : (a <= b)%nat -> (b <= String.length qt)%nat -> String.length (copy_part a b qt s) = String.length qt.
Proof. intros H H'. unfold copy_part. rewrite !length_append, length_copy_into, !length_substring. lia. Qed.
Lemma zero_bytes_ten s : String.length s = 10%nat -> zero_bytes s = zero_qt.
Proof. intros H. do 10 (destruct s as [|? s]; [discriminate H|]). destruct s; [reflexivity|discriminate H]. Qed.
