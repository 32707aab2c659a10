(** C74: pooled zstd codecs (internal/compress). *)
From Verif.Model Require Import Base Codec.
From Verif.Spec Require Import Codecs.
From Verif.Proofs Require Import BaseFacts CodecFacts.

(** Any number of streams and calls, in any interleaving of their steps, with a pool that hands out codecs
    as it pleases, even when some streams are used after their end: every call made before the end of its
    stream meets exactly what it would meet in a codec of its own. *)
Theorem C74_codec_is_private : forall target call (uses : nat -> use target call * list call) m,
  steps _ _ (boot _ _ (fun i => full_program _ _ (uses i))) m ->
  forall i, let own := alone _ _ (goal _ _ (fst (uses i))) [] (calls _ _ (fst (uses i))) in
    (exists k, met _ _ m i = firstn k own) /\ (m_todo _ _ m i = [] -> met _ _ m i = own).
Proof.
  intros target call uses m S i own. destruct (steps_inv target call uses _ _ (ex_intro _ _ (boot_inv _ _ uses)) S) as [ph V].
  rewrite (I_met _ _ _ _ _ V). unfold own. split.
  - destruct (I_at _ _ _ _ _ V i) as [tl T|tl T|past rest tl C T| | | | | | |]; cbn [p_past]; try (exists 0%nat; reflexivity); try (exists (List.length (calls _ _ (fst (uses i)))); rewrite <- (alone_length _ _ (goal _ _ (fst (uses i))) _ []), firstn_all; reflexivity).
    exists (List.length past). rewrite C, alone_prefix. reflexivity.
  - pose proof (I_at _ _ _ _ _ V i) as A. intros E. rewrite E in A. inversion A as [tl T|tl T|past rest tl C T Q| | | | | | |]; subst; try reflexivity.
    destruct rest; [|discriminate]. rewrite app_nil_r in C. cbn [p_past]. rewrite C. reflexivity.
Qed.
(** A codec waiting in the pool refers to nobody's buffers, and is there once. *)
Theorem C74_pool_is_clean : forall target call (uses : nat -> use target call * list call) m,
  steps _ _ (boot _ _ (fun i => full_program _ _ (uses i))) m ->
  NoDup (m_pool _ _ m) /\ forall e, In e (m_pool _ _ m) -> state_of _ _ m e = (None, []).
Proof.
  intros target call uses m S. destruct (steps_inv target call uses _ _ (ex_intro _ _ (boot_inv _ _ uses)) S) as [ph V].
  split; [apply V|]. intros e H. apply V, H.
Qed.
(** The program crashes exactly when a stream is used after its end. *)
Theorem C74_crash_only_after_the_end : forall target call (uses : nat -> use target call * list call) m i,
  steps _ _ (boot _ _ (fun i => full_program _ _ (uses i))) m ->
  (m_crashed _ _ m i = true -> ended _ _ (fst (uses i)) = true /\ snd (uses i) <> []) /\
  (m_todo _ _ m i = [] -> ended _ _ (fst (uses i)) = true -> snd (uses i) <> [] -> m_crashed _ _ m i = true).
Proof.
  intros target call uses m i S. destruct (steps_inv target call uses _ _ (ex_intro _ _ (boot_inv _ _ uses)) S) as [ph V].
  assert (D : ph i = PGone _ \/ ph i <> PGone _) by (destruct (ph i); (left; reflexivity) || (right; discriminate)). split.
  - intros C. destruct D as [G|G]; [|rewrite (I_calm _ _ _ _ _ V i G) in C; discriminate]. destruct (I_gone _ _ _ _ _ V i G) as [_ [[_ C']|(_ & _ & X)]]; [congruence|].
    unfold cause, misuse in X. destruct (ended target call (fst (uses i))); [auto|congruence].
  - intros T E X. assert (Q : cause _ _ (uses i) = snd (uses i)) by (unfold cause, misuse; rewrite E; reflexivity). destruct D as [G|G].
    + destruct (I_gone _ _ _ _ _ V i G) as [_ [[T' _]|(_ & C & _)]]; [|exact C]. rewrite T, Q in T'. destruct (snd (uses i)); [congruence|discriminate].
    + exfalso. pose proof (I_at _ _ _ _ _ V i) as A. rewrite T, Q in A. inversion A as [tl TT|tl TT|past rest tl C TT P| | |Ex| |Ex| |]; subst; try congruence.
      destruct rest; [|discriminate]. cbn [map app] in *. subst tl. inversion TT; subst; congruence.
Qed.
(** io.Reader allows reading on after the end (it should be reported again): a reader read once more after
    the end crashes the process, and so does a second Close. *)
Definition reads_on : nat -> use nat nat * list nat := fun i => match i with 0%nat => (UReader _ _ 7%nat [1%nat] (Some 2%nat), [3%nat]) | _ => (UWriter _ _ i [] None, []) end.
(** One schedule: [n] steps of stream [i], taking the last codec put into the pool. *)
Fixpoint go_on {target call} (n : nat) (i : nat) (m : machine target call) : machine target call :=
  match n with
  | 0%nat => m
  | S n => go_on n i match m_todo _ _ m i with
      | [] => m
      | IGet :: _ => match m_pool _ _ m with
          | [] => advance _ _ (Machine _ _ (m_heap _ _ m ++ [(None, [])]) [] (upd (m_field _ _ m) i (Some (List.length (m_heap _ _ m)))) (m_todo _ _ m) (m_log _ _ m) (m_crashed _ _ m)) i
          | e :: b => advance _ _ (Machine _ _ (m_heap _ _ m) b (upd (m_field _ _ m) i (Some e)) (m_todo _ _ m) (m_log _ _ m) (m_crashed _ _ m)) i
          end
      | IForget :: _ => advance _ _ (Machine _ _ (m_heap _ _ m) (m_pool _ _ m) (upd (m_field _ _ m) i None) (m_todo _ _ m) (m_log _ _ m) (m_crashed _ _ m)) i
      | x :: _ => match m_field _ _ m i with
          | None => crash _ _ m i
          | Some e => match x with
              | IReset t => advance _ _ (with_heap _ _ m (lset (m_heap _ _ m) e (t, []))) i
              | ICall c => advance _ _ (Machine _ _ (lset (m_heap _ _ m) e (fst (state_of _ _ m e), snd (state_of _ _ m e) ++ [c])) (m_pool _ _ m) (m_field _ _ m) (m_todo _ _ m) (m_log _ _ m ++ [(i, (state_of _ _ m e, c))]) (m_crashed _ _ m)) i
              | _ => advance _ _ (Machine _ _ (m_heap _ _ m) (e :: m_pool _ _ m) (m_field _ _ m) (m_todo _ _ m) (m_log _ _ m) (m_crashed _ _ m)) i
              end
          end
      end
  end.
Lemma go_on_steps {target call} n i : forall (m0 m : machine target call), steps _ _ m0 m -> steps _ _ m0 (go_on n i m).
Proof.
  induction n as [|n IH]; intros m0 m S; [exact S|]. cbn [go_on]. apply IH. destruct (m_todo _ _ m i) as [|x rest] eqn:T; [exact S|].
  destruct x as [|t|c| |].
  - destruct (m_pool _ _ m) as [|e b] eqn:P; eapply steps_more; try exact S.
    + pose proof (step_new _ _ m i rest T) as St. rewrite P in St. exact St.
    + exact (step_get _ _ m i rest [] e b T P).
  - destruct (m_field _ _ m i) as [e|] eqn:F; (eapply steps_more; [exact S|]); [eapply step_reset; eassumption|eapply step_nil; try eassumption; discriminate].
  - destruct (m_field _ _ m i) as [e|] eqn:F; (eapply steps_more; [exact S|]); [eapply step_call; eassumption|eapply step_nil; try eassumption; discriminate].
  - destruct (m_field _ _ m i) as [e|] eqn:F; (eapply steps_more; [exact S|]); [eapply step_put; eassumption|eapply step_nil; try eassumption; discriminate].
  - eapply steps_more; [exact S|]. eapply step_forget; eassumption.
Qed.
Theorem C74_reading_on_crashes_refuted : exists m, steps _ _ (boot _ _ (fun i => full_program _ _ (reads_on i))) m /\ m_crashed _ _ m 0%nat = true.
Proof. exists (go_on 20 0 (boot _ _ (fun i => full_program _ _ (reads_on i)))). split; [apply go_on_steps; constructor|vm_compute; reflexivity]. Qed.

(** A schedule with reuse: stream 0 writes and has put its codec back but not yet cleared its field when
    stream 1 takes the same codec; then stream 0 finishes and stream 1 goes on. *)
Definition two : nat -> use nat nat * list nat := fun i => match i with 0%nat => (UWriter _ _ 70%nat [1%nat; 2%nat] (Some 9%nat), []) | 1%nat => (UReader _ _ 71%nat [5%nat] (Some 6%nat), []) | _ => (UWriter _ _ i [] None, []) end.
Example C74_example : let m := go_on 20 1 (go_on 5 0 (go_on 3 1 (go_on 8 0 (boot _ _ (fun i => full_program _ _ (two i)))))) in
  steps _ _ (boot _ _ (fun i => full_program _ _ (two i))) m /\ m_todo _ _ m 0%nat = [] /\ m_todo _ _ m 1%nat = [] /\
  met _ _ m 0%nat = [((Some 70, []), 1); ((Some 70, [1]), 2); ((Some 70, [1; 2]), 9)]%nat /\
  met _ _ m 1%nat = [((Some 71, []), 5); ((Some 71, [5]), 6)]%nat /\ List.length (m_heap _ _ m) = 1%nat.
Proof.
  cbv zeta. split; [repeat apply go_on_steps; constructor|]. split; [vm_compute; reflexivity|]. split; [vm_compute; reflexivity|]. split; [vm_compute; reflexivity|]. split; vm_compute; reflexivity.
Qed.
