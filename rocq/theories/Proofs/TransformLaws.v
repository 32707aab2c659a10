(** Labels and time spans recorded by the transform, for any translator satisfying the laws. *)
From Verif.Model Require Import Base Labels Otlp Transform.
From Verif.Spec Require Import Indexing Translator.
From Verif.Proofs Require Import BaseFacts TransformFacts.

(* ------------------------------------------------------------------ times *)
Definition is_min (m : N) (l : list N) : Prop := In m l /\ forall x, In x l -> m <= x.
Definition is_max (m : N) (l : list N) : Prop := In m l /\ forall x, In x l -> x <= m.

Lemma fold_time ts mm : fold_left time_step ts mm =
  (fold_left (fun m t => N.min (if m =? 0 then t else m) t) (map fst ts) (fst mm), fold_left N.max (map snd ts) (snd mm)).
Proof.
  revert mm. induction ts as [|t ts IH]; intros [mn mx]; cbn [fold_left map fst snd]; [reflexivity|].
  rewrite IH. reflexivity.
Qed.
Lemma fold_max l m : is_max (fold_left N.max l m) (m :: l).
Proof.
  revert m. induction l as [|x l IH]; intros m; cbn [fold_left].
  - split; [left; reflexivity|]. intros y [<-|[]]; lia.
  - destruct (IH (N.max m x)) as [H1 H2]. split.
    + destruct H1 as [H1|H1]; [|right; right; exact H1]. rewrite <- H1. destruct (N.max_spec m x) as [[_ ->]|[_ ->]]; cbn; auto.
    + intros y [<-|[<-|Hy]]; [| |apply H2; right; exact Hy];
      (etransitivity; [|apply H2; left; reflexivity]); lia.
Qed.
Notation fmin := (fun m t => N.min (if m =? 0 then t else m) t).
Lemma fold_min_pos l m : m <> 0 -> (forall x, In x l -> x <> 0) -> is_min (fold_left fmin l m) (m :: l).
Proof.
  revert m. induction l as [|x l IH]; intros m Hm Hl; cbn [fold_left].
  - split; [left; reflexivity|]. intros y [<-|[]]; lia.
  - assert (Hx : x <> 0) by (apply Hl; left; reflexivity). destruct (N.eqb_spec m 0) as [|_]; [congruence|].
    destruct (IH (N.min m x)) as [H1 H2]; [lia|intros y Hy; apply Hl; right; exact Hy|]. split.
    + destruct H1 as [H1|H1]; [|right; right; exact H1]. rewrite <- H1. destruct (N.min_spec m x) as [[_ ->]|[_ ->]]; cbn; auto.
    + intros y [<-|[<-|Hy]]; [| |apply H2; right; exact Hy];
      (etransitivity; [apply H2; left; reflexivity|]); lia.
Qed.
Lemma fold_min_nonzero l : l <> [] -> (forall x, In x l -> x <> 0) -> is_min (fold_left fmin l 0) l.
Proof.
  destruct l as [|x l]; [congruence|]. intros _ H. cbn [fold_left]. cbn [N.eqb]. rewrite N.min_id.
  apply fold_min_pos; [apply H; left; reflexivity|intros y Hy; apply H; right; exact Hy].
Qed.
Lemma fold_min_zero a b m : fold_left fmin (a ++ 0 :: b) m = fold_left fmin b 0.
Proof. rewrite fold_left_app. cbn [fold_left]. rewrite N.min_0_r. reflexivity. Qed.
Lemma fold_min_zeros a m : (forall x, In x a -> x = 0) -> m = 0 -> fold_left fmin a m = 0.
Proof. intros H ->. induction a as [|x a IH]; [reflexivity|]. cbn [fold_left]. rewrite (H x) by (left; reflexivity). apply IH. intros; apply H; right; auto. Qed.

(* ------------------------------------------------------------------ labels *)
(** The signal left behind by the samples processed so far ([r] initially). *)
Definition last_signal (r : Z) (l : list sample) : Z :=
  fold_left (fun r s => match smp_data s with DNone => r | d => signal_of d end) l r.

Section Laws.
Context (I : tr_impl) (inv : nat -> ti_state I -> Prop) (L : tr_stable I inv).
Notation translate := (ti_translate I).
Notation find := (ti_find I).

Definition extends (s s' : ti_state I) : Prop := forall k n, find s k = Some n -> find s' k = Some n.
Lemma extends_refl s : extends s s. Proof. intros k n H; exact H. Qed.
Lemma extends_trans a b c : extends a b -> extends b c -> extends a c.
Proof. intros H1 H2 k n H. auto. Qed.
Lemma tr_step_ext b s k s' n : inv (S b) s -> translate s k = (s', n) -> extends s s'.
Proof.
  intros Hi E k' m F. destruct (tl_step _ _ L _ _ _ _ _ Hi E) as (_ & F' & K & Q).
  destruct (String.eqb_spec k' k) as [->|NE]; [|rewrite K; auto]. rewrite F'. f_equal. symmetry. apply Q, F.
Qed.
Lemma inv_weaken n b s : inv (n + b) s -> inv b s.
Proof. induction n; cbn; auto. intros H. apply IHn. apply (tl_weaken _ _ L). exact H. Qed.
Lemma inv_le b c s : (c <= b)%nat -> inv b s -> inv c s.
Proof. intros H. replace b with ((b - c) + c)%nat by lia. apply inv_weaken. Qed.

Lemma tr_all_laws ls : forall b s pos s' pos', inv (List.length ls + b) s -> tr_all translate s pos ls = (s', pos') ->
  inv b s' /\ extends s s' /\
  (forall col, In col pos' <-> In col pos \/ ids_of I s' (fun l => In l ls) col) /\
  (forall k, (forall l, In l ls -> k <> encode l) -> find s' k = find s k) /\
  (forall l, In l ls -> exists n, find s' (encode l) = Some n).
Proof.
  induction ls as [|l ls IH]; intros b s pos s' pos' Hi E; cbn [tr_all] in E.
  - apply pair_inj in E as [<- <-]. cbn in Hi. split; [exact Hi|]. split; [apply extends_refl|].
    split; [|split; [reflexivity|intros l []]]. intros col. split; [auto|intros [H|(l & [] & _)]; exact H].
  - destruct (translate s (encode l)) as [s1 c] eqn:E1. cbn in Hi.
    destruct (tl_step _ _ L _ _ _ _ _ Hi E1) as (Hi1 & F1 & K1 & Q1).
    pose proof (tr_step_ext _ _ _ _ _ Hi E1) as X1.
    destruct (IH _ _ _ _ _ Hi1 E) as (Hi2 & X2 & P2 & K2 & D2).
    split; [exact Hi2|]. split; [eapply extends_trans; eauto|]. split; [|split].
    + intros col. rewrite P2, in_sadd. split.
      * intros [[->|H]|(l' & Hl & F)]; [right; exists l; split; [left; reflexivity|apply X2; exact F1]|left; exact H|].
        right. exists l'. split; [right; exact Hl|exact F].
      * intros [H|(l' & [<-|Hl] & F)]; [left; right; exact H|left; left|right; exists l'; auto].
        apply X2 in F1. congruence.
    + intros k Hk. rewrite K2 by (intros l' H; apply Hk; right; exact H). apply K1. apply Hk. left; reflexivity.
    + intros l' [<-|Hl]; [exists c; apply X2; exact F1|apply D2; exact Hl].
Qed.
Lemma tr_all_sorted s pos ls : ssorted pos -> ssorted (snd (tr_all translate s pos ls)).
Proof.
  revert s pos. induction ls as [|l ls IH]; intros s pos H; cbn [tr_all]; [exact H|].
  destruct (translate s (encode l)) as [s1 c]. apply IH, ssorted_sadd, H.
Qed.

(** The signal the context's marker currently names. *)
Definition ctx_signal (c : ctx (ti_state I)) : Z := l_resource (c_label c).

(** Number of translations needed. *)
Definition cost (l : list sample) : nat := list_sum (map (fun s => S (List.length (L_data (smp_data s)))) l).

Definition sample_ok (r : Z) (s : sample) (st : ti_state I) (f : filed) : Prop :=
  f_id f = smp_id s /\
  (f_min f, f_max f) = fold_left time_step (record_times (smp_data s)) (0, 0) /\
  ssorted (f_cols f) /\
  (forall col, In col (f_cols f) <->
     ids_of I st (fun l => documented_label (smp_data s) l \/ l = Label r PREFIX_UNKNOWN "" "") col) /\
  (forall l, documented_label (smp_data s) l \/ l = Label r PREFIX_UNKNOWN "" "" -> exists n, find st (encode l) = Some n).

Lemma sample_ok_ext r s st st' f b : inv b st' -> extends st st' -> sample_ok r s st f -> sample_ok r s st' f.
Proof.
  intros Hi X (H1 & H2 & H3 & H4 & H5). split; [exact H1|]. split; [exact H2|]. split; [exact H3|]. split.
  - intros col. rewrite H4. split; intros (l & Hl & F).
    + exists l. auto.
    + exists l. split; auto. destruct (H5 l Hl) as [n Hn]. pose proof (X _ _ Hn). congruence.
  - intros l Hl. destruct (H5 l Hl) as [n Hn]. eauto.
Qed.

Lemma process_sample_laws b c s c' f :
  inv (S (List.length (L_data (smp_data s))) + b) (c_tr c) -> process_sample translate c s = (c', f) ->
  inv b (c_tr c') /\ extends (c_tr c) (c_tr c') /\ sample_ok (ctx_signal c) s (c_tr c') f /\
  ctx_signal c' = last_signal (ctx_signal c) [s] /\
  (forall k, ti_find I (c_tr c') k <> None -> ti_find I (c_tr c) k = None ->
     exists l, (documented_label (smp_data s) l \/ l = Label (ctx_signal c) PREFIX_UNKNOWN "" "") /\ k = encode l).
Proof.
  intros Hi E. destruct (process_sample_spec translate c s) as (c1 & E1 & T1 & R1). rewrite E1 in E.
  apply pair_inj in E as [-> <-].
  set (ls := marker (res c) :: L_data (smp_data s)) in *.
  destruct (tr_all translate (c_tr c) [] ls) as [s1 pos1] eqn:E2. cbn [fst snd] in *.
  pose proof (tr_all_laws ls b (c_tr c) [] s1 pos1 Hi E2) as (Hi1 & X1 & P1 & K1 & D1).
  assert (IN : forall l, In l ls <-> documented_label (smp_data s) l \/ l = Label (ctx_signal c) PREFIX_UNKNOWN "" "").
  { intros l. unfold ls. cbn [In]. rewrite in_L_data. unfold marker, ctx_signal, res. intuition congruence. }
  rewrite T1. split; [exact Hi1|]. split; [exact X1|]. split; [|split].
  - split; [reflexivity|]. split; [cbn [f_min f_max]; symmetry; apply surjective_pairing|].
    split; [|split].
    + cbn [f_cols]. pose proof (tr_all_sorted (c_tr c) [] ls ssorted_nil) as Q. rewrite E2 in Q. exact Q.
    + cbn [f_cols]. intros col. rewrite P1. unfold ids_of. split.
      * intros [[]|(l & Hl & F)]. exists l. rewrite <- IN. auto.
      * intros (l & Hl & F). right. exists l. rewrite IN. auto.
    + intros l Hl. apply D1. apply IN. exact Hl.
  - unfold last_signal. cbn [fold_left]. unfold ctx_signal. fold (res c'). rewrite R1. unfold next_res.
    destruct (smp_data s); reflexivity.
  - intros k Hk Hn.
    destruct (in_dec string_dec k (map encode ls)) as [Hin|Hout].
    + apply in_map_iff in Hin as (l & <- & Hl). exists l. split; [apply IN; exact Hl|reflexivity].
    + exfalso. apply Hk. rewrite K1; [exact Hn|]. intros l Hl ->. apply Hout. apply in_map. exact Hl.
Qed.

Lemma process_samples_laws l : forall b c c' fs,
  inv (cost l + b) (c_tr c) -> process_samples translate c l = (c', fs) ->
  inv b (c_tr c') /\ extends (c_tr c) (c_tr c') /\ ctx_signal c' = last_signal (ctx_signal c) l /\
  List.length fs = List.length l /\
  (forall i s f, nth_error l i = Some s -> nth_error fs i = Some f ->
     sample_ok (last_signal (ctx_signal c) (firstn i l)) s (c_tr c') f).
Proof.
  induction l as [|s l IH]; intros b c c' fs Hi E; cbn [process_samples] in E.
  - apply pair_inj in E as [<- <-]. cbn in Hi. split; [exact Hi|]. split; [apply extends_refl|]. split; [reflexivity|].
    split; [reflexivity|]. intros [|i] s f H; discriminate.
  - destruct (process_sample translate c s) as [c1 f1] eqn:E1.
    destruct (process_samples translate c1 l) as [c2 fs2] eqn:E2.
    apply pair_inj in E as [<- <-].
    assert (Hi' : inv (S (List.length (L_data (smp_data s))) + (cost l + b)) (c_tr c)).
    { revert Hi. apply inv_le. unfold cost. cbn [map list_sum fold_right]. fold (list_sum (map (fun s => S (List.length (L_data (smp_data s)))) l)). lia. }
    destruct (process_sample_laws _ _ _ _ _ Hi' E1) as (Hi1 & X1 & O1 & R1 & _).
    destruct (IH _ _ _ _ Hi1 E2) as (Hi2 & X2 & R2 & L2 & O2).
    split; [exact Hi2|]. split; [eapply extends_trans; eauto|]. split.
    { rewrite R2, R1. reflexivity. }
    split; [cbn; congruence|].
    intros [|i] s' f' H1 H2; cbn in H1, H2.
    + apply some_inj in H1, H2. subst. cbn [firstn]. eapply sample_ok_ext; eauto.
    + cbn [firstn]. rewrite R1 in O2. apply (O2 i s' f' H1 H2).
Qed.
End Laws.
