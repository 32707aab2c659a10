(** C107: the home directory on Windows. *)
From Verif.Model Require Import Base HomeWindows.
From Verif.Spec Require Import WindowsHome.

Lemma drive_path_is m : home_drive_path m (drive_path m).
Proof.
  unfold drive_path. destruct (String.eqb_spec (m_drive m) ""), (String.eqb_spec (m_path m) ""); cbn [negb andb]; constructor; unfold is_set; tauto.
Qed.
Lemma first_cons (P : string -> Prop) p l : P p -> first_of (p :: l) P p.
Proof. intros H. exists [], l. split; [reflexivity|]. split; [exact H|intros q []]. Qed.
Lemma first_skip (P : string -> Prop) p l r : ~ P p -> first_of l P r -> first_of (p :: l) P r.
Proof. intros N (l1 & l2 & -> & H & F). exists (p :: l1), l2. split; [reflexivity|]. split; [exact H|]. intros q [<-|I]; [exact N|apply F, I]. Qed.
Lemma none_cons (P : string -> Prop) p l : ~ P p -> none_of l P -> none_of (p :: l) P.
Proof. intros N F q [<-|I]; [exact N|apply F, I]. Qed.
Lemma with_config_is m l : match with_config m l with
  | Some p => first_of l (fun p => is_set p /\ m_config m p = true) p
  | None => none_of l (fun p => is_set p /\ m_config m p = true) end.
Proof.
  induction l as [|p l IH]; [intros q []|]. cbn [with_config]. destruct (String.eqb_spec p "") as [->|NE]; [|destruct (m_config m p) eqn:C; cbn [negb]].
  - destruct (with_config m l); [apply first_skip|apply none_cons]; try exact IH; intros [H _]; apply H; reflexivity.
  - apply first_cons. split; assumption.
  - destruct (with_config m l); [apply first_skip|apply none_cons]; try exact IH; intros [_ H]; congruence.
Qed.
(** What is remembered of the part [l0] of the list that has been seen. *)
Definition remembers (P : string -> Prop) (l0 : list string) (v : string) : Prop := (v = "" /\ none_of l0 P) \/ (v <> "" /\ first_of l0 P v).
Lemma remembers_more (P : string -> Prop) l0 v p : remembers P l0 v -> p <> "" ->
  (P p -> remembers P (l0 ++ [p]) (if String.eqb v "" then p else v)) /\ (~ P p -> remembers P (l0 ++ [p]) v).
Proof.
  intros H NE. split; intros K.
  - destruct H as [[-> N]|[V (l1 & l2 & -> & A & B)]].
    + right. cbn [String.eqb]. split; [exact NE|]. exists l0, []. auto.
    + right. destruct (String.eqb_spec v ""); [contradiction|]. split; [exact V|]. exists l1, (l2 ++ [p]). rewrite <- app_assoc. auto.
  - destruct H as [[-> N]|[V (l1 & l2 & -> & A & B)]].
    + left. split; [reflexivity|]. intros q I. apply in_app_iff in I as [I|[<-|[]]]; [apply N, I|exact K].
    + right. split; [exact V|]. exists l1, (l2 ++ [p]). rewrite <- app_assoc. auto.
Qed.
Lemma second_loop_is m l : forall l0 fs fe,
  let there p := is_set p /\ m_exists m p = true in let writeable p := there p /\ m_writeable m p = true in
  remembers is_set l0 fs -> remembers there l0 fe -> none_of l0 writeable ->
  let r := second_loop m l fs fe in
  first_of (l0 ++ l) writeable r \/ (none_of (l0 ++ l) writeable /\ (first_of (l0 ++ l) there r \/ (none_of (l0 ++ l) there /\ (first_of (l0 ++ l) is_set r \/ (none_of (l0 ++ l) is_set /\ r = ""))))).
Proof.
  induction l as [|p l IH]; intros l0 fs fe there writeable S T W r.
  - subst r. rewrite app_nil_r. right. split; [exact W|]. cbn [second_loop]. destruct T as [[-> T]|[T1 T2]].
    + right. split; [exact T|]. cbn [String.eqb negb]. destruct S as [[-> S]|[S1 S2]]; [right; split; [exact S|reflexivity]|]. left. destruct (String.eqb_spec fs ""); [contradiction|exact S2].
    + left. destruct (String.eqb_spec fe ""); [contradiction|exact T2].
  - replace (l0 ++ p :: l) with ((l0 ++ [p]) ++ l) by (rewrite <- app_assoc; reflexivity). subst r. cbn [second_loop].
    assert (Snoc : forall P : string -> Prop, none_of l0 P -> ~ P p -> none_of (l0 ++ [p]) P) by (intros P N K q I; apply in_app_iff in I as [I|[<-|[]]]; [apply N, I|exact K]).
    destruct (String.eqb_spec p "") as [->|NE].
    { assert (K : forall (P : string -> Prop) v, remembers P l0 v -> ~ P "" -> remembers P (l0 ++ [""]) v).
      { intros P v [[-> N]|[V (l1 & l2 & -> & A & B)]] K; [left; split; [reflexivity|apply Snoc; assumption]|]. right. split; [exact V|]. exists l1, (l2 ++ [""]). rewrite <- app_assoc. auto. }
      assert (U : ~ is_set "") by (intros H; apply H; reflexivity).
      assert (U1 : ~ there "") by (intros [H _]; exact (U H)).
      assert (U2 : ~ writeable "") by (intros [H _]; exact (U1 H)).
      apply IH; [exact (K _ _ S U)|exact (K _ _ T U1)|exact (Snoc _ W U2)]. }
    destruct (remembers_more is_set l0 fs p S NE) as [S1 _]. destruct (remembers_more there l0 fe p T NE) as [T1 T2].
    destruct (m_exists m p) eqn:X; cbn [negb].
    + assert (Tp : there p) by (split; assumption). destruct (m_writeable m p) eqn:Y.
      * left. rewrite <- app_assoc. exists l0, l. split; [reflexivity|]. split; [split; [exact Tp|exact Y]|]. intros q I. apply W, I.
      * apply IH; [apply S1, NE|apply T1, Tp|apply Snoc; [exact W|]]. intros [_ K]. congruence.
    + assert (Tp : ~ there p) by (intros [_ K]; congruence). apply IH; [apply S1, NE|apply T2, Tp|apply Snoc; [exact W|]]. intros [K _]. contradiction.
Qed.
(** ------ C107 *)
Theorem C107_windows_home : forall m, documented m (windows_dir m).
Proof.
  intros m. exists (drive_path m). split; [apply drive_path_is|]. intros for_config others config there writeable. unfold windows_dir.
  pose proof (with_config_is m for_config) as C. fold for_config. destruct (with_config m for_config) as [p|]; [left; exact C|]. right. split; [exact C|].
  apply (second_loop_is m others [] "" ""); [left; split; [reflexivity|intros q []]|left; split; [reflexivity|intros q []]|intros q []].
Qed.
Print Assumptions C107_windows_home.
(** The rules leave no choice. *)
Lemma first_unique l P p q : first_of l P p -> first_of l P q -> p = q.
Proof.
  intros (a & b & -> & H & F) (a' & b' & E & H' & F'). revert a' E F'. induction a as [|x a IH]; intros a' E F'.
  - destruct a' as [|y a']; cbn [app] in E; injection E as E1 E2; [exact E1|subst; destruct (F' _ (or_introl eq_refl) H)].
  - destruct a' as [|y a']; cbn [app] in E; injection E as E1 E2; [subst; destruct (F _ (or_introl eq_refl) H')|].
    apply (IH (fun u I => F u (or_intror I)) a' E2 (fun u I => F' u (or_intror I))).
Qed.
Lemma first_none l P p : first_of l P p -> none_of l P -> False.
Proof. intros (a & b & -> & H & _) N. apply (N p); [apply in_app_iff; right; left; reflexivity|exact H]. Qed.
Theorem C107_one_answer : forall m r r', documented m r -> documented m r' -> r = r'.
Proof.
  intros m r r' (hp & A & D) (hp' & A' & D'). assert (hp' = hp) as ->. { inversion A; inversion A'; subst; try reflexivity; exfalso; tauto. } clear A A'. cbv zeta in D, D'.
  Ltac two := repeat match goal with
    | H : first_of ?l ?P ?p, H' : first_of ?l ?P ?q |- _ => exact (first_unique l P p q H H')
    | H : first_of ?l ?P ?p, H' : none_of ?l ?P |- _ => destruct (first_none l P p H H')
    | H : _ /\ _ |- _ => destruct H
    | H : _ \/ _ |- _ => destruct H
    end; try congruence.
  two.
Qed.
Example C107_example :
  let m := Machine "" "C:" "\u" "D:\p" (fun _ => false) (fun p => String.eqb p "C:\u") (fun _ => false) in
  windows_dir m = "C:\u" /\ windows_dir (Machine "H:\" "C:" "\u" "D:\p" (fun p => String.eqb p "D:\p") (fun _ => true) (fun _ => true)) = "D:\p" /\
  windows_dir (Machine "" "C:" "" "" (fun _ => true) (fun _ => true) (fun _ => true)) = "".
Proof. repeat split. Qed.
