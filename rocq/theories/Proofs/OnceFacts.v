(** The views of a search do not overlap. *)
From Verif.Model Require Import Base Calendar KeySpace View.
From Verif.Proofs Require Import BaseFacts CalendarFacts ViewFacts.
Open Scope Z_scope.

(** No instant of the years 0-9999 is filed under both. *)
Definition apart (v v' : string) : Prop := forall t, year4 t -> In v (std_views t) -> In v' (std_views t) -> False.

Section Walk.
  Variables (u : Z -> Z) (vw : Z -> string) (e : Z) (step : Z -> Z -> option (string * Z)).
  Hypothesis step_some : forall t v t', step t e = Some (v, t') -> v = vw t /\ u t' = u t + 1 /\ t <= t'.
  Lemma walk_list fuel : forall t vs t', walk step fuel t e = Some (vs, t') ->
    t <= t' /\ exists ts, vs = map vw ts /\ Forall (fun x => t <= x < e /\ u t <= u x < u t') ts /\ StronglySorted (fun x y => u x < u y) ts /\ u t <= u t'.
  Proof.
    induction fuel as [|fuel IH]; intros t vs t' W; cbn [walk] in W.
    - destruct (Z.ltb_spec t e) as [L|L].
      + destruct (step t e) as [[v t1]|] eqn:E; [discriminate|]. apply some_inj, pair_inj in W as [<- <-]. split; [lia|]. exists []. repeat constructor. lia.
      + apply some_inj, pair_inj in W as [<- <-]. split; [lia|]. exists []. repeat constructor. lia.
    - destruct (Z.ltb_spec t e) as [L|L].
      + destruct (step t e) as [[v t1]|] eqn:E.
        * destruct (walk step fuel t1 e) as [[vs1 t2]|] eqn:W1; [|discriminate]. apply some_inj, pair_inj in W as [<- <-].
          apply step_some in E as (-> & E2 & E3). apply IH in W1 as (M & ts & -> & F & S & U). split; [lia|]. exists (t :: ts).
          split; [reflexivity|]. split; [constructor; [lia|]|split].
          -- eapply Forall_impl; [|exact F]. cbv beta. intros x Hx. lia.
          -- constructor; [exact S|]. eapply Forall_impl; [|exact F]. cbv beta. intros x Hx. lia.
          -- lia.
        * apply some_inj, pair_inj in W as [<- <-]. split; [lia|]. exists []. repeat constructor. lia.
      + apply some_inj, pair_inj in W as [<- <-]. split; [lia|]. exists []. repeat constructor. lia.
  Qed.
End Walk.
Lemma sorted_app {A} (R : A -> A -> Prop) l l' : StronglySorted R l -> StronglySorted R l' -> (forall x y, In x l -> In y l' -> R x y) -> StronglySorted R (l ++ l').
Proof.
  induction l as [|a l IH]; intros H H' C; [exact H'|]. apply StronglySorted_inv in H as [H F]. cbn. constructor.
  - apply IH; auto. intros x y Hx Hy. apply C; [right; exact Hx|exact Hy].
  - apply Forall_app. split; [exact F|]. apply Forall_forall. intros y Hy. apply C; [left; reflexivity|exact Hy].
Qed.
Lemma apart_map (u : Z -> Z) vw s e ts : (forall x z, year4 x -> year4 z -> In (vw x) (std_views z) -> u x = u z) -> 0 <= year_of s -> year_of e < 10000 ->
  Forall (fun x => s <= x < e) ts -> StronglySorted (fun x y => u x < u y) ts -> ForallOrdPairs apart (map vw ts).
Proof.
  intros K Ys Ye F S. assert (Y : forall x, In x ts -> year4 x).
  { intros x Hx. rewrite Forall_forall in F. specialize (F x Hx). split; [pose proof (year_mono_t s x)|pose proof (year_mono_t x e)]; lia. }
  clear F. induction S as [|x ts S IH F]; cbn [map]; constructor.
  - rewrite Forall_forall in *. intros v Hv. apply in_map_iff in Hv as (y & <- & Hy). intros t Ht H1 H2.
    apply K in H1; [|apply Y; left; reflexivity|exact Ht]. apply K in H2; [|apply Y; right; exact Hy|exact Ht]. specialize (F y Hy). lia.
  - apply IH. intros y Hy. apply Y. right. exact Hy.
Qed.
Lemma prefix_length a : String.length (append view_prefix a) = (4 + String.length a)%nat.
Proof. rewrite length_append. reflexivity. Qed.
Ltac lens := rewrite ?prefix_length, ?length_format_Y, ?length_format_YM, ?length_format_YMD, ?length_format_YMDH by assumption.
Lemma own_Y x z : year4 x -> year4 z -> In (view_Y x) (std_views z) -> year_of x = year_of z.
Proof.
  intros Hx Hz H. destruct H as [H|[H|[H|[H|[]]]]]; [|exfalso; apply (f_equal String.length) in H; revert H; unfold view_Y, view_M, view_D, view_H; lens; discriminate..].
  unfold view_Y in H. apply append_inj_l in H. apply format_Y_eq in H; auto.
Qed.
Lemma own_M x z : year4 x -> year4 z -> In (view_M x) (std_views z) -> mi x = mi z.
Proof.
  intros Hx Hz H. destruct H as [H|[H|[H|[H|[]]]]]; try solve [exfalso; apply (f_equal String.length) in H; revert H; unfold view_Y, view_M, view_D, view_H; lens; discriminate].
  unfold view_M in H. apply append_inj_l in H. apply format_YM_eq in H; auto. apply mi_eq. intuition congruence.
Qed.
Lemma own_D x z : year4 x -> year4 z -> In (view_D x) (std_views z) -> day_of x = day_of z.
Proof.
  intros Hx Hz H. destruct H as [H|[H|[H|[H|[]]]]]; try solve [exfalso; apply (f_equal String.length) in H; revert H; unfold view_Y, view_M, view_D, view_H; lens; discriminate].
  unfold view_D in H. apply append_inj_l in H. apply format_YMD_eq in H; auto.
Qed.
Lemma own_H x z : year4 x -> year4 z -> In (view_H x) (std_views z) -> x / ns_hour = z / ns_hour.
Proof.
  intros Hx Hz H. destruct H as [H|[H|[H|[H|[]]]]]; try solve [exfalso; apply (f_equal String.length) in H; revert H; unfold view_Y, view_M, view_D, view_H; lens; discriminate].
  unfold view_H in H. apply append_inj_l in H. apply format_YMDH_eq in H; auto.
Qed.
Lemma step_H_units (step : Z -> Z -> option (string * Z)) e : (forall t v t', step t e = Some (v, t') -> v = view_H t /\ t' = t + ns_hour) ->
  forall t v t', step t e = Some (v, t') -> v = view_H t /\ t' / ns_hour = t / ns_hour + 1 /\ t <= t'.
Proof.
  intros H t v t' E. apply H in E as [-> ->]. pose proof ns_hour_pos. split; [reflexivity|]. split; [|lia].
  replace (t + ns_hour) with (t + 1 * ns_hour) by lia. apply Z.div_add, ns_hour_nz.
Qed.
Lemma two_walks (u : Z -> Z) vw e up down fuel s a t b t' :
  (forall t v t', up t e = Some (v, t') -> v = vw t /\ u t' = u t + 1 /\ t <= t') ->
  (forall t v t', down t e = Some (v, t') -> v = vw t /\ u t' = u t + 1 /\ t <= t') ->
  walk up fuel s e = Some (a, t) -> walk down fuel t e = Some (b, t') ->
  exists ts, (a ++ b)%list = map vw ts /\ Forall (fun x => s <= x < e) ts /\ StronglySorted (fun x y => u x < u y) ts.
Proof.
  intros U D A B. apply (walk_list u vw e up U) in A as (L1 & ta & -> & F1 & S1 & G1). apply (walk_list u vw e down D) in B as (L2 & tb & -> & F2 & S2 & G2).
  exists (ta ++ tb)%list. split; [symmetry; apply map_app|]. rewrite Forall_forall in F1, F2. split.
  - apply Forall_app. split; apply Forall_forall; intros x Hx; [specialize (F1 x Hx)|specialize (F2 x Hx)]; lia.
  - apply sorted_app; auto. intros x y Hx Hy. specialize (F1 x Hx). specialize (F2 y Hy). lia.
Qed.
Theorem search_apart s e vs : search s e = Some vs -> 0 <= year_of s -> year_of e < 10000 -> ForallOrdPairs apart vs.
Proof.
  unfold search. destruct (views_split s e (choose_quantum (time_sub e s))) as (a & t & b & t' & A & B & V). rewrite V. intros H. apply some_inj in H as <-. intros Ys Ye.
  destruct (choose_quantum (time_sub e s)); cbn [has_hour has_day has_month orb] in A.
  - apply some_inj, pair_inj in A as [<- <-]. cbn [app].
    apply (walk_list year_of view_Y e (down_step QY)) in B as (_ & ts & -> & F & S & _).
    + apply (apart_map year_of view_Y s e); auto; [exact own_Y|]. eapply Forall_impl; [|exact F]. cbv beta. tauto.
    + intros x v x' E. pose proof (down_step_adv _ _ _ _ _ E). pose proof ns_hour_pos. apply down_step_Y in E as (-> & E & _). repeat split; lia.
  - destruct (two_walks mi view_M e (up_step QM) (down_step QM) (range_fuel s e) s a t b t') as (ts & -> & F & S); auto.
    + intros x v x' E. pose proof (up_step_adv _ _ _ _ _ E). pose proof ns_hour_pos. apply up_step_M in E as (-> & E & _). repeat split; lia.
    + intros x v x' E. pose proof (down_step_adv _ _ _ _ _ E). pose proof ns_hour_pos. apply down_step_M in E as (-> & E & _). repeat split; lia.
    + apply (apart_map mi view_M s e); auto. exact own_M.
  - destruct (two_walks day_of view_D e (up_step QD) (down_step QD) (range_fuel s e) s a t b t') as (ts & -> & F & S); auto.
    + intros x v x' E. pose proof (up_step_adv _ _ _ _ _ E). pose proof ns_hour_pos. apply up_step_D in E as (-> & E & _). repeat split; lia.
    + intros x v x' E. pose proof (down_step_adv _ _ _ _ _ E). pose proof ns_hour_pos. apply down_step_D in E as (-> & E & _). repeat split; lia.
    + apply (apart_map day_of view_D s e); auto. exact own_D.
  - destruct (two_walks (fun x => x / ns_hour) view_H e (up_step QH) (down_step QH) (range_fuel s e) s a t b t') as (ts & -> & F & S); auto.
    + apply step_H_units. intros x v x' E. apply up_step_H in E. exact E.
    + apply step_H_units. unfold down_step. cbn. intros x v x' E. apply some_inj, pair_inj in E as [<- <-]. auto.
    + apply (apart_map (fun x => x / ns_hour) view_H s e); auto. exact own_H.
Qed.
