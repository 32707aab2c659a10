From Coq Require Import Permutation.
From Verif.Model Require Import Base Otlp SelfTrace.
From Verif.Proofs Require Import BaseFacts.
Open Scope nat_scope.

Lemma list_eqb_reflect {A} (e : A -> A -> bool) : (forall a b, reflect (a = b) (e a b)) ->
  forall l m, reflect (l = m) ((fix go (l m : list A) := match l, m with [], [] => true | x :: l, y :: m => e x y && go l m | _, _ => false end) l m).
Proof.
  intros R. induction l as [|x l IH]; intros [|y m]; try (constructor; congruence). cbn [andb]. destruct (R x y) as [->|N]; [|constructor; congruence]. cbn [andb]. destruct (IH m) as [->|N]; constructor; congruence.
Qed.
Lemma attr_eqb_reflect a b : reflect (a = b) (attr_eqb a b).
Proof.
  unfold attr_eqb. destruct a as [k v], b as [k' v']. cbn [at_key at_value]. destruct (String.eqb_spec k k') as [->|N]; [|constructor; congruence]. cbn [andb].
  destruct v, v'; try (constructor; congruence).
  - destruct (Bool.eqb_spec b b0) as [->|N]; constructor; congruence.
  - destruct (list_eqb_reflect Bool.eqb Bool.eqb_spec l l0) as [->|N]; constructor; congruence.
  - destruct (Z.eqb_spec z z0) as [->|N]; constructor; congruence.
  - destruct (list_eqb_reflect Z.eqb Z.eqb_spec l l0) as [->|N]; constructor; congruence.
  - destruct (N.eqb_spec bits bits0) as [->|N]; constructor; congruence.
  - destruct (list_eqb_reflect N.eqb N.eqb_spec l l0) as [->|N]; constructor; congruence.
  - destruct (String.eqb_spec s s0) as [->|N]; constructor; congruence.
  - destruct (list_eqb_reflect String.eqb String.eqb_spec l l0) as [->|N]; constructor; congruence.
Qed.
Lemma attrs_eqb_reflect a b : reflect (a = b) (attrs_eqb a b).
Proof. apply (list_eqb_reflect attr_eqb attr_eqb_reflect). Qed.
Lemma scope_eqb_reflect a b : reflect (a = b) (scope_eqb a b).
Proof.
  destruct a as [a1 a2 a3], b as [b1 b2 b3]. unfold scope_eqb. cbn [ss_name ss_version ss_schema].
  destruct (String.eqb_spec a1 b1) as [->|N]; [|constructor; congruence]. destruct (String.eqb_spec a2 b2) as [->|N]; [|constructor; congruence]. destruct (String.eqb_spec a3 b3) as [->|N]; constructor; congruence.
Qed.
Lemma key_eqb_reflect a b : reflect (a = b) (key_eqb a b).
Proof. destruct a as [a1 a2], b as [b1 b2]. unfold key_eqb. cbn [fst snd]. destruct (attrs_eqb_reflect a1 b1) as [->|N]; [|constructor; congruence]. destruct (scope_eqb_reflect a2 b2) as [->|N]; constructor; congruence. Qed.

Lemma NoDup_app_iff_local {A} (l : list A) x : NoDup l -> ~ In x l -> NoDup (l ++ [x]).
Proof. intros H N. apply (Permutation_NoDup (l := x :: l)); [apply Permutation_cons_append|constructor; assumption]. Qed.
Section Facts.
  Variable enc : any_tree -> string.
  Variable enc_rest : otlp_rest -> string.
  Notation step := (step enc enc_rest).
  Notation span_of := (span_of enc enc_rest).
  Notation key_values := (key_values enc).
  Definition res_attrs (r : option resource) : list key_value := match r with Some r => r_attrs r | None => [] end.
  Definition desc (g : scope_group span) : string * string * string :=
    (match sg_scope g with Some s => (s_name s, s_version s) | None => (""%string, ""%string) end, sg_schema g).
  Definition desc_of (s : sdk_scope) : string * string * string := (ss_name s, ss_version s, ss_schema s).
  Definition placement : Type := list key_value * (string * string * string) * span.
  Definition place (sd : sdk_span) : placement := (key_values (r_key sd), desc_of (sd_scope sd), span_of sd).
  Definition pairs (m : amap (list attr) (string * option resource * list nat)) : list (list key_value * nat) :=
    flat_map (fun e => let '(_, (_, res, ids)) := e in map (fun i => (res_attrs res, i)) ids) m.
  Definition at_pair (h : list (scope_group span)) (p : list key_value * nat) : list placement :=
    let g := nth (snd p) h no_group in map (fun s => (fst p, desc g, s)) (sg_items g).
  Definition content (st : state) : list placement := flat_map (at_pair (heap st)) (pairs (rsm st)).

  Lemma scope_desc s items : desc (SGroup (ss_schema s) (scope_of s) items) = desc_of s.
  Proof. unfold desc, scope_of, desc_of. cbn [sg_scope sg_schema]. destruct (scope_eqb_reflect s (SdkScope "" "" "")) as [->|]; reflexivity. Qed.
  Lemma update_len {A} n f (l : list A) : List.length (update_nth n f l) = List.length l.
  Proof. revert n. induction l; intros [|n]; cbn; auto. Qed.
  Lemma update_eq {A} n f (l : list A) d : n < List.length l -> nth n (update_nth n f l) d = f (nth n l d).
  Proof. revert n. induction l; intros [|n] H; cbn in *; try lia; auto. apply IHl. lia. Qed.
  Lemma update_ne {A} n m f (l : list A) d : n <> m -> nth m (update_nth n f l) d = nth m l d.
  Proof. revert n m. induction l; intros [|n] [|m] H; cbn; try reflexivity; try congruence. apply IHl. congruence. Qed.

  Lemma flat_map_ext_in {A B} (f g : A -> list B) l : (forall x, In x l -> f x = g x) -> flat_map f l = flat_map g l.
  Proof. induction l as [|a l IH]; intros H; [reflexivity|]. cbn [flat_map]. rewrite H by (left; reflexivity). f_equal. apply IH. intros x Hx. apply H. right. exact Hx. Qed.
  Lemma content_update h i sd a ps : NoDup (map snd ps) -> In (a, i) ps -> i < List.length h ->
    Permutation (flat_map (at_pair (update_nth i (add_span enc enc_rest sd) h)) ps) (flat_map (at_pair h) ps ++ [(a, desc (nth i h no_group), span_of sd)]).
  Proof.
    intros ND I L. apply in_split in I. destruct I as (p1 & p2 & ->). rewrite map_app in ND. cbn [map snd] in ND. apply NoDup_remove_2 in ND. rewrite in_app_iff in ND.
    assert (Q : forall p, (forall x, In x p -> In (snd x) (map snd p1) \/ In (snd x) (map snd p2)) -> flat_map (at_pair (update_nth i (add_span enc enc_rest sd) h)) p = flat_map (at_pair h) p).
    { intros p Hp. apply flat_map_ext_in. intros [b j] Hx. unfold at_pair. cbn [fst snd]. rewrite update_ne; [reflexivity|]. intros ->. apply ND. apply (Hp _ Hx). }
    rewrite !flat_map_app. cbn [flat_map]. rewrite (Q p1) by (intros x Hx; left; apply in_map, Hx). rewrite (Q p2) by (intros x Hx; right; apply in_map, Hx).
    assert (A : at_pair (update_nth i (add_span enc enc_rest sd) h) (a, i) = at_pair h (a, i) ++ [(a, desc (nth i h no_group), span_of sd)]).
    { unfold at_pair. cbn [fst snd]. rewrite update_eq by exact L. cbn [add_span sg_items]. rewrite map_app. reflexivity. }
    rewrite A. rewrite <- !app_assoc. apply Permutation_app_head. apply Permutation_app_head. apply Permutation_app_comm.
  Qed.
  Lemma content_new h g a ps x : (forall p, In p ps -> snd p < List.length h) -> at_pair (h ++ [g]) (a, List.length h) = [x] ->
    Permutation (flat_map (at_pair (h ++ [g])) (ps ++ [(a, List.length h)])) (flat_map (at_pair h) ps ++ [x]).
  Proof.
    intros H E. rewrite flat_map_app. cbn [flat_map]. rewrite E, app_nil_r. apply Permutation_app_tail. erewrite flat_map_ext_in; [apply Permutation_refl|].
    intros [b j] Hx. unfold at_pair. cbn [fst snd]. rewrite app_nth1; [reflexivity|]. apply (H _ Hx).
  Qed.
  Lemma pairs_app a b : pairs (a ++ b) = pairs a ++ pairs b. Proof. apply flat_map_app. Qed.
  Lemma aset_new (r : list attr) (v : string * option resource * list nat) m : aget attrs_eqb r m = None -> aset attrs_eqb r v m = m ++ [(r, v)].
  Proof. induction m as [|[k w] m IH]; intros H; [reflexivity|]. cbn [aget aset] in *. destruct (attrs_eqb r k); [discriminate|]. cbn [app]. rewrite IH by exact H. reflexivity. Qed.
  Lemma pairs_grow r schema res ids i m : aget attrs_eqb r m = Some (schema, res, ids) -> Permutation (pairs (aset attrs_eqb r (schema, res, ids ++ [i]) m)) (pairs m ++ [(res_attrs res, i)]).
  Proof.
    induction m as [|[k [[s0 r0] ids0]] m IH]; intros H; [discriminate|]. cbn [aget aset] in *. destruct (attrs_eqb r k).
    - apply some_inj in H. apply pair_inj in H. destruct H as [H ->]. apply pair_inj in H. destruct H as [-> ->]. unfold pairs. cbn [flat_map]. rewrite map_app, <- !app_assoc. apply Permutation_app_head. apply Permutation_app_comm.
    - unfold pairs. cbn [flat_map]. rewrite <- app_assoc. apply Permutation_app_head. apply IH, H.
  Qed.
  Lemma aset_keys r (v : string * option resource * list nat) m : aget attrs_eqb r m <> None -> map fst (aset attrs_eqb r v m) = map fst m.
  Proof. induction m as [|[k w] m IH]; intros H; [exfalso; apply H; reflexivity|]. cbn [aget aset] in *. destruct (attrs_eqb_reflect r k) as [->|]; [reflexivity|]. cbn [map]. f_equal. apply IH, H. Qed.
  Lemma aget_in_rs r (m : amap (list attr) (string * option resource * list nat)) v : aget attrs_eqb r m = Some v -> In (r, v) m.
  Proof. induction m as [|[k w] m IH]; [discriminate|]. cbn [aget]. destruct (attrs_eqb_reflect r k) as [->|]; [intros E; apply some_inj in E; left; congruence|intros E; right; apply IH, E]. Qed.
  Lemma aget_none_rs r (m : amap (list attr) (string * option resource * list nat)) : aget attrs_eqb r m = None -> ~ In r (map fst m).
  Proof. induction m as [|[k w] m IH]; intros H; [intros []|]. cbn [aget] in H. destruct (attrs_eqb_reflect r k) as [->|N]; [discriminate|]. cbn [map In fst]. intros [E|E]; [congruence|exact (IH H E)]. Qed.
  Lemma in_aset_rs r v (m : amap (list attr) (string * option resource * list nat)) r' v' : In (r', v') (aset attrs_eqb r v m) -> (r' = r /\ v' = v) \/ In (r', v') m.
  Proof.
    induction m as [|[k w] m IH]; cbn [aset]; [intros [E|[]]; apply pair_inj in E; destruct E; left; auto|]. destruct (attrs_eqb_reflect r k) as [->|].
    - intros [E|H]; [apply pair_inj in E; destruct E; left; auto|right; right; exact H].
    - intros [E|H]; [right; left; exact E|destruct (IH H); auto; right; right; assumption].
  Qed.
  Lemma in_pairs a i m : In (a, i) (pairs m) <-> exists r s res ids, In (r, (s, res, ids)) m /\ In i ids /\ a = res_attrs res.
  Proof.
    unfold pairs. rewrite in_flat_map. split.
    - intros ([r [[s res] ids]] & H & I). apply in_map_iff in I. destruct I as (j & E & Hj). apply pair_inj in E. destruct E as [<- <-]. exists r, s, res, ids. auto.
    - intros (r & s & res & ids & H & I & ->). exists (r, (s, res, ids)). split; [exact H|]. apply in_map_iff. exists i. auto.
  Qed.
  Definition key_of (sd : sdk_span) : key := (r_key sd, sd_scope sd).
  Record inv (st : state) (done : list sdk_span) : Prop := {
    i_ssm : forall k i, aget key_eqb k (ssm st) = Some i -> i < List.length (heap st) /\ desc (nth i (heap st) no_group) = desc_of (snd k) /\
              exists s res ids, aget attrs_eqb (fst k) (rsm st) = Some (s, res, ids) /\ In i ids;
    i_nodup : NoDup (map snd (pairs (rsm st)));
    i_ids : forall p, In p (pairs (rsm st)) -> snd p < List.length (heap st);
    i_keys : NoDup (map fst (rsm st));
    i_attrs : forall r s res ids, In (r, (s, res, ids)) (rsm st) -> res_attrs res = key_values r;
    i_content : Permutation (content st) (map place done);
    i_seen : forall r, In r (map fst (rsm st)) <-> exists sd, In sd done /\ r_key sd = r;
    i_first : forall r s res ids, In (r, (s, res, ids)) (rsm st) -> exists sd, In sd done /\ r_key sd = r /\ s = match sd_resource sd with Some x => sr_schema x | None => ""%string end;
    i_back : forall r s res ids i, In (r, (s, res, ids)) (rsm st) -> In i ids -> exists sc, aget key_eqb (r, sc) (ssm st) = Some i;
    i_inj : forall k k' i, aget key_eqb k (ssm st) = Some i -> aget key_eqb k' (ssm st) = Some i -> k = k';
    i_dom : forall sd, In sd done -> aget key_eqb (key_of sd) (ssm st) <> None;
    i_items : forall k i, aget key_eqb k (ssm st) = Some i -> sg_items (nth i (heap st) no_group) = map span_of (filter (fun sd => key_eqb (key_of sd) k) done);
    i_some : forall k i, aget key_eqb k (ssm st) = Some i -> exists sd, In sd done /\ key_of sd = k }.
  Lemma resource_attrs sd : res_attrs (resource_of enc (sd_resource sd)) = key_values (r_key sd).
  Proof. unfold resource_of, r_key, res_attrs. destruct (sd_resource sd); reflexivity. Qed.

  Lemma step_inv st done sd : inv st done -> inv (step st (Some sd)) (done ++ [sd]).
  Proof.
    intros [I1 I2 I3 I4 I5 I6 I7 I8 I9 I10 I11 I12 I13]. unfold SelfTrace.step. set (rk := r_key sd). set (k := (rk, sd_scope sd)).
    assert (Seen : forall r m, (forall r, In r m <-> exists s, In s done /\ r_key s = r) -> (In r m \/ r = rk) <-> exists s, In s (done ++ [sd]) /\ r_key s = r).
    { intros r m H. rewrite H. split.
      - intros [(s & A & B)| -> ]; [exists s; rewrite in_app_iff; auto|exists sd; rewrite in_app_iff; split; [right; left|]; reflexivity].
      - intros (s & A & B). apply in_app_iff in A. destruct A as [A|[<-|[]]]; [left; eauto|right; symmetry; exact B]. }
    assert (First : forall r s res ids, In (r, (s, res, ids)) (rsm st) -> exists sd', In sd' (done ++ [sd]) /\ r_key sd' = r /\ s = match sd_resource sd' with Some x => sr_schema x | None => ""%string end).
    { intros r s res ids H. destruct (I8 _ _ _ _ H) as (sd' & A & B). exists sd'. rewrite in_app_iff. auto. }
    destruct (aget key_eqb k (ssm st)) as [i|] eqn:EK.
    - (* known scope *)
      destruct (I1 k i EK) as (Li & Di & s & res & ids & Er & Ii). change (fst k) with rk in Er. rewrite Er. cbn [snd] in Di.
      assert (EQ : aset key_eqb k i (ssm st) = ssm st).
      { clear - EK. revert EK. generalize (ssm st). intros m. induction m as [|[k0 j] m IH]; [discriminate|]. cbn [aget aset]. destruct (key_eqb_reflect k k0) as [->|]; intros H; [apply some_inj in H; subst; reflexivity|f_equal; apply IH, H]. }
      rewrite EQ. assert (Hin : In (key_values rk, i) (pairs (rsm st))).
      { apply in_pairs. exists rk, s, res, ids. apply aget_in_rs in Er. split; [exact Er|]. split; [exact Ii|]. symmetry. eapply I5, Er. }
      split; cbn [heap ssm rsm].
      + intros k' j Ej. destruct (I1 k' j Ej) as (Lj & Dj & R). rewrite update_len. split; [exact Lj|]. split; [|exact R].
        destruct (Nat.eq_dec i j) as [->|N]; [rewrite update_eq by exact Lj; unfold desc in *; exact Dj|rewrite update_ne by exact N; exact Dj].
      + exact I2.
      + intros p Hp. rewrite update_len. apply I3, Hp.
      + exact I4.
      + exact I5.
      + unfold content. cbn [heap rsm]. eapply perm_trans; [apply (content_update _ _ sd _ _ I2 Hin Li)|]. rewrite map_app. cbn [map]. apply Permutation_app; [exact I6|]. rewrite Di. apply Permutation_refl.
      + intros r. rewrite <- (Seen r _ I7). split; [auto|]. intros [H| -> ]; [exact H|]. apply aget_in_rs in Er. apply (in_map fst) in Er. exact Er.
      + exact First.
      + exact I9.
      + exact I10.
      + intros sd' H. apply in_app_iff in H. destruct H as [H|[<-|[]]]; [apply I11, H|]. change (key_of sd) with k. congruence.
      + intros k' j Ej. rewrite filter_app, map_app, <- (I12 k' j Ej). cbn [filter]. change (key_of sd) with k. destruct (key_eqb_reflect k k') as [<-|Nk].
        * rewrite EK in Ej. apply some_inj in Ej. subst j. rewrite update_eq by exact Li. reflexivity.
        * cbn [map]. rewrite app_nil_r. rewrite update_ne; [reflexivity|]. intros ->. apply Nk. exact (I10 _ _ _ EK Ej).
      + intros k' j Ej. destruct (I13 k' j Ej) as (s' & A & B). exists s'. rewrite in_app_iff. auto.
    - (* a new scope: a new cell *)
      set (n := List.length (heap st)). set (h := update_nth n (add_span enc enc_rest sd) (heap st ++ [SGroup (ss_schema (sd_scope sd)) (scope_of (sd_scope sd)) []])).
      assert (Hh : h = heap st ++ [SGroup (ss_schema (sd_scope sd)) (scope_of (sd_scope sd)) [span_of sd]]).
      { unfold h, n. clear. generalize (heap st). intros l. induction l as [|g l IH]; [reflexivity|]. cbn [List.length app update_nth]. f_equal. exact IH. }
      assert (Lh : List.length h = S n) by (rewrite Hh, app_length; cbn; unfold n; lia).
      assert (Hn : nth n h no_group = SGroup (ss_schema (sd_scope sd)) (scope_of (sd_scope sd)) [span_of sd]) by (rewrite Hh; unfold n; rewrite app_nth2, Nat.sub_diag by lia; reflexivity).
      assert (Ho : forall j, j < n -> nth j h no_group = nth j (heap st) no_group) by (intros j Hj; rewrite Hh; apply app_nth1; exact Hj).
      assert (Xn : forall a, at_pair h (a, n) = [(a, desc_of (sd_scope sd), span_of sd)]) by (intros a; unfold at_pair; cbn [snd fst]; rewrite Hn; cbn [sg_items map]; rewrite scope_desc; reflexivity).
      assert (NI : ~ In n (map snd (pairs (rsm st)))) by (intros X; apply in_map_iff in X; destruct X as (p & X & Hp); apply I3 in Hp; unfold n in X; lia).
      assert (G : forall m', Permutation (pairs m') (pairs (rsm st) ++ [(key_values rk, n)]) ->
        (forall r' j, aget attrs_eqb r' (rsm st) = Some j -> exists s res ids, aget attrs_eqb r' m' = Some (s, res, ids) /\ forall x, In x (snd j) -> In x ids) ->
        (exists s res ids, aget attrs_eqb rk m' = Some (s, res, ids) /\ In n ids) -> NoDup (map fst m') ->
        (forall r s res ids, In (r, (s, res, ids)) m' -> res_attrs res = key_values r) ->
        (forall r s res ids i, In (r, (s, res, ids)) m' -> In i ids -> (r = rk /\ i = n) \/ exists s' res' ids', In (r, (s', res', ids')) (rsm st) /\ In i ids') ->
        (forall r, In r (map fst m') <-> In r (map fst (rsm st)) \/ r = rk) ->
        (forall r s res ids, In (r, (s, res, ids)) m' -> exists sd', In sd' (done ++ [sd]) /\ r_key sd' = r /\ s = match sd_resource sd' with Some x => sr_schema x | None => ""%string end) ->
        inv (State h (aset key_eqb k n (ssm st)) m') (done ++ [sd])).
      { intros m' HP Hold Hnew HK HA HB HS HF. split; cbn [heap ssm rsm].
        - intros k' j Ej. rewrite (aget_aset key_eqb key_eqb_reflect) in Ej. rewrite Lh. destruct (key_eqb_reflect k' k) as [->|Nk].
          + apply some_inj in Ej. subst j. split; [lia|]. split; [rewrite Hn; apply scope_desc|exact Hnew].
          + destruct (I1 k' j Ej) as (Lj & Dj & s & res & ids & R1 & R2). split; [unfold n; lia|]. rewrite Ho by exact Lj. split; [exact Dj|]. destruct (Hold _ _ R1) as (s' & res' & ids' & R3 & R4). exists s', res', ids'. split; [exact R3|apply R4, R2].
        - eapply Permutation_NoDup; [apply Permutation_sym, (Permutation_map snd HP)|]. rewrite map_app. cbn [map snd]. apply NoDup_app_iff_local; assumption.
        - intros p Hp. rewrite Lh. apply (Permutation_in _ HP) in Hp. apply in_app_iff in Hp. destruct Hp as [Hp|[<-|[]]]; [apply I3 in Hp; unfold n; lia|cbn; lia].
        - exact HK.
        - exact HA.
        - unfold content. cbn [heap rsm]. eapply perm_trans; [apply (Permutation_flat_map _ HP)|]. rewrite Hh. eapply perm_trans; [apply (content_new (heap st) _ (key_values rk) (pairs (rsm st)) (place sd) I3)|].
          + rewrite <- Hh. apply Xn.
          + rewrite map_app. cbn [map]. apply Permutation_app_tail, I6.
        - intros r. rewrite HS. apply Seen. exact I7.
        - exact HF.
        - intros r s res ids i Hi Hx. destruct (HB _ _ _ _ _ Hi Hx) as [[-> ->]|(s' & res' & ids' & Hi' & Hx')].
          + exists (sd_scope sd). apply (aget_aset_eq key_eqb key_eqb_reflect).
          + destruct (I9 _ _ _ _ _ Hi' Hx') as (sc & Esc). exists sc. rewrite (aget_aset key_eqb key_eqb_reflect). destruct (key_eqb_reflect (r, sc) k) as [Q|]; [|exact Esc]. rewrite Q in Esc. congruence.
        - intros k1 k2 i. rewrite !(aget_aset key_eqb key_eqb_reflect). destruct (key_eqb_reflect k1 k) as [->|], (key_eqb_reflect k2 k) as [->|]; intros E1 E2; try reflexivity.
          + apply some_inj in E1. subst i. destruct (I1 _ _ E2) as (X & _). unfold n in X. lia.
          + apply some_inj in E2. subst i. destruct (I1 _ _ E1) as (X & _). unfold n in X. lia.
          + exact (I10 _ _ _ E1 E2).
        - intros sd' H. rewrite (aget_aset key_eqb key_eqb_reflect). destruct (key_eqb_reflect (key_of sd') k) as [|Nk]; [discriminate|]. apply in_app_iff in H. destruct H as [H|[<-|[]]]; [apply I11, H|]. exfalso. apply Nk. reflexivity.
        - intros k' j. rewrite (aget_aset key_eqb key_eqb_reflect). rewrite filter_app, map_app. cbn [filter]. change (key_of sd) with k. destruct (key_eqb_reflect k' k) as [->|Nk]; intros Ej.
          + apply some_inj in Ej. subst j. rewrite Hn. cbn [sg_items]. destruct (key_eqb_reflect k k) as [_|X]; [|congruence].
            assert (F : filter (fun s => key_eqb (key_of s) k) done = []).
            { clear - I11 EK. induction done as [|a l IH]; [reflexivity|]. cbn [filter]. destruct (key_eqb_reflect (key_of a) k) as [Q|]; [exfalso; apply (I11 a); [left; reflexivity|rewrite Q; exact EK]|]. apply IH. intros s Hs. apply I11. right. exact Hs. }
            rewrite F. reflexivity.
          + destruct (key_eqb_reflect k k') as [Q|]; [congruence|]. cbn [map]. rewrite app_nil_r, <- (I12 k' j Ej). rewrite Ho; [reflexivity|]. apply (I1 _ _ Ej).
        - intros k' j. rewrite (aget_aset key_eqb key_eqb_reflect). destruct (key_eqb_reflect k' k) as [->|Nk]; intros Ej.
          + exists sd. split; [apply in_app_iff; right; left|]; reflexivity.
          + destruct (I13 k' j Ej) as (s' & A & B). exists s'. rewrite in_app_iff. auto. }
      destruct (aget attrs_eqb rk (rsm st)) as [[[s res] ids]|] eqn:Er.
      + assert (Ra : res_attrs res = key_values rk) by (eapply I5, aget_in_rs, Er). apply G.
        * rewrite <- Ra. apply pairs_grow, Er.
        * intros k' [[s' res'] ids'] E'. rewrite (aget_aset attrs_eqb attrs_eqb_reflect). destruct (attrs_eqb_reflect k' rk) as [Q|]; [|eauto]. rewrite Q, Er in E'. apply some_inj in E'. apply pair_inj in E'. destruct E' as [_ <-]. eexists _, _, _. split; [reflexivity|]. cbn [snd]. intros x Hx. apply in_app_iff. auto.
        * eexists _, _, _. split; [apply (aget_aset_eq attrs_eqb attrs_eqb_reflect)|]. apply in_app_iff. right. left. reflexivity.
        * rewrite aset_keys by congruence. exact I4.
        * intros r s' res' ids' Hi. destruct (in_aset_rs _ _ _ _ _ Hi) as [[-> E]|Hi']; [|eapply I5, Hi']. apply pair_inj in E. destruct E as [E _]. apply pair_inj in E. destruct E as [_ ->]. exact Ra.
        * intros r s' res' ids' i Hi Hx. destruct (in_aset_rs _ _ _ _ _ Hi) as [[-> E]|Hi']; [|right; eauto 6]. apply pair_inj in E. destruct E as [_ ->]. apply in_app_iff in Hx. destruct Hx as [Hx|[<-|[]]]; [|left; auto]. right. exists s, res, ids. split; [apply aget_in_rs, Er|exact Hx].
        * intros r. rewrite aset_keys by congruence. split; [auto|]. intros [H| -> ]; [exact H|]. apply aget_in_rs in Er. apply (in_map fst) in Er. exact Er.
        * intros r s' res' ids' Hi. destruct (in_aset_rs _ _ _ _ _ Hi) as [[-> E]|Hi']; [|eapply First, Hi']. apply pair_inj in E. destruct E as [E _]. apply pair_inj in E. destruct E as [-> _]. eapply First, aget_in_rs, Er.
      + apply G.
        * rewrite aset_new by exact Er. rewrite pairs_app. apply Permutation_app_head. unfold pairs. cbn [flat_map map app]. rewrite resource_attrs. apply Permutation_refl.
        * intros k' [[s' res'] ids'] E'. rewrite (aget_aset attrs_eqb attrs_eqb_reflect). destruct (attrs_eqb_reflect k' rk) as [Q|]; [rewrite Q in E'; congruence|]. eexists _, _, _. split; [exact E'|]. auto.
        * eexists _, _, _. split; [apply (aget_aset_eq attrs_eqb attrs_eqb_reflect)|]. left. reflexivity.
        * rewrite aset_new by exact Er. rewrite map_app. cbn [map fst]. apply NoDup_app_iff_local; [exact I4|apply aget_none_rs, Er].
        * intros r s' res' ids' Hi. destruct (in_aset_rs _ _ _ _ _ Hi) as [[-> E]|Hi']; [|eapply I5, Hi']. apply pair_inj in E. destruct E as [E _]. apply pair_inj in E. destruct E as [_ ->]. apply resource_attrs.
        * intros r s' res' ids' i Hi Hx. destruct (in_aset_rs _ _ _ _ _ Hi) as [[-> E]|Hi']; [|right; eauto 6]. apply pair_inj in E. destruct E as [_ ->]. destruct Hx as [<-|[]]. left. auto.
        * intros r. rewrite aset_new by exact Er. rewrite map_app, in_app_iff. cbn [map fst In]. intuition.
        * intros r s' res' ids' Hi. destruct (in_aset_rs _ _ _ _ _ Hi) as [[-> E]|Hi']; [|eapply First, Hi']. apply pair_inj in E. destruct E as [E _]. apply pair_inj in E. destruct E as [-> _]. exists sd. split; [apply in_app_iff; right; left; reflexivity|auto].
  Qed.
End Facts.

From Verif.Spec Require Import Groups.
Section Outcome.
  Variable enc : any_tree -> string.
  Variable enc_rest : otlp_rest -> string.
  Lemma inv_start : inv enc enc_rest (State [] [] []) [].
  Proof. split; cbn; try discriminate; try (intros; contradiction); try constructor; try (intros (? & [] & _)). contradiction. Qed.
  Lemma run_inv sdl st done : inv enc enc_rest st done -> inv enc enc_rest (fold_left (step enc enc_rest) sdl st) (done ++ given sdl).
  Proof.
    revert st done. induction sdl as [|[sd|] sdl IH]; intros st done H; [cbn; rewrite app_nil_r; exact H| |apply IH, H].
    cbn [fold_left given flat_map app]. change (done ++ sd :: flat_map (fun o : option sdk_span => match o with Some sd => [sd] | None => [] end) sdl) with (done ++ [sd] ++ given sdl). rewrite app_assoc. apply IH, step_inv, H.
  Qed.
  Lemma placements_perm {A} (a b : list (resource_group A)) : Permutation a b -> Permutation (placements a) (placements b).
  Proof. apply Permutation_flat_map. Qed.
  Lemma placements_content h m : placements (map (resource_spans h) m) = flat_map (at_pair h) (pairs m).
  Proof.
    induction m as [|[r [[s res] ids]] m IH]; [reflexivity|]. unfold pairs. cbn [map flat_map]. rewrite flat_map_app. unfold placements. cbn [flat_map]. unfold placements in IH. rewrite IH. apply (f_equal2 (@app _)); [|reflexivity].
    unfold resource_spans. cbn [rg_resource rg_scopes]. clear IH. induction ids as [|i ids IHi]; [reflexivity|]. cbn [map flat_map]. rewrite IHi. reflexivity.
  Qed.

  Hypothesis enc_inj : forall a b, enc a = enc b -> a = b.
  Lemma map_inj_on {A B} (P : A -> Prop) (f : A -> B) : (forall a b, P a -> P b -> f a = f b -> a = b) -> forall l m, Forall P l -> Forall P m -> map f l = map f m -> l = m.
  Proof. intros H. induction l as [|x l IH]; intros [|y m] F G E; try discriminate; [reflexivity|]. cbn [map] in E. injection E as E1 E2. inversion F. inversion G. subst. f_equal; [apply H; assumption|apply IH; assumption]. Qed.
  Lemma map_inj {A B} (f : A -> B) : (forall a b, f a = f b -> a = b) -> forall l m, map f l = map f m -> l = m.
  Proof. intros H l m. apply (map_inj_on (fun _ => True)); [auto|apply Forall_forall; auto|apply Forall_forall; auto]. Qed.
  Lemma map_factor {A B C} (P : A -> Prop) (f : A -> B) (g : A -> C) : (forall a b, P a -> P b -> f a = f b -> g a = g b) -> forall l m, Forall P l -> Forall P m -> map f l = map f m -> map g l = map g m.
  Proof.
    intros H. induction l as [|x l IH]; intros [|y m] F G E; try discriminate; [reflexivity|]. cbn [map] in *. inversion F. inversion G. subst. f_equal.
    - apply H; [assumption..|]. exact (f_equal (fun l => hd (f x) l) E).
    - apply IH; [assumption..|]. exact (f_equal (@tl _) E).
  Qed.
  Definition sane_value (v : attr_value) := sane_attr (Attr "" v).
  Lemma tree_inj v w : sane_value v -> sane_value w -> tree_of v = tree_of w -> v = w.
  Proof.
    unfold sane_value, sane_attr. cbn [at_value]. intros Nv Nw E.
    destruct v, w; cbn [tree_of] in E; try discriminate; try contradiction; injection E as E; try congruence.
    all: try (f_equal; refine (map_inj _ _ _ _ E); intros; congruence).
    all: destruct l, l0; cbn in E; try discriminate; contradiction.
  Qed.
  Lemma any_inj v w : sane_value v -> sane_value w -> any_of enc v = any_of enc w -> v = w.
  Proof.
    intros Hv Hw E. apply tree_inj; [assumption..|]. unfold any_of in E. destruct (tree_of v), (tree_of w); try discriminate; injection E as E; try (apply enc_inj in E; exact E). congruence.
  Qed.
  Lemma key_values_inj l m : Forall sane_attr l -> Forall sane_attr m -> key_values enc l = key_values enc m -> l = m.
  Proof.
    apply map_inj_on. intros [k v] [k' v'] Ha Hb E. cbn [at_key at_value] in E. injection E as -> E. apply any_inj in E; [congruence| |]; assumption.
  Qed.
  Lemma u64_inj a b : sane_time a -> sane_time b -> u64_of a = u64_of b -> a = b.
  Proof.
    unfold sane_time, u64_of. intros A B E. apply (f_equal Z.of_N) in E. rewrite !Z2N.id in E by (apply Z.mod_pos_bound; lia).
    assert (X : forall x, (- 2 ^ 63 <= x < 2 ^ 63)%Z -> x = (if (x mod 2 ^ 64 <? 2 ^ 63)%Z then x mod 2 ^ 64 else x mod 2 ^ 64 - 2 ^ 64)%Z).
    { intros x Hx. destruct (Z_lt_le_dec x 0).
      - replace (x mod 2 ^ 64)%Z with (x + 2 ^ 64)%Z by (rewrite <- (Z.mod_small (x + 2 ^ 64) (2 ^ 64)) by lia; rewrite Z.add_mod, Z.mod_same, Z.add_0_r, Z.mod_mod by lia; reflexivity). destruct (Z.ltb_spec (x + 2 ^ 64) (2 ^ 63)); lia.
      - rewrite Z.mod_small by lia. destruct (Z.ltb_spec x (2 ^ 63)); lia. }
    rewrite (X a A), (X b B), E. reflexivity.
  Qed.
  Lemma u32_inj a b : sane_count a -> sane_count b -> u32_of a = u32_of b -> a = b.
  Proof. unfold sane_count, u32_of. intros A B E. rewrite !Z.mod_small in E by assumption. apply Z2N.inj in E; lia. Qed.
  Lemma parent_inj a b : String.length a = String.length b -> (if valid_id a then Some a else None) = (if valid_id b then Some b else None) -> a = b.
  Proof.
    unfold valid_id. intros L E.
    assert (Z : forall s, forallb (fun c => Ascii.eqb c zero) (list_ascii_of_string s) = true -> s = string_of_list_ascii (repeat zero (String.length s))).
    { induction s as [|c s IH]; [reflexivity|]. cbn [list_ascii_of_string forallb String.length repeat string_of_list_ascii]. intros H. apply andb_prop in H. destruct H as [H1 H2]. apply Ascii.eqb_eq in H1. subst c. f_equal. apply IH, H2. }
    destruct (forallb _ (list_ascii_of_string a)) eqn:Ea, (forallb _ (list_ascii_of_string b)) eqn:Eb; cbn [negb] in E; try discriminate; [|congruence].
    rewrite (Z a Ea), (Z b Eb), L. reflexivity.
  Qed.
  Lemma code_inj a b : (a <= 2)%N -> (b <= 2)%N -> status_of a = status_of b -> a = b.
  Proof. unfold status_of. intros A B. destruct (N.eqb_spec a 2), (N.eqb_spec a 1), (N.eqb_spec b 2), (N.eqb_spec b 1); intros; try discriminate; lia. Qed.
  Lemma kind_inj a b : (a <= 5)%N -> (b <= 5)%N -> kind_of a = kind_of b -> a = b.
  Proof.
    assert (K : forall a, (a <= 5)%N -> kind_of a = a).
    { intros x Hx. unfold kind_of. destruct (N.eqb_spec x 1), (N.eqb_spec x 3), (N.eqb_spec x 2), (N.eqb_spec x 4), (N.eqb_spec x 5); lia. }
    intros A B. rewrite !K by assumption. auto.
  Qed.
  Hypothesis enc_rest_inj : forall a b, enc_rest a = enc_rest b -> a = b.
  Lemma span_inj a b : sane_span a -> sane_span b -> span_of enc enc_rest a = span_of enc enc_rest b -> fields_kept a = fields_kept b.
  Proof.
    intros [A1 A2 A3 A4 A5] [B1 B2 B3 B4 B5] E. unfold span_of in E.
    assert (E1 := f_equal sp_name E). assert (E2 := f_equal sp_trace E). assert (E3 := f_equal sp_span E). assert (E4 := f_equal sp_parent E).
    assert (E5 := f_equal sp_start E). assert (E6 := f_equal sp_end E). assert (E7 := f_equal sp_attrs E). assert (E8 := f_equal sp_rest E). clear E.
    cbn [sp_name sp_trace sp_span sp_parent sp_start sp_end sp_attrs sp_rest] in *.
    apply some_inj in E2. apply some_inj in E3. apply parent_inj in E4; [|congruence]. apply u64_inj in E5; [|assumption..]. apply u64_inj in E6; [|assumption..]. apply key_values_inj in E7; [|assumption..].
    apply enc_rest_inj in E8. unfold fields_kept. rewrite E1, E2, E3, E4, E5, E6, E7. f_equal.
    destruct (sd_rest a) as [a1 a2 a3 a4 a5 a6 a7 a8 a9], (sd_rest b) as [b1 b2 b3 b4 b5 b6 b7 b8 b9]. unfold rest_of in E8.
    cbn [sx_state sx_code sx_message sx_kind sx_links sx_events sx_dropped_attrs sx_dropped_events sx_dropped_links] in *.
    destruct A5 as [C1 C2 C3 C4 (C5 & C6 & C7)], B5 as [D1 D2 D3 D4 (D5 & D6 & D7)]. cbn [sx_state sx_code sx_message sx_kind sx_links sx_events sx_dropped_attrs sx_dropped_events sx_dropped_links] in *.
    injection E8 as F1 F2 F3 F4 F5 F6 F7 F8 F9. unfold without_states. cbn [sx_state sx_code sx_message sx_kind sx_links sx_events sx_dropped_attrs sx_dropped_events sx_dropped_links].
    apply code_inj in F2; [|assumption..]. apply kind_inj in F4; [|assumption..]. apply u32_inj in F7; [|assumption..]. apply u32_inj in F8; [|assumption..]. apply u32_inj in F9; [|assumption..].
    assert (F5' : map (fun l => SdkLink (sl_trace l) (sl_id l) "" (sl_attrs l) (sl_dropped l)) a5 = map (fun l => SdkLink (sl_trace l) (sl_id l) "" (sl_attrs l) (sl_dropped l)) b5).
    { refine (map_factor _ _ _ _ _ _ C3 D3 F5). intros [n1 t1 s1 l1 d1] [n2 t2 s2 l2 d2] (G1 & G2) (H1 & H2) E. unfold link_of in E. cbn [sl_trace sl_id sl_state sl_attrs sl_dropped] in *.
      injection E as -> -> K2 K3. apply key_values_inj in K2; [|assumption..]. apply u32_inj in K3; [|assumption..]. congruence. }
    assert (F6' : a6 = b6).
    { refine (map_inj_on _ _ _ _ _ C4 D4 F6). intros [n1 t1 l1 d1] [n2 t2 l2 d2] (G1 & G2 & G3) (H1 & H2 & H3) E. unfold event_of in E. cbn [se_name se_time se_attrs se_dropped] in *.
      injection E as -> K1 K2 K3. apply u64_inj in K1; [|assumption..]. apply key_values_inj in K2; [|assumption..]. apply u32_inj in K3; [|assumption..]. congruence. }
    rewrite F5'. congruence.
  Qed.
End Outcome.
