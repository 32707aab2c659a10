(** Merging: no record is lost, the order of the maps does not matter. *)
From Verif.Model Require Import Base Labels Otlp Collapse.
From Verif.Spec Require Import Merge.
From Verif.Proofs Require Import BaseFacts.
Open Scope N_scope.

(* ------------------------------------------------------------------ lists *)
Lemma nth_error_upd {A} i j (f : A -> A) l : nth_error (upd i f l) j = if Nat.eqb j i then option_map f (nth_error l j) else nth_error l j.
Proof.
  unfold upd. destruct (nth_error l i) as [a|] eqn:E.
  - assert (Li : (i < List.length l)%nat) by (apply nth_error_Some; congruence).
    destruct (Nat.eqb_spec j i) as [->|NE].
    + rewrite E, nth_error_app2 by (rewrite firstn_length; lia). rewrite firstn_length, Nat.min_l by lia. rewrite Nat.sub_diag. reflexivity.
    + destruct (Nat.lt_ge_cases j i) as [Lt|Ge].
      * rewrite nth_error_app1 by (rewrite firstn_length; lia). rewrite <- (firstn_skipn i l) at 2. rewrite nth_error_app1 by (rewrite firstn_length; lia). reflexivity.
      * rewrite nth_error_app2 by (rewrite firstn_length; lia). rewrite firstn_length, Nat.min_l by lia.
        replace (j - i)%nat with (S (j - S i)) by lia. cbn [nth_error].
        rewrite <- (firstn_skipn (S i) l) at 2. rewrite nth_error_app2 by (rewrite firstn_length; lia). rewrite firstn_length, Nat.min_l by lia. reflexivity.
  - destruct (Nat.eqb_spec j i) as [->|NE]; [rewrite E; reflexivity|reflexivity].
Qed.
Lemma upd_length {A} i (f : A -> A) l : List.length (upd i f l) = List.length l.
Proof.
  unfold upd. destruct (nth_error l i) as [a|] eqn:E; [|reflexivity].
  assert (Li : (i < List.length l)%nat) by (apply nth_error_Some; congruence).
  rewrite app_length, firstn_length. cbn [List.length]. rewrite skipn_length. lia.
Qed.
Lemma upd_perm {A B} (F : A -> list B) i f l a extra : nth_error l i = Some a -> Permutation (F (f a)) (F a ++ extra) ->
  Permutation (flat_map F (upd i f l)) (flat_map F l ++ extra).
Proof.
  intros E P. unfold upd. rewrite E. rewrite flat_map_app. cbn [flat_map].
  assert (D : l = firstn i l ++ a :: skipn (S i) l).
  { clear - E. revert l E. induction i as [|i IH]; intros [|x l] E; try discriminate; cbn in *; [congruence|]. f_equal. apply IH, E. }
  rewrite D at 3. rewrite flat_map_app. cbn [flat_map]. rewrite P. rewrite <- !app_assoc. apply Permutation_app_head, Permutation_app_head, Permutation_app_comm.
Qed.
Lemma nth_error_app_some {A} (l m : list A) i a : nth_error l i = Some a -> nth_error (l ++ m) i = Some a.
Proof. intros E. rewrite nth_error_app1; [exact E|]. apply nth_error_Some. congruence. Qed.
Lemma nth_error_app_inv {A} (l : list A) x i a : nth_error (l ++ [x]) i = Some a -> nth_error l i = Some a \/ (i = List.length l /\ a = x).
Proof.
  intros E. destruct (Nat.lt_ge_cases i (List.length l)) as [Lt|Ge]; [rewrite nth_error_app1 in E by exact Lt; auto|].
  rewrite nth_error_app2 in E by exact Ge. destruct (i - List.length l)%nat as [|k] eqn:K; cbn in E; [|destruct k; discriminate].
  right. split; [lia|congruence].
Qed.
Lemma nth_app_new {A} (l : list A) x : nth_error (l ++ [x]) (List.length l) = Some x.
Proof. rewrite nth_error_app2 by lia. rewrite Nat.sub_diag. reflexivity. Qed.

Section Hashes.
Context (h : string -> N) (kvb : key_value -> string).
Notation rid_t := (string * list key_value)%type.
Notation sid_t := (string * (string * string * list key_value))%type.
(** The hashes as functions of the identities. *)
Definition hr (X : rid_t) : N := h (append (fst X) (attr_bytes kvb (snd X))).
Definition hs (rh : N) (Y : sid_t) : N :=
  h (append (u64be rh) (append (fst Y) (append (fst (fst (snd Y))) (append (snd (fst (snd Y))) (attr_bytes kvb (snd (snd Y))))))).
Lemma hash_resource_id {A} (g : resource_group A) : hash_resource h kvb (rg_schema g) (rg_resource g) = hr (resource_id g).
Proof. unfold hash_resource, hr, res_key, resource_id. destruct (rg_resource g); reflexivity. Qed.
Lemma hash_scope_id {A} rh (s : scope_group A) : hash_scope h kvb rh (sg_schema s) (sg_scope s) = hs rh (scope_id s).
Proof. unfold hash_scope, hs, scope_key, scope_id. destruct (sg_scope s); reflexivity. Qed.

Section Merge.
Context {A B : Type} (ikey : A -> option string) (imerge : A -> A -> option A) (parts : A -> list B).
Notation csort := (csort (A := A)).
Notation groups := (list (resource_group A)).

(* positions in the output *)
Definition at_res (o : groups) (ri : nat) (X : rid_t) : Prop := exists g, nth_error o ri = Some g /\ resource_id g = X.
Definition at_scope (o : groups) (ri si : nat) (X : rid_t) (Y : sid_t) : Prop :=
  exists g s, nth_error o ri = Some g /\ nth_error (rg_scopes g) si = Some s /\ resource_id g = X /\ scope_id s = Y.
Definition at_item (o : groups) (ri si k : nat) (X : rid_t) (Y : sid_t) (a : A) : Prop :=
  exists g s, nth_error o ri = Some g /\ nth_error (rg_scopes g) si = Some s /\ nth_error (sg_items s) k = Some a /\ resource_id g = X /\ scope_id s = Y.

(** Everything ever placed stays where it is, up to merged data. *)
Definition grows (o o' : groups) : Prop :=
  (forall ri X, at_res o ri X -> at_res o' ri X) /\
  (forall ri si X Y, at_scope o ri si X Y -> at_scope o' ri si X Y) /\
  (forall ri si k X Y a, at_item o ri si k X Y a -> exists a', at_item o' ri si k X Y a' /\ ikey a' = ikey a).
Lemma grows_refl o : grows o o. Proof. split; [auto|]. split; [auto|]. intros. eauto. Qed.
Lemma grows_trans a b c : grows a b -> grows b c -> grows a c.
Proof.
  intros (A1 & A2 & A3) (B1 & B2 & B3). split; [auto|]. split; [auto|]. intros ri si k X Y x H. apply A3 in H as (x' & H & E). apply B3 in H as (x2 & H & E2). exists x2. split; [exact H|congruence].
Qed.
Lemma grows_app o x : grows o (o ++ x).
Proof.
  split; [|split].
  - intros ri X (g & E & R). exists g. split; [apply nth_error_app_some, E|exact R].
  - intros ri si X Y (g & s & E & R). exists g, s. split; [apply nth_error_app_some, E|exact R].
  - intros ri si k X Y a (g & s & E & R). exists a. split; [|reflexivity]. exists g, s. split; [apply nth_error_app_some, E|exact R].
Qed.
Definition add_scope_to (s : scope_group A) (g : resource_group A) : resource_group A := RGroup (rg_schema g) (rg_resource g) (rg_scopes g ++ [s]).
Lemma grows_scope o ri s : grows o (upd ri (add_scope_to s) o).
Proof.
  split; [|split].
  - intros rj X (g & E & R). unfold at_res. rewrite nth_error_upd. destruct (Nat.eqb rj ri); [|eauto]. rewrite E. eexists. split; [reflexivity|exact R].
  - intros rj sj X Y (g & t & E & E2 & R). unfold at_scope. rewrite nth_error_upd. destruct (Nat.eqb rj ri); [|exists g, t; auto]. rewrite E.
    exists (add_scope_to s g), t. split; [reflexivity|]. split; [apply nth_error_app_some, E2|exact R].
  - intros rj sj k X Y a (g & t & E & E2 & E3 & R). exists a. split; [|reflexivity]. unfold at_item. rewrite nth_error_upd. destruct (Nat.eqb rj ri); [|exists g, t; auto]. rewrite E.
    exists (add_scope_to s g), t. split; [reflexivity|]. split; [apply nth_error_app_some, E2|]. split; [exact E3|exact R].
Qed.
Lemma grows_items o ri si (f : list A -> list A) :
  (forall l k a, nth_error l k = Some a -> exists a', nth_error (f l) k = Some a' /\ ikey a' = ikey a) -> grows o (upd ri (on_scope (on_items f) si) o).
Proof.
  intros Hf. split; [|split].
  - intros rj X (g & E & R). unfold at_res. rewrite nth_error_upd. destruct (Nat.eqb rj ri); [|eauto]. rewrite E. eexists. split; [reflexivity|exact R].
  - intros rj sj X Y (g & t & E & E2 & R1 & R2). unfold at_scope. rewrite nth_error_upd. destruct (Nat.eqb rj ri); [|exists g, t; auto]. rewrite E. cbn [option_map].
    exists (on_scope (on_items f) si g), (if Nat.eqb sj si then on_items f t else t). split; [reflexivity|].
    unfold on_scope. cbn [rg_scopes]. rewrite nth_error_upd, E2. destruct (Nat.eqb sj si); cbn [option_map]; auto.
  - intros rj sj k X Y a (g & t & E & E2 & E3 & R1 & R2).
    destruct (Nat.eqb rj ri) eqn:Er.
    + destruct (Nat.eqb sj si) eqn:Es.
      * destruct (Hf _ _ _ E3) as (a' & E4 & K). exists a'. split; [|exact K]. exists (on_scope (on_items f) si g), (on_items f t).
        rewrite nth_error_upd, Er, E. split; [reflexivity|]. unfold on_scope. cbn [rg_scopes]. rewrite nth_error_upd, Es, E2. auto.
      * exists a. split; [|reflexivity]. exists (on_scope (on_items f) si g), t. rewrite nth_error_upd, Er, E. split; [reflexivity|].
        unfold on_scope. cbn [rg_scopes]. rewrite nth_error_upd, Es, E2. auto.
    + exists a. split; [|reflexivity]. exists g, t. rewrite nth_error_upd, Er. auto.
Qed.

(** The maps point at what their hashes say. *)
Definition res_ok (o : groups) (m : amap N nat) : Prop := forall x ri, aget N.eqb x m = Some ri -> exists X, at_res o ri X /\ hr X = x.
Definition scope_ok (o : groups) (m : amap N (nat * nat)) : Prop :=
  forall x ri si, aget N.eqb x m = Some (ri, si) -> exists X Y, at_scope o ri si X Y /\ hs (hr X) Y = x.
Definition item_ok (o : groups) (m : amap N (nat * nat * nat)) : Prop :=
  forall x ri si k, aget N.eqb x m = Some (ri, si, k) -> exists X Y a n, at_item o ri si k X Y a /\ ikey a = Some n /\ hash_metric h (hs (hr X) Y) n = x.
Definition maps_ok (c : csort) : Prop := res_ok (c_out c) (c_res c) /\ scope_ok (c_out c) (c_scope c) /\ item_ok (c_out c) (c_item c).
Lemma res_ok_grows o o' m : grows o o' -> res_ok o m -> res_ok o' m.
Proof. intros (G & _) H x ri E. destruct (H x ri E) as (X & P & Q). eauto. Qed.
Lemma scope_ok_grows o o' m : grows o o' -> scope_ok o m -> scope_ok o' m.
Proof. intros (_ & G & _) H x ri si E. destruct (H x ri si E) as (X & Y & P & Q). eauto. Qed.
Lemma item_ok_grows o o' m : grows o o' -> item_ok o m -> item_ok o' m.
Proof. intros (_ & _ & G) H x ri si k E. destruct (H x ri si k E) as (X & Y & a & n & P & K & Q). destruct (G _ _ _ _ _ _ P) as (a' & P' & K'). exists X, Y, a', n. split; [exact P'|]. split; [congruence|exact Q]. Qed.

(** What is known of the inputs: the hashes separate them. *)
Context (KR : rid_t -> Prop) (KS : rid_t -> sid_t -> Prop) (KI : rid_t -> sid_t -> A -> Prop).
Hypothesis sepR : forall X X', KR X -> KR X' -> hr X = hr X' -> X = X'.
Hypothesis sepS : forall X Y X' Y', KS X Y -> KS X' Y' -> hs (hr X) Y = hs (hr X') Y' -> X = X' /\ Y = Y'.
Hypothesis sepM : forall X Y a n X' Y' a' n', KI X Y a -> KI X' Y' a' -> ikey a = Some n -> ikey a' = Some n' ->
  hash_metric h (hs (hr X) Y) n = hash_metric h (hs (hr X') Y') n' -> X = X' /\ Y = Y' /\ n = n'.
Hypothesis KI_merge : forall X Y a a' m, KI X Y a -> KI X Y a' -> ikey a <> None -> ikey a = ikey a' -> imerge a a' = Some m -> KI X Y m.
Hypothesis merge_key : forall X Y a a' m, KI X Y a -> KI X Y a' -> ikey a <> None -> ikey a = ikey a' -> imerge a a' = Some m -> ikey m = ikey a.
Hypothesis merge_parts : forall X Y a a' m, KI X Y a -> KI X Y a' -> ikey a <> None -> ikey a = ikey a' -> imerge a a' = Some m -> Permutation (parts m) (parts a ++ parts a').
(** If [total], merging succeeds on known items of one name. *)
Context (total : Prop).
Hypothesis merge_total : total -> forall X Y a a', KI X Y a -> KI X Y a' -> ikey a <> None -> ikey a = ikey a' -> imerge a a' <> None.

Definition known (o : groups) : Prop :=
  (forall ri X, at_res o ri X -> KR X) /\ (forall ri si X Y, at_scope o ri si X Y -> KS X Y) /\ (forall ri si k X Y a, at_item o ri si k X Y a -> KI X Y a).
Notation loc := (located parts).
Definition loc_items X Y (l : list A) := flat_map (fun a => map (fun b => (X, Y, b) : rid_t * sid_t * B) (parts a)) l.
Definition loc_scope X (s : scope_group A) := loc_items X (scope_id s) (sg_items s).
Definition loc_res (g : resource_group A) := flat_map (loc_scope (resource_id g)) (rg_scopes g).
Lemma loc_eq gs : loc gs = flat_map loc_res gs. Proof. reflexivity. Qed.

(* one more item in a scope *)
Lemma loc_add_item o ri si X Y a : at_scope o ri si X Y ->
  Permutation (loc (upd ri (on_scope (on_items (fun l => l ++ [a])) si) o)) (loc o ++ map (fun b => (X, Y, b)) (parts a)).
Proof.
  intros (g & s & E1 & E2 & <- & <-). rewrite !loc_eq. eapply upd_perm; [exact E1|].
  unfold loc_res. change (resource_id (on_scope (on_items (fun l => l ++ [a])) si g)) with (resource_id g). cbn [on_scope rg_scopes].
  eapply upd_perm; [exact E2|]. unfold loc_scope. change (scope_id (on_items (fun l => l ++ [a]) s)) with (scope_id s). cbn [on_items sg_items].
  unfold loc_items. rewrite flat_map_app. cbn [flat_map]. rewrite app_nil_r. apply Permutation_refl.
Qed.
Lemma loc_set_item o ri si k X Y a m extra : at_item o ri si k X Y a -> Permutation (parts m) (parts a ++ extra) ->
  Permutation (loc (upd ri (on_scope (on_items (upd k (fun _ => m))) si) o)) (loc o ++ map (fun b => (X, Y, b)) extra).
Proof.
  intros (g & s & E1 & E2 & E3 & <- & <-) P. rewrite !loc_eq. eapply upd_perm; [exact E1|].
  unfold loc_res. change (resource_id (on_scope (on_items (upd k (fun _ => m))) si g)) with (resource_id g). cbn [on_scope rg_scopes].
  eapply upd_perm; [exact E2|]. unfold loc_scope. change (scope_id (on_items (upd k (fun _ => m)) s)) with (scope_id s). cbn [on_items sg_items].
  unfold loc_items. eapply upd_perm; [exact E3|]. rewrite <- map_app. apply Permutation_map, P.
Qed.
Lemma loc_add_scope o ri X s : at_res o ri X -> Permutation (loc (upd ri (add_scope_to s) o)) (loc o ++ loc_scope X s).
Proof.
  intros (g & E1 & <-). rewrite !loc_eq. eapply upd_perm; [exact E1|].
  unfold loc_res. change (resource_id (add_scope_to s g)) with (resource_id g). cbn [add_scope_to rg_scopes].
  rewrite flat_map_app. cbn [flat_map]. rewrite app_nil_r. apply Permutation_refl.
Qed.

(* known is kept *)
Lemma known_items o ri si (f : list A -> list A) : known o ->
  (forall X Y l k a, (forall j b, nth_error l j = Some b -> KI X Y b) -> at_scope o ri si X Y -> nth_error (f l) k = Some a -> KI X Y a) ->
  known (upd ri (on_scope (on_items f) si) o).
Proof.
  intros (K1 & K2 & K3) Hf. split; [|split].
  - intros rj X (g & E & R). rewrite nth_error_upd in E. destruct (Nat.eqb rj ri); [|apply (K1 rj); exists g; auto].
    destruct (nth_error o rj) as [g0|] eqn:E0; [|discriminate]. apply some_inj in E. subst g. apply (K1 rj). exists g0. auto.
  - intros rj sj X Y (g & t & E & E2 & R1 & R2). rewrite nth_error_upd in E. destruct (Nat.eqb rj ri); [|apply (K2 rj sj); exists g, t; auto].
    destruct (nth_error o rj) as [g0|] eqn:E0; [|discriminate]. apply some_inj in E. subst g. cbn [on_scope rg_scopes] in E2. rewrite nth_error_upd in E2.
    destruct (Nat.eqb sj si); [|apply (K2 rj sj); exists g0, t; auto]. destruct (nth_error (rg_scopes g0) sj) as [t0|] eqn:Et; [|discriminate]. apply some_inj in E2. subst t.
    apply (K2 rj sj). exists g0, t0. auto.
  - intros rj sj k X Y a (g & t & E & E2 & E3 & R1 & R2). rewrite nth_error_upd in E. destruct (Nat.eqb_spec rj ri) as [->|]; [|apply (K3 rj sj k); exists g, t; auto].
    destruct (nth_error o ri) as [g0|] eqn:E0; [|discriminate]. apply some_inj in E. subst g. cbn [on_scope rg_scopes] in E2. rewrite nth_error_upd in E2.
    destruct (Nat.eqb_spec sj si) as [->|]; [|apply (K3 ri sj k); exists g0, t; auto]. destruct (nth_error (rg_scopes g0) si) as [t0|] eqn:Et; [|discriminate]. apply some_inj in E2. subst t.
    cbn [on_items sg_items] in E3. apply (Hf X Y (sg_items t0) k a); [|exists g0, t0; auto|exact E3].
    intros j b Hb. apply (K3 ri si j). exists g0, t0. auto.
Qed.
Lemma known_scope o ri s : known o -> (forall X, at_res o ri X -> KS X (scope_id s) /\ forall a, In a (sg_items s) -> KI X (scope_id s) a) -> known (upd ri (add_scope_to s) o).
Proof.
  intros (K1 & K2 & K3) Hs. split; [|split].
  - intros rj X (g & E & R). rewrite nth_error_upd in E. destruct (Nat.eqb rj ri); [|apply (K1 rj); exists g; auto].
    destruct (nth_error o rj) as [g0|] eqn:E0; [|discriminate]. apply some_inj in E. subst g. apply (K1 rj). exists g0. auto.
  - intros rj sj X Y (g & t & E & E2 & R1 & R2). rewrite nth_error_upd in E. destruct (Nat.eqb_spec rj ri) as [->|]; [|apply (K2 rj sj); exists g, t; auto].
    destruct (nth_error o ri) as [g0|] eqn:E0; [|discriminate]. apply some_inj in E. subst g. cbn [add_scope_to rg_scopes] in E2.
    apply nth_error_app_inv in E2 as [E2|[_ ->]]; [apply (K2 ri sj); exists g0, t; auto|]. subst Y. apply Hs. exists g0. auto.
  - intros rj sj k X Y a (g & t & E & E2 & E3 & R1 & R2). rewrite nth_error_upd in E. destruct (Nat.eqb_spec rj ri) as [->|]; [|apply (K3 rj sj k); exists g, t; auto].
    destruct (nth_error o ri) as [g0|] eqn:E0; [|discriminate]. apply some_inj in E. subst g. cbn [add_scope_to rg_scopes] in E2.
    apply nth_error_app_inv in E2 as [E2|[_ ->]]; [apply (K3 ri sj k); exists g0, t; auto|]. subst Y. apply Hs; [exists g0; auto|]. eapply nth_error_In, E3.
Qed.
Lemma known_app o g : known o -> KR (resource_id g) -> (forall s, In s (rg_scopes g) -> KS (resource_id g) (scope_id s) /\ forall a, In a (sg_items s) -> KI (resource_id g) (scope_id s) a) ->
  known (o ++ [g]).
Proof.
  intros (K1 & K2 & K3) H1 H2. split; [|split].
  - intros ri X (g0 & E & R). apply nth_error_app_inv in E as [E|[_ ->]]; [apply (K1 ri); exists g0; auto|]. subst X. exact H1.
  - intros ri si X Y (g0 & t & E & E2 & R1 & R2). apply nth_error_app_inv in E as [E|[_ ->]]; [apply (K2 ri si); exists g0, t; auto|]. subst X Y. apply H2. eapply nth_error_In, E2.
  - intros ri si k X Y a (g0 & t & E & E2 & E3 & R1 & R2). apply nth_error_app_inv in E as [E|[_ ->]]; [apply (K3 ri si k); exists g0, t; auto|]. subst X Y.
    eapply H2; eapply nth_error_In; eauto.
Qed.

(* ------------------------------------------------------------------ steps *)
(** Nothing but [c_out], [c_scope] and [c_item] changes below a resource. *)
Definition same_top (c c' : csort) : Prop := c_res c' = c_res c /\ c_ord c' = c_ord c /\ List.length (c_out c') = List.length (c_out c).
Lemma same_top_trans a b c : same_top a b -> same_top b c -> same_top a c.
Proof. unfold same_top. intuition congruence. Qed.

Lemma add_item_spec c rj sj X Y a : maps_ok c -> known (c_out c) -> at_scope (c_out c) rj sj X Y -> KI X Y a ->
  (add_item h ikey imerge (hs (hr X) Y) rj sj a c = None /\ ~ total) \/ exists c', add_item h ikey imerge (hs (hr X) Y) rj sj a c = Some c' /\ maps_ok c' /\ known (c_out c') /\ grows (c_out c) (c_out c') /\ same_top c c' /\
    Permutation (loc (c_out c')) (loc (c_out c) ++ map (fun b => (X, Y, b)) (parts a)).
Proof.
  intros (M1 & M2 & M3) K HS Ha. unfold add_item.
  assert (GA : grows (c_out c) (upd rj (on_scope (on_items (fun l => l ++ [a])) sj) (c_out c))).
  { apply grows_items. intros l k x E. exists x. split; [apply nth_error_app_some, E|reflexivity]. }
  assert (KA : known (upd rj (on_scope (on_items (fun l => l ++ [a])) sj) (c_out c))).
  { apply known_items; [exact K|]. intros X' Y' l k x Hl HS' E. apply nth_error_app_inv in E as [E|[_ ->]]; [eauto|].
    destruct HS as (g & s & E1 & E2 & <- & <-), HS' as (g' & s' & E1' & E2' & <- & <-). assert (g' = g) by congruence. subst g'. assert (s' = s) by congruence. subst s'. exact Ha. }
  destruct (ikey a) as [name|] eqn:Ek.
  - destruct (aget N.eqb (hash_metric h (hs (hr X) Y) name) (c_item c)) as [[[ri si] k]|] eqn:Ei.
    + destruct (M3 _ _ _ _ Ei) as (X' & Y' & om & n & HI & Ekn & Eh).
      assert (KIo : KI X' Y' om) by (apply K in HI; exact HI).
      destruct (sepM _ _ _ _ _ _ _ _ KIo Ha Ekn Ek Eh) as (-> & -> & ->).
      assert (ItemAt : item_at (c_out c) ri si k = Some om).
      { destruct HI as (g & s & E1 & E2 & E3 & _). unfold item_at. rewrite E1, E2. exact E3. }
      rewrite ItemAt. assert (KN : ikey om <> None) by congruence. assert (KE : ikey om = ikey a) by congruence.
      destruct (imerge om a) as [m|] eqn:Em; [|left; split; [reflexivity|intros T; exact (merge_total T X Y om a KIo Ha KN KE Em)]].
      right. eexists. split; [reflexivity|]. cbn [c_out c_res c_scope c_item].
      assert (GM : grows (c_out c) (upd ri (on_scope (on_items (upd k (fun _ => m))) si) (c_out c))).
      { (* only this list is touched; keys of other lists would change, so use the position *)
        split; [|split].
        - intros rj' X0 H. apply (proj1 (grows_items (c_out c) ri si (fun l => l) (fun l k a E => ex_intro _ a (conj E eq_refl)))) in H.
          destruct H as (g & E & R). rewrite nth_error_upd in E. unfold at_res. rewrite nth_error_upd. destruct (Nat.eqb rj' ri); [|eauto].
          destruct (nth_error (c_out c) rj') as [g0|]; [|discriminate]. eexists. split; [reflexivity|]. apply some_inj in E. subst g. exact R.
        - intros rj' sj' X0 Y0 (g & t & E & E2 & R1 & R2). unfold at_scope. rewrite nth_error_upd. destruct (Nat.eqb rj' ri); [|exists g, t; auto]. rewrite E. cbn [option_map].
          exists (on_scope (on_items (upd k (fun _ => m))) si g), (if Nat.eqb sj' si then on_items (upd k (fun _ => m)) t else t). split; [reflexivity|].
          cbn [on_scope rg_scopes]. rewrite nth_error_upd, E2. destruct (Nat.eqb sj' si); cbn [option_map]; auto.
        - intros rj' sj' k' X0 Y0 x (g & t & E & E2 & E3 & R1 & R2). unfold at_item. rewrite nth_error_upd.
          destruct (Nat.eqb_spec rj' ri) as [->|NEr]; [|exists x; split; [exists g, t; auto|reflexivity]].
          rewrite E. cbn [option_map]. destruct (Nat.eqb_spec sj' si) as [->|NEs].
          + destruct (Nat.eqb_spec k' k) as [->|NEk].
            * exists m. split.
              -- exists (on_scope (on_items (upd k (fun _ => m))) si g), (on_items (upd k (fun _ => m)) t). split; [reflexivity|]. cbn [on_scope rg_scopes]. rewrite nth_error_upd, Nat.eqb_refl, E2. cbn [option_map].
                 split; [reflexivity|]. cbn [on_items sg_items]. rewrite nth_error_upd, Nat.eqb_refl, E3. auto.
              -- destruct HI as (g' & t' & E1' & E2' & E3' & _). assert (g' = g) by congruence. subst g'. assert (t' = t) by congruence. subst t'. assert (om = x) by congruence. subst x.
                 apply (merge_key _ _ om a m KIo Ha KN KE Em).
            * exists x. split; [|reflexivity]. exists (on_scope (on_items (upd k (fun _ => m))) si g), (on_items (upd k (fun _ => m)) t). split; [reflexivity|]. cbn [on_scope rg_scopes]. rewrite nth_error_upd, Nat.eqb_refl, E2. cbn [option_map].
              split; [reflexivity|]. cbn [on_items sg_items]. rewrite nth_error_upd. destruct (Nat.eqb_spec k' k); [congruence|]. auto.
          + exists x. split; [|reflexivity]. exists (on_scope (on_items (upd k (fun _ => m))) si g), t. split; [reflexivity|]. cbn [on_scope rg_scopes]. rewrite nth_error_upd. destruct (Nat.eqb_spec sj' si); [congruence|]. auto. }
      split; [split; [eapply res_ok_grows; eauto|split; [eapply scope_ok_grows; eauto|eapply item_ok_grows; eauto]]|].
      split; [|split; [exact GM|split]].
      * apply known_items; [exact K|]. intros X0 Y0 l k0 x Hl HS' E. rewrite nth_error_upd in E. destruct (Nat.eqb_spec k0 k) as [->|]; [|eauto].
        destruct (nth_error l k) as [y|] eqn:Ey; [|discriminate]. apply some_inj in E. subst x.
        destruct HI as (g & s & E1 & E2 & E3 & <- & <-), HS' as (g' & s' & E1' & E2' & <- & <-). assert (g' = g) by congruence. subst g'. assert (s' = s) by congruence. subst s'.
        apply (KI_merge _ _ om a m KIo Ha KN KE Em).
      * split; [reflexivity|]. split; [reflexivity|]. apply upd_length.
      * apply (loc_set_item _ _ _ _ _ _ _ _ _ HI). apply (merge_parts _ _ om a m KIo Ha KN KE Em).
    + right. eexists. split; [reflexivity|]. cbn [c_out c_res c_scope c_item]. split; [|split; [exact KA|split; [exact GA|split]]].
      * split; [eapply res_ok_grows; eauto|]. split; [eapply scope_ok_grows; eauto|]. intros x ri si k E. cbn [c_item c_out] in *. rewrite (aget_aset _ N_eqb_reflect) in E.
        destruct (N.eqb_spec x (hash_metric h (hs (hr X) Y) name)) as [->|].
        -- apply some_inj in E. assert (Q : (rj, sj, scope_len (c_out c) rj sj) = (ri, si, k)) by exact E. apply pair_inj in Q as [Q Qk]. apply pair_inj in Q as [-> ->].
           exists X, Y, a, name. split; [|auto]. destruct HS as (g & s & E1 & E2 & <- & <-).
           unfold scope_len in Qk. rewrite E1, E2 in Qk. exists (on_scope (on_items (fun l => l ++ [a])) si g), (on_items (fun l => l ++ [a]) s).
           rewrite nth_error_upd, Nat.eqb_refl, E1. split; [reflexivity|]. cbn [on_scope rg_scopes]. rewrite nth_error_upd, Nat.eqb_refl, E2. split; [reflexivity|].
           cbn [on_items sg_items]. rewrite <- Qk. split; [apply nth_app_new|auto].
        -- eapply item_ok_grows; eauto.
      * split; [reflexivity|]. split; [reflexivity|]. apply upd_length.
      * apply loc_add_item, HS.
  - right. eexists. split; [reflexivity|]. cbn [c_out c_res c_scope c_item].
    split; [split; [eapply res_ok_grows; eauto|split; [eapply scope_ok_grows; eauto|eapply item_ok_grows; eauto]]|].
    split; [exact KA|]. split; [exact GA|]. split; [split; [reflexivity|]; split; [reflexivity|]; apply upd_length|]. apply loc_add_item, HS.
Qed.
Lemma add_items_spec X Y rj sj l : forall c, maps_ok c -> known (c_out c) -> at_scope (c_out c) rj sj X Y -> (forall a, In a l -> KI X Y a) ->
  (add_items h ikey imerge (hs (hr X) Y) rj sj l c = None /\ ~ total) \/ exists c', add_items h ikey imerge (hs (hr X) Y) rj sj l c = Some c' /\ maps_ok c' /\ known (c_out c') /\ grows (c_out c) (c_out c') /\ same_top c c' /\
    Permutation (loc (c_out c')) (loc (c_out c) ++ loc_items X Y l).
Proof.
  induction l as [|a l IH]; intros c M K HS Ha; cbn [add_items].
  - right. exists c. split; [reflexivity|]. split; [exact M|]. split; [exact K|]. split; [apply grows_refl|]. split; [split; auto|]. cbn. rewrite app_nil_r. apply Permutation_refl.
  - destruct (add_item_spec c rj sj X Y a M K HS (Ha a (or_introl eq_refl))) as [[E1 NT]|(c1 & E1 & M1 & K1 & G1 & T1 & P1)]; rewrite E1; [left; auto|].
    destruct (IH c1 M1 K1 (proj1 (proj2 G1) _ _ _ _ HS)) as [[E2 NT]|(c2 & E2 & M2 & K2 & G2 & T2 & P2)]; [intros x Hx; apply Ha; right; exact Hx|left; auto|].
    right. exists c2. split; [exact E2|]. split; [exact M2|]. split; [exact K2|]. split; [eapply grows_trans; eauto|]. split; [eapply same_top_trans; eauto|].
    rewrite P2, P1, <- app_assoc. apply Permutation_refl.
Qed.

(* registering *)
Lemma reg_items_ok o ri si X Y s l1 l2 : forall m, nth_error (map Some o) ri <> None ->
  (exists g, nth_error o ri = Some g /\ nth_error (rg_scopes g) si = Some s /\ resource_id g = X /\ scope_id s = Y) -> sg_items s = l1 ++ l2 ->
  item_ok o m -> item_ok o (reg_items h ikey (hs (hr X) Y) ri si (List.length l1) l2 m).
Proof.
  revert l1. induction l2 as [|a l2 IH]; intros l1 m NN HS E M; cbn [reg_items]; [exact M|].
  replace (S (List.length l1)) with (List.length (l1 ++ [a])) by (rewrite app_length; cbn; lia).
  apply IH; [exact NN|exact HS|rewrite <- app_assoc; exact E|].
  destruct (ikey a) as [n|] eqn:Ek; [|exact M]. intros x rj sj k Ex. rewrite (aget_aset _ N_eqb_reflect) in Ex.
  destruct (N.eqb_spec x (hash_metric h (hs (hr X) Y) n)) as [->|]; [|apply M, Ex]. apply some_inj in Ex.
  apply pair_inj in Ex as [Q Qk]. apply pair_inj in Q as [<- <-]. subst k. destruct HS as (g & E1 & E2 & <- & <-). exists (resource_id g), (scope_id s), a, n. split; [|auto].
  exists g, s. split; [exact E1|]. split; [exact E2|]. split; [rewrite E, nth_error_app2 by lia; rewrite Nat.sub_diag; reflexivity|auto].
Qed.
Lemma reg_scopes_ok ri g l1 l2 : forall c, nth_error (c_out c) ri = Some g -> rg_scopes g = l1 ++ l2 -> maps_ok c ->
  let c' := reg_scopes h kvb ikey (hr (resource_id g)) ri (List.length l1) l2 c in
  maps_ok c' /\ c_out c' = c_out c /\ c_res c' = c_res c /\ c_ord c' = c_ord c.
Proof.
  revert l1. induction l2 as [|s l2 IH]; intros l1 c E1 E M; cbn [reg_scopes]; [auto|].
  rewrite hash_scope_id. replace (S (List.length l1)) with (List.length (l1 ++ [s])) by (rewrite app_length; cbn; lia).
  set (c1 := CSort _ _ _ _ _).
  assert (M1 : maps_ok c1).
  { destruct M as (M1 & M2 & M3). split; [exact M1|]. split.
    - intros x rj sj Ex. cbn [c1 c_scope c_out] in *. rewrite (aget_aset _ N_eqb_reflect) in Ex.
      destruct (N.eqb_spec x (hs (hr (resource_id g)) (scope_id s))) as [->|]; [|apply M2, Ex]. apply some_inj in Ex. apply pair_inj in Ex as [<- <-].
      exists (resource_id g), (scope_id s). split; [|reflexivity]. exists g, s. split; [exact E1|]. split; [|auto]. rewrite E, nth_error_app2 by lia. rewrite Nat.sub_diag. reflexivity.
    - cbn [c1 c_item c_out]. apply (reg_items_ok (c_out c) ri (List.length l1) (resource_id g) (scope_id s) s [] (sg_items s) (c_item c)).
      + rewrite nth_error_map, E1. discriminate.
      + exists g. split; [exact E1|]. split; [|auto]. rewrite E, nth_error_app2 by lia. rewrite Nat.sub_diag. reflexivity.
      + reflexivity.
      + exact M3. }
  destruct (IH (l1 ++ [s]) c1) as (R1 & R2 & R3 & R4); [exact E1|rewrite <- app_assoc; exact E|exact M1|].
  split; [exact R1|]. split; [rewrite R2; reflexivity|]. split; [rewrite R3; reflexivity|rewrite R4; reflexivity].
Qed.

Lemma add_scope_spec c ri X s : maps_ok c -> known (c_out c) -> at_res (c_out c) ri X -> KS X (scope_id s) -> (forall a, In a (sg_items s) -> KI X (scope_id s) a) ->
  (add_scope h kvb ikey imerge (hr X) ri s c = None /\ ~ total) \/ exists c', add_scope h kvb ikey imerge (hr X) ri s c = Some c' /\ maps_ok c' /\ known (c_out c') /\ grows (c_out c) (c_out c') /\ same_top c c' /\
    Permutation (loc (c_out c')) (loc (c_out c) ++ loc_scope X s).
Proof.
  intros M K HR Hs Ha. unfold add_scope. rewrite hash_scope_id. destruct (aget N.eqb (hs (hr X) (scope_id s)) (c_scope c)) as [[rj sj]|] eqn:E.
  - destruct M as (M1 & M2 & M3). destruct (M2 _ _ _ E) as (X' & Y' & HS & Eh). assert (KS' : KS X' Y') by (apply K in HS; exact HS).
    destruct (sepS _ _ _ _ KS' Hs Eh) as [-> ->]. apply add_items_spec; [split; [exact M1|split; assumption]|exact K|exact HS|exact Ha].
  - right. eexists. split; [reflexivity|]. cbn [c_out c_res c_scope c_item c_ord]. change (fun g => RGroup (rg_schema g) (rg_resource g) (rg_scopes g ++ [s])) with (add_scope_to s).
    assert (G : grows (c_out c) (upd ri (add_scope_to s) (c_out c))) by apply grows_scope.
    destruct HR as (g & Eg & ER).
    assert (NS : nth_error (upd ri (add_scope_to s) (c_out c)) ri = Some (add_scope_to s g)) by (rewrite nth_error_upd, Nat.eqb_refl, Eg; reflexivity).
    rewrite Eg. split; [|split; [|split; [exact G|split]]].
    + destruct M as (M1 & M2 & M3). split; [eapply res_ok_grows; eauto|]. split.
      * intros x rj sj Ex. cbn [c_scope c_out] in *. rewrite (aget_aset _ N_eqb_reflect) in Ex. destruct (N.eqb_spec x (hs (hr X) (scope_id s))) as [->|]; [|eapply scope_ok_grows; eauto].
        apply some_inj in Ex. apply pair_inj in Ex as [<- <-]. exists X, (scope_id s). split; [|reflexivity]. exists (add_scope_to s g), s. split; [exact NS|]. split; [apply nth_app_new|auto].
      * apply (reg_items_ok (upd ri (add_scope_to s) (c_out c)) ri (List.length (rg_scopes g)) X (scope_id s) s [] (sg_items s) (c_item c)).
        -- rewrite nth_error_map, NS. discriminate.
        -- exists (add_scope_to s g). split; [exact NS|]. split; [apply nth_app_new|auto].
        -- reflexivity.
        -- eapply item_ok_grows; eauto.
    + apply known_scope; [exact K|]. intros X0 (g0 & E0 & <-). assert (g0 = g) by congruence. subst g0. rewrite ER. auto.
    + split; [reflexivity|]. split; [reflexivity|]. apply upd_length.
    + apply loc_add_scope. exists g. auto.
Qed.
Lemma add_scopes_spec ri X l : forall c, maps_ok c -> known (c_out c) -> at_res (c_out c) ri X ->
  (forall s, In s l -> KS X (scope_id s) /\ forall a, In a (sg_items s) -> KI X (scope_id s) a) ->
  (add_scopes h kvb ikey imerge (hr X) ri l c = None /\ ~ total) \/ exists c', add_scopes h kvb ikey imerge (hr X) ri l c = Some c' /\ maps_ok c' /\ known (c_out c') /\ grows (c_out c) (c_out c') /\ same_top c c' /\
    Permutation (loc (c_out c')) (loc (c_out c) ++ flat_map (loc_scope X) l).
Proof.
  induction l as [|s l IH]; intros c M K HR Hl; cbn [add_scopes].
  - right. exists c. split; [reflexivity|]. split; [exact M|]. split; [exact K|]. split; [apply grows_refl|]. split; [split; auto|]. cbn. rewrite app_nil_r. apply Permutation_refl.
  - destruct (Hl s (or_introl eq_refl)) as [H1 H2].
    destruct (add_scope_spec c ri X s M K HR H1 H2) as [[E1 NT]|(c1 & E1 & M1 & K1 & G1 & T1 & P1)]; rewrite E1; [left; auto|].
    destruct (IH c1 M1 K1 (proj1 G1 _ _ HR)) as [[E2 NT]|(c2 & E2 & M2 & K2 & G2 & T2 & P2)]; [intros x Hx; apply Hl; right; exact Hx|left; auto|].
    right. exists c2. split; [exact E2|]. split; [exact M2|]. split; [exact K2|]. split; [eapply grows_trans; eauto|]. split; [eapply same_top_trans; eauto|].
    cbn [flat_map]. rewrite P2, P1, <- app_assoc. apply Permutation_refl.
Qed.

(* the order map numbers the resources *)
Definition ord_ok (c : csort) : Prop :=
  NoDup (map fst (c_ord c)) /\ Permutation (map snd (c_ord c)) (seq 1 (List.length (c_out c))) /\
  (forall x k, aget N.eqb x (c_ord c) = Some k <-> exists ri, aget N.eqb x (c_res c) = Some ri /\ k = S ri).
Lemma aset_new (m : amap N nat) x v : aget N.eqb x m = None -> map snd (aset N.eqb x v m) = map snd m ++ [v].
Proof. induction m as [|[y w] m IH]; cbn; [reflexivity|]. destruct (N.eqb_spec x y); [discriminate|]. intros H. cbn. rewrite IH by exact H. reflexivity. Qed.
Lemma ord_same c c' : same_top c c' -> ord_ok c -> ord_ok c'.
Proof. intros (E1 & E2 & E3) H. unfold ord_ok. rewrite E1, E2, E3. exact H. Qed.
Lemma add_resource_spec c g : maps_ok c -> known (c_out c) -> ord_ok c -> KR (resource_id g) ->
  (forall s, In s (rg_scopes g) -> KS (resource_id g) (scope_id s) /\ forall a, In a (sg_items s) -> KI (resource_id g) (scope_id s) a) ->
  (add_resource h kvb ikey imerge g c = None /\ ~ total) \/ exists c', add_resource h kvb ikey imerge g c = Some c' /\ maps_ok c' /\ known (c_out c') /\ ord_ok c' /\
    Permutation (loc (c_out c')) (loc (c_out c) ++ loc_res g).
Proof.
  intros M K O HR HS. unfold add_resource. rewrite hash_resource_id. destruct (aget N.eqb (hr (resource_id g)) (c_res c)) as [ri|] eqn:E.
  - destruct (proj1 M _ _ E) as (X & A1 & Eh). assert (KX : KR X) by (apply K in A1; exact A1). apply sepR in Eh; [|exact KX|exact HR]. subst X.
    destruct (add_scopes_spec ri (resource_id g) (rg_scopes g) c M K A1 HS) as [[E' NT]|(c' & E' & M' & K' & G' & T' & P')]; [left; auto|]. right. exists c'. split; [exact E'|]. split; [exact M'|]. split; [exact K'|].
    split; [eapply ord_same; eauto|exact P'].
  - right. eexists. split; [reflexivity|].
    set (c1 := CSort _ _ _ _ _).
    assert (N1 : nth_error (c_out c1) (List.length (c_out c)) = Some g) by apply nth_app_new.
    assert (G : grows (c_out c) (c_out c1)) by apply grows_app.
    assert (M1 : maps_ok c1).
    { destruct M as (M1 & M2 & M3). split; [|split; [eapply scope_ok_grows; eauto|eapply item_ok_grows; eauto]].
      intros x ri Ex. cbn [c1 c_res] in Ex. rewrite (aget_aset _ N_eqb_reflect) in Ex. destruct (N.eqb_spec x (hr (resource_id g))) as [->|]; [|eapply res_ok_grows; eauto].
      apply some_inj in Ex. subst ri. exists (resource_id g). split; [exists g; auto|reflexivity]. }
    destruct (reg_scopes_ok (List.length (c_out c)) g [] (rg_scopes g) c1 N1 eq_refl M1) as (R1 & R2 & R3 & R4). cbn [List.length] in R1, R2, R3, R4.
    split; [exact R1|]. rewrite R2. split; [apply known_app; assumption|]. split.
    + unfold ord_ok. rewrite R2, R3, R4. cbn [c1 c_ord c_out c_res]. destruct O as (O1 & O2 & O3). split; [apply (nodup_aset _ N_eqb_reflect), O1|].
      assert (EO : aget N.eqb (hr (resource_id g)) (c_ord c) = None).
      { destruct (aget N.eqb (hr (resource_id g)) (c_ord c)) as [k|] eqn:EO; [|reflexivity]. apply O3 in EO as (ri & Q & _). congruence. }
      split.
      * rewrite aset_new by exact EO. rewrite app_length. cbn [List.length]. rewrite Nat.add_1_r, seq_S. apply Permutation_app; [exact O2|]. apply Permutation_refl.
      * intros x k. rewrite !(aget_aset _ N_eqb_reflect). destruct (N.eqb_spec x (hr (resource_id g))) as [->|]; [|apply O3].
        split; [intros Q; apply some_inj in Q; eauto|intros (ri & Q & ->); apply some_inj in Q; congruence].
    + rewrite loc_eq. cbn [c1 c_out]. rewrite flat_map_app. cbn [flat_map]. rewrite app_nil_r. apply Permutation_refl.
Qed.
Lemma add_resources_spec l : forall c, maps_ok c -> known (c_out c) -> ord_ok c ->
  (forall g, In g l -> KR (resource_id g) /\ forall s, In s (rg_scopes g) -> KS (resource_id g) (scope_id s) /\ forall a, In a (sg_items s) -> KI (resource_id g) (scope_id s) a) ->
  (add_resources h kvb ikey imerge l c = None /\ ~ total) \/ exists c', add_resources h kvb ikey imerge l c = Some c' /\ ord_ok c' /\ maps_ok c' /\ known (c_out c') /\ Permutation (loc (c_out c')) (loc (c_out c) ++ loc l).
Proof.
  induction l as [|g l IH]; intros c M K O Hl; cbn [add_resources].
  - right. exists c. split; [reflexivity|]. split; [exact O|]. split; [exact M|]. split; [exact K|]. cbn. rewrite app_nil_r. apply Permutation_refl.
  - destruct (Hl g (or_introl eq_refl)) as [H1 H2]. destruct (add_resource_spec c g M K O H1 H2) as [[E1 NT]|(c1 & E1 & M1 & K1 & O1 & P1)]; rewrite E1; [left; auto|].
    destruct (IH c1 M1 K1 O1) as [[E2 NT]|(c2 & E2 & O2 & M2 & K2 & P2)]; [intros x Hx; apply Hl; right; exact Hx|left; auto|]. right. exists c2. split; [exact E2|]. split; [exact O2|]. split; [exact M2|]. split; [exact K2|].
    rewrite !loc_eq in *. cbn [flat_map]. rewrite P2, P1, <- app_assoc. apply Permutation_refl.
Qed.
Lemma new_ok : maps_ok csort_new /\ known (c_out csort_new) /\ ord_ok csort_new.
Proof.
  split; [split; [|split]; intros x; intros; discriminate|]. split.
  - split; [intros ri X (g & E & _); destruct ri; discriminate|]. split; [intros ri si X Y (g & s & E & _); destruct ri; discriminate|intros ri si k X Y a (g & s & E & _); destruct ri; discriminate].
  - split; [constructor|]. split; [constructor|]. intros x k. cbn. split; [discriminate|intros (ri & Q & _); discriminate].
Qed.
End Merge.

(* ------------------------------------------------------------------ without assuming anything of the hashes *)
Section Order.
Context {A : Type} (ikey : A -> option string) (imerge : A -> A -> option A).
Notation csort := (csort (A := A)).
Lemma add_item_top sh rj sj a c c' : add_item h ikey imerge sh rj sj a c = Some c' -> same_top c c'.
Proof.
  unfold add_item. intros E.
  destruct (ikey a) as [n|]; [|apply some_inj in E; subst c'; repeat split; apply upd_length].
  destruct (aget _ _ _) as [[[ri si] k]|]; [|apply some_inj in E; subst c'; repeat split; apply upd_length].
  destruct (item_at _ _ _ _) as [om|]; [|discriminate]. destruct (imerge om a) as [m|]; [|discriminate]. apply some_inj in E; subst c'; repeat split; apply upd_length.
Qed.
Lemma add_items_top sh rj sj l : forall c c', add_items h ikey imerge sh rj sj l c = Some c' -> same_top c c'.
Proof.
  induction l as [|a l IH]; intros c c'; cbn [add_items]; intros E; [apply some_inj in E; subst c'; repeat split|].
  destruct (add_item h ikey imerge sh rj sj a c) as [c1|] eqn:E1; [|discriminate]. eapply same_top_trans; [eapply add_item_top, E1|apply IH, E].
Qed.
Lemma add_scope_top rh ri s c c' : add_scope h kvb ikey imerge rh ri s c = Some c' -> same_top c c'.
Proof.
  unfold add_scope. destruct (aget _ _ _) as [[rj sj]|]; [apply add_items_top|]. intros E. apply some_inj in E. subst c'. repeat split. apply upd_length.
Qed.
Lemma add_scopes_top rh ri l : forall c c', add_scopes h kvb ikey imerge rh ri l c = Some c' -> same_top c c'.
Proof.
  induction l as [|a l IH]; intros c c'; cbn [add_scopes]; intros E; [apply some_inj in E; subst c'; repeat split|].
  destruct (add_scope h kvb ikey imerge rh ri a c) as [c1|] eqn:E1; [|discriminate]. eapply same_top_trans; [eapply add_scope_top, E1|apply IH, E].
Qed.
Lemma reg_scopes_top rh ri l : forall si (c : csort), let c' := reg_scopes h kvb ikey rh ri si l c in c_out c' = c_out c /\ c_res c' = c_res c /\ c_ord c' = c_ord c.
Proof.
  induction l as [|a l IH]; intros si c; cbn [reg_scopes]; [auto|]. match goal with |- context [reg_scopes h kvb ikey rh ri (S si) l ?c1] => destruct (IH (S si) c1) as (E1 & E2 & E3) end.
  cbn zeta. rewrite E1, E2, E3. auto.
Qed.
(** The order map numbers the hashes of [c_res] by position. *)
Definition numbered (c : csort) : Prop :=
  NoDup (map fst (c_ord c)) /\ Permutation (map snd (c_ord c)) (seq 1 (List.length (c_out c))) /\
  (forall x k, aget N.eqb x (c_ord c) = Some k <-> exists ri, aget N.eqb x (c_res c) = Some ri /\ k = S ri).
Lemma numbered_top c c' : same_top c c' -> numbered c -> numbered c'.
Proof. intros (E1 & E2 & E3) H. unfold numbered. rewrite E1, E2, E3. exact H. Qed.
Lemma add_resource_numbered g c c' : add_resource h kvb ikey imerge g c = Some c' -> numbered c -> numbered c'.
Proof.
  unfold add_resource. destruct (aget N.eqb (hash_resource h kvb (rg_schema g) (rg_resource g)) (c_res c)) as [ri|] eqn:E; intros EQ O.
  - eapply numbered_top; [eapply add_scopes_top, EQ|exact O].
  - apply some_inj in EQ. subst c'. destruct O as (O1 & O2 & O3).
    match goal with |- numbered (reg_scopes h kvb ikey ?rh ?ri 0 ?l ?c1) => destruct (reg_scopes_top rh ri l 0 c1) as (R2 & R3 & R4) end.
    unfold numbered. rewrite R2, R3, R4. cbn [c_ord c_out c_res]. split; [apply (nodup_aset _ N_eqb_reflect), O1|]. set (x0 := hash_resource h kvb (rg_schema g) (rg_resource g)) in *.
    assert (EO : aget N.eqb x0 (c_ord c) = None).
    { destruct (aget N.eqb x0 (c_ord c)) as [k|] eqn:EO; [|reflexivity]. apply O3 in EO as (ri & Q & _). congruence. }
    split.
    + rewrite aset_new by exact EO. rewrite app_length. cbn [List.length]. rewrite Nat.add_1_r, seq_S. apply Permutation_app; [exact O2|]. apply Permutation_refl.
    + intros x k. rewrite !(aget_aset _ N_eqb_reflect). destruct (N.eqb_spec x x0) as [->|]; [|apply O3].
      split; [intros Q; apply some_inj in Q; eauto|intros (ri & Q & ->); apply some_inj in Q; congruence].
Qed.
Lemma add_resources_numbered l : forall c c', add_resources h kvb ikey imerge l c = Some c' -> numbered c -> numbered c'.
Proof.
  induction l as [|g l IH]; intros c c'; cbn [add_resources]; intros E O; [apply some_inj in E; subst c'; exact O|].
  destruct (add_resource h kvb ikey imerge g c) as [c1|] eqn:E1; [|discriminate]. eapply IH, add_resource_numbered; eauto.
Qed.
Lemma numbered_new : numbered csort_new.
Proof. split; [constructor|]. split; [constructor|]. intros x k. cbn. split; [discriminate|intros (ri & Q & _); discriminate]. Qed.
End Order.

(** Logs and spans are only ever appended, so merging them cannot fail. *)
Section Total.
Context {A : Type} (imerge : A -> A -> option A).
Notation none := (fun _ : A => @None string).
Lemma add_items_total sh rj sj l : forall c, exists c', add_items h none imerge sh rj sj l c = Some c'.
Proof. induction l as [|a l IH]; intros c; cbn [add_items]; [eauto|]. unfold add_item. apply IH. Qed.
Lemma add_scopes_total rh ri l : forall c, exists c', add_scopes h kvb none imerge rh ri l c = Some c'.
Proof.
  induction l as [|s l IH]; intros c; cbn [add_scopes]; [eauto|]. unfold add_scope. destruct (aget _ _ _) as [[rj sj]|]; [|apply IH].
  destruct (add_items_total (hash_scope h kvb rh (sg_schema s) (sg_scope s)) rj sj (sg_items s) c) as (c1 & ->). apply IH.
Qed.
Lemma add_resources_total l : forall c, exists c', add_resources h kvb none imerge l c = Some c'.
Proof.
  induction l as [|g l IH]; intros c; cbn [add_resources]; [eauto|]. unfold add_resource. destruct (aget _ _ _) as [ri|]; [|apply IH].
  destruct (add_scopes_total (hash_resource h kvb (rg_schema g) (rg_resource g)) ri (rg_scopes g) c) as (c1 & ->). apply IH.
Qed.
End Total.
End Hashes.

(** Sorting positions by an order without repeats has one outcome. *)
Lemma sorted_unique {B} (f : B -> nat) : forall l l' : list B, Permutation l l' -> NoDup (map f l) ->
  StronglySorted (fun x y => (f x <= f y)%nat) l -> StronglySorted (fun x y => (f x <= f y)%nat) l' -> l = l'.
Proof.
  induction l as [|x l IH]; intros l' P ND S1 S2; [apply Permutation_nil in P; subst; reflexivity|].
  destruct l' as [|y l']; [apply Permutation_sym, Permutation_nil in P; discriminate|].
  inversion S1 as [|? ? S1' F1]; subst. inversion S2 as [|? ? S2' F2]; subst. cbn in ND. inversion ND as [|? ? NI ND']; subst.
  assert (x = y).
  { assert (Hy : In y (x :: l)) by (apply (Permutation_in _ (Permutation_sym P)); left; reflexivity).
    assert (Hx : In x (y :: l')) by (apply (Permutation_in _ P); left; reflexivity).
    destruct Hy as [|Hy]; [assumption|]. destruct Hx as [->|Hx]; [reflexivity|].
    rewrite Forall_forall in F1, F2. specialize (F1 _ Hy). specialize (F2 _ Hx). exfalso. apply NI. apply in_map_iff. exists y. split; [lia|exact Hy]. }
  subst y. f_equal. apply IH; auto. eapply Permutation_cons_inv, P.
Qed.
