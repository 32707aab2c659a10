(** When exactly trimming crashes. *)
From Verif.Model Require Import Base Labels View Otlp Transform Store Visit XxHash.
From Verif.Spec Require Import Trim.
From Verif.Proofs Require Import BaseFacts VisitFacts.
Open Scope N_scope.

(** Keys of attributes have no equals sign; needed only when an attribute is asked for. *)
Definition plain_keys (fs : list scan_filter) (ls : list key_value) : Prop := (exists p k v, In (FAttr p k v) fs) -> Forall (fun a => str_mem eq_sign (kv_key a) = false) ls.

Lemma keep_map_none {A B} (f : A -> option (option B)) l : keep_map f l = None <-> exists a, In a l /\ f a = None.
Proof.
  induction l as [|a l IH]; [split; [discriminate|intros (a & [] & _)]|]. cbn [keep_map]. destruct (f a) as [r|] eqn:E.
  - destruct (keep_map f l) as [t|].
    + split; [discriminate|]. intros (b & [<-|Hb] & Eb); [congruence|]. assert (Some t = None) as X by (apply IH; eauto). discriminate.
    + split; [|reflexivity]. intros _. destruct (proj1 IH eq_refl) as (b & Hb & Eb). exists b. split; [right; exact Hb|exact Eb].
  - split; [|reflexivity]. intros _. exists a. split; [left; reflexivity|exact E].
Qed.
Lemma attr_hashes_none h ls : forall b, valueless ls = true -> attr_hashes h ls b = None.
Proof.
  induction ls as [|a ls IH]; intros b H; [discriminate|]. unfold valueless in *. cbn [existsb] in H. cbn [attr_hashes].
  destruct (kv_val a) as [[v|raw]|]; [| |reflexivity]; apply IH, H.
Qed.
Lemma valueless_false ls : valueless ls = false -> Forall (fun a => kv_val a <> None) ls.
Proof.
  induction ls as [|a ls IH]; intros H; [constructor|]. unfold valueless in *. cbn [existsb] in H. apply orb_false_iff in H. destruct H as [H1 H2].
  constructor; [|exact (IH H2)]. intros E. rewrite E in H1. discriminate.
Qed.

Section Top.
Context (h h0 : string -> N) (fs : list scan_filter) (st en : N).
Hypothesis Hag : agree_short h h0.
Hypothesis Hpc : plain_conditions fs.
Notation visitor_of := (the_visitor h h0 fs st en).

Lemma match_exact l ls ws : (forall k v, In (k, v) l -> exists p, In (FAttr p k v) fs) -> tells_apart h fs ws -> plain_keys fs ls -> incl (attr_words ls) ws ->
  match_attr h (sadds (pair_hashes h0 l) []) ls = if asked_for l && valueless ls then None else Some (all_there l ls).
Proof.
  intros Hl Ht Hp Hi. destruct l as [|[k v] l]; [reflexivity|]. cbn [asked_for andb]. destruct (valueless ls) eqn:E.
  - unfold match_attr. rewrite sempty_sadds. cbn [pair_hashes map]. rewrite attr_hashes_none by exact E. reflexivity.
  - apply match_ok with (fs := fs) (ws := ws); try assumption. intros Hx. specialize (Hp Hx). apply valueless_false in E. rewrite Forall_forall in *. intros a Ha. split; auto.
Qed.
Lemma accept_resource_exact {A} (g : resource_group A) ws : tells_apart h fs ws -> plain_keys fs (attrs_of_resource (rg_resource g)) ->
  In (rg_schema g) ws -> incl (attr_words (attrs_of_resource (rg_resource g))) ws ->
  accept_resource h visitor_of g = if bad_resource fs (rg_schema g) (rg_resource g) then None else Some (wanted_resource fs (rg_schema g) (rg_resource g)).
Proof.
  intros Ht Hp Hs Ha. unfold accept_resource, the_visitor. rewrite compile_all_spec. cbn [v_resource_schema v_resource_attr set_time_range visitor_new].
  rewrite (accept_text_ok h fs _ PREFIX_RESOURCE_SCHEMA _ ws eq_refl Ht Hs). unfold and_then, wanted_resource, bad_resource.
  change (match rg_resource g with Some r => r_attrs r | None => [] end) with (attrs_of_resource (rg_resource g)).
  rewrite (match_exact _ _ ws); [|intros k v Hk; eexists; apply in_pairs, Hk|exact Ht|exact Hp|exact Ha].
  destruct (one_of _ _); [|reflexivity]. cbn [andb]. reflexivity.
Qed.
Lemma asked_scope_pairs : asked_for (scope_pairs fs) = asked_for (pairs fs PREFIX_SCOPE_ATTRIBUTES) || asked_for (pairs fs PREFIX_ATTRIBUTES).
Proof.
  clear. unfold scope_pairs, pairs. induction fs as [|f l IH]; [reflexivity|]. cbn [flat_map]. destruct f as [q v|q k v|]; [exact IH| |exact IH].
  destruct (Z.eqb_spec q PREFIX_SCOPE_ATTRIBUTES) as [->|?]; [reflexivity|]. destruct (Z.eqb_spec q PREFIX_ATTRIBUTES) as [->|?]; cbn [orb app]; [|exact IH].
  cbn [asked_for]. rewrite orb_true_r. reflexivity.
Qed.
Lemma accept_scope_exact {A} (s : scope_group A) ws : tells_apart h fs ws -> plain_keys fs (attrs_of_scope (sg_scope s)) ->
  In (sg_schema s) ws -> In (name_of_scope (sg_scope s)) ws -> In (version_of_scope (sg_scope s)) ws -> incl (attr_words (attrs_of_scope (sg_scope s))) ws ->
  accept_scope h visitor_of s = if bad_scope fs (sg_schema s) (sg_scope s) then None else Some (executed_scope fs (sg_schema s) (sg_scope s)).
Proof.
  intros Ht Hp Hs Hn Hv Ha. unfold accept_scope, the_visitor. rewrite compile_all_spec. cbn [v_scope_schema v_scope_name v_scope_version v_scope_attr set_time_range visitor_new].
  rewrite (accept_text_ok h fs _ PREFIX_SCOPE_SCHEMA _ ws eq_refl Ht Hs).
  change (match sg_scope s with Some x => s_name x | None => "" end) with (name_of_scope (sg_scope s)).
  change (match sg_scope s with Some x => s_version x | None => "" end) with (version_of_scope (sg_scope s)).
  rewrite (accept_text_ok h fs _ PREFIX_SCOPE_NAME _ ws eq_refl Ht Hn), (accept_text_ok h fs _ PREFIX_SCOPE_VERSION _ ws eq_refl Ht Hv).
  change (match sg_scope s with Some x => s_attrs x | None => [] end) with (attrs_of_scope (sg_scope s)).
  rewrite (match_exact _ _ ws); [|intros k v Hk; apply in_scope_pairs, Hk|exact Ht|exact Hp|exact Ha].
  unfold and_then, executed_scope, wanted_scope, bad_scope. rewrite all_there_scope_pairs, asked_scope_pairs.
  destruct (one_of _ (sg_schema s)), (one_of _ (name_of_scope _)), (one_of _ (version_of_scope _)); cbn [andb]; reflexivity.
Qed.

Lemma visit_scope_none {A} (item : A -> option (option A)) (s : scope_group A) b : (forall a, In a (sg_items s) -> item a <> None) ->
  accept_scope h visitor_of s = b -> visit_scope h item visitor_of s = None <-> b = None.
Proof.
  intros Hi <-. unfold visit_scope. destruct (accept_scope h visitor_of s) as [[|]|]; [|split; discriminate|split; reflexivity].
  destruct (keep_map item (sg_items s)) as [[|]|] eqn:E; [split; discriminate|split; discriminate|].
  apply keep_map_none in E. destruct E as (a & Ha & E). destruct (Hi _ Ha E).
Qed.

Lemma walk_none {A} (iw : A -> list string) (item : A -> option (option A)) gs : tells_apart h fs (words_of iw gs) -> plain_keys fs (attrs_in gs) ->
  (forall a, incl (iw a) (words_of iw gs) -> item a <> None) ->
  keep_map (visit_resource h item visitor_of) gs = None <->
  existsb (fun g => bad_resource fs (fst (fst g)) (snd (fst g)) ||
    (wanted_resource fs (fst (fst g)) (snd (fst g)) && existsb (fun s => bad_scope fs (fst s) (snd s)) (snd g))) (heads_of gs) = true.
Proof.
  intros Ht Hp Hi. rewrite keep_map_none, existsb_exists.
  assert (forall g, In g gs -> visit_resource h item visitor_of g = None <->
    bad_resource fs (rg_schema g) (rg_resource g) || (wanted_resource fs (rg_schema g) (rg_resource g) && existsb (fun s => bad_scope fs (fst s) (snd s)) (map (fun s => (sg_schema s, sg_scope s)) (rg_scopes g))) = true) as K.
  { intros g Hg. unfold plain_keys in Hp. rewrite Forall_forall in Hp.
    assert (forall x, In x (rg_schema g :: attr_words (attrs_of_resource (rg_resource g)) ++
      flat_map (fun s => sg_schema s :: name_of_scope (sg_scope s) :: version_of_scope (sg_scope s) :: attr_words (attrs_of_scope (sg_scope s)) ++
        flat_map iw (sg_items s)) (rg_scopes g)) -> In x (words_of iw gs)) as Hw by (intros x Hx; unfold words_of; apply in_flat_map; exists g; split; assumption).
    unfold visit_resource. rewrite (accept_resource_exact g (words_of iw gs) Ht).
    2:{ intros Hex. apply Forall_forall. intros a Ha. apply (Hp Hex). unfold attrs_in. apply in_flat_map. exists g. split; [exact Hg|]. apply in_or_app. left. exact Ha. }
    2:{ apply Hw. left. reflexivity. }
    2:{ intros x Hx. apply Hw. right. apply in_or_app. left. exact Hx. }
    destruct (bad_resource _ _ _); [split; reflexivity|]. destruct (wanted_resource _ _ _); cbn [orb andb]; [|split; discriminate].
    rewrite existsb_exists.
    assert (keep_map (visit_scope h item visitor_of) (rg_scopes g) = None <-> exists x, In x (map (fun s => (sg_schema s, sg_scope s)) (rg_scopes g)) /\ bad_scope fs (fst x) (snd x) = true) as S.
    { assert (forall s, In s (rg_scopes g) -> visit_scope h item visitor_of s = None <-> bad_scope fs (sg_schema s) (sg_scope s) = true) as Q.
      { intros s Hs.
        assert (forall x, In x (sg_schema s :: name_of_scope (sg_scope s) :: version_of_scope (sg_scope s) :: attr_words (attrs_of_scope (sg_scope s)) ++
          flat_map iw (sg_items s)) -> In x (words_of iw gs)) as Hw' by (intros x Hx; apply Hw; right; apply in_or_app; right; apply in_flat_map; exists s; split; assumption).
        rewrite (visit_scope_none item s (if bad_scope fs (sg_schema s) (sg_scope s) then None else Some (executed_scope fs (sg_schema s) (sg_scope s)))).
        - destruct (bad_scope _ _ _); split; (reflexivity || discriminate).
        - intros a Ha. apply Hi. intros x Hx. apply Hw'. do 3 right. apply in_or_app. right. apply in_flat_map. exists a. split; assumption.
        - apply (accept_scope_exact s (words_of iw gs) Ht).
          + intros Hex. apply Forall_forall. intros a Ha. apply (Hp Hex). unfold attrs_in. apply in_flat_map. exists g. split; [exact Hg|]. apply in_or_app. right.
            apply in_flat_map. exists s. split; assumption.
          + apply Hw'. left. reflexivity.
          + apply Hw'. right. left. reflexivity.
          + apply Hw'. right. right. left. reflexivity.
          + intros x Hx. apply Hw'. do 3 right. apply in_or_app. left. exact Hx. }
      rewrite keep_map_none. split.
      - intros (s & Hs & E). exists (sg_schema s, sg_scope s). split; [apply in_map_iff; eauto|]. apply Q; assumption.
      - intros (x & Hx & E). apply in_map_iff in Hx. destruct Hx as (s & <- & Hs). exists s. split; [exact Hs|]. apply Q; assumption. }
    rewrite <- S. destruct (keep_map (visit_scope h item visitor_of) (rg_scopes g)) as [[|]|]; split; (reflexivity || discriminate). }
  split.
  - intros (g & Hg & E). exists ((rg_schema g, rg_resource g), map (fun s => (sg_schema s, sg_scope s)) (rg_scopes g)). split; [apply in_map_iff; eauto|]. apply K; assumption.
  - intros (x & Hx & E). apply in_map_iff in Hx. destruct Hx as (g & <- & Hg). exists g. split; [exact Hg|]. apply K; assumption.
Qed.

Lemma item_not_none {A} parts full (item : A -> option (option A)) ok a : item_good parts full item ok a -> item a <> None.
Proof. intros (r & E & _). congruence. Qed.
Lemma visit_none d : tells_apart h fs (words d) -> plain_keys fs (head_attrs d) -> visit h visitor_of d = None <-> cannot_trim fs d = true.
Proof.
  intros Ht Hp. assert (forall A B (f : A -> B) x, option_map f x = None <-> x = None) as O by (intros A B f []; split; (reflexivity || discriminate)).
  unfold cannot_trim. destruct d as [gs|gs|gs|]; cbn [words head_attrs heads visit] in *; [rewrite O| rewrite O|rewrite O|split; discriminate].
  - apply (walk_none (fun m => [m_name m]) _ gs Ht Hp). intros a Ha. eapply item_not_none, item_metric with (st := st) (en := en) (h0 := h0); [exact Ht|apply Ha; left; reflexivity].
  - apply (walk_none (fun s => [sp_name s; the_id (sp_trace s); the_id (sp_span s)]) _ gs Ht Hp). intros a Ha.
    eapply item_not_none, item_span with (st := st) (en := en) (h0 := h0); [exact Ht|apply Ha; left; reflexivity|apply Ha; right; left; reflexivity|apply Ha; do 2 right; left; reflexivity].
  - apply (walk_none (fun l => [lr_severity l]) _ gs Ht Hp). intros a Ha. eapply item_not_none, item_log with (st := st) (en := en) (h0 := h0); [exact Ht|apply Ha; left; reflexivity].
Qed.
End Top.
