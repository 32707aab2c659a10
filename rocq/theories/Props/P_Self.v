(** C63: the server's own spans, grouped for its own ingest endpoint (internal/self/trace). *)
From Coq Require Import Permutation.
From Verif.Model Require Import Base Otlp SelfTrace.
From Verif.Spec Require Import Groups.
From Verif.Proofs Require Import BaseFacts SelfTraceFacts.
Open Scope nat_scope.

Lemma nodup_app_r {A} (l m : list A) : NoDup (l ++ m) -> NoDup m.
Proof. induction l; intros H; [exact H|]. inversion H. auto. Qed.
Lemma nodup_app_l {A} (l m : list A) : NoDup (l ++ m) -> NoDup l.
Proof. induction l; intros H; [constructor|]. inversion H as [|? ? N H']. subst. constructor; [|auto]. intros X. apply N, in_app_iff. auto. Qed.

(** Whatever the iteration order of Go's maps ([order]): every span given appears exactly once in the
    message (as a multiset), under its own resource attributes and its own scope. *)
Theorem C63_every_span_once : forall enc enc_rest order sdl, (forall m, Permutation (order m) m) ->
  Permutation (placements (spans_of enc enc_rest order sdl))
              (map (fun sd => (key_values enc (own_attributes sd), own_scope sd, span_of enc enc_rest sd)) (given sdl)).
Proof.
  intros enc enc_rest order sdl P. unfold spans_of. destruct (run_inv enc enc_rest sdl _ _ (inv_start enc enc_rest)) as [_ _ _ _ _ I6 _ _ _ _ _ _ _].
  eapply perm_trans; [apply placements_perm, Permutation_map, P|]. rewrite placements_content. exact I6.
Qed.
Print Assumptions C63_every_span_once.

(** One group per resource and, inside it, one group per scope, each holding exactly the spans of that
    resource and scope, in the order in which they were given. *)
Theorem C63_grouping : forall enc enc_rest order sdl, (forall m, Permutation (order m) m) ->
  exists resources, NoDup resources /\ (forall r, In r resources <-> exists sd, In sd (given sdl) /\ own_attributes sd = r) /\
    Forall2 (fun r g => resource_attributes (rg_resource g) = key_values enc r /\
      (exists sd, In sd (given sdl) /\ own_attributes sd = r /\ rg_schema g = own_schema sd) /\
      exists scopes, NoDup scopes /\ (forall s, In s scopes <-> exists sd, In sd (given sdl) /\ own_attributes sd = r /\ sd_scope sd = s) /\
        Forall2 (fun s sg => scope_identity sg = (ss_name s, ss_version s, ss_schema s) /\
          sg_items sg = map (span_of enc enc_rest) (filter (fun sd => attrs_eqb (own_attributes sd) r && scope_eqb (sd_scope sd) s) (given sdl))) scopes (rg_scopes g))
      resources (spans_of enc enc_rest order sdl).
Proof.
  intros enc enc_rest order sdl P. unfold spans_of. destruct (run_inv enc enc_rest sdl _ _ (inv_start enc enc_rest)) as [I1 I2 I3 I4 I5 I6 I7 I8 I9 I10 I11 I12 I13].
  cbn [app] in *. set (st := fold_left (step enc enc_rest) sdl _) in *. exists (map fst (order (rsm st))).
  split; [eapply Permutation_NoDup; [apply Permutation_map, Permutation_sym, P|exact I4]|].
  split; [intros r; rewrite <- I7; split; apply Permutation_in; [|apply Permutation_sym]; apply Permutation_map, P|].
  assert (Q : forall e, In e (order (rsm st)) -> In e (rsm st)) by (intros e; apply Permutation_in, P).
  revert Q. generalize (order (rsm st)). intros l Q. induction l as [|[r [[s res] ids]] l IH]; [constructor|]. cbn [map]. constructor; [|apply IH; intros e He; apply Q; right; exact He].
  assert (Hin : In (r, (s, res, ids)) (rsm st)) by (apply Q; left; reflexivity). cbn [resource_spans rg_resource rg_schema rg_scopes fst].
  split; [exact (I5 _ _ _ _ Hin)|]. split; [destruct (I8 _ _ _ _ Hin) as (sd & A & B & C); exists sd; auto|].
  assert (ND : NoDup ids).
  { clear - I2 Hin. apply in_split in Hin. destruct Hin as (l1 & l2 & E). rewrite E, pairs_app, map_app in I2. apply nodup_app_r in I2. unfold pairs in I2. cbn [flat_map] in I2. rewrite map_app in I2. apply nodup_app_l in I2. rewrite map_map in I2. cbn [snd] in I2. rewrite map_id in I2. exact I2. }
  assert (X : forall ids', (forall i, In i ids' -> In i ids) -> NoDup ids' -> exists scopes, NoDup scopes /\ (forall sc, In sc scopes <-> exists i, In i ids' /\ aget key_eqb (r, sc) (ssm st) = Some i) /\
     Forall2 (fun sc sg => scope_identity sg = (ss_name sc, ss_version sc, ss_schema sc) /\ sg_items sg = map (span_of enc enc_rest) (filter (fun sd => attrs_eqb (own_attributes sd) r && scope_eqb (sd_scope sd) sc) (given sdl))) scopes (map (fun i => nth i (heap st) no_group) ids')).
  { induction ids' as [|i ids' IHi]; intros Sub N'.
    - exists []. split; [constructor|]. split; [|constructor]. intros sc. split; [intros []|intros (i & [] & _)].
    - inversion N' as [|? ? Ni N'']. subst. destruct IHi as (scopes & S1 & S2 & S3); [intros j Hj; apply Sub; right; exact Hj|exact N''|].
      destruct (I9 _ _ _ _ i Hin (Sub i (or_introl eq_refl))) as (sc & Esc). exists (sc :: scopes). split; [|split].
      + constructor; [|exact S1]. rewrite S2. intros (j & Hj & Ej). rewrite Esc in Ej. apply some_inj in Ej. subst j. contradiction.
      + intros sc'. cbn [In]. rewrite S2. split.
        * intros [<-|(j & Hj & Ej)]; eauto.
        * intros (j & [<-|Hj] & Ej); [left|right; eauto]. assert (E := I10 _ _ _ Esc Ej). apply pair_inj in E. apply E.
      + cbn [map]. constructor; [|exact S3]. destruct (I1 _ _ Esc) as (_ & D & _). split; [exact D|]. exact (I12 _ _ Esc). }
  destruct (X ids (fun i H => H) ND) as (scopes & S1 & S2 & S3). exists scopes. split; [exact S1|]. split; [|exact S3].
  intros sc. rewrite S2. split.
  - intros (i & Hi & Ei). destruct (I13 _ _ Ei) as (sd & A & B). apply pair_inj in B. destruct B as [B C]. exists sd. auto.
  - intros (sd & A & B & C). assert (D := I11 _ A). unfold key_of in D. change (r_key sd) with (own_attributes sd) in D. rewrite B, C in D. destruct (aget key_eqb (r, sc) (ssm st)) as [i|] eqn:E; [|congruence]. exists i. split; [|reflexivity].
    destruct (I1 _ _ E) as (_ & _ & s' & res' & ids' & E1 & E2). cbn [fst] in E1. apply aget_in_rs in E1.
    assert (U : forall (m : amap (list attr) (string * option resource * list nat)) a v w, NoDup (map fst m) -> In (a, v) m -> In (a, w) m -> v = w).
    { clear. induction m as [|[k u] m IH]; intros a v w N H1 H2; [destruct H1|]. inversion N as [|? ? N1 N2]. subst. destruct H1 as [H1|H1], H2 as [H2|H2]; try (apply pair_inj in H1; destruct H1); try (apply pair_inj in H2; destruct H2); subst; try congruence.
      - exfalso. apply N1. apply (in_map fst) in H2. exact H2.
      - exfalso. apply N1. apply (in_map fst) in H1. exact H1.
      - eapply IH; eassumption. }
    assert (V := U _ _ _ _ I4 Hin E1). apply pair_inj in V. destruct V as [_ ->]. exact E2.
Qed.
Print Assumptions C63_grouping.

(** Nothing is said about resource and scope that the SDK did not say. *)
Lemma update_all {A} (P : A -> Prop) f n l : (forall x, P x -> P (f x)) -> Forall P l -> Forall P (update_nth n f l).
Proof. intros F H. revert n. induction H as [|x l Hx H IH]; intros [|n]; cbn; constructor; auto. Qed.
Definition bare_scope (g : scope_group span) : Prop := match sg_scope g with Some s => s_attrs s = [] /\ s_rest s = ""%string | None => True end.
Definition bare_entry (e : list attr * (string * option resource * list nat)) : Prop := match snd (fst (snd e)) with Some r => r_rest r = ""%string | None => True end.
Lemma aset_all {K V} (eqb : K -> K -> bool) (P : K * V -> Prop) k v m : Forall P m -> (forall k', P (k', v)) -> Forall P (aset eqb k v m).
Proof.
  intros H Hv. induction H as [|[k' v'] m Hx H IH]; cbn [aset]; [constructor; [apply Hv|constructor]|]. destruct (eqb k k'); constructor; auto.
Qed.
Lemma step_bare enc enc_rest st o : Forall bare_scope (heap st) /\ Forall bare_entry (rsm st) ->
  Forall bare_scope (heap (step enc enc_rest st o)) /\ Forall bare_entry (rsm (step enc enc_rest st o)).
Proof.
  intros [H R]. destruct o as [sd|]; [|split; assumption]. unfold step. cbv zeta.
  assert (U : forall n l, Forall bare_scope l -> Forall bare_scope (update_nth n (add_span enc enc_rest sd) l)) by (intros n l; apply update_all; intros x Hx; exact Hx).
  assert (V : Forall bare_scope (heap st ++ [SGroup (ss_schema (sd_scope sd)) (scope_of (sd_scope sd)) []])).
  { apply Forall_app. split; [exact H|]. constructor; [|constructor]. unfold bare_scope. cbn [sg_scope]. unfold scope_of. destruct (scope_eqb _ _); [exact Logic.I|split; reflexivity]. }
  assert (W : forall k sch ids, bare_entry (k, (sch, resource_of enc (sd_resource sd), ids))) by (intros k sch ids; unfold bare_entry, resource_of; cbn; destruct (sd_resource sd); reflexivity).
  destruct (aget key_eqb (r_key sd, sd_scope sd) (ssm st)) as [i|]; destruct (aget attrs_eqb (r_key sd) (rsm st)) as [[[sch res] ids]|] eqn:G; cbn [heap rsm]; (split; [auto|]); auto.
  - apply aset_all; [exact R|]. intros k'. apply W.
  - apply aset_all; [exact R|]. intros k'. apply aget_in_rs in G. rewrite Forall_forall in R. exact (R _ G).
  - apply aset_all; [exact R|]. intros k'. apply W.
Qed.
Theorem C63_nothing_added : forall enc enc_rest order sdl g, (forall m, Permutation (order m) m) -> In g (spans_of enc enc_rest order sdl) -> bare_group g.
Proof.
  intros enc enc_rest order sdl g P Hg. unfold spans_of in Hg. cbv zeta in Hg. apply in_map_iff in Hg as ([r [[sch res] ids]] & <- & He). cbn [resource_spans].
  assert (F : forall l st, Forall bare_scope (heap st) /\ Forall bare_entry (rsm st) -> Forall bare_scope (heap (fold_left (step enc enc_rest) l st)) /\ Forall bare_entry (rsm (fold_left (step enc enc_rest) l st))).
  { induction l as [|o l IH]; intros st K; [exact K|]. cbn [fold_left]. apply IH, step_bare, K. }
  destruct (F sdl (State [] [] []) (conj (Forall_nil _) (Forall_nil _))) as [Fh Fr]. apply (Permutation_in _ (P _)) in He. rewrite Forall_forall in Fh, Fr.
  split; cbn [rg_resource rg_scopes].
  - exact (Fr _ He).
  - intros sg Hs. apply in_map_iff in Hs as (i & <- & _). destruct (Nat.lt_ge_cases i (List.length (heap (fold_left (step enc enc_rest) sdl (State [] [] []))))) as [L|L].
    + apply Fh, nth_In, L.
    + rewrite nth_overflow by exact L. exact Logic.I.
Qed.
Print Assumptions C63_nothing_added.

(** The conversion of a span loses nothing but the trace state of its links: spans that differ in
    anything else have different conversions ([enc] and [enc_rest] stand for protobuf's encoding). *)
Theorem C63_fields_kept : forall enc enc_rest, (forall a b, enc a = enc b -> a = b) -> (forall a b, enc_rest a = enc_rest b -> a = b) ->
  forall a b, sane_span a -> sane_span b -> span_of enc enc_rest a = span_of enc enc_rest b -> fields_kept a = fields_kept b.
Proof. intros enc enc_rest E E' a b. apply span_inj; assumption. Qed.
Print Assumptions C63_fields_kept.

(** And each field of the message is the one of the span, status codes and kinds by their names. *)
Lemma wrapped bits z : (0 <= bits)%Z -> unsigned bits z (Z.to_N (z mod 2 ^ bits)).
Proof.
  intros B. assert (P : (0 < 2 ^ bits)%Z) by (apply Z.pow_pos_nonneg; lia). assert (M := Z.mod_pos_bound z _ P). exists (- (z / 2 ^ bits))%Z. rewrite Z2N.id by lia. split; [|exact M].
  rewrite Z.mod_eq by lia. rewrite Z.mul_opp_l, (Z.mul_comm (2 ^ bits)). apply Z.add_opp_r.
Qed.
Lemma attrs_same enc l : Forall2 (same_attr enc) l (key_values enc l).
Proof. induction l; constructor; [reflexivity|assumption]. Qed.
Theorem C63_fields_same : forall enc enc_rest sd, sane_span sd -> span_says enc enc_rest sd (span_of enc enc_rest sd).
Proof.
  intros enc enc_rest sd [_ _ _ Pa [Co Ki _ _ _]]. unfold span_says, span_of. cbn [sp_name sp_trace sp_span sp_parent sp_start sp_end sp_attrs sp_rest].
  repeat (split; [reflexivity|]). split.
  { clear - Pa. destruct (sd_parent sd) as [|a [|b [|c [|d [|e [|f [|g [|h [|]]]]]]]]]; try discriminate Pa. unfold valid_id, zero_id. cbn [list_ascii_of_string forallb String.eqb]. change zero with Ascii.zero.
    destruct (Ascii.eqb a Ascii.zero), (Ascii.eqb b Ascii.zero), (Ascii.eqb c Ascii.zero), (Ascii.eqb d Ascii.zero), (Ascii.eqb e Ascii.zero), (Ascii.eqb f Ascii.zero), (Ascii.eqb g Ascii.zero), (Ascii.eqb h Ascii.zero); reflexivity. }
  split; [apply wrapped; discriminate|]. split; [apply wrapped; discriminate|]. split; [apply attrs_same|]. exists (rest_of enc (sd_rest sd)). split; [reflexivity|].
  unfold rest_says, rest_of. cbn [ox_state ox_message ox_code ox_kind ox_links ox_events ox_dropped_attrs ox_dropped_events ox_dropped_links].
  split; [reflexivity|]. split; [reflexivity|]. split.
  { clear - Co. assert (X : (sx_code (sd_rest sd) = 0 \/ sx_code (sd_rest sd) = 1 \/ sx_code (sd_rest sd) = 2)%N) by lia. destruct X as [ -> | [ -> | -> ]]; [exists "Unset"%string|exists "Error"%string|exists "Ok"%string]; split; cbn; tauto. }
  split.
  { clear - Ki. assert (X : (sx_kind (sd_rest sd) = 0 \/ sx_kind (sd_rest sd) = 1 \/ sx_kind (sd_rest sd) = 2 \/ sx_kind (sd_rest sd) = 3 \/ sx_kind (sd_rest sd) = 4 \/ sx_kind (sd_rest sd) = 5)%N) by lia.
    destruct X as [ -> | [ -> | [ -> | [ -> | [ -> | -> ]]]]]; [exists "Unspecified"%string|exists "Internal"%string|exists "Server"%string|exists "Client"%string|exists "Producer"%string|exists "Consumer"%string]; split; cbn; tauto. }
  split; [|split; [|repeat split; apply wrapped; discriminate]].
  - induction (sx_links (sd_rest sd)) as [|l ls IH]; constructor; [|exact IH]. split; [reflexivity|]. split; [reflexivity|]. split; [apply attrs_same|apply wrapped; discriminate].
  - induction (sx_events (sd_rest sd)) as [|l ls IH]; constructor; [|exact IH]. split; [reflexivity|]. split; [apply wrapped; discriminate|]. split; [apply attrs_same|apply wrapped; discriminate].
Qed.
Print Assumptions C63_fields_same.

(** Two spans whose resources have the same attributes but different schema URLs end up in one group,
    under the schema URL of the first one: the other's is lost. *)
Definition some_rest : sdk_rest := SdkRest "" 0 "" 1 [] [] 0 0 0.
Definition span_under (schema : string) : sdk_span :=
  SdkSpan (Some (SdkResource [Attr "service.name" (AString "rq")] schema)) (SdkScope "lib" "1" "") "GET /" "0123456789abcdef" "01234567" "abcdefgh" 5 9 [] some_rest.
Theorem C63_schema_url_lost_refuted : forall enc enc_rest order, (forall m, Permutation (order m) m) ->
  exists sdl, In (span_under "v2") (given sdl) /\ forall g, In g (spans_of enc enc_rest order sdl) -> rg_schema g <> own_schema (span_under "v2").
Proof.
  intros enc enc_rest order P. exists [Some (span_under "v1"); Some (span_under "v2")]. split; [right; left; reflexivity|]. intros g H.
  unfold spans_of in H. apply in_map_iff in H. destruct H as (e & <- & He). apply (Permutation_in _ (P _)) in He. cbn in He. destruct He as [<-|[]]. cbn. discriminate.
Qed.
Print Assumptions C63_schema_url_lost_refuted.
(** The trace state of a link is lost. *)
Theorem C63_link_state_lost_refuted : forall enc, exists l l', sl_state l <> sl_state l' /\ link_of enc l = link_of enc l'.
Proof. intros enc. exists (SdkLink "t" "s" "k=v" [] 0), (SdkLink "t" "s" "" [] 0). split; [discriminate|reflexivity]. Qed.
Print Assumptions C63_link_state_lost_refuted.

Definition a_span (res scope name : string) : option sdk_span :=
  Some (SdkSpan (Some (SdkResource [Attr "service.name" (AString res)] "v1")) (SdkScope scope "1" "") name "0123456789abcdef" "01234567" "abcdefgh" 5 9 [] some_rest).
Example C63_example :
  map (fun g => (r_attrs (match rg_resource g with Some r => r | None => Resource [] "" end), map (fun s => (scope_identity s, map sp_name (sg_items s))) (rg_scopes g)))
    (spans_of (fun _ => ""%string) (fun _ => ""%string) (fun m => m) [a_span "a" "x" "1"; a_span "b" "x" "2"; None; a_span "a" "y" "3"; a_span "a" "x" "4"]) =
  [([KV "service.name" (Some (AVString "a"))], [(("x", "1", ""), ["1"; "4"]); (("y", "1", ""), ["3"])]);
   ([KV "service.name" (Some (AVString "b"))], [(("x", "1", ""), ["2"])])]%string.
Proof. reflexivity. Qed.
Example C63_sane : sane_span (span_under "v1").
Proof. split; [split; vm_compute; congruence..|constructor|reflexivity|]. split; cbn; try constructor; try (split; vm_compute; congruence); try (vm_compute; congruence). split; split; vm_compute; congruence. Qed.
