(** C65, C72: the program caches (internal/snippets/snippets.go, internal/commands/query/query.go). *)
From Verif.Model Require Import Base XxHash ProgramCache.
From Verif.Proofs Require Import BaseFacts.
Open Scope N_scope.

(** The sources submitted in a history. *)
Definition submitted (es : list mem_event) : list string := flat_map (fun e => match e with MGet _ src => [src] | MEvict _ => [] end) es.
Definition queried (es : list disk_event) : list string := flat_map (fun e => match e with DQuery _ src => [src] | DInstall _ => [] end) es.

(* ------------------------------------------------------------------ C65, in memory *)
Lemma in_evict {P} keep (m : mem P) k p : In (k, p) (evict P keep m) -> In (k, p) m.
Proof. unfold evict. rewrite filter_In. tauto. Qed.
Lemma aget_some_in {V} k (m : amap N V) v : aget N.eqb k m = Some v -> In (k, v) m.
Proof. induction m as [|[k' v'] m IH]; [discriminate|]. cbn [aget]. destruct (N.eqb_spec k k') as [->|]; [intros E; apply some_inj in E; left; congruence|intros E; right; apply IH, E]. Qed.
Lemma in_aset {V} k v (m : amap N V) k' v' : In (k', v') (aset N.eqb k v m) -> (k' = k /\ v' = v) \/ In (k', v') m.
Proof.
  induction m as [|[k0 v0] m IH]; cbn [aset]; [intros [E|[]]; apply pair_inj in E; left; destruct E; auto|]. destruct (N.eqb_spec k k0) as [->|].
  - intros [E|H]; [apply pair_inj in E; left; destruct E; auto|right; right; exact H].
  - intros [E|H]; [right; left; exact E|destruct (IH H); auto; right; right; assumption].
Qed.
Lemma mem_sound {P} (load : string -> option P) es : forall k p, In (k, p) (fold_left (mem_step P load) es []) -> exists src, In src (submitted es) /\ xxh64 src = k /\ load src = Some p.
Proof.
  induction es as [|e es IH] using rev_ind; intros k p H; [destruct H|]. rewrite fold_left_app in H. cbn [fold_left] in H. unfold submitted. rewrite flat_map_app. fold (submitted es).
  assert (G : In (k, p) (fold_left (mem_step P load) es []) -> exists src, In src (submitted es ++ flat_map (fun e => match e with MGet _ src => [src] | MEvict _ => [] end) [e]) /\ xxh64 src = k /\ load src = Some p).
  { intros H'. destruct (IH _ _ H') as (s & A & B). exists s. rewrite in_app_iff. auto. }
  destruct e as [st src|keep]; cbn [mem_step] in H; [|apply G; eapply in_evict; exact H].
  unfold get_program in H. destruct (aget N.eqb (xxh64 src) (fold_left (mem_step P load) es [])) as [q|] eqn:E; [apply G, H|].
  destruct (load src) as [q|] eqn:EL; [|apply G, H]. cbn [fst] in H. destruct st; [|apply G, H].
  destruct (in_aset _ _ _ _ _ H) as [[-> ->]|H']; [|apply G, H']. exists src. rewrite in_app_iff. split; [right; left; reflexivity|auto].
Qed.
(** Whatever was submitted before and whatever the cache kept or dropped, asking for a source gives the
    program of that source, as long as no other source submitted before has the same hash. *)
Theorem C65_memory_cache_partial : forall P (load : string -> option P) es stored src,
  (forall other, In other (submitted es) -> xxh64 other = xxh64 src -> other = src) ->
  snd (get_program P load stored (fold_left (mem_step P load) es []) src) = load src.
Proof.
  intros P load es stored src H. unfold get_program. destruct (aget N.eqb (xxh64 src) (fold_left (mem_step P load) es [])) as [p|] eqn:E.
  - cbn [snd]. destruct (mem_sound load es _ _ (aget_some_in _ _ _ E)) as (s & A & B & C). rewrite (H s A B) in C. symmetry. exact C.
  - destruct (load src); reflexivity.
Qed.
Print Assumptions C65_memory_cache_partial.

(** Two different programs with the same XXH64: one prints 1, the other 2. *)
Definition prints_1 : string := "RQ.Print(1);/*gth                       fa{}28g4              */".
Definition prints_2 : string := "RQ.Print(2);/*gth                       2=B!A:|v              */".
Lemma same_hash : xxh64 prints_1 = xxh64 prints_2. Proof. vm_compute. reflexivity. Qed.
Lemma prints_differ : prints_1 <> prints_2. Proof. discriminate. Qed.
(** In full the claim is false: after the first source was run, the second one runs as the first. *)
Theorem C65_memory_collision_refuted : forall P (load : string -> option P) p1, load prints_1 = Some p1 ->
  prints_1 <> prints_2 /\ snd (get_program P load true (fold_left (mem_step P load) [MGet true prints_1] []) prints_2) = Some p1.
Proof.
  intros P load p1 E. split; [apply prints_differ|]. cbn [fold_left mem_step]. unfold get_program at 2. cbn [aget]. rewrite E. cbn [fst].
  unfold get_program. rewrite <- same_hash, (aget_aset_eq N.eqb N_eqb_reflect). reflexivity.
Qed.
Print Assumptions C65_memory_collision_refuted.

(* ------------------------------------------------------------------ C65 and C72, on disk *)
Definition fresh (v : N) : disk := Disk [] v.
Definition disk_after {P} load bundle es v0 : disk := fold_left (disk_step P load bundle) es (fresh v0).
(** The version in use after a history. *)
Definition version_after (v0 : N) (es : list disk_event) : N := fold_left (fun v e => match e with DInstall v' => v' | _ => v end) es v0.
Lemma disk_version {P} (load : string -> option P) bundle es v0 : dk_version (disk_after load bundle es v0) = version_after v0 es.
Proof.
  unfold disk_after, version_after. induction es as [|e es IH] using rev_ind; [reflexivity|]. rewrite !fold_left_app. cbn [fold_left]. set (d := fold_left _ es (fresh v0)) in *.
  destruct e as [w src|v]; cbn [disk_step]; [|reflexivity]. rewrite <- IH. unfold build. destruct (aget String.eqb (file_name src) (dk_files d)); [reflexivity|]. destruct (bundle (dk_version d) src); [|reflexivity]. destruct w; reflexivity.
Qed.
(** Everything in the directory is what some query wrote, under the version installed then, whole or cut. *)
Lemma disk_sound {P} (load : string -> option P) bundle es v0 : forall name text, aget String.eqb name (dk_files (disk_after load bundle es v0)) = Some text ->
  exists es1 w src es2 out, es = es1 ++ DQuery w src :: es2 /\ file_name src = name /\ bundle (version_after v0 es1) src = Some out /\ text = match w with Whole => out | Cut k => substring 0 k out end.
Proof.
  induction es as [|e es IH] using rev_ind; intros name text H; [discriminate|].
  assert (G : aget String.eqb name (dk_files (disk_after load bundle es v0)) = Some text -> exists es1 w src es2 out, es ++ [e] = es1 ++ DQuery w src :: es2 /\ file_name src = name /\ bundle (version_after v0 es1) src = Some out /\ text = match w with Whole => out | Cut k => substring 0 k out end).
  { intros H'. destruct (IH _ _ H') as (es1 & w & src & es2 & out & E & R). exists es1, w, src, (es2 ++ [e]), out. split; [rewrite E, <- app_assoc; reflexivity|exact R]. }
  unfold disk_after in H. rewrite fold_left_app in H. cbn [fold_left] in H. fold (disk_after load bundle es v0) in H.
  destruct e as [w src|v]; cbn [disk_step] in H; [|apply G; exact H].
  unfold build in H. destruct (aget String.eqb (file_name src) (dk_files (disk_after load bundle es v0))) eqn:E0; [apply G; exact H|]. rewrite disk_version in H.
  destruct (bundle (version_after v0 es) src) as [out|] eqn:EB; [|apply G; exact H].
  destruct w as [|k]; cbn [fst dk_files] in H; rewrite (aget_aset String.eqb string_eqb_reflect) in H; destruct (String.eqb_spec name (file_name src)) as [->|N]; try (apply G; exact H); apply some_inj in H; subst text.
  - exists es, Whole, src, [], out. auto.
  - exists es, (Cut k), src, [], out. auto.
Qed.
(** Running a query gives the program of its source, bundled by the version in use, if no other queried
    source has the same hash, every earlier write of this source's bundle completed, and no other version
    was in use when it was written. *)
Theorem C65_disk_cache_partial : forall P (load : string -> option P) bundle es v0 src,
  (forall other, In other (queried es) -> xxh64 other = xxh64 src -> other = src) ->
  (forall k, ~ In (DQuery (Cut k) src) es) -> (forall v, In (DInstall v) es -> v = v0) ->
  snd (build P load bundle Whole (disk_after load bundle es v0) src) = match bundle v0 src with Some out => load out | None => None end.
Proof.
  intros P load bundle es v0 src Hc Hw Hv.
  assert (V : forall es', (forall v, In (DInstall v) es' -> v = v0) -> version_after v0 es' = v0).
  { intros es' H'. unfold version_after. induction es' as [|e l IH] using rev_ind; [reflexivity|]. rewrite fold_left_app. cbn [fold_left]. destruct e; [apply IH; intros v' I; apply H'; rewrite in_app_iff; auto|].
    apply H'. rewrite in_app_iff. right. left. reflexivity. }
  unfold build. destruct (aget String.eqb (file_name src) (dk_files (disk_after load bundle es v0))) as [text|] eqn:E.
  - cbn [snd]. destruct (disk_sound load bundle es v0 _ _ E) as (es1 & w & s & es2 & out & E1 & F & B & T).
    assert (s = src). { apply Hc; [unfold queried; rewrite E1, flat_map_app; apply in_app_iff; right; left; reflexivity|]. apply show_N_inj, F. } subst s.
    rewrite V in B by (intros v I; apply Hv; rewrite E1, in_app_iff; auto). rewrite B. destruct w as [|k]; [congruence|]. exfalso. apply (Hw k). rewrite E1, in_app_iff. right. left. reflexivity.
  - rewrite disk_version, V by exact Hv. destruct (bundle v0 src); reflexivity.
Qed.
Print Assumptions C65_disk_cache_partial.

(** A source that cannot be bundled is reported and leaves no trace. *)
Theorem C65_failed_bundle_not_cached : forall P (load : string -> option P) bundle w d src,
  aget String.eqb (file_name src) (dk_files d) = None -> bundle (dk_version d) src = None -> build P load bundle w d src = (d, None).
Proof. intros P load bundle w d src E B. unfold build. rewrite E, B. reflexivity. Qed.
Print Assumptions C65_failed_bundle_not_cached.

(** The same two programs collide on disk, for every later run on that machine. *)
Theorem C65_disk_collision_refuted : forall P (load : string -> option P) bundle v0 out w, bundle v0 prints_1 = Some out ->
  prints_1 <> prints_2 /\ snd (build P load bundle w (disk_after load bundle [DQuery Whole prints_1] v0) prints_2) = load out.
Proof.
  intros P load bundle v0 out w E. split; [apply prints_differ|]. unfold disk_after. cbn [fold_left disk_step]. unfold build at 2. cbn [aget dk_files fresh dk_version]. rewrite E. cbn [fst].
  unfold build. cbn [dk_files]. unfold file_name. rewrite <- same_hash, (aget_aset_eq String.eqb string_eqb_reflect). reflexivity.
Qed.
Print Assumptions C65_disk_collision_refuted.

(** C72: what an interrupted write of a bundle does.  Sources with another hash are not touched ... *)
Theorem C72_other_sources_unharmed_partial : forall P (load : string -> option P) bundle w w' d src other, xxh64 other <> xxh64 src ->
  snd (build P load bundle w' (fst (build P load bundle w d src)) other) = snd (build P load bundle w' d other).
Proof.
  intros P load bundle w w' d src other N. assert (F : file_name other <> file_name src) by (unfold file_name; intros E; apply N, show_N_inj, E).
  assert (A : aget String.eqb (file_name other) (dk_files (fst (build P load bundle w d src))) = aget String.eqb (file_name other) (dk_files d) /\ dk_version (fst (build P load bundle w d src)) = dk_version d).
  { unfold build. destruct (aget String.eqb (file_name src) (dk_files d)); [split; reflexivity|]. destruct (bundle (dk_version d) src); [|split; reflexivity].
    destruct w; cbn [fst dk_files dk_version]; (split; [apply (aget_aset_ne String.eqb string_eqb_reflect); exact F|reflexivity]). }
  destruct A as [A B]. unfold build at 1. rewrite A, B. unfold build. destruct (aget String.eqb (file_name other) (dk_files d)); [reflexivity|]. destruct (bundle (dk_version d) other); [|reflexivity]. destruct w'; reflexivity.
Qed.
Print Assumptions C72_other_sources_unharmed_partial.
(** ... but the interrupted source is run in its truncated form by every later run, whatever happens to
    other queries and versions in between: a prefix that is itself a program runs silently, another is an
    error that does not go away. *)
Theorem C72_truncated_program_runs_refuted : forall P (load : string -> option P) bundle v0 src k out es w, bundle v0 src = Some out ->
  snd (build P load bundle w (disk_after load bundle (DQuery (Cut k) src :: es) v0) src) = load (substring 0 k out).
Proof.
  intros P load bundle v0 src k out es w E.
  assert (A : aget String.eqb (file_name src) (dk_files (disk_after load bundle (DQuery (Cut k) src :: es) v0)) = Some (substring 0 k out)).
  { unfold disk_after. induction es as [|e es IH] using rev_ind.
    - cbn [fold_left disk_step]. unfold build. cbn [aget dk_files fresh dk_version]. rewrite E. cbn [fst dk_files]. apply (aget_aset_eq String.eqb string_eqb_reflect).
    - change (DQuery (Cut k) src :: es ++ [e]) with ((DQuery (Cut k) src :: es) ++ [e]). rewrite fold_left_app. cbn [fold_left] in *. set (d := fold_left _ es _) in *.
      destruct e as [w' s|v]; cbn [disk_step]; [|exact IH]. unfold build. destruct (aget String.eqb (file_name s) (dk_files d)) as [c|] eqn:EC; [exact IH|]. destruct (bundle (dk_version d) s); [|exact IH].
      assert (file_name src <> file_name s) by (intros Q; rewrite <- Q in EC; congruence). destruct w'; cbn [fst dk_files]; rewrite (aget_aset_ne String.eqb string_eqb_reflect) by assumption; exact IH. }
  unfold build. rewrite A. reflexivity.
Qed.
Print Assumptions C72_truncated_program_runs_refuted.
(** Installing another version does not refresh the bundles either. *)
Theorem C72_stale_bundle_refuted : forall P (load : string -> option P) bundle v0 v1 src out w, bundle v0 src = Some out ->
  snd (build P load bundle w (disk_after load bundle [DQuery Whole src; DInstall v1] v0) src) = load out.
Proof.
  intros P load bundle v0 v1 src out w E. unfold disk_after. cbn [fold_left disk_step]. unfold build at 2. cbn [aget dk_files fresh dk_version]. rewrite E. cbn [fst dk_files].
  unfold build. cbn [dk_files]. rewrite (aget_aset_eq String.eqb string_eqb_reflect). reflexivity.
Qed.
Print Assumptions C72_stale_bundle_refuted.

(** A machine where loading is the identity and bundling adds a prelude naming the version. *)
Definition toy_load (s : string) : option string := if String.eqb s "" then None else Some s.
Definition toy_bundle (v : N) (s : string) : option string := if String.eqb s "bad" then None else Some (append "v" (append (show_N v) (append ";" s))).
Example C65_example :
  snd (get_program string toy_load true (fold_left (mem_step string toy_load) [MGet true "a()"; MGet true "b()"; MEvict (fun k => N.even k); MGet false "c()"] []) "b()") = Some "b()"%string /\
  (forall other, In other (submitted [MGet true "a()"; MGet true "b()"; MEvict (fun k => N.even k); MGet false "c()"]) -> xxh64 other = xxh64 "b()" -> other = "b()"%string) /\
  snd (build string toy_load toy_bundle Whole (disk_after toy_load toy_bundle [DQuery Whole "a()"; DQuery (Cut 3) "b()"; DInstall 1; DQuery Whole "bad"] 1) "a()") = Some "v1;a()"%string /\
  snd (build string toy_load toy_bundle Whole (disk_after toy_load toy_bundle [DQuery Whole "a()"; DQuery (Cut 4) "b()"; DInstall 1] 1) "b()") = Some "v1;b"%string /\
  snd (build string toy_load toy_bundle Whole (disk_after toy_load toy_bundle [DQuery Whole prints_1] 1) prints_2) = Some (append "v1;" prints_1).
Proof.
  split; [vm_compute; reflexivity|]. split.
  { intros other [<-|[<-|[<-|[]]]]; intros H; try reflexivity; exfalso; vm_compute in H; discriminate. }
  split; [vm_compute; reflexivity|]. split; vm_compute; reflexivity.
Qed.
