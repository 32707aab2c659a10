(** C85: where the server and the client keep their files. *)
From Verif.Model Require Import Base Home.
From Verif.Spec Require Import Places.
From Verif.Proofs Require Import BaseFacts RenderFacts.
Local Infix "^^" := append (right associativity, at level 60).

(** ------ paths *)
Lemma parts_ne p : parts p <> []. Proof. destruct p as [|c p]; cbn; [discriminate|]. destruct (Ascii.eqb c slash); [discriminate|]. destruct (parts p); discriminate. Qed.
Lemma parts_app p q : exists l x, parts p = l ++ [x] /\ forall y m, parts q = y :: m -> parts (p ^^ q) = l ++ (x ^^ y) :: m.
Proof.
  induction p as [|c p (l & x & E & IH)].
  - exists [], "". split; [reflexivity|]. intros y m E. cbn [append app]. exact E.
  - cbn [parts append]. destruct (Ascii.eqb c slash).
    + exists ("" :: l), x. rewrite E. split; [reflexivity|]. intros y m E'. rewrite (IH y m E'). reflexivity.
    + destruct l as [|a l]; rewrite E; cbn [app].
      * exists [], (String c x). split; [reflexivity|]. intros y m E'. rewrite (IH y m E'). reflexivity.
      * exists (String c a :: l), x. split; [reflexivity|]. intros y m E'. rewrite (IH y m E'). reflexivity.
Qed.
Lemma parts_slash p q : parts (p ^^ "/" ^^ q) = parts p ++ parts q.
Proof.
  destruct (parts_app p ("/" ^^ q)) as (l & x & E & H). rewrite (H "" (parts q)) by reflexivity. rewrite E, <- app_assoc. cbn.
  f_equal. f_equal. clear. induction x as [|c x IH]; [reflexivity|]. cbn. f_equal. exact IH.
Qed.
Definition plain_part (c : string) : Prop := str_mem slash c = false.
Lemma parts_plain c : plain_part c -> parts c = [c].
Proof. unfold plain_part. induction c as [|a c IH]; [reflexivity|]. cbn [str_mem parts]. intros H. apply orb_false_iff in H as [H1 H2]. rewrite Ascii.eqb_sym in H1. rewrite H1, (IH H2). reflexivity. Qed.
Lemma parts_concat l : Forall plain_part l -> l <> [] -> parts (String.concat "/" l) = l.
Proof.
  induction 1 as [|c l Hc F IH]; [congruence|]. intros _. destruct l as [|d l].
  - cbn. apply parts_plain, Hc.
  - change (String.concat "/" (c :: d :: l)) with (c ^^ "/" ^^ String.concat "/" (d :: l)). rewrite parts_slash, IH by discriminate. rewrite (parts_plain c Hc). reflexivity.
Qed.
Lemma parts_all_plain p : Forall plain_part (parts p).
Proof.
  unfold plain_part. induction p as [|c p IH]; [repeat constructor|]. cbn [parts]. destruct (Ascii.eqb c slash) eqn:E; [constructor; [reflexivity|exact IH]|].
  pose proof (parts_ne p) as Ne. destruct (parts p) as [|x l]; [congruence|]. inversion IH; subst. constructor; [|assumption]. cbn [str_mem]. rewrite Ascii.eqb_sym, E. assumption.
Qed.

(** ------ Clean *)
Definition written (root : bool) (c : string) : Prop := plain_part c /\ c <> "" /\ c <> "." /\ (root = true -> c <> "..").
Lemma clean_step_written root out c : Forall (written root) out -> plain_part c -> Forall (written root) (clean_step root out c).
Proof.
  intros F P. unfold clean_step. destruct (String.eqb_spec c ""), (String.eqb_spec c "."); cbn [orb]; try exact F.
  destruct (String.eqb_spec c "..") as [->|NE].
  - destruct out as [|x t]; [destruct root; [constructor|]|].
    + constructor; [|constructor]. repeat split; try discriminate.
    + destruct root; cbn [negb andb]; [inversion F; assumption|]. destruct (String.eqb_spec x ".."); [|inversion F; assumption]. constructor; [|exact F]. repeat split; try discriminate.
  - constructor; [|exact F]. repeat split; auto.
Qed.
Lemma walk_rev out base : fold_left walk (rev out) base = fold_right (fun c d => walk d c) base out.
Proof. rewrite <- fold_left_rev_right, rev_involutive. reflexivity. Qed.
Lemma clean_step_walk root out c base : Forall (written root) out -> (root = true -> base = []) ->
  fold_left walk (rev (clean_step root out c)) base = walk (fold_left walk (rev out) base) c.
Proof.
  intros F B. rewrite !walk_rev. unfold clean_step, walk at 2. destruct (String.eqb_spec c ""), (String.eqb_spec c "."); cbn [orb]; try reflexivity.
  destruct (String.eqb_spec c "..") as [->|NE].
  - destruct out as [|x t]; [destruct root; [rewrite B by reflexivity; reflexivity|reflexivity]|].
    inversion F as [|? ? (Px & X1 & X2 & X3) Ft]; subst.
    assert (S : x <> ".." -> fold_right (fun c d => walk d c) base t = removelast (fold_right (fun c d => walk d c) base (x :: t))).
    { intros X. cbn [fold_right]. unfold walk at 2. destruct (String.eqb_spec x ""), (String.eqb_spec x "."), (String.eqb_spec x ".."); cbn [orb]; try contradiction. rewrite removelast_last. reflexivity. }
    destruct root; cbn [negb andb]; [apply S, X3; reflexivity|]. destruct (String.eqb_spec x ".."); [reflexivity|apply S; assumption].
  - cbn [fold_right]. unfold walk at 1. destruct (String.eqb_spec c ""), (String.eqb_spec c "."), (String.eqb_spec c ".."); cbn [orb]; try contradiction. reflexivity.
Qed.
Lemma clean_walk root l : forall out base, Forall (written root) out -> Forall plain_part l -> (root = true -> base = []) ->
  Forall (written root) (fold_left (clean_step root) l out) /\ fold_left walk (rev (fold_left (clean_step root) l out)) base = fold_left walk l (fold_left walk (rev out) base).
Proof.
  induction l as [|c l IH]; intros out base F P B; [split; [exact F|reflexivity]|]. inversion P; subst. cbn [fold_left].
  destruct (IH (clean_step root out c) base) as [A C]; auto; [apply clean_step_written; assumption|]. split; [exact A|]. rewrite C. f_equal. apply clean_step_walk; assumption.
Qed.
Lemma written_plain root l : Forall (written root) l -> Forall plain_part l.
Proof. apply Forall_impl. intros a (H & _). exact H. Qed.
Lemma place_rel cwd p : rooted p = false -> place cwd p = fold_left walk (parts p) cwd. Proof. unfold place. intros ->. reflexivity. Qed.

(** The cleaned path names the same directory. *)
Lemma place_clean cwd p : place cwd (clean p) = place cwd p.
Proof.
  unfold clean. set (root := rooted p). set (out := fold_left (clean_step root) (parts p) []).
  destruct (clean_walk root (parts p) [] (if root then [] else cwd)) as [W E]; [constructor|apply parts_all_plain|intros ->; reflexivity|]. fold out in W, E.
  cbn [rev fold_left] in E. unfold place at 2. fold root. rewrite <- E. pose proof (written_plain _ _ W) as Wp.
  assert (Wr : Forall plain_part (rev out)) by (apply Forall_rev, Wp).
  destruct root eqn:R.
  - unfold place. change ("/" ^^ String.concat "/" (rev out)) with (String slash (String.concat "/" (rev out))). cbn [rooted parts Ascii.eqb slash]. change (Ascii.eqb slash slash) with true. cbn [fold_left]. change (walk [] "") with (@nil string).
    destruct (rev out) as [|x t] eqn:Er; [reflexivity|]. rewrite <- Er in *. rewrite parts_concat; [reflexivity|exact Wr|rewrite Er; discriminate].
  - destruct out as [|x t] eqn:Eo; [reflexivity|]. rewrite <- Eo in *.
    assert (Ne : rev out <> []) by (rewrite Eo; cbn; destruct (rev t); discriminate).
    rewrite place_rel; [rewrite parts_concat; [reflexivity|exact Wr|exact Ne]|].
    destruct (rev out) as [|y u] eqn:Er; [congruence|].
    assert (Wy : written false y) by (rewrite Forall_forall in W; apply W; apply in_rev; rewrite Er; left; reflexivity).
    destruct Wy as (Py & Y1 & _). destruct y as [|a y]; [congruence|]. unfold plain_part in Py. cbn [str_mem] in Py. apply orb_false_iff in Py as [Py _].
    rewrite Ascii.eqb_sym in Py. destruct u; cbn; exact Py.
Qed.
Lemma clean_ne p : clean p <> "".
Proof.
  unfold clean. destruct (rooted p) eqn:R; [discriminate|]. destruct (clean_walk false (parts p) [] []) as [W _]; [constructor|apply parts_all_plain|discriminate|].
  destruct (fold_left (clean_step false) (parts p) []) as [|x t] eqn:E; [discriminate|]. rewrite <- E in *.
  assert (Wr : Forall (written false) (rev (fold_left (clean_step false) (parts p) []))) by (apply Forall_rev, W).
  destruct (rev (fold_left (clean_step false) (parts p) [])) as [|y u] eqn:Er; [rewrite E in Er; cbn in Er; destruct (rev t); discriminate|].
  inversion Wr as [|? ? (_ & Y & _) _]; subst. destruct y as [|a y]; [congruence|]. destruct u; discriminate.
Qed.

(** ------ Join with a name *)
Lemma rooted_app p q : p <> "" -> rooted (p ^^ q) = rooted p. Proof. destruct p; [congruence|reflexivity]. Qed.
Definition name (c : string) : Prop := plain_part c /\ c <> "" /\ c <> "." /\ c <> "..".
Lemma place_name cwd c : name c -> place cwd c = cwd ++ [c].
Proof.
  intros (P & N1 & N2 & N3). unfold place. rewrite (parts_plain c P). assert (R : rooted c = false).
  { destruct c as [|a c]; [reflexivity|]. unfold plain_part in P. cbn [str_mem] in P. apply orb_false_iff in P as [P _]. rewrite Ascii.eqb_sym in P. exact P. }
  rewrite R. cbn [fold_left]. unfold walk. destruct (String.eqb_spec c ""), (String.eqb_spec c "."), (String.eqb_spec c ".."); cbn [orb]; try contradiction. reflexivity.
Qed.
Lemma place_join cwd p c : name c -> place cwd (join [p; c]) = place cwd p ++ [c].
Proof.
  intros Nc. cbn [join]. destruct (String.eqb_spec p "") as [->|NE].
  - destruct Nc as (P & N1 & N2 & N3). destruct (String.eqb_spec c ""); [contradiction|]. rewrite place_clean. cbn [String.concat]. rewrite place_name by (repeat split; assumption). reflexivity.
  - rewrite place_clean. change (String.concat "/" [p; c]) with (p ^^ "/" ^^ c). unfold place. rewrite rooted_app by exact NE. rewrite parts_slash, fold_left_app.
    destruct Nc as (P & N1 & N2 & N3). rewrite (parts_plain c P). cbn [fold_left]. unfold walk at 1.
    destruct (String.eqb_spec c ""), (String.eqb_spec c "."), (String.eqb_spec c ".."); cbn [orb]; try contradiction. reflexivity.
Qed.
Lemma name_decimal n : name (show_N n).
Proof.
  assert (D : forall c, digit_or_minus c = false -> str_mem c (show_N n) = false) by (intros c H; apply show_Z_no, H).
  split; [apply D; reflexivity|]. split; [|split].
  - unfold show_N. destruct (show_Z_head (Z.of_N n)) as (c & t & -> & _). discriminate.
  - intros E. specialize (D "."%char eq_refl). rewrite E in D. discriminate.
  - intros E. specialize (D "."%char eq_refl). rewrite E in D. discriminate.
Qed.

(** ------ C85 *)
Lemma place_base cwd home base : place cwd (home_dir home [base]) = server_home cwd home base.
Proof.
  unfold home_dir, server_home. destruct (String.eqb base "") eqn:E; [apply place_join; repeat split; discriminate|].
  cbn [join]. rewrite E. rewrite place_clean. reflexivity.
Qed.
(** The database, the index, its shards and the compiled programs are where the documentation says, from every
    working directory, for every value of HOME and every argument of the command. *)
Theorem C85_where_files_are : forall cwd home base, let h := server_home cwd home base in
  place cwd (db_dir home [base]) = h ++ ["data"; "db"] /\
  place cwd (index_dir home [base]) = h ++ ["data"; "index"] /\
  (forall n, place cwd (shard_path home [base] n) = h ++ ["data"; "index"; show_N n]) /\
  place cwd (cache_dir home [base]) = h ++ ["cache"] /\
  (forall hash, place cwd (program_path home hash) = place cwd home ++ [".rq"; "cache"; show_N hash]).
Proof.
  intros cwd home base h. unfold db_dir, index_dir, data_dir, shard_path, program_path, cache_dir, index_dir, data_dir.
  assert (N : forall c, In c ["data"; "db"; "index"; "cache"; ".rq"] -> name c) by (intros c H; cbn in H; repeat (destruct H as [<-|H]; [repeat split; discriminate|]); destruct H).
  assert (D : place cwd (join [home_dir home [base]; "data"]) = h ++ ["data"]) by (rewrite place_join by (apply N; cbn; auto 6); rewrite place_base; reflexivity).
  split; [|split; [|split; [|split]]].
  - rewrite place_join by (apply N; cbn; auto 6). rewrite D, <- app_assoc. reflexivity.
  - rewrite place_join by (apply N; cbn; auto 6). rewrite D, <- app_assoc. reflexivity.
  - intros n. rewrite place_join by apply name_decimal. rewrite place_join by (apply N; cbn; auto 6). rewrite D, <- !app_assoc. reflexivity.
  - rewrite place_join by (apply N; cbn; auto 6). rewrite place_base. reflexivity.
  - intros hash. rewrite place_join by apply name_decimal. rewrite place_join by (apply N; cbn; auto 6). unfold home_dir. rewrite place_join by (apply N; cbn; auto 6). rewrite <- !app_assoc. reflexivity.
Qed.
Lemma apart_tails (h a b : list string) : apart a b -> apart (h ++ a) (h ++ b).
Proof. intros [A B]. split; intros c E; rewrite <- app_assoc in E; apply app_inv_head in E; [exact (A c E)|exact (B c E)]. Qed.
Ltac differ := intros c E; cbn in E; repeat (injection E as E); congruence.
(** No directory of a server is another one of it, or lies inside another one: database, compiled programs, and
    each shard of the index. *)
Theorem C85_nothing_inside_another : forall cwd home base n m, n <> m ->
  apart (place cwd (db_dir home [base])) (place cwd (index_dir home [base])) /\
  apart (place cwd (db_dir home [base])) (place cwd (cache_dir home [base])) /\
  apart (place cwd (index_dir home [base])) (place cwd (cache_dir home [base])) /\
  apart (place cwd (shard_path home [base] n)) (place cwd (shard_path home [base] m)) /\
  (exists c, place cwd (shard_path home [base] n) = place cwd (index_dir home [base]) ++ [c]).
Proof.
  intros cwd home base n m NE. destruct (C85_where_files_are cwd home base) as (-> & E2 & E3 & -> & _). rewrite E2, !E3.
  split; [|split; [|split; [|split]]].
  - apply apart_tails. split; differ.
  - apply apart_tails. split; differ.
  - apply apart_tails. split; differ.
  - apply apart_tails. assert (D : show_N n <> show_N m) by (intros K; apply NE, show_N_inj, K). split; intros c E; cbn [app] in E; injection E as E _; congruence.
  - exists (show_N n). rewrite <- app_assoc. reflexivity.
Qed.
(** Servers with different homes have different databases and indexes; the compiled programs of the client are no
    server's database, index or shard, wherever that server is. *)
Theorem C85_homes_apart : forall cwd home base base', server_home cwd home base <> server_home cwd home base' ->
  place cwd (db_dir home [base]) <> place cwd (db_dir home [base']) /\
  (forall n m, place cwd (shard_path home [base] n) <> place cwd (shard_path home [base'] m)).
Proof.
  intros cwd home base base' NE. destruct (C85_where_files_are cwd home base) as (-> & _ & E & _). destruct (C85_where_files_are cwd home base') as (-> & _ & E' & _).
  split.
  - intros K. change ["data"; "db"] with (["data"] ++ ["db"]) in K. rewrite !app_assoc in K. apply app_inj_tail in K as [K _]. apply app_inj_tail in K as [K _]. contradiction.
  - intros n m. rewrite E, E'. intros K. change ["data"; "index"; show_N n] with ([ "data"] ++ ["index"] ++ [show_N n]) in K. change ["data"; "index"; show_N m] with ([ "data"] ++ ["index"] ++ [show_N m]) in K.
    rewrite !app_assoc in K. apply app_inj_tail in K as [K _]. apply app_inj_tail in K as [K _]. apply app_inj_tail in K as [K _]. contradiction.
Qed.
Theorem C85_programs_apart : forall cwd home base hash n,
  place cwd (program_path home hash) <> place cwd (db_dir home [base]) /\
  place cwd (program_path home hash) <> place cwd (index_dir home [base]) /\
  place cwd (program_path home hash) <> place cwd (shard_path home [base] n) /\
  (forall hash', hash' <> hash -> place cwd (program_path home hash) <> place cwd (program_path home hash')).
Proof.
  intros cwd home base hash n. destruct (C85_where_files_are cwd home base) as (-> & -> & E3 & _ & E5). rewrite E3, E5.
  assert (T : forall (l l' : list string) a b, l ++ [a] = l' ++ [b] -> l = l' /\ a = b) by (intros; apply app_inj_tail; assumption).
  assert (D : forall k, show_N k <> "db" /\ show_N k <> "index").
  { intros k. assert (N : forall c, digit_or_minus c = false -> str_mem c (show_N k) = false) by (intros c H; apply show_Z_no, H).
    split; intros E; specialize (N "d"%char eq_refl); rewrite E in N; discriminate. }
  split; [|split; [|split]].
  - intros K. change [".rq"; "cache"; show_N hash] with ([".rq"; "cache"] ++ [show_N hash]) in K. change ["data"; "db"] with (["data"] ++ ["db"]) in K. rewrite !app_assoc in K. apply T in K as [_ K]. destruct (D hash); contradiction.
  - intros K. change [".rq"; "cache"; show_N hash] with ([".rq"; "cache"] ++ [show_N hash]) in K. change ["data"; "index"] with (["data"] ++ ["index"]) in K. rewrite !app_assoc in K. apply T in K as [_ K]. destruct (D hash); contradiction.
  - intros K. change [".rq"; "cache"; show_N hash] with ([".rq"] ++ ["cache"] ++ [show_N hash]) in K. change ["data"; "index"; show_N n] with (["data"] ++ ["index"] ++ [show_N n]) in K. rewrite !app_assoc in K. apply T in K as [K _]. apply T in K as [_ K]. discriminate.
  - intros hash' NE K. rewrite E5 in K. apply app_inv_head in K. injection K as K. apply NE. symmetry. apply show_N_inj, K.
Qed.
(** Only an absolute HOME and an absolute argument make the place independent of the working directory. *)
Theorem C85_absolute_is_stable : forall cwd cwd' home base, rooted home = true -> (base = "" \/ rooted base = true) ->
  server_home cwd home base = server_home cwd' home base.
Proof.
  intros cwd cwd' home base H1 H2. unfold server_home, place. rewrite H1. destruct (String.eqb_spec base ""); [reflexivity|]. destruct H2 as [H2|H2]; [contradiction|]. rewrite H2. reflexivity.
Qed.
Example C85_example :
  db_dir "/home/u" [""] = "/home/u/.rq/data/db" /\ shard_path "/home/u" ["../x/./y//z"] 12 = "../x/y/z/data/index/12" /\
  program_path "" 7 = ".rq/cache/7" /\ db_dir "/home/u" ["/a/b/../../.."] = "/data/db" /\
  place ["srv"; "w"] "../x/./y//z" = ["srv"; "x"; "y"; "z"] /\ server_home ["a"] "/h" "b" <> server_home ["a"] "/h" "c".
Proof. repeat split; try (vm_compute; reflexivity). vm_compute. discriminate. Qed.
Print Assumptions C85_where_files_are.
