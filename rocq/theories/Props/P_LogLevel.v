(** C108: which log messages are printed. *)
From Verif.Model Require Import Base LogLevel.
From Verif.Spec Require Import Durations LogLevels.
Open Scope Z_scope.
Local Infix "^^" := append (right associativity, at level 60).

(** *** Capitals *)
Definition capital (c : ascii) : Prop := (65 <= N_of_ascii c <= 90)%N.
Fixpoint capitals (w : string) : Prop := match w with EmptyString => True | String c t => capital c /\ capitals t end.
Lemma severity_capitals w b : severity w b -> capitals w.
Proof. intros []; repeat split; vm_compute; discriminate. Qed.
Definition up (c : ascii) : ascii := if (97 <=? N_of_ascii c)%N && (N_of_ascii c <=? 122)%N then ascii_of_N (N_of_ascii c - 32) else c.
Lemma upper_cons c t : (exists u, c = "196"%char /\ t = String "177" u /\ upper (String c t) = String "I" (upper u)) \/
  (exists u, c = "197"%char /\ t = String "191" u /\ upper (String c t) = String "S" (upper u)) \/
  ((forall u, ~ (c = "196"%char /\ t = String "177" u)) /\ (forall u, ~ (c = "197"%char /\ t = String "191" u)) /\ upper (String c t) = String (up c) (upper t)).
Proof.
  destruct t as [|d u]; [right; right; split; [intros u [_ E]; discriminate|split; [intros u [_ E]; discriminate|reflexivity]]|].
  change (upper (String c (String d u))) with (if Ascii.eqb c "196" && Ascii.eqb d "177" then String "I" (upper u) else if Ascii.eqb c "197" && Ascii.eqb d "191" then String "S" (upper u) else String (up c) (upper (String d u))).
  destruct (Ascii.eqb c "196" && Ascii.eqb d "177") eqn:A; [apply andb_true_iff in A as [A1 A2]; apply Ascii.eqb_eq in A1, A2; subst; left; exists u; auto|].
  destruct (Ascii.eqb c "197" && Ascii.eqb d "191") eqn:B; [apply andb_true_iff in B as [A1 A2]; apply Ascii.eqb_eq in A1, A2; subst; right; left; exists u; auto|].
  right; right. split; [|split; [|reflexivity]]; intros v [-> E]; injection E as -> _; discriminate.
Qed.
Lemma up_spec c : ((97 <= N_of_ascii c <= 122)%N /\ capital (up c) /\ c = ascii_of_N (N_of_ascii (up c) + 32)) \/ (~ (97 <= N_of_ascii c <= 122)%N /\ up c = c).
Proof.
  unfold up, capital. destruct (N.leb_spec 97 (N_of_ascii c)), (N.leb_spec (N_of_ascii c) 122); cbn [andb]; [left|right|right|right]; try (split; [lia|reflexivity]).
  pose proof (N_ascii_embedding (N_of_ascii c - 32) ltac:(lia)) as E. rewrite E. split; [lia|]. split; [lia|]. replace (N_of_ascii c - 32 + 32)%N with (N_of_ascii c) by lia. symmetry. apply ascii_N_embedding.
Qed.
Lemma upper_spells n : forall t, (String.length t <= n)%nat -> spells t (upper t).
Proof.
  induction n as [|n IH]; intros t L; [destruct t; [constructor|cbn [String.length] in L; lia]|]. destruct t as [|c t]; [constructor|]. cbn [String.length] in L.
  destruct (upper_cons c t) as [(u & -> & -> & E)|[(u & -> & -> & E)|(_ & _ & E)]]; rewrite E.
  - cbn [String.length] in L. apply SpDotless, IH. lia.
  - cbn [String.length] in L. apply SpLong, IH. lia.
  - destruct (up_spec c) as [(H & K & E2)|(H & E2)].
    + rewrite E2 at 1. apply SpSmall; [exact K|apply IH; lia].
    + rewrite E2. apply SpSame; [exact H|apply IH; lia].
Qed.
Lemma spells_upper t w : spells t w -> capitals w -> upper t = w.
Proof.
  intros H. induction H as [|c t w N H IH|c t w N H IH|t w H IH|t w H IH]; intros C; [reflexivity| | | |].
  - destruct C as [C1 C2]. destruct (upper_cons c t) as [(u & -> & -> & E)|[(u & -> & -> & E)|(_ & _ & E)]]; [unfold capital in C1; cbv in C1; destruct C1 as [_ C1]; destruct (C1 eq_refl)|unfold capital in C1; cbv in C1; destruct C1 as [_ C1]; destruct (C1 eq_refl)|].
    rewrite E, (IH C2). destruct (up_spec c) as [(H1 & _)|(_ & ->)]; [contradiction|reflexivity].
  - destruct C as [C1 C2]. pose proof (N_ascii_embedding (N_of_ascii c + 32) ltac:(lia)) as E0.
    destruct (upper_cons (ascii_of_N (N_of_ascii c + 32)) t) as [(u & A & -> & E)|[(u & A & -> & E)|(_ & _ & E)]].
    + apply (f_equal N_of_ascii) in A. rewrite E0 in A. change (N_of_ascii "196") with 196%N in A. lia.
    + apply (f_equal N_of_ascii) in A. rewrite E0 in A. change (N_of_ascii "197") with 197%N in A. lia.
    + rewrite E, (IH C2). destruct (up_spec (ascii_of_N (N_of_ascii c + 32))) as [(H1 & _ & A)|(H1 & _)]; [|rewrite E0 in H1; lia].
      unfold up. rewrite E0. destruct (N.leb_spec 97 (N_of_ascii c + 32)), (N.leb_spec (N_of_ascii c + 32) 122); cbn [andb]; try lia.
      replace (N_of_ascii c + 32 - 32)%N with (N_of_ascii c) by lia. rewrite ascii_N_embedding. reflexivity.
  - destruct C as [_ C2]. cbn [upper]. rewrite (IH C2). reflexivity.
  - destruct C as [_ C2]. cbn [upper]. rewrite (IH C2). reflexivity.
Qed.
(** *** Signs *)
Definition sign (c : ascii) : Prop := c = "+"%char \/ c = "-"%char.
Fixpoint no_sign (s : string) : Prop := match s with EmptyString => True | String c t => ~ sign c /\ no_sign t end.
Lemma cut_sign_spec s : match cut_sign s with
  | (a, None) => s = a /\ no_sign a
  | (a, Some r) => s = a ^^ r /\ no_sign a /\ exists c t, r = String c t /\ sign c end.
Proof.
  induction s as [|c t IH]; [split; [reflexivity|exact I]|]. cbn [cut_sign]. destruct (Ascii.eqb_spec c "+") as [->|N1]; [split; [reflexivity|split; [exact I|exists "+"%char, t; split; [reflexivity|left; reflexivity]]]|].
  destruct (Ascii.eqb_spec c "-") as [->|N2]; [split; [reflexivity|split; [exact I|exists "-"%char, t; split; [reflexivity|right; reflexivity]]]|]. cbn [orb].
  assert (N : ~ sign c) by (intros [->| ->]; congruence). destruct (cut_sign t) as [a [r|]].
  - destruct IH as (-> & A & B). split; [reflexivity|]. split; [split; assumption|exact B].
  - destruct IH as (-> & A). split; [reflexivity|split; assumption].
Qed.
Lemma cut_sign_app a : no_sign a -> forall c t, sign c -> cut_sign (a ^^ String c t) = (a, Some (String c t)).
Proof.
  induction a as [|d a IH]; intros N c t S; [cbn [append cut_sign]; destruct S as [->| ->]; reflexivity|]. destruct N as [N1 N2]. cbn [append cut_sign].
  destruct (Ascii.eqb_spec d "+") as [->|E1]; [destruct N1; left; reflexivity|]. destruct (Ascii.eqb_spec d "-") as [->|E2]; [destruct N1; right; reflexivity|]. cbn [orb]. rewrite (IH N2 c t S). reflexivity.
Qed.
Lemma cut_sign_none a : no_sign a -> cut_sign a = (a, None).
Proof.
  induction a as [|d a IH]; intros N; [reflexivity|]. destruct N as [N1 N2]. cbn [cut_sign].
  destruct (Ascii.eqb_spec d "+") as [->|E1]; [destruct N1; left; reflexivity|]. destruct (Ascii.eqb_spec d "-") as [->|E2]; [destruct N1; right; reflexivity|]. cbn [orb]. rewrite (IH N2). reflexivity.
Qed.
Lemma spells_no_sign t w : spells t w -> capitals w -> no_sign t.
Proof.
  intros H. induction H as [|c t w N H IH|c t w N H IH|t w H IH|t w H IH]; intros C; [exact I| | | |]; destruct C as [C1 C2]; specialize (IH C2).
  - split; [|exact IH]. unfold capital in C1. intros [->| ->]; cbv in C1; destruct C1 as [C1 _]; apply C1; reflexivity.
  - split; [|exact IH]. pose proof (N_ascii_embedding (N_of_ascii c + 32) ltac:(lia)) as E0. intros [E|E]; rewrite E in E0; [change (N_of_ascii "+") with 43%N in E0|change (N_of_ascii "-") with 45%N in E0]; lia.
  - split; [intros [E|E]; discriminate|]. split; [intros [E|E]; discriminate|exact IH].
  - split; [intros [E|E]; discriminate|]. split; [intros [E|E]; discriminate|exact IH].
Qed.
(** *** Digits *)
Lemma digits_read l : Forall (fun d => (d < 10)%N) l -> forall n, digits (decimal l) n = Some (fold_left (fun n d => 10 * n + d)%N l n).
Proof.
  intros H. induction H as [|d l D _ IH]; intros n; [reflexivity|]. change (decimal (d :: l)) with (String (ascii_of_N (48 + d)) (decimal l)). cbn [digits fold_left].
  rewrite (N_ascii_embedding (48 + d) ltac:(lia)). destruct (N.leb_spec 48 (48 + d)), (N.leb_spec (48 + d) 57); cbn [andb]; try lia. rewrite IH. f_equal. f_equal. lia.
Qed.
Lemma digits_text s : forall n m, digits s n = Some m -> exists l, s = decimal l /\ Forall (fun d => (d < 10)%N) l /\ m = fold_left (fun n d => 10 * n + d)%N l n.
Proof.
  induction s as [|c t IH]; intros n m E; cbn [digits] in E; [injection E as <-; exists []; split; [reflexivity|split; [constructor|reflexivity]]|].
  destruct (N.leb_spec 48 (N_of_ascii c)), (N.leb_spec (N_of_ascii c) 57); cbn [andb] in E; try discriminate. destruct (IH _ _ E) as (l & -> & F & ->).
  exists ((N_of_ascii c - 48)%N :: l). split; [|split; [constructor; [lia|exact F]|reflexivity]].
  change (decimal (?d :: l)) with (String (ascii_of_N (48 + d)) (decimal l)). f_equal. replace (48 + (N_of_ascii c - 48))%N with (N_of_ascii c) by lia. symmetry. apply ascii_N_embedding.
Qed.
Lemma atoi_spec c t : sign c -> match atoi (String c t) with Some o => offset_text (String c t) o | None => forall o, ~ offset_text (String c t) o end.
Proof.
  intros S. destruct t as [|d t].
  - cbn [atoi]. intros o H. inversion H as [|l N F R E|l N F R E]; destruct l; try congruence; discriminate.
  - cbn [atoi]. destruct (digits (String d t) 0) as [n|] eqn:D.
    + destruct (digits_text _ _ _ D) as (l & E & F & M). change (fold_left (fun n d => 10 * n + d)%N l 0%N) with (number l) in M. assert (NE : l <> []) by (intros ->; discriminate).
      assert (U : forall l', Forall (fun d => (d < 10)%N) l' -> String d t = decimal l' -> number l' = n).
      { intros l' F' E'. rewrite E', (digits_read l' F') in D. injection D as <-. reflexivity. }
      set (z := if Ascii.eqb c "-" then - Z.of_N n else Z.of_N n). destruct (Z.leb_spec (- 2 ^ 63) z) as [R1|R1], (Z.ltb_spec z (2 ^ 63)) as [R2|R2]; cbn [andb].
      * rewrite E. destruct S as [->| ->]; unfold z in *; cbn [Ascii.eqb Bool.eqb] in *; subst n; [apply (Plus l NE F R2)|apply (Minus l NE F)]. change (2 ^ 63) with 9223372036854775808 in *. lia.
      * intros o H. inversion H as [|l' N' F' R' E'|l' N' F' R' E']; subst c; unfold z in *; cbn [Ascii.eqb Bool.eqb] in *; rewrite (U l' F') in R' by congruence; change (2 ^ 63) with 9223372036854775808 in *; lia.
      * intros o H. inversion H as [|l' N' F' R' E'|l' N' F' R' E']; subst c; unfold z in *; cbn [Ascii.eqb Bool.eqb] in *; rewrite (U l' F') in R' by congruence; change (2 ^ 63) with 9223372036854775808 in *; lia.
      * change (2 ^ 63) with 9223372036854775808 in *. lia.
    + intros o H. assert (K : exists l, Forall (fun d => (d < 10)%N) l /\ String d t = decimal l) by (inversion H as [|l N F R E|l N F R E]; exists l; split; congruence).
      destruct K as (l & F & E). rewrite E, (digits_read l F) in D. discriminate.
Qed.
Lemma atoi_offset c t o : sign c -> offset_text (String c t) o -> atoi (String c t) = Some o.
Proof.
  intros S H. assert (K : exists l, t = decimal l /\ l <> [] /\ Forall (fun d => (d < 10)%N) l /\ o = (if Ascii.eqb c "-" then - Z.of_N (number l) else Z.of_N (number l)) /\ - 2 ^ 63 <= o < 2 ^ 63).
  { change (2 ^ 63) with 9223372036854775808. inversion H as [|l N F R E|l N F R E]; exists l; change (2 ^ 63) with 9223372036854775808 in R; (split; [reflexivity|]; split; [exact N|]; split; [exact F|]; split; [reflexivity|lia]). }
  destruct K as (l & -> & N & F & -> & R). destruct l as [|d l]; [congruence|]. cbn [atoi]. change (decimal (d :: l)) with (String (ascii_of_N (48 + d)) (decimal l)) at 1.
  cbv iota beta. rewrite (digits_read _ F). change (fold_left (fun n d => 10 * n + d)%N (d :: l) 0%N) with (number (d :: l)).
  destruct (Z.leb_spec (- 2 ^ 63) (if Ascii.eqb c "-" then - Z.of_N (number (d :: l)) else Z.of_N (number (d :: l)))), (Z.ltb_spec (if Ascii.eqb c "-" then - Z.of_N (number (d :: l)) else Z.of_N (number (d :: l))) (2 ^ 63)); cbn [andb]; [reflexivity| | |]; lia.
Qed.
Definition wrap (v : Z) : Z := (v + 2 ^ 63) mod 2 ^ 64 - 2 ^ 63.
Lemma wrap_small v : - 2 ^ 63 <= v < 2 ^ 63 -> wrap v = v.
Proof. intros H. unfold wrap. rewrite Z.mod_small; [lia|]. change (2 ^ 64) with (2 ^ 63 + 2 ^ 63). lia. Qed.
(** The number of a severity's name. *)
Definition named (u : string) : option Z := if String.eqb u "DEBUG" then Some (-4) else if String.eqb u "INFO" then Some 0 else if String.eqb u "WARN" then Some 4 else if String.eqb u "ERROR" then Some 8 else None.
Lemma named_severity u : match named u with Some b => severity u b | None => forall b, ~ severity u b end.
Proof.
  unfold named. destruct (String.eqb_spec u "DEBUG") as [->|N1]; [constructor|]. destruct (String.eqb_spec u "INFO") as [->|N2]; [constructor|].
  destruct (String.eqb_spec u "WARN") as [->|N3]; [constructor|]. destruct (String.eqb_spec u "ERROR") as [->|N4]; [constructor|]. intros b H. inversion H; congruence.
Qed.
Lemma severity_named u b : severity u b -> named u = Some b. Proof. intros []; reflexivity. Qed.
Lemma parse_is s : parse_level s = let (name, rest) := cut_sign s in
  match match rest with None => Some 0 | Some r => atoi r end with None => None | Some o => match named (upper name) with Some b => Some (wrap (b + o)) | None => None end end.
Proof.
  unfold parse_level, named. destruct (cut_sign s) as [name rest]. destruct (match rest with None => Some 0 | Some r => atoi r end); [|reflexivity].
  repeat match goal with |- context [String.eqb ?x ?y] => destruct (String.eqb x y); [reflexivity|] end. reflexivity.
Qed.
Lemma offset_sign r o : offset_text r o -> (r = "" /\ o = 0) \/ exists c t, r = String c t /\ sign c.
Proof. intros [|l N F R|l N F R]; [left; split; reflexivity|right; exists "+"%char, (decimal l); split; [reflexivity|left; reflexivity]|right; exists "-"%char, (decimal l); split; [reflexivity|right; reflexivity]]. Qed.
Lemma app_nil s : s ^^ "" = s. Proof. induction s as [|c s IH]; [reflexivity|]. cbn [append]. rewrite IH. reflexivity. Qed.
Lemma cut_asked name w b rest o : spells name w -> severity w b -> offset_text rest o ->
  cut_sign (name ^^ rest) = (name, match rest with EmptyString => None | _ => Some rest end) /\ (match (match rest with EmptyString => None | _ => Some rest end) with None => Some 0 | Some r => atoi r end) = Some o.
Proof.
  intros S V O. pose proof (spells_no_sign _ _ S (severity_capitals _ _ V)) as N. destruct (offset_sign _ _ O) as [[-> ->]|(c & t & -> & G)].
  - rewrite app_nil. split; [apply cut_sign_none, N|reflexivity].
  - split; [apply cut_sign_app; assumption|apply atoi_offset; assumption].
Qed.
Lemma asks_parse t v : asks t v -> parse_level t = Some (wrap v).
Proof.
  intros (name & w & b & rest & o & -> & S & V & O & ->). rewrite parse_is. destruct (cut_asked _ _ _ _ _ S V O) as [E F]. rewrite E, F, (spells_upper _ _ S (severity_capitals _ _ V)), (severity_named _ _ V). reflexivity.
Qed.
Lemma parse_asks t u : parse_level t = Some u -> exists v, asks t v /\ u = wrap v.
Proof.
  rewrite parse_is. pose proof (cut_sign_spec t) as C. destruct (cut_sign t) as [name rest].
  pose proof (named_severity (upper name)) as NS. pose proof (upper_spells _ name (Nat.le_refl _)) as SP. destruct rest as [r|].
  - destruct C as (-> & N & c & t' & -> & G). pose proof (atoi_spec c t' G) as AT. destruct (atoi (String c t')) as [o|]; [|discriminate].
    destruct (named (upper name)) as [b|]; [|discriminate]. intros E. injection E as <-. exists (b + o). split; [|reflexivity]. exists name, (upper name), b, (String c t'), o. auto.
  - destruct C as (-> & N). destruct (named (upper name)) as [b|]; [|discriminate]. intros E. injection E as <-. exists (b + 0). split; [|reflexivity].
    exists name, (upper name), b, "", 0. rewrite app_nil. repeat split; try assumption. constructor.
Qed.
(** ------ C108 *)
(** A text asks for one level at most. *)
Theorem C108_one_level : forall t v v', asks t v -> asks t v' -> v = v'.
Proof.
  intros t v v' (name & w & b & rest & o & -> & S & V & O & ->) (name' & w' & b' & rest' & o' & E' & S' & V' & O' & ->).
  destruct (cut_asked _ _ _ _ _ S V O) as [E F]. destruct (cut_asked _ _ _ _ _ S' V' O') as [E1 F1]. rewrite <- E', E in E1.
  apply pair_equal_spec in E1 as [<- E1]. rewrite E1, F1 in F. injection F as ->.
  pose proof (spells_upper _ _ S (severity_capitals _ _ V)) as U. rewrite (spells_upper _ _ S' (severity_capitals _ _ V')) in U. subst w'.
  pose proof (severity_named _ _ V) as A. rewrite (severity_named _ _ V') in A. injection A as ->. reflexivity.
Qed.
(** Exactly the messages of that severity or above are printed, and those of info or above if the text asks for none. *)
Theorem C108_prints_what_was_asked_partial : forall t v k, asks t v -> - 2 ^ 63 <= v < 2 ^ 63 -> (enabled (setup t) k = true <-> v <= k).
Proof. intros t v k A R. unfold setup, enabled. rewrite (asks_parse _ _ A), (wrap_small v R). apply Z.leb_le. Qed.
Theorem C108_otherwise_info : forall t k, (forall v, ~ asks t v) -> (enabled (setup t) k = true <-> 0 <= k).
Proof.
  intros t k N. unfold setup, enabled. destruct (parse_level t) as [u|] eqn:P; [|apply Z.leb_le]. destruct (parse_asks _ _ P) as (v & A & _). destruct (N v A).
Qed.
(** The database's messages: the same rule, whichever logger prints them. *)
Theorem C108_database_messages : forall t k, 0 <= k <= 3 -> db_prints t k = enabled (setup t) (4 * k - 4).
Proof.
  intros t k K. unfold db_prints, setup_logging, enabled. destruct (Z.eqb_spec (setup t) 0) as [->|]; [|destruct (Z.eqb_spec (setup t) (-4)) as [->|]; [|destruct (Z.eqb_spec (setup t) 4) as [->|]; [|destruct (Z.eqb_spec (setup t) 8) as [->|]; [|reflexivity]]]].
  all: match goal with |- (?a <=? ?b) = (?c <=? ?d) => destruct (Z.leb_spec a b), (Z.leb_spec c d); try reflexivity; lia end.
Qed.
(** The database's messages go to the server's own log exactly if the level is not that of one of the four severities. *)
Theorem C108_database_log : forall t, setup_logging t = Own <-> ~ In (setup t) [-4; 0; 4; 8].
Proof.
  intros t. unfold setup_logging. destruct (Z.eqb_spec (setup t) 0) as [E0|]; [|destruct (Z.eqb_spec (setup t) (-4)) as [E0|]; [|destruct (Z.eqb_spec (setup t) 4) as [E0|]; [|destruct (Z.eqb_spec (setup t) 8) as [E0|]]]].
  1-4: rewrite E0; split; [discriminate|]; intros H; destruct H; cbn [In]; tauto.
  split; [|reflexivity]. intros _. cbn [In]. intuition congruence.
Qed.
(** A level beyond the machine's integers wraps around: everything is printed. *)
Theorem C108_overflow_refuted : exists t v, asks t v /\ 8 < v /\ enabled (setup t) (-4) = true.
Proof.
  exists ("error" ^^ ("+" ^^ decimal [9;2;2;3;3;7;2;0;3;6;8;5;4;7;7;5;8;0;7]%N)), (8 + 9223372036854775807). split; [|split; [lia|reflexivity]].
  exists "error", "ERROR", 8, ("+" ^^ decimal [9;2;2;3;3;7;2;0;3;6;8;5;4;7;7;5;8;0;7]%N), 9223372036854775807. split; [reflexivity|]. split; [exact (upper_spells 5 "error" (le_n _))|].
  split; [constructor|]. split; [|reflexivity]. apply (Plus [9;2;2;3;3;7;2;0;3;6;8;5;4;7;7;5;8;0;7]%N); [discriminate|repeat constructor|reflexivity].
Qed.
Lemma asks_none t : parse_level t = None -> forall v, ~ asks t v.
Proof. intros E v A. rewrite (asks_parse _ _ A) in E. discriminate. Qed.
(** The word "warning" asks for nothing: informational messages are printed. *)
Theorem C108_warning_is_info : (forall v, ~ asks "warning" v) /\ enabled (setup "warning") 0 = true.
Proof. split; [apply asks_none; reflexivity|reflexivity]. Qed.
Example C108_example : asks "Warn-2" 2 /\ setup "Warn-2" = 2 /\ setup "eRROr" = 8 /\ setup "" = 0 /\ setup (String "196" (String "177" "nfo+3")) = 3 /\
  setup "INFO+" = 0 /\ setup "DEBUG-1x" = 0 /\ db_prints "info" 1 = true /\ db_prints "info" 0 = false /\ setup_logging "Warn-2" = Own /\ db_prints "Warn-2" 2 = true /\ db_prints "Warn-2" 1 = false.
Proof.
  split; [|repeat split]. exists "Warn", "WARN", 4, ("-" ^^ decimal [2]%N), (-2). split; [reflexivity|]. split; [exact (upper_spells 4 "Warn" (le_n _))|]. split; [constructor|]. split; [|reflexivity].
  apply (Minus [2]%N); [discriminate|repeat constructor|vm_compute; discriminate].
Qed.
Print Assumptions C108_prints_what_was_asked_partial.
Print Assumptions C108_otherwise_info.
Print Assumptions C108_database_messages.
