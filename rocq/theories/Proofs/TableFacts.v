(** The tables and the whole document of internal/render. *)
From Verif.Model Require Import Base Quote Calendar Render.
From Verif.Spec Require Import Quoting Gregorian Texts.
From Verif.Proofs Require Import BaseFacts QuoteFacts QuotingFacts RenderFacts CalendarFacts.
Open Scope N_scope.
Local Infix "^^" := append (right associativity, at level 60).

(* ---------------------------------------------------------------- counting runes *)
Lemma decode_space b s : decode b (s ^^ " ") = (fst (decode b s), snd (decode b s) ^^ " ").
Proof.
  unfold decode. destruct (b <? 128); [reflexivity|].
  destruct (within 194 223 b). { destruct s as [|c1 s1]; [reflexivity|]. cbn [append]. cbv zeta. destruct (cont (N_of_ascii c1)); reflexivity. }
  destruct (within 224 239 b).
  { destruct s as [|c1 [|c2 s2]]; [reflexivity| |].
    - cbn [append]. cbv zeta. change (cont (N_of_ascii " ")) with false. rewrite andb_false_r. reflexivity.
    - cbn [append]. cbv zeta. destruct (second3 b (N_of_ascii c1) && cont (N_of_ascii c2)); reflexivity. }
  destruct (within 240 244 b); [|reflexivity].
  destruct s as [|c1 [|c2 [|c3 s3]]]; [reflexivity|reflexivity| |].
  - cbn [append]. cbv zeta. change (cont (N_of_ascii " ")) with false. rewrite andb_false_r. reflexivity.
  - cbn [append]. cbv zeta. destruct (second4 b (N_of_ascii c1) && cont (N_of_ascii c2) && cont (N_of_ascii c3)); reflexivity.
Qed.

Lemma decode_shorter c s : (String.length (snd (decode (N_of_ascii c) s)) <= String.length s)%nat.
Proof. destruct (decode (N_of_ascii c) s) as [p t] eqn:E. apply decode_spec in E as (_ & _ & L). exact L. Qed.

Lemma rune_count_enough : forall f g s, (String.length s <= f)%nat -> (String.length s <= g)%nat -> rune_count_fuel f s = rune_count_fuel g s.
Proof.
  induction f as [|f IH]; intros g s F G; destruct s as [|c s]; simpl in F, G.
  - destruct g; reflexivity.
  - lia.
  - destruct g; reflexivity.
  - destruct g as [|g]; [lia|]. cbn [rune_count_fuel]. f_equal. pose proof (decode_shorter c s). apply IH; lia.
Qed.

Lemma rune_count_blank s : rune_count (s ^^ " ") = S (rune_count s).
Proof.
  unfold rune_count. rewrite length_append. cbn [String.length].
  assert (K : forall n s, (String.length s <= n)%nat -> rune_count_fuel (n + 1) (s ^^ " ") = S (rune_count_fuel n s)).
  { clear s. induction n as [|n IH]; intros s L.
    - destruct s as [|c s]; [reflexivity|simpl in L; lia].
    - destruct s as [|c s]; [destruct n; reflexivity|simpl in L]. cbn [append]. cbn [Nat.add rune_count_fuel]. rewrite decode_space. cbn [snd]. f_equal.
      pose proof (decode_shorter c s). rewrite IH by lia. reflexivity. }
  apply K. lia.
Qed.

(* ---------------------------------------------------------------- the grid *)
Lemma widths3 {A} (x y z : A -> string) (l : list A) : forall a b c,
  column_widths [a; b; c] (map (fun r => [x r; y r; z r]) l) =
  [Nat.max a (list_max (map (fun r => S (rune_count (x r))) l)); Nat.max b (list_max (map (fun r => S (rune_count (y r))) l));
   Nat.max c (list_max (map (fun r => S (rune_count (z r))) l))].
Proof.
  induction l as [|r l IH]; intros a b c.
  - cbn [map column_widths list_max fold_right]. rewrite !Nat.max_0_r. reflexivity.
  - cbn [map column_widths combine fst snd]. rewrite IH. cbn [map]. rewrite <- !Nat.max_assoc. reflexivity.
Qed.

Lemma list_max_blank l : l <> [] -> list_max (map (fun s => S (rune_count (s ^^ " "))) l) = col_width rune_count l.
Proof.
  intros N. unfold col_width. assert (E : map (fun s => S (rune_count (s ^^ " "))) l = map (fun n => S (S n)) (map rune_count l)).
  { rewrite map_map. apply map_ext. intros s. rewrite rune_count_blank. reflexivity. }
  rewrite E. destruct l as [|s l]; [congruence|]. clear. cbn [map]. generalize (rune_count s), (map rune_count l). clear. intros n l.
  revert n. induction l as [|m l IH]; intros n.
  - cbn. lia.
  - specialize (IH m). unfold list_max in *. cbn [map fold_right Nat.add] in *. lia.
Qed.

Lemma spaces_repeat n : spaces n = string_of_list_ascii (repeat " "%char n).
Proof. induction n; cbn; [reflexivity|]. rewrite IHn. reflexivity. Qed.

Lemma in_list_max (n : nat) l : In n l -> (n <= list_max l)%nat.
Proof. intros H. pose proof (proj1 (list_max_le l (list_max l)) (Nat.le_refl _)) as F. rewrite Forall_forall in F. auto. Qed.

Lemma pad_filled c l : In c l -> pad_cell false (col_width rune_count l) (c ^^ " ") = filled rune_count (col_width rune_count l) c.
Proof.
  intros H. unfold pad_cell, filled. rewrite rune_count_blank, <- spaces_repeat.
  assert (L : (rune_count c + 2 <= col_width rune_count l)%nat).
  { unfold col_width. assert (rune_count c <= list_max (map rune_count l))%nat by (apply in_list_max, in_map, H). lia. }
  replace (col_width rune_count l - rune_count c)%nat with (S (col_width rune_count l - S (rune_count c))) by lia.
  cbn [spaces]. flat. reflexivity.
Qed.

Lemma table_grid3 rows : rows <> [] ->
  table false 3 (map (fun r => ([fst (fst r) ^^ " "; snd (fst r) ^^ " "; snd r ^^ " "], "")) rows) = grid3 rune_count rows.
Proof.
  intros N. set (F := fun r : string * string * string => ([fst (fst r) ^^ " "; snd (fst r) ^^ " "; snd r ^^ " "], "")).
  assert (W : column_widths (repeat O 3) (map fst (map F rows)) =
    [col_width rune_count (map (fun r => fst (fst r)) rows); col_width rune_count (map (fun r => snd (fst r)) rows); col_width rune_count (map snd rows)]).
  { rewrite map_map. unfold F. cbn [fst].
    etransitivity; [apply (widths3 (fun r => fst (fst r) ^^ " ") (fun r => snd (fst r) ^^ " ") (fun r => snd r ^^ " ") rows O O O)|]. cbn [Nat.max].
    rewrite <- !list_max_blank by (destruct rows; [congruence|discriminate]). rewrite !map_map. reflexivity. }
  unfold table. rewrite W. unfold grid3. cbv zeta. rewrite map_map. f_equal.
  apply map_ext_in. intros r Hr. unfold format_line, F. cbn [fst snd combine map String.concat append].
  rewrite !pad_filled.
  - flat. reflexivity.
  - apply (in_map snd), Hr.
  - apply (in_map (fun r => snd (fst r))), Hr.
  - apply (in_map (fun r => fst (fst r))), Hr.
Qed.

(* ---------------------------------------------------------------- time *)
Lemma append_int2_two n : (0 <= n < 100)%Z -> append_int2 n = two n.
Proof.
  intros H. unfold append_int2, two, d1, digit. cbv zeta. rewrite (proj2 (Z.ltb_ge n 0)) by lia. rewrite Z.abs_eq by lia.
  rewrite (proj2 (Z.ltb_lt n 100)) by lia. cbn [append].
  replace (Z.to_N (48 + n / 10)) with (48 + Z.to_N (n / 10)) by (rewrite Z2N.inj_add; [reflexivity|lia|apply Z.div_pos; lia]).
  replace (Z.to_N (48 + n mod 10)) with (48 + Z.to_N (n mod 10)) by (rewrite Z2N.inj_add; [reflexivity|lia|apply Z.mod_pos_bound; lia]).
  reflexivity.
Qed.
Lemma append_int4_four n : (0 <= n < 10000)%Z -> append_int4 n = four n.
Proof.
  intros H. unfold append_int4, four, two, d1, digit. cbv zeta. rewrite (proj2 (Z.ltb_ge n 0)) by lia. rewrite Z.abs_eq by lia.
  rewrite (proj2 (Z.ltb_lt n 10000)) by lia. cbn [append].
  replace (n / 100 / 10)%Z with (n / 1000)%Z by (rewrite Z.div_div by lia; reflexivity).
  replace (n mod 100 / 10)%Z with (n / 10 mod 10)%Z by (Z.to_euclidean_division_equations; lia).
  replace (n mod 100 mod 10)%Z with (n mod 10)%Z by (Z.to_euclidean_division_equations; lia).
  assert (K : forall k, (0 <= k)%Z -> Z.to_N (48 + k) = 48 + Z.to_N k) by (intros k Hk; rewrite Z2N.inj_add; [reflexivity|lia|lia]).
  rewrite !K by (Z.to_euclidean_division_equations; lia). reflexivity.
Qed.

Lemma int64_of_u64_range ns : ns < two64 -> int64_range (int64_of_u64 ns).
Proof.
  intros H. unfold int64_of_u64, int64_range. unfold two64, two63 in *.
  destruct (ns <? 2 ^ 63) eqn:E; [apply N.ltb_lt in E|apply N.ltb_ge in E]; lia.
Qed.

Lemma format_time_clock cal ns : is_calendar cal -> ns < two64 ->
  format_time ns = clock_text cal (int64_of_u64 ns / 1000000000).
Proof.
  intros C H. apply int64_of_u64_range in H. unfold format_time, clock_text. cbv zeta.
  set (t := int64_of_u64 ns) in *. clearbody t. rewrite (calendar_unique cal C).
  replace (t / 1000000000 / 86400)%Z with (day_of t).
  2: { unfold day_of, ns_day, ns_hour. rewrite Z.div_div by lia. f_equal. }
  pose proof (year4_int64 t H) as Y. pose proof (month_of_bounds t) as M. pose proof (mday_of_bounds t) as D.
  unfold format_Y, year4, year_of, month_of, mday_of, date_of in *.
  destruct (date_of_day (day_of t)) as [[y m] d].
  rewrite append_int4_four by lia. rewrite (append_int2_two m) by lia. rewrite (append_int2_two d) by lia.
  assert (E : ((t mod ns_day) / 1000000000 = (t / 1000000000) mod 86400)%Z).
  { unfold ns_day, ns_hour. clear. Z.to_euclidean_division_equations. lia. }
  rewrite E. set (s := ((t / 1000000000) mod 86400)%Z).
  assert (S : (0 <= s < 86400)%Z) by (unfold s; apply Z.mod_pos_bound; lia). clearbody s.
  rewrite !append_int2_two by (clear - S; Z.to_euclidean_division_equations; lia). reflexivity.
Qed.

Lemma two_inj a b : (0 <= a < 100)%Z -> (0 <= b < 100)%Z -> two a = two b -> a = b.
Proof. intros A B H. apply append_int2_inj; auto. rewrite !append_int2_two by auto. exact H. Qed.
Lemma four_inj a b : (0 <= a < 10000)%Z -> (0 <= b < 10000)%Z -> four a = four b -> a = b.
Proof. intros A B H. apply append_int4_inj; auto. rewrite !append_int4_four by auto. exact H. Qed.

Lemma format_time_inj a b : a < two64 -> b < two64 ->
  (format_time a = format_time b <-> (int64_of_u64 a / 1000000000 = int64_of_u64 b / 1000000000)%Z).
Proof.
  intros Ha Hb. split.
  2: { intros E. rewrite !(format_time_clock date_of_day) by (auto using date_of_day_calendar). rewrite E. reflexivity. }
  intros H. rewrite !(format_time_clock date_of_day) in H by (auto using date_of_day_calendar).
  apply int64_of_u64_range in Ha, Hb. set (x := int64_of_u64 a) in *. set (y := int64_of_u64 b) in *. clearbody x y.
  unfold clock_text in H.
  assert (Dx : (x / 1000000000 / 86400)%Z = day_of x) by (unfold day_of, ns_day, ns_hour; rewrite Z.div_div by lia; f_equal).
  assert (Dy : (y / 1000000000 / 86400)%Z = day_of y) by (unfold day_of, ns_day, ns_hour; rewrite Z.div_div by lia; f_equal).
  rewrite Dx, Dy in H.
  pose proof (year4_int64 x Ha) as Yx. pose proof (month_of_bounds x) as Mx. pose proof (mday_of_bounds x) as Qx.
  pose proof (year4_int64 y Hb) as Yy. pose proof (month_of_bounds y) as My. pose proof (mday_of_bounds y) as Qy.
  unfold year4, year_of, month_of, mday_of, date_of in *.
  destruct (date_of_day (day_of x)) as [[yx mx] dx] eqn:Ex. destruct (date_of_day (day_of y)) as [[yy my] dy] eqn:Ey.

  assert (Sx : (0 <= (x / 1000000000) mod 86400 < 86400)%Z) by (apply Z.mod_pos_bound; lia).
  assert (Sy : (0 <= (y / 1000000000) mod 86400 < 86400)%Z) by (apply Z.mod_pos_bound; lia).
  cbv zeta in H. set (sx := ((x / 1000000000) mod 86400)%Z) in *. set (sy := ((y / 1000000000) mod 86400)%Z) in *.
  apply append_inj_len in H as [H1 H]; [|reflexivity]. apply append_inj_l in H.
  apply append_inj_len in H as [H2 H]; [|reflexivity]. apply append_inj_l in H.
  apply append_inj_len in H as [H3 H]; [|reflexivity]. apply append_inj_l in H.
  apply append_inj_len in H as [H4 H]; [|reflexivity]. apply append_inj_l in H.
  apply append_inj_len in H as [H5 H6]; [|reflexivity]. apply append_inj_l in H6.
  apply four_inj in H1; [|lia|lia]. apply two_inj in H2; [|lia|lia]. apply two_inj in H3; [|lia|lia].
  assert (E : day_of x = day_of y) by (apply date_of_day_inj; congruence).
  assert (Es : sx = sy).
  { clearbody sx sy. clear - Sx Sy H4 H5 H6.
    apply two_inj in H4; [|Z.to_euclidean_division_equations; lia|Z.to_euclidean_division_equations; lia].
    apply two_inj in H5; [|Z.to_euclidean_division_equations; lia|Z.to_euclidean_division_equations; lia].
    apply two_inj in H6; [|Z.to_euclidean_division_equations; lia|Z.to_euclidean_division_equations; lia].
    Z.to_euclidean_division_equations; lia. }
  unfold sx, sy in Es. rewrite <- Dx, <- Dy in E.
  rewrite (Z.div_mod (x / 1000000000) 86400), (Z.div_mod (y / 1000000000) 86400) by lia. rewrite E, Es. reflexivity.
Qed.

(* ---------------------------------------------------------------- the document *)
Lemma in_order_pre g bs t : in_order bs t -> in_order bs (g ^^ t).
Proof. destruct bs as [|b bs]; [auto|]. intros (g' & r & -> & H). exists (g ^^ g'), r. rewrite append_assoc. auto. Qed.
Lemma in_order_app bs : forall bs' t t', in_order bs t -> in_order bs' t' -> in_order (bs ++ bs') (t ^^ t').
Proof.
  induction bs as [|b bs IH]; intros bs' t t' H H'.
  - cbn [List.app]. apply in_order_pre, H'.
  - destruct H as (g & r & -> & H). exists g, (r ^^ t'). rewrite !append_assoc. split; [reflexivity|]. apply IH; auto.
Qed.
Lemma in_order_cons b bs r : in_order bs r -> in_order (b :: bs) (b ^^ r).
Proof. intros H. exists "", r. auto. Qed.

(* ---------------------------------------------------------------- units *)
Lemma prefix_spec p s : String.prefix p s = true <-> exists b, s = p ^^ b.
Proof.
  revert s. induction p as [|c p IH]; intros s; [split; [exists s; reflexivity|destruct s; reflexivity]|].
  destruct s as [|d s]; cbn [String.prefix append]; [split; [discriminate|intros (b & K); discriminate K]|].
  destruct (ascii_dec c d) as [->|N]; [|split; [discriminate|intros (b & K); congruence]].
  rewrite IH. split; intros (b & K); exists b; congruence.
Qed.
Lemma contains_spec sub s : contains sub s = true <-> exists a b, s = a ^^ sub ^^ b.
Proof.
  induction s as [|c s IH]; cbn [contains].
  - rewrite orb_false_r, prefix_spec. split.
    + intros (b & K). exists "", b. exact K.
    + intros (a & b & K). destruct a; [exists b; exact K|discriminate K].
  - rewrite orb_true_iff, prefix_spec, IH. split.
    + intros [(b & K)|(a & b & K)]; [exists "", b; exact K|]. exists (String c a), b. cbn. congruence.
    + intros (a & b & K). destruct a as [|c' a]; [left; exists b; exact K|]. right. exists a, b. cbn in K. congruence.
Qed.
Lemma effective_unit_spec m : metric_unit m (effective_unit m).
Proof.
  unfold effective_unit. destruct (String.eqb_spec (rm_unit m) "") as [E|N]; cbn [andb]; [|apply UOwn, N].
  destruct (contains "nanoseconds" (rm_desc m)) eqn:C.
  - apply contains_spec in C. destruct C as (a & b & C). eapply UNano; eauto.
  - rewrite E. apply UNone; [exact E|]. intros a b K. assert (contains "nanoseconds" (rm_desc m) = true) by (apply contains_spec; eauto). congruence.
Qed.
Lemma metric_unit_fun m u u' : metric_unit m u -> metric_unit m u' -> u = u'.
Proof. intros H H'. inversion H; subst; inversion H'; subst; try reflexivity; try congruence; exfalso; match goal with H : forall a b, _ <> _ |- _ => eapply H; eauto end. Qed.

(* ---------------------------------------------------------------- characters *)
Lemma rune_count_step c s : rune_count (String c s) = S (rune_count (snd (decode (N_of_ascii c) s))).
Proof.
  unfold rune_count. cbn [String.length rune_count_fuel]. f_equal. apply rune_count_enough; [apply decode_shorter|lia].
Qed.
Lemma characters_count s n : characters s n -> n = rune_count s.
Proof.
  induction 1 as [|r s n Sc H IH|c s n NB H IH]; [reflexivity| |].
  - rewrite utf8_encode by apply Sc. destruct (decode_encode r s Sc) as (c & t & E & D). rewrite E, rune_count_step, D. cbn [snd]. congruence.
  - rewrite rune_count_step. destruct (decode (N_of_ascii c) s) as [p t'] eqn:D. pose proof (decode_spec _ _ _ _ D) as (W & E & _). cbn [snd].
    destruct p as [r|b]; cbn [well_formed bytes_of] in *.
    + exfalso. eapply NB; [exact (decode_scalar _ _ _ _ D)|]. rewrite utf8_encode by exact W. exact E.
    + cbn [append] in E. injection E as _ <-. congruence.
Qed.
Lemma count_characters s : characters s (rune_count s).
Proof.
  remember (String.length s) as n eqn:L. assert (Ln : (String.length s <= n)%nat) by lia. clear L. revert s Ln.
  induction n as [|n IH]; intros s Ln; destruct s as [|c s]; [constructor|simpl in Ln; lia|constructor|]. simpl in Ln.
  rewrite rune_count_step. destruct (decode (N_of_ascii c) s) as [p t] eqn:D. pose proof (decode_spec _ _ _ _ D) as (W & E & Lt). cbn [snd].
  destruct p as [r|b]; cbn [well_formed bytes_of] in *.
  - rewrite E, <- utf8_encode by exact W. constructor; [exact (decode_scalar _ _ _ _ D)|apply IH; lia].
  - cbn [append] in E. injection E as Ec Et. subst t. constructor; [|apply IH; lia].
    intros r s' Sc K. rewrite utf8_encode in K by apply Sc. destruct (decode_encode r s' Sc) as (c' & t' & K1 & K2). rewrite K1 in K. injection K as <- <-. congruence.
Qed.

Lemma grid3_ext w w' rows : (forall s, w s = w' s) -> grid3 w rows = grid3 w' rows.
Proof.
  intros H. unfold grid3. cbv zeta. assert (C : forall l, col_width w l = col_width w' l) by (intros l; unfold col_width; rewrite (map_ext _ _ H); reflexivity).
  rewrite !C. f_equal. apply map_ext. intros r. unfold filled. rewrite !H. reflexivity.
Qed.

Section Doc.
Context (is_print : N -> bool) (show_double : N -> string) (float_of_int : Z -> N) (format_unit : N -> string -> string).
Notation attr := (attr is_print show_double).
Notation render_metric := (render_metric is_print show_double float_of_int format_unit).
Notation render_scope := (render_scope is_print show_double float_of_int format_unit).
Notation render_resource := (render_resource is_print show_double float_of_int format_unit).
Context (width : string -> nat) (Hw : forall s, characters s (width s))
  (tx : list (string * option aval) -> string)
  (Htx : forall l, complete (VKv l) -> shown is_print show_double (VKv l) (tx l))
  (unit_of : rmetric -> string) (Hu : forall m, metric_unit m (unit_of m)).
Definition vl (p : rpoint) (unit : string) : string := format_unit (point_number float_of_int p) unit.

Lemma width_count s : width s = rune_count s.
Proof. apply characters_count, Hw. Qed.
Lemma unit_eff m : effective_unit m = unit_of m.
Proof. eapply metric_unit_fun; [apply effective_unit_spec|apply Hu]. Qed.
Lemma attr_tx l : complete (VKv l) -> attr l = Some (tx l).
Proof. intros H. unfold Render.attr. apply value_shown. auto. Qed.

Lemma point_lines_rows unit l : Forall (fun p => complete (VKv (rp_attrs p))) l ->
  point_lines is_print show_double float_of_int format_unit unit l =
  Some (map (fun r => ([fst (fst r) ^^ " "; snd (fst r) ^^ " "; snd r ^^ " "], "")) (map (row tx format_time vl unit) l)).
Proof.
  induction 1 as [|p l C F IH]; [reflexivity|]. cbn [point_lines map]. rewrite attr_tx by exact C. rewrite IH.
  reflexivity.
Qed.
Lemma numeric_grid m l : Forall (fun p => complete (VKv (rp_attrs p))) l ->
  numeric is_print show_double float_of_int format_unit l (unit_of m) = Some (points_table width tx format_time vl unit_of m l).
Proof.
  intros F. unfold numeric. rewrite point_lines_rows by exact F. unfold points_table. rewrite (grid3_ext width rune_count) by apply width_count.
  rewrite <- table_grid3 by discriminate. reflexivity.
Qed.

Lemma metric_info_table m : table false 2 [(["description "; rm_desc m], ""); (["unit "; unit_of m], "")] = metric_info width unit_of m.
Proof.
  unfold table, metric_info, filled. cbn [repeat map fst column_widths combine]. rewrite !width_count. unfold format_line. cbn [combine map fst snd String.concat].
  change (rune_count "description ") with 12%nat. change (rune_count "unit ") with 5%nat.
  change (Nat.max (Nat.max 0 (S 12)) 6) with 13%nat. change (fst (13%nat, "description ")) with 13%nat.
  change (pad_cell false 13 "description ") with "description  ". change (pad_cell false 13 "unit ") with "unit         ".
  unfold pad_cell. rewrite Nat.max_0_l, <- !Nat.succ_max_distr, !spaces_repeat. rewrite !append_assoc. cbn [append].
  rewrite ?append_nil_r. reflexivity.
Qed.
Lemma scope_info_table s : table true 1 [(["scope.name "], rs_name s); (["scope.schema "], rs_schema s);
                                              (["scope.version "], rs_version s); (["scope.attributes "], tx (rs_attrs s))] = scope_info tx s.
Proof.
  unfold table, scope_info. cbn [repeat map fst]. change (column_widths [O] [["scope.name "]; ["scope.schema "]; ["scope.version "]; ["scope.attributes "]]) with [18%nat].
  unfold format_line. cbn [combine map fst snd String.concat].
  change (pad_cell true 18 "scope.name ") with "       scope.name ". change (pad_cell true 18 "scope.schema ") with "     scope.schema ".
  change (pad_cell true 18 "scope.version ") with "    scope.version ". change (pad_cell true 18 "scope.attributes ") with " scope.attributes ".
  rewrite !append_assoc. cbn [append]. reflexivity.
Qed.
Lemma resource_info_table r : table true 1 [(["resource.schema "], rr_schema r); (["resource.attributes "], tx (rr_attrs r))] = resource_info tx r.
Proof.
  unfold table, resource_info. cbn [repeat map fst]. change (column_widths [O] [["resource.schema "]; ["resource.attributes "]]) with [21%nat].
  unfold format_line. cbn [combine map fst snd String.concat].
  change (pad_cell true 21 "resource.schema ") with "     resource.schema ". change (pad_cell true 21 "resource.attributes ") with " resource.attributes ".
  rewrite !append_assoc. cbn [append]. reflexivity.
Qed.

Notation metric_text := (metric_text width tx format_time vl unit_of).
Notation scope_text := (scope_text width tx format_time vl unit_of).
Notation resource_text := (resource_text width tx format_time vl unit_of).
Lemma metric_exact o m : metric_complete m -> render_metric o m = Some (metric_text o m).
Proof.
  unfold metric_complete, Render.render_metric, Texts.metric_text. cbv zeta. intros C. rewrite unit_eff, metric_info_table.
  change nl with eol.
  destruct (rm_data m) as [l|l|l|]; cbn [points_of] in C; try (rewrite numeric_grid by exact C); f_equal; destruct (o_metrics o);
    rewrite ?append_assoc; cbn [append]; rewrite ?append_nil_r; reflexivity.
Qed.
Lemma concat_sep {A} (g : A -> string) (l : list A) : forall b,
  eol ^^ String.concat eol (map g (b :: l)) = String.concat "" (map (fun a => eol ^^ g a) (b :: l)).
Proof.
  induction l as [|c l IH]; intros b; [reflexivity|].
  change (String.concat eol (map g (b :: c :: l))) with (g b ^^ eol ^^ String.concat eol (map g (c :: l))).
  change (String.concat "" (map (fun a => eol ^^ g a) (b :: c :: l))) with ((eol ^^ g b) ^^ "" ^^ String.concat "" (map (fun a => eol ^^ g a) (c :: l))).
  rewrite IH, append_assoc. reflexivity.
Qed.
Lemma join_exact {A} (f : A -> option string) (g : A -> string) (l : list A) : Forall (fun a => f a = Some (g a)) l ->
  join_rendered f true l = Some (String.concat eol (map g l)) /\
  join_rendered f false l = Some (String.concat "" (map (fun a => eol ^^ g a) l)).
Proof.
  induction 1 as [|a l E F [_ IH]]; [split; reflexivity|]. cbn [join_rendered]. rewrite E, IH. change nl with eol.
  destruct l as [|b l].
  - cbn [map String.concat]. rewrite !append_nil_r. split; reflexivity.
  - rewrite <- concat_sep. split; [reflexivity|]. f_equal.
    change (map (fun a => eol ^^ g a) (a :: b :: l)) with ((eol ^^ g a) :: map (fun a => eol ^^ g a) (b :: l)).
    change (String.concat "" ((eol ^^ g a) :: map (fun a => eol ^^ g a) (b :: l))) with ((eol ^^ g a) ^^ "" ^^ String.concat "" (map (fun a => eol ^^ g a) (b :: l))).
    rewrite concat_sep, append_assoc. reflexivity.
Qed.
Lemma scope_exact o s : scope_complete s -> render_scope o s = Some (scope_text o s).
Proof.
  intros [Ca Cm]. unfold Render.render_scope, Texts.scope_text. rewrite attr_tx by exact Ca. rewrite scope_info_table.
  rewrite (proj1 (join_exact (render_metric o) (metric_text o) (rs_metrics s) ltac:(eapply Forall_impl; [|exact Cm]; intros m; apply metric_exact))).
  destruct (o_scope o); reflexivity.
Qed.
Lemma resource_exact o r : resource_complete r -> render_resource o r = Some (resource_text o r).
Proof.
  intros [Ca Cm]. unfold Render.render_resource, Texts.resource_text. rewrite attr_tx by exact Ca. rewrite resource_info_table.
  rewrite (proj1 (join_exact (render_scope o) (scope_text o) (rr_scopes r) ltac:(eapply Forall_impl; [|exact Cm]; intros m; apply scope_exact))).
  destruct (o_resource o); reflexivity.
Qed.
Lemma document_exact o l : Forall resource_complete l ->
  render_metrics_data is_print show_double float_of_int format_unit o l = Some (document width tx format_time vl unit_of o l).
Proof. intros C. apply join_exact. eapply Forall_impl; [|exact C]. intros r. apply resource_exact. Qed.
End Doc.

(* ---------------------------------------------------------------- the blocks of a document are in it *)
Section Blocks.
Context (width : string -> nat) (tx : list (string * option aval) -> string) (tm : N -> string) (v : rpoint -> string -> string) (unit_of : rmetric -> string).
Lemma concat_blocks {A} (f : A -> string) (blocks : A -> list string) sep (l : list A) :
  (forall a, in_order (blocks a) (f a)) -> in_order (flat_map blocks l) (String.concat sep (map f l)).
Proof.
  intros H. induction l as [|a l IH]; [exact Logic.I|]. destruct l as [|b l].
  - cbn [flat_map map String.concat]. rewrite app_nil_r. apply H.
  - change (String.concat sep (map f (a :: b :: l))) with (f a ^^ sep ^^ String.concat sep (map f (b :: l))).
    change (flat_map blocks (a :: b :: l)) with (blocks a ++ flat_map blocks (b :: l)). apply in_order_app; [apply H|]. apply in_order_pre, IH.
Qed.
Lemma metric_in_order o m : in_order (metric_blocks width tx tm v unit_of m) (metric_text width tx tm v unit_of o m).
Proof.
  unfold metric_blocks, metric_text. rewrite <- append_assoc. destruct (rm_data m); apply in_order_cons; try exact Logic.I; apply in_order_pre.
  all: exists "", ""; split; [rewrite append_nil_r; reflexivity|exact Logic.I].
Qed.
Lemma scope_in_order o s : in_order (scope_blocks width tx tm v unit_of s) (scope_text width tx tm v unit_of o s).
Proof.
  unfold scope_blocks, scope_text. rewrite <- (append_assoc (rs_name s) eol), <- (append_assoc "--> " (rs_name s ^^ eol)). apply in_order_cons, in_order_pre, concat_blocks, metric_in_order.
Qed.
Lemma resource_in_order o r : in_order (resource_blocks width tx tm v unit_of r) (resource_text width tx tm v unit_of o r).
Proof.
  unfold resource_blocks, resource_text. rewrite <- (append_assoc (rr_schema r) eol), <- (append_assoc "=== " (rr_schema r ^^ eol)). apply in_order_cons, in_order_pre, concat_blocks, scope_in_order.
Qed.
Lemma document_in_order o l : in_order (flat_map (resource_blocks width tx tm v unit_of) l) (document width tx tm v unit_of o l).
Proof. apply concat_blocks, resource_in_order. Qed.
End Blocks.
