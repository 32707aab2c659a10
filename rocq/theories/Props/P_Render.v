(** C77, C78: the text a query script prints for metrics. *)
From Verif.Model Require Import Base Quote Calendar Render.
From Verif.Spec Require Import Gregorian Quoting Texts.
From Verif.Proofs Require Import BaseFacts QuoteFacts QuotingFacts RenderFacts TableFacts CalendarFacts.
From Coq Require Import SpecFloat.
Open Scope N_scope.
Local Infix "^^" := append (right associativity, at level 60).

Section Attributes.
Context (is_print : N -> bool) (show_double : N -> string).

(** C77. The text of attributes is the one the notation prescribes, whatever they hold. *)
Theorem C77_text_follows_the_notation : forall l t,
  attr is_print show_double l = Some t <-> shown is_print show_double (VKv l) t.
Proof. intros l t. apply value_shown. Qed.

(** The text of a string: quoted as Go quotes strings, its Unicode characters as they are if printable, and as one of
    the escapes otherwise. *)
Theorem C77_strings_are_quoted : forall s t,
  value is_print show_double (VStr s) = Some t <-> exists u, quoted is_print s u /\ t = """" ^^ u ^^ """".
Proof.
  intros s t. cbn [value]. rewrite <- quote_quoted. split; [intros H; apply some_inj in H; exact H|intros ->; reflexivity].
Qed.
(** Exactly one quoted text exists for every string. *)
Theorem C77_quoted_function : forall s, exists! u, quoted is_print s u.
Proof.
  intros s. exists (quoted_body is_print (String.length s) s). split; [apply quoted_body_spec; lia|].
  intros u Q. apply quoted_fun; [exact Q|lia].
Qed.

(** It is printed (no panic) exactly if no key lacks its value. *)
Theorem C77_printed_iff_complete : forall l, attr is_print show_double l <> None <-> complete (VKv l).
Proof. intros l. apply value_complete. Qed.

(** Attributes made of strings, booleans, integers, arrays and nested lists, under keys without blanks, can be told
    apart by their text: quotes, brackets, commas, equals signs and line ends inside the strings do not confuse it. *)
Theorem C77_plain_attributes_told_apart : forall l l' t,
  plain (VKv l) -> plain (VKv l') ->
  attr is_print show_double l = Some t -> attr is_print show_double l' = Some t -> l = l'.
Proof. intros l l' t. apply attr_inj. Qed.

(** Not so for the others: a double, a byte string or a key with blanks can look like something else. *)
Theorem C77_all_told_apart_refuted : show_double 4607182418800017408 = "1" ->
  (exists t, attr is_print show_double [("k", Some (VInt 1))] = Some t /\ attr is_print show_double [("k", Some (VDouble 4607182418800017408))] = Some t)
  /\ (exists t, attr is_print show_double [("k", Some (VInt 12))] = Some t /\ attr is_print show_double [("k", Some (VBytes (String (chr 18) "")))] = Some t)
  /\ (exists t, attr is_print show_double [("a", Some (VInt 1)); ("b", Some (VInt 2))] = Some t /\ attr is_print show_double [("a = 1, b", Some (VInt 2))] = Some t)
  /\ attr is_print show_double [("k", None)] = None.
Proof.
  intros H. split; [|split; [|split]].
  - exists "{ k = 1 }". split; [reflexivity|]. unfold attr. rewrite value_kv. cbn [entries value]. rewrite H. reflexivity.
  - exists "{ k = 12 }". split; reflexivity.
  - exists "{ a = 1, b = 2 }". split; reflexivity.
  - reflexivity.
Qed.
End Attributes.

(** A case with quotes, escapes, invalid UTF-8, a two byte rune and nesting. *)
Example C77_example :
  let l := [("name", Some (VStr (String (chr 34) (String (chr 10) (String (chr 255) (String (chr 195) (String (chr 169) "")))))));
            ("sizes", Some (VArr [VInt (-3); VBool true; VKv []])); ("deep", Some (VKv [("x", Some (VStr "a, b"))]))] in
  plain (VKv l) /\
  attr (fun _ => true) (fun _ => "") l =
    Some ("{ name = " ^^ String (chr 34) "\" ^^ String (chr 34) "\n\xff" ^^ String (chr 195) (String (chr 169) (String (chr 34)
      (", sizes = [-3, true, {}], deep = { x = " ^^ String (chr 34) ("a, b" ^^ String (chr 34) " } }"))))).
Proof.
  split; [|reflexivity].
  assert (K : forall k, existsb (Ascii.eqb " ") (list_ascii_of_string k) = false -> no_blank k).
  { intros k H I. assert (E : existsb (Ascii.eqb " ") (list_ascii_of_string k) = true) by (apply existsb_exists; exists " "%char; split; [exact I|reflexivity]). congruence. }
  apply PlKv. repeat constructor; try (apply K; reflexivity); cbn [snd]; eexists; (split; [reflexivity|]); repeat constructor; try (apply K; reflexivity).
  cbn [snd]. eexists; split; [reflexivity|]. constructor.
Qed.

Section Tables.
Context (is_print : N -> bool) (show_double : N -> string) (float_of_int : Z -> N) (format_unit : N -> string -> string).

(** C78. If no attribute lacks its value, the whole document is printed, whatever the options, and its text is exactly
    this: every resource, scope and metric has its line, in the order of the data, what the options ask for comes
    behind it, and behind every gauge and every sum the table of all its points: one line per point, in order, with
    its time, its value in the metric's unit and its attributes, in columns two blanks wider than their widest cell. *)
Theorem C78_exact_text : forall width tx unit_of o l,
  (forall s, characters s (width s)) ->
  (forall a, complete (VKv a) -> shown is_print show_double (VKv a) (tx a)) ->
  (forall m, metric_unit m (unit_of m)) ->
  Forall resource_complete l ->
  render_metrics_data is_print show_double float_of_int format_unit o l =
  Some (document width tx format_time (fun p unit => format_unit (point_number float_of_int p) unit) unit_of o l).
Proof. intros. apply document_exact; assumption. Qed.
Theorem C78_every_number_point_is_shown : forall width tx unit_of o l,
  (forall s, characters s (width s)) ->
  (forall a, complete (VKv a) -> shown is_print show_double (VKv a) (tx a)) ->
  (forall m, metric_unit m (unit_of m)) ->
  Forall resource_complete l ->
  exists t, render_metrics_data is_print show_double float_of_int format_unit o l = Some t /\
    in_order (flat_map (resource_blocks width tx format_time (fun p unit => format_unit (point_number float_of_int p) unit) unit_of) l) t.
Proof. intros. eexists. split; [apply document_exact; eassumption|apply document_in_order]. Qed.
(** The hypotheses on the text of attributes and on widths can be met, by one function each. *)
Theorem C78_texts_exist : (exists width, forall s, characters s (width s)) /\
  (exists tx, forall a, complete (VKv a) -> shown is_print show_double (VKv a) (tx a)).
Proof.
  split; [exists rune_count; apply count_characters|].
  exists (fun a => match attr is_print show_double a with Some t => t | None => "" end). intros a C.
  apply (value_complete is_print show_double) in C. unfold attr. destruct (value is_print show_double (VKv a)) as [t|] eqn:E; [|congruence].
  apply value_shown, E.
Qed.
(** The hypothesis on units can be met. *)
Example C78_units : exists unit_of, (forall m, metric_unit m (unit_of m)) /\
  unit_of (RMetric "a" "took nanoseconds" "" RNone) = "ns" /\ unit_of (RMetric "a" "took nanoseconds" "By" RNone) = "By" /\ unit_of (RMetric "a" "took seconds" "" RNone) = "".
Proof. exists effective_unit. split; [exact effective_unit_spec|]. repeat split. Qed.

(** The time is that of the Gregorian calendar, to the second. *)
Theorem C78_time_of_a_point : forall cal ns, is_calendar cal -> ns < two64 ->
  format_time ns = clock_text cal (int64_of_u64 ns / 1000000000).
Proof. intros cal ns. apply format_time_clock. Qed.
Theorem C78_same_time_iff_same_second : forall a b, a < two63 -> b < two63 ->
  (format_time a = format_time b <-> a / 1000000000 = b / 1000000000).
Proof.
  intros a b Ha Hb. rewrite format_time_inj by (unfold two63, two64 in *; lia).
  unfold int64_of_u64. rewrite (proj2 (N.ltb_lt a two63)), (proj2 (N.ltb_lt b two63)) by assumption.
  change 1000000000%Z with (Z.of_N 1000000000). rewrite <- !N2Z.inj_div. split; [apply N2Z.inj|congruence].
Qed.

(** Histograms and summaries are not shown at all, and big integers are rounded before they are. *)
Theorem C78_all_points_shown_refuted : forall o name desc unit l l',
  render_metric is_print show_double float_of_int format_unit o (RMetric name desc unit (ROther l)) =
  render_metric is_print show_double float_of_int format_unit o (RMetric name desc unit (ROther l')).
Proof. reflexivity. Qed.
Theorem C78_integers_exact_refuted : forall bits : spec_float -> N,
  (forall z, float_of_int z = bits (binary_normalize 53 1024 z 0 false)) ->
  forall o name desc unit t a,
  render_metric is_print show_double float_of_int format_unit o (RMetric name desc unit (RGauge [RPoint t (Some (inl 9007199254740992%Z)) a])) =
  render_metric is_print show_double float_of_int format_unit o (RMetric name desc unit (RGauge [RPoint t (Some (inl 9007199254740993%Z)) a])).
Proof.
  intros bits H o name desc unit t a. unfold render_metric. cbn [rm_data rm_name rm_desc].
  change (effective_unit (RMetric name desc unit (RGauge [RPoint t (Some (inl 9007199254740992%Z)) a])))
    with (effective_unit (RMetric name desc unit (RGauge [RPoint t (Some (inl 9007199254740993%Z)) a]))).
  set (u := effective_unit _).
  assert (E : float_of_int 9007199254740992 = float_of_int 9007199254740993) by (rewrite !H; f_equal; vm_compute; reflexivity).
  assert (N : forall u, numeric is_print show_double float_of_int format_unit [RPoint t (Some (inl 9007199254740992%Z)) a] u =
              numeric is_print show_double float_of_int format_unit [RPoint t (Some (inl 9007199254740993%Z)) a] u).
  { intros v. unfold numeric, point_lines, numeric_value. cbn [rp_val rp_attrs rp_time]. rewrite E. reflexivity. }
  rewrite N. reflexivity.
Qed.

(** A missing attribute value anywhere in a gauge loses the whole document. *)
Theorem C78_always_printed_refuted : forall o name desc unit p l,
  (exists k, In (k, None) (rp_attrs p)) -> In p l ->
  render_metric is_print show_double float_of_int format_unit o (RMetric name desc unit (RGauge l)) = None.
Proof.
  intros o name desc unit p l (k & K) I. unfold render_metric. cbn [rm_data].
  assert (A : attr is_print show_double (rp_attrs p) = None).
  { destruct (attr is_print show_double (rp_attrs p)) eqn:E; [|reflexivity]. exfalso.
    assert (C : complete (VKv (rp_attrs p))) by (apply (value_complete is_print show_double); unfold attr in E; congruence).
    inversion C; subst. rewrite Forall_forall in H0. destruct (H0 _ K) as (v & Ev & _). discriminate Ev. }
  unfold numeric. assert (P : forall u, point_lines is_print show_double float_of_int format_unit u l = None).
  { intros u. induction l as [|q l IH]; [destruct I|]. cbn [point_lines]. destruct I as [->|I].
    - rewrite A. reflexivity.
    - destruct (attr is_print show_double (rp_attrs q)); [|reflexivity]. rewrite IH by exact I. reflexivity. }
  rewrite P. reflexivity.
Qed.
End Tables.

(** The table "system.network.io" of internal/render/testdata/metrics.txt. *)
Example C78_golden :
  let at1 := [("direction", Some (VStr "transmit"))] in let at2 := [("direction", Some (VStr "receive"))] in
  render_metric (fun _ => true) (fun _ => "") (fun _ => 0) (fun v _ => if v =? 1 then "1.9 GiB" else "14 GiB") (Options false false false)
    (RMetric "system.network.io" "" "By" (RSum [RPoint 1712155060000000000 (Some (inr 1)) at1; RPoint 1712155060000000000 (Some (inr 2)) at2]))
  = Some ("system.network.io" ^^ nl ^^
     "TIMESTAMP            VALUE    ATTRIBUTES                  " ^^ nl ^^
     "2024-04-03 14:37:40  1.9 GiB  { direction = ""transmit"" }  " ^^ nl ^^
     "2024-04-03 14:37:40  14 GiB   { direction = ""receive"" }   " ^^ nl).
Proof. reflexivity. Qed.
