(** Facts about bit-sliced integers: enumeration and addition. *)
From Verif.Model Require Import Base View Rows Bsi.
From Verif.Spec Require Import BitSlices.
From Verif.Proofs Require Import BaseFacts RowsFacts.
Open Scope N_scope.

(** *** Planes *)
Definition planes (b : list row) : list (list N) := map row_columns b.
Lemma value_at_app l p c : value_at (l ++ [p]) c = value_at l c + 2 ^ N.of_nat (List.length l) * (if existsb (N.eqb c) p then 1 else 0).
Proof.
  induction l as [|a l IH]; cbn [app value_at List.length]; [cbn; destruct (existsb _ _); reflexivity|]. rewrite IH, Nat2N.inj_succ, N.pow_succ_r'. lia.
Qed.
Fixpoint vhi (bits : list row) (c : N) : N :=
  match bits with
  | [] => 0
  | s :: low => (if existsb (N.eqb c) (row_columns s) then 2 ^ N.of_nat (List.length low) else 0) + vhi low c
  end.
Lemma vhi_value bits c : vhi bits c = value_at (planes (rev bits)) c.
Proof.
  induction bits as [|s low IH]; [reflexivity|]. cbn [vhi rev]. unfold planes in *. rewrite map_app. cbn [map]. rewrite value_at_app, map_length, rev_length, <- IH.
  destruct (existsb _ _); lia.
Qed.
Lemma vhi_lt bits c : vhi bits c < 2 ^ N.of_nat (List.length bits).
Proof.
  induction bits as [|s low IH]; [reflexivity|]. cbn [vhi List.length]. rewrite Nat2N.inj_succ, N.pow_succ_r'. destruct (existsb _ _); lia.
Qed.

(** *** Splitting a row *)
Lemma inter_columns r o : row_wf r -> row_wf o -> row_wf (row_intersect r o) /\ row_columns (row_intersect r o) = filter (fun x => existsb (N.eqb x) (row_columns o)) (row_columns r).
Proof.
  intros Wr Wo. destruct (row_intersect_spec r o Wr Wo) as [W C]. split; [exact W|]. apply ssorted_ext; [apply columns_sorted, W|apply ssorted_filter, columns_sorted, Wr|].
  intros x. rewrite C, filter_In. fold (smem x (row_columns o)). rewrite in_smem. reflexivity.
Qed.
Lemma diff_columns r o : row_wf r -> row_wf o -> row_wf (row_difference r [o]) /\ row_columns (row_difference r [o]) = filter (fun x => negb (existsb (N.eqb x) (row_columns o))) (row_columns r).
Proof.
  intros Wr Wo. destruct (row_difference_spec r [o] Wr) as [W C]; [constructor; [exact Wo|constructor]|]. split; [exact W|]. apply ssorted_ext; [apply columns_sorted, W|apply ssorted_filter, columns_sorted, Wr|].
  intros x. rewrite C, filter_In. fold (smem x (row_columns o)). rewrite negb_true_iff, smem_false. split.
  - intros [A B]. split; [exact A|]. intros K. apply B. exists o. split; [left; reflexivity|exact K].
  - intros [A B]. split; [exact A|]. intros (o' & [<-|[]] & K). exact (B K).
Qed.
Lemma filter_split_length {A} (f : A -> bool) l : (List.length (filter f l) + List.length (filter (fun x => negb (f x)) l) = List.length l)%nat.
Proof. induction l as [|a l IH]; [reflexivity|]. cbn [filter]. destruct (f a); cbn [negb List.length]; lia. Qed.

(** *** The full enumeration *)
Definition upper_of (branch : N) (low : list row) : N := N.lor branch (2 ^ N.of_nat (List.length low) mod two64).
Fixpoint spread (bits : list row) (flt : row) (branch : N) : list (N * N) :=
  match bits with
  | [] => map (fun c => (c, branch)) (row_columns flt)
  | s :: low => spread low (row_intersect flt s) (upper_of branch low) ++ spread low (row_difference flt [s]) branch
  end.
Lemma spread_length bits : forall flt branch, Forall row_wf bits -> row_wf flt -> List.length (spread bits flt branch) = List.length (row_columns flt).
Proof.
  induction bits as [|s low IH]; intros flt branch Wb Wf; [apply map_length|]. inversion Wb as [|? ? Ws Wl]; subst. cbn [spread].
  destruct (inter_columns flt s Wf Ws) as [W1 C1]. destruct (diff_columns flt s Wf Ws) as [W2 C2]. rewrite app_length, !IH by assumption. rewrite C1, C2. apply filter_split_length.
Qed.
Definition flatten (calls : list (N * list N)) : list (N * N) := flat_map (fun vc => map (fun c => (c, fst vc)) (snd vc)) calls.
Lemma flatten_app a b : flatten (a ++ b) = flatten a ++ flatten b. Proof. apply flat_map_app. Qed.

Definition len {A} (l : list A) : N := N.of_nat (List.length l).
Definition minus (o : option N) (n : N) : option N := match o with Some x => Some (x - n) | None => None end.
Lemma window_nil {A} limit offset : @window A limit offset [] = [].
Proof. unfold window. destruct offset; rewrite ?skipn_nil; destruct limit; rewrite ?firstn_nil; reflexivity. Qed.
Lemma window_zero {A} offset (l : list A) : window (Some 0) offset l = [].
Proof. reflexivity. Qed.
Lemma window_app {A} limit offset (a b : list A) :
  window limit offset (a ++ b) = window limit offset a ++ window (minus limit (len (window limit offset a))) (minus offset (len a)) b.
Proof.
  unfold window, minus, len. destruct offset as [o|].
  - rewrite skipn_app. set (a' := skipn (N.to_nat o) a). replace (N.to_nat (o - N.of_nat (List.length a))) with (N.to_nat o - List.length a)%nat by lia.
    destruct limit as [n|]; [|reflexivity]. rewrite firstn_app. f_equal. f_equal. rewrite firstn_length. lia.
  - destruct limit as [n|]; [|reflexivity]. rewrite firstn_app. f_equal. f_equal. rewrite firstn_length. lia.
Qed.

Definition pivot_ok (all : list (N * N)) (limit offset : option N) (res : pivot_result) : Prop :=
  match res with (calls, limit', offset') =>
    flatten calls = window limit offset all /\ limit' = minus limit (len (window limit offset all)) /\
    (limit' = Some 0 \/ offset' = minus offset (len all))
  end.
Lemma pivot_spec bits : forall flt branch limit offset, Forall row_wf bits -> row_wf flt ->
  pivot_ok (spread bits flt branch) limit offset (pivot bits flt branch limit offset).
Proof.
  induction bits as [|s low IH]; intros flt branch limit offset Wb Wf.
  all: pose proof (spread_length _ flt branch Wb Wf) as Hl.
  all: match goal with |- pivot_ok _ _ _ ?p => unfold pivot at 1; fold pivot || idtac end.
  all: cbn [pivot]; destruct (row_any flt) eqn:Ea; cbn [negb].
  all: try (assert (spread [] flt branch = [] \/ True) as _ by auto).
  2:{ assert (row_columns flt = []) as E0.
      { destruct (row_columns flt) as [|x t] eqn:E; [reflexivity|]. exfalso. assert (row_any flt = true) by (apply row_any_spec; exists x; rewrite E; left; reflexivity). congruence. }
      rewrite E0 in Hl. destruct (spread [] flt branch); [|discriminate]. unfold pivot_ok. rewrite window_nil. cbn. split; [reflexivity|]. split; [destruct limit; cbn; f_equal; lia|]. right. destruct offset; cbn; f_equal; lia. }
  3:{ assert (row_columns flt = []) as E0.
      { destruct (row_columns flt) as [|x t] eqn:E; [reflexivity|]. exfalso. assert (row_any flt = true) by (apply row_any_spec; exists x; rewrite E; left; reflexivity). congruence. }
      rewrite E0 in Hl. destruct (spread (s :: low) flt branch); [|discriminate]. unfold pivot_ok. rewrite window_nil. cbn. split; [reflexivity|]. split; [destruct limit; cbn; f_equal; lia|]. right. destruct offset; cbn; f_equal; lia. }
  all: pose proof (row_count_spec flt Wf) as Hc; unfold scard in Hc; rewrite <- Hl in Hc; fold (len (spread [] flt branch)) in Hc || fold (len (spread (s :: low) flt branch)) in Hc.
  all: destruct (match offset with Some o => row_count flt <=? o | None => false end) eqn:Eo.
  1,3: destruct offset as [o|]; [|discriminate]; apply N.leb_le in Eo; unfold pivot_ok;
       assert (forall (l : list (N * N)), len l = row_count flt -> window limit (Some o) l = []) as Hw
         by (intros l Hll; unfold window; rewrite skipn_all2 by (unfold len in Hll; lia); destruct limit; [apply firstn_nil|reflexivity]);
       rewrite (Hw _ (eq_sym Hc)); cbn [flatten flat_map len List.length]; (split; [reflexivity|]); (split; [destruct limit; cbn; f_equal; lia|]); right; cbn [minus]; rewrite Hc; reflexivity.
  all: destruct (match limit with Some l => l =? 0 | None => false end) eqn:El.
  1,3: destruct limit as [l|]; [|discriminate]; apply N.eqb_eq in El; subst l; unfold pivot_ok; rewrite window_zero; cbn; auto.
  - (* leaf *)
    cbv zeta. unfold pivot_ok. cbn [spread] in *. set (cols := row_columns flt) in *.
    assert (forall l, map (fun c => (c, branch)) (firstn l cols) = firstn l (map (fun c => (c, branch)) cols)) as Hf by (intros; symmetry; apply firstn_map).
    assert (forall l, map (fun c => (c, branch)) (skipn l cols) = skipn l (map (fun c => (c, branch)) cols)) as Hs by (intros; symmetry; apply skipn_map).
    unfold flatten. cbn [flat_map fst snd]. rewrite app_nil_r.
    set (cols1 := match offset with Some o => skipn (N.to_nat o) cols | None => cols end).
    set (cols2 := match limit with Some l => if l <? scard cols1 then firstn (N.to_nat l) cols1 else cols1 | None => cols1 end).
    assert (map (fun c => (c, branch)) cols2 = window limit offset (map (fun c => (c, branch)) cols)) as E2.
    { unfold cols2, window. assert (map (fun c => (c, branch)) cols1 = match offset with Some o => skipn (N.to_nat o) (map (fun c => (c, branch)) cols) | None => map (fun c => (c, branch)) cols end) as E1 by (unfold cols1; destruct offset; auto).
      rewrite <- E1. destruct limit as [l|]; [|reflexivity]. destruct (l <? scard cols1) eqn:Ell.
      - symmetry. apply firstn_map.
      - apply N.ltb_ge in Ell. unfold scard in Ell. rewrite firstn_all2; [reflexivity|]. rewrite map_length. lia. }
    split; [exact E2|]. split.
    + rewrite <- E2. unfold len, minus, scard. rewrite map_length. destruct limit; reflexivity.
    + right. destruct offset as [o|]; [|reflexivity]. cbn [minus]. apply N.leb_gt in Eo. f_equal. rewrite <- Hc. lia.
  - (* branch *)
    inversion Wb as [|? ? Ws Wl]; subst. destruct (inter_columns flt s Wf Ws) as [W1 _]. destruct (diff_columns flt s Wf Ws) as [W2 _]. cbn [spread]. fold (upper_of branch low).
    pose proof (IH _ (upper_of branch low) limit offset Wl W1) as H1. destruct (pivot low (row_intersect flt s) (upper_of branch low) limit offset) as [[c1 l1] o1]. destruct H1 as (F1 & L1 & O1).
    pose proof (IH _ branch l1 o1 Wl W2) as H2. destruct (pivot low (row_difference flt [s]) branch l1 o1) as [[c2 l2] o2]. destruct H2 as (F2 & L2 & O2).
    set (A := spread low (row_intersect flt s) (upper_of branch low)) in *. set (B := spread low (row_difference flt [s]) branch) in *.
    unfold pivot_ok. rewrite window_app, flatten_app, F1, F2. rewrite <- L1.
    assert (window l1 o1 B = window l1 (minus offset (len A)) B) as EB by (destruct O1 as [->| ->]; reflexivity).
    split; [rewrite EB; reflexivity|]. split.
    + rewrite L2, EB, L1. unfold minus, len. rewrite app_length. destruct limit; [|reflexivity]. f_equal. lia.
    + destruct O2 as [->|O2]; [left; reflexivity|]. destruct O1 as [E|O1].
      * left. rewrite L2, E. reflexivity.
      * right. rewrite O2, O1. unfold minus, len. rewrite app_length. destruct offset; [|reflexivity]. f_equal. lia.
Qed.

(** *** What the enumeration lists *)
Lemma upper_add k low : N.of_nat (List.length low) < 64 -> upper_of (k * 2 ^ N.of_nat (S (List.length low))) low = k * 2 ^ N.of_nat (S (List.length low)) + 2 ^ N.of_nat (List.length low).
Proof.
  intros H. unfold upper_of. rewrite N.mod_small by (unfold two64; apply N.pow_lt_mono_r; lia). set (n := N.of_nat (List.length low)).
  replace (N.of_nat (S (List.length low))) with (n + 1) by (unfold n; lia).
  rewrite <- N.shiftl_mul_pow2.
  assert (N.land (N.shiftl k (n + 1)) (2 ^ n) = 0) as Hd.
  { apply N.bits_inj. intros j. rewrite N.land_spec, N.bits_0, N.pow2_bits_eqb. destruct (n =? j) eqn:E; [|apply andb_false_r]. apply N.eqb_eq in E. subst j. rewrite N.shiftl_spec_low by lia. reflexivity. }
  rewrite <- N.lxor_lor by exact Hd. symmetry. apply N.add_nocarry_lxor. exact Hd.
Qed.
Lemma spread_spec bits : forall flt k, Forall row_wf bits -> row_wf flt -> (List.length bits <= 64)%nat ->
  let branch := k * 2 ^ N.of_nat (List.length bits) in
  StronglySorted before (spread bits flt branch) /\
  (forall c v, In (c, v) (spread bits flt branch) <-> In c (row_columns flt) /\ v = branch + vhi bits c).
Proof.
  induction bits as [|s low IH]; intros flt k Wb Wf Hlen branch.
  - cbn [spread vhi]. split.
    + pose proof (columns_sorted flt Wf) as S. clear -S. induction S as [|x l S IH F]; [constructor|]. cbn [map]. constructor; [exact IH|].
      apply Forall_forall. intros p Hp. apply in_map_iff in Hp. destruct Hp as (y & <- & Hy). rewrite Forall_forall in F. right. split; [reflexivity|cbn; apply F, Hy].
    + intros c v. rewrite in_map_iff. split.
      * intros (x & E & Hx). apply pair_inj in E. destruct E as [-> <-]. split; [exact Hx|lia].
      * intros [Hc ->]. exists c. split; [f_equal; lia|exact Hc].
  - inversion Wb as [|? ? Ws Wl]; subst. destruct (inter_columns flt s Wf Ws) as [W1 C1]. destruct (diff_columns flt s Wf Ws) as [W2 C2].
    cbn [spread vhi List.length] in *. set (n := N.of_nat (List.length low)) in *.
    assert (upper_of branch low = (2 * k + 1) * 2 ^ n) as Eu.
    { unfold branch. rewrite upper_add by lia. fold n. rewrite Nat2N.inj_succ, N.pow_succ_r'. fold n. lia. }
    assert (branch = (2 * k) * 2 ^ n) as Eb by (unfold branch; rewrite Nat2N.inj_succ, N.pow_succ_r'; fold n; lia).
    rewrite Eu, Eb.
    destruct (IH (row_intersect flt s) (2 * k + 1) Wl W1 ltac:(lia)) as [S1 M1]. destruct (IH (row_difference flt [s]) (2 * k) Wl W2 ltac:(lia)) as [S2 M2].
    fold n in S1, M1, S2, M2. split.
    + assert (forall a b, StronglySorted before a -> StronglySorted before b -> (forall x y, In x a -> In y b -> before x y) -> StronglySorted before (a ++ b)) as Happ.
      { intros a b Ha Hb Hab. induction Ha as [|x l Ha IHa F]; [exact Hb|]. cbn. constructor; [apply IHa; intros; apply Hab; [right|]; assumption|].
        apply Forall_app. split; [exact F|]. apply Forall_forall. intros y Hy. apply Hab; [left; reflexivity|exact Hy]. }
      apply Happ; [exact S1|exact S2|]. intros [c v] [c' v'] Hx Hy. apply M1 in Hx. apply M2 in Hy. left. cbn.
      destruct Hx as [_ ->]. destruct Hy as [_ ->]. pose proof (vhi_lt low c'). fold n in H. lia.
    + intros c v. rewrite in_app_iff, M1, M2, C1, C2, !filter_In. destruct (existsb (N.eqb c) (row_columns s)) eqn:E; cbn [negb].
      * split; [intros [[[A _] ->]|[[_ X] _]]; [split; [exact A|lia]|discriminate]|intros [A ->]; left; split; [split; [exact A|reflexivity]|lia]].
      * split; [intros [[[_ X] _]|[[A _] ->]]; [discriminate|split; [exact A|lia]]|intros [A ->]; right; split; [split; [exact A|reflexivity]|lia]].
Qed.
(** Shape of the calls: values strictly decrease, no call is empty. *)
Lemma pivot_calls bits : forall flt k limit offset, Forall row_wf bits -> row_wf flt -> (List.length bits <= 64)%nat ->
  let branch := k * 2 ^ N.of_nat (List.length bits) in
  let calls := fst (fst (pivot bits flt branch limit offset)) in
  StronglySorted (fun a b : N * list N => fst b < fst a) calls /\ Forall (fun vc : N * list N => snd vc <> [] /\ branch <= fst vc < branch + 2 ^ N.of_nat (List.length bits)) calls.
Proof.
  induction bits as [|s low IH]; intros flt k limit offset Wb Wf Hlen branch.
  all: cbn [pivot]; destruct (row_any flt) eqn:Ea; cbn [negb]; [|split; constructor].
  all: destruct (match offset with Some o => row_count flt <=? o | None => false end) eqn:Eo; [split; constructor|].
  all: destruct (match limit with Some l => l =? 0 | None => false end) eqn:El; [split; constructor|].
  - cbv zeta. cbn [fst]. split; [constructor; constructor|]. constructor; [|constructor]. cbn [snd fst]. split; [|cbn; lia].
    pose proof (row_count_spec flt Wf) as Hc. unfold scard in Hc.
    assert (row_columns flt <> []) as Hne by (apply row_any_spec in Ea; destruct Ea as (x & Hx); destruct (row_columns flt); [destruct Hx|discriminate]).
    assert (match offset with Some o => skipn (N.to_nat o) (row_columns flt) | None => row_columns flt end <> []) as H1.
    { destruct offset as [o|]; [|exact Hne]. apply N.leb_gt in Eo. intros K. apply (f_equal (@List.length N)) in K. rewrite skipn_length in K. cbn in K. lia. }
    destruct limit as [l|]; [|exact H1]. apply N.eqb_neq in El. destruct (l <? _) eqn:Ell; [|exact H1].
    destruct (match offset with Some o => skipn (N.to_nat o) (row_columns flt) | None => row_columns flt end); [congruence|]. destruct (N.to_nat l) eqn:E; [lia|discriminate].
  - inversion Wb as [|? ? Ws Wl]; subst. destruct (inter_columns flt s Wf Ws) as [W1 C1]. destruct (diff_columns flt s Wf Ws) as [W2 C2].
    cbn [List.length] in *. cbv zeta. change (N.lor branch (2 ^ N.of_nat (List.length low) mod two64)) with (upper_of branch low). set (n := N.of_nat (List.length low)) in *.
    assert (upper_of branch low = (2 * k + 1) * 2 ^ n) as Eu.
    { unfold branch. rewrite upper_add by lia. fold n. rewrite Nat2N.inj_succ, N.pow_succ_r'. fold n. lia. }
    assert (branch = (2 * k) * 2 ^ n) as Eb by (unfold branch; rewrite Nat2N.inj_succ, N.pow_succ_r'; fold n; lia).
    rewrite Eu, Eb. rewrite Nat2N.inj_succ, N.pow_succ_r'. fold n.
    pose proof (IH (row_intersect flt s) (2 * k + 1) limit offset Wl W1 ltac:(lia)) as H1. fold n in H1. destruct (pivot low (row_intersect flt s) _ limit offset) as [[c1 l1] o1].
    pose proof (IH (row_difference flt [s]) (2 * k) l1 o1 Wl W2 ltac:(lia)) as H2. fold n in H2. destruct (pivot low (row_difference flt [s]) _ l1 o1) as [[c2 l2] o2].
    cbn [fst] in *. destruct H1 as [S1 F1]. destruct H2 as [S2 F2]. rewrite Forall_forall in F1, F2. split.
    + clear -S1 S2 F1 F2. induction S1 as [|x l S1 IHs F]; [exact S2|]. cbn. constructor; [apply IHs; intros; apply F1; right; assumption|].
      apply Forall_app. split; [exact F|]. apply Forall_forall. intros y Hy. specialize (F1 x (or_introl eq_refl)). specialize (F2 y Hy). lia.
    + apply Forall_forall. intros x Hx. apply in_app_or in Hx. destruct Hx as [Hx|Hx]; [specialize (F1 x Hx)|specialize (F2 x Hx)]; (split; [tauto|]); lia.
Qed.

(** *** Bits of planes *)
Definition has (p : list (list N)) (j : nat) (c : N) : bool := existsb (N.eqb c) (nth j p []).
Lemma has_cons_0 a p c : has (a :: p) 0 c = existsb (N.eqb c) a. Proof. reflexivity. Qed.
Lemma value_zero p c : (forall j, has p j c = false) -> value_at p c = 0.
Proof.
  induction p as [|a p IH]; intros H; [reflexivity|]. cbn [value_at]. pose proof (H 0%nat) as H0. rewrite has_cons_0 in H0. rewrite H0, IH; [reflexivity|]. intros j. exact (H (S j)).
Qed.
Lemma value_zero_has p c : value_at p c = 0 -> forall j, has p j c = false.
Proof.
  induction p as [|a p IH]; intros H j; [destruct j; reflexivity|]. cbn [value_at] in H. destruct j as [|j]; [rewrite has_cons_0; destruct (existsb _ _); [lia|reflexivity]|]. apply IH. lia.
Qed.
Lemma value_ext p : forall q c, (forall j, has p j c = has q j c) -> value_at p c = value_at q c.
Proof.
  induction p as [|a p IH]; intros q c H.
  - symmetry. apply value_zero. intros j. rewrite <- H. destruct j; reflexivity.
  - destruct q as [|b q].
    + apply value_zero. intros j. rewrite H. destruct j; reflexivity.
    + cbn [value_at]. pose proof (H 0%nat) as H0. rewrite !has_cons_0 in H0. rewrite H0. rewrite (IH q c); [reflexivity|]. intros j. exact (H (S j)).
Qed.
Lemma has_planes l j c : has (planes l) j c = true <-> In c (row_columns (nth j l [])).
Proof. unfold has, planes. change (@nil N) with (row_columns []). rewrite map_nth. fold (smem c (row_columns (nth j l []))). apply in_smem. Qed.
Lemma has_value p j c : has p j c = true -> 2 ^ N.of_nat j <= value_at p c.
Proof.
  revert j. induction p as [|a p IH]; intros j H; [destruct j; discriminate|]. cbn [value_at]. destruct j as [|j].
  - rewrite has_cons_0 in H. rewrite H. change (2 ^ N.of_nat 0) with 1. lia.
  - specialize (IH j H). rewrite Nat2N.inj_succ, N.pow_succ_r'. lia.
Qed.

(** *** Addition of planes *)
Lemma smem_sxor x a b : smem x (sxor a b) = xorb (smem x a) (smem x b).
Proof.
  apply eq_true_iff_eq. rewrite in_smem, in_sxor. destruct (smem x a) eqn:Ea, (smem x b) eqn:Eb; cbn; rewrite ?in_smem, ?smem_false in *; intuition discriminate || tauto.
Qed.
Lemma smem_sinter x a b : smem x (sinter a b) = smem x a && smem x b.
Proof. apply eq_true_iff_eq. rewrite andb_true_iff, !in_smem, in_sinter. tauto. Qed.
Lemma smem_sunion x a b : smem x (sunion a b) = smem x a || smem x b.
Proof. apply eq_true_iff_eq. rewrite orb_true_iff, !in_smem, in_sunion. tauto. Qed.
Lemma add_carry_value x : forall k c, value_at (add_carry k x) c = value_at x c + (if smem c k then 1 else 0).
Proof.
  induction x as [|a x IH]; intros k c; cbn [add_carry value_at]; [fold (smem c k); destruct (smem c k); reflexivity|].
  rewrite IH. fold (smem c (sxor a k)) (smem c a). rewrite smem_sxor, smem_sinter. destruct (smem c a), (smem c k); cbn [xorb andb orb]; lia.
Qed.
Lemma roaring_add_value x : forall k y c, value_at (roaring_add_carry k x y) c = value_at x c + value_at y c + (if smem c k then 1 else 0).
Proof.
  induction x as [|a x IH]; intros k y c.
  - destruct y; cbn [roaring_add_carry value_at]; rewrite ?add_carry_value; cbn [value_at]; reflexivity.
  - destruct y as [|b y]; cbn [roaring_add_carry]; [rewrite add_carry_value; cbn [value_at]; lia|].
    cbn [value_at]. rewrite IH. fold (smem c (sxor (sxor a b) k)) (smem c a) (smem c b). unfold maj. rewrite !smem_sxor, !smem_sunion, !smem_sinter, smem_sunion.
    destruct (smem c a), (smem c b), (smem c k); cbn [xorb andb orb]; lia.
Qed.
Lemma add_carry_sorted x : forall k, ssorted k -> Forall ssorted x -> Forall ssorted (add_carry k x).
Proof.
  induction x as [|a x IH]; intros k Hk Hx; cbn [add_carry]; [constructor; [exact Hk|constructor]|]. inversion Hx; subst. constructor; [apply ssorted_sxor; assumption|]. apply IH; [apply ssorted_sinter|]; assumption.
Qed.
Lemma roaring_add_sorted x : forall k y, ssorted k -> Forall ssorted x -> Forall ssorted y -> Forall ssorted (roaring_add_carry k x y).
Proof.
  induction x as [|a x IH]; intros k y Hk Hx Hy; [destruct y; apply add_carry_sorted; assumption|]. destruct y as [|b y]; [apply add_carry_sorted; assumption|].
  inversion Hx; inversion Hy; subst. cbn [roaring_add_carry]. constructor; [apply ssorted_sxor, ssorted_sxor; assumption|]. apply IH; [|assumption|assumption].
  unfold maj. apply ssorted_sunion, ssorted_sinter. assumption.
Qed.

(** *** One shard at a time *)
Definition seg_data (next : N) (s : row) : nset := match s with g :: _ => if g_shard g =? next then g_data g else [] | [] => [] end.
Definition seg_rest (next : N) (s : row) : row := match s with g :: t => if g_shard g =? next then t else s | [] => [] end.
Lemma nth_repeat_nil {A} n j : nth j (repeat (@nil A) n) [] = [].
Proof. revert j. induction n as [|n IH]; intros [|j]; cbn; auto. Qed.
Lemma take_shard_spec next segs : forall i bm bm' segs', (List.length bm <= i)%nat -> take_shard next i segs bm = (bm', segs') ->
  segs' = map (seg_rest next) segs /\ forall j, nth j bm' [] = if (j <? i)%nat then nth j bm [] else seg_data next (nth (j - i) segs []).
Proof.
  induction segs as [|s rest IH]; intros i bm bm' segs' Hi E; cbn [take_shard] in E.
  - apply pair_inj in E. destruct E as [<- <-]. split; [reflexivity|]. intros j. destruct (j <? i)%nat eqn:Ej; [reflexivity|]. apply Nat.ltb_ge in Ej. destruct (j - i)%nat; apply nth_overflow; lia.
  - set (cur := match s with [] => (bm, s) | g :: t => if negb (g_shard g =? next) then (bm, s) else if sempty (g_data g) then (bm, t) else (bm ++ repeat [] (i - List.length bm) ++ [g_data g], t) end) in E.
    assert (snd cur = seg_rest next s /\ (List.length (fst cur) <= S i)%nat /\ forall j, nth j (fst cur) [] = if (j <? i)%nat then nth j bm [] else if (j =? i)%nat then seg_data next s else []) as (H1 & H2 & H3).
    { assert (forall j, nth j bm [] = if (j <? i)%nat then nth j bm [] else if (j =? i)%nat then [] else []) as Hb.
      { intros j. destruct (j <? i)%nat eqn:Ej; [reflexivity|]. apply Nat.ltb_ge in Ej. rewrite nth_overflow by lia. destruct (j =? i)%nat; reflexivity. }
      unfold cur. destruct s as [|g t]; cbn [fst snd seg_rest seg_data]; [split; [reflexivity|]; split; [lia|exact Hb]|].
      destruct (g_shard g =? next) eqn:Eg; cbn [negb]; [|split; [reflexivity|]; split; [cbn; lia|exact Hb]].
      destruct (sempty (g_data g)) eqn:Es; cbn [fst snd].
      - apply sempty_spec in Es. rewrite Es. split; [reflexivity|]. split; [lia|exact Hb].
      - split; [reflexivity|]. split; [rewrite !app_length, repeat_length; cbn; lia|]. intros j. destruct (j <? i)%nat eqn:Ej.
        + apply Nat.ltb_lt in Ej. destruct (Nat.lt_ge_cases j (List.length bm)); [apply app_nth1; assumption|]. rewrite app_nth2 by lia. rewrite app_nth1 by (rewrite repeat_length; lia).
          rewrite nth_repeat_nil. symmetry. apply nth_overflow. lia.
        + apply Nat.ltb_ge in Ej. rewrite app_nth2 by lia. rewrite app_nth2 by (rewrite repeat_length; lia). rewrite repeat_length.
          destruct (j =? i)%nat eqn:Eq; [apply Nat.eqb_eq in Eq; subst; replace (i - List.length bm - (i - List.length bm))%nat with 0%nat by lia; reflexivity|].
          apply Nat.eqb_neq in Eq. apply nth_overflow. cbn. lia. }
    destruct cur as [bm1 s1]. cbn [fst snd] in *. destruct (take_shard next (S i) rest bm1) as [bm2 rest'] eqn:Et. apply pair_inj in E. destruct E as [<- <-].
    destruct (IH _ _ _ _ H2 Et) as [-> H4]. subst s1. split; [reflexivity|]. intros j. rewrite H4, H3.
    destruct (j <? S i)%nat eqn:Ej; destruct (j <? i)%nat eqn:Ej'; try reflexivity.
    + apply Nat.ltb_lt in Ej. apply Nat.ltb_ge in Ej'. replace j with i by lia. rewrite Nat.eqb_refl, Nat.sub_diag. reflexivity.
    + apply Nat.ltb_ge in Ej. apply Nat.ltb_lt in Ej'. lia.
    + apply Nat.ltb_ge in Ej. replace (j - i)%nat with (S (j - S i)) by lia. reflexivity.
Qed.
Lemma nth_append_at i g : forall dst j, nth j (append_at i g dst) [] = if (j =? i)%nat then nth i dst [] ++ [g] else nth j dst [].
Proof.
  induction i as [|i IH]; intros dst j.
  - destruct dst as [|r t]; destruct j as [|[|j]]; reflexivity.
  - destruct dst as [|r t]; destruct j as [|j]; cbn [append_at nth Nat.eqb]; try reflexivity; rewrite IH; destruct (j =? i)%nat; try reflexivity; destruct i; destruct j; reflexivity.
Qed.
Lemma store_shard_spec next out : forall i dst j, nth j (store_shard next i out dst) [] =
  if (i <=? j)%nat && negb (sempty (nth (j - i) out [])) then nth j dst [] ++ [seg_of next (nth (j - i) out [])] else nth j dst [].
Proof.
  induction out as [|b out IH]; intros i dst j; cbn [store_shard].
  - destruct (j - i)%nat; cbn [nth sempty negb]; rewrite andb_false_r; reflexivity.
  - rewrite IH. destruct (Nat.eq_dec j i) as [->|Hne].
    + replace (S i <=? i)%nat with false by (symmetry; apply Nat.leb_gt; lia). cbn [andb]. rewrite Nat.leb_refl, Nat.sub_diag. cbn [nth andb]. destruct (sempty b); cbn [negb]; [reflexivity|].
      rewrite nth_append_at, Nat.eqb_refl. reflexivity.
    + assert (nth j (if sempty b then dst else append_at i (seg_of next b) dst) [] = nth j dst []) as ->.
      { destruct (sempty b); [reflexivity|]. rewrite nth_append_at. destruct (Nat.eqb_spec j i); [congruence|reflexivity]. }
      destruct (Nat.leb_spec (S i) j); destruct (Nat.leb_spec i j); try lia; [|reflexivity]. replace (j - i)%nat with (S (j - S i)) by lia. reflexivity.
Qed.
(** The last row of what is built is never empty. *)
Definition last_used (l : list row) : Prop := l = [] \/ row_columns (last l []) <> [].
Lemma last_append_at i g : forall dst, g_data g <> [] -> last_used dst -> last_used (append_at i g dst).
Proof.
  assert (forall i (l : list row), append_at i g l <> []) as Hnn by (intros [|k] [|? ?]; discriminate).
  assert (forall a (l : list row), l <> [] -> last (a :: l) [] = last l []) as Hlc by (intros a [|? ?]; [congruence|reflexivity]).
  assert (forall r, g_data g <> [] -> row_columns (r ++ [g]) <> []) as Hr.
  { intros r Hg. unfold row_columns. rewrite flat_map_app. cbn. rewrite app_nil_r. intros K. apply app_eq_nil in K. tauto. }
  intros dst Hg. revert dst. induction i as [|i IH]; intros dst Hl; right.
  - destruct dst as [|r [|r2 t]]; cbn [append_at].
    + cbn. unfold row_columns. cbn. rewrite app_nil_r. exact Hg.
    + cbn [last]. apply Hr, Hg.
    + rewrite Hlc by discriminate. destruct Hl as [|Hl]; [discriminate|]. rewrite Hlc in Hl by discriminate. exact Hl.
  - destruct dst as [|r t]; cbn [append_at]; rewrite Hlc by apply Hnn.
    + destruct (IH [] (or_introl eq_refl)) as [K|K]; [exfalso; exact (Hnn _ _ K)|exact K].
    + assert (last_used t) as Ht. { destruct t as [|r2 t]; [left; reflexivity|]. right. destruct Hl as [|Hl]; [discriminate|]. rewrite Hlc in Hl by discriminate. exact Hl. }
      destruct (IH t Ht) as [K|K]; [exfalso; exact (Hnn _ _ K)|exact K].
Qed.
Lemma last_store_shard next out : forall i dst, last_used dst -> last_used (store_shard next i out dst).
Proof.
  induction out as [|b out IH]; intros i dst H; cbn [store_shard]; [exact H|]. apply IH. destruct (sempty b) eqn:Eb; [exact H|]. apply last_append_at; [|exact H].
  cbn. intros ->. discriminate.
Qed.
Lemma next_shard_gen segs : forall d, let m := fold_left (fun next s => match s with [] => next | g :: _ => if g_shard g <? next then g_shard g else next end) segs d in
  m <= d /\ (m = d \/ exists g t, In (g :: t) segs /\ g_shard g = m) /\ forall g t, In (g :: t) segs -> m <= g_shard g.
Proof.
  induction segs as [|s segs IH]; intros d m; [cbn in m; subst m; split; [lia|]; split; [left; reflexivity|intros ? ? []]|].
  cbn [fold_left] in m. set (d' := match s with [] => d | g :: _ => if g_shard g <? d then g_shard g else d end) in m. destruct (IH d') as (A & B & C). fold m in A, B, C.
  assert (d' <= d /\ (d' = d \/ exists g t, s = g :: t /\ g_shard g = d') /\ (forall g t, s = g :: t -> d' <= g_shard g)) as (D1 & D2 & D3).
  { unfold d'. destruct s as [|g t]; [split; [lia|split; [left; reflexivity|discriminate]]|]. destruct (N.ltb_spec (g_shard g) d).
    - split; [lia|]. split; [right; eauto|]. intros ? ? K. injection K as <- <-. lia.
    - split; [lia|]. split; [left; reflexivity|]. intros ? ? K. injection K as <- <-. lia. }
  split; [lia|]. split.
  - destruct B as [B|(g & t & B & B')]; [|right; exists g, t; split; [right; exact B|exact B']]. destruct D2 as [D2|(g & t & D2 & D2')]; [left; congruence|]. right. exists g, t. split; [left; exact D2|congruence].
  - intros g t [H|H]; [apply D3 in H; lia|apply (C _ _ H)].
Qed.

(** *** The loop *)
Definition lrow (lo hi : N) (r : row) : Prop := row_wf r /\ Forall (fun g => lo <= g_shard g < hi) r.
Lemma lrow_nil lo hi : lrow lo hi []. Proof. split; [apply row_wf_nil|constructor]. Qed.
Lemma lrow_nth lo hi l j : Forall (lrow lo hi) l -> lrow lo hi (nth j l []).
Proof. intros H. destruct (nth_in_or_default j l []) as [K|K]; [rewrite Forall_forall in H; apply H, K|rewrite K; apply lrow_nil]. Qed.
Lemma lrow_of_nth lo hi l : (forall j, lrow lo hi (nth j l [])) -> Forall (lrow lo hi) l.
Proof. intros H. apply Forall_forall. intros r Hr. destruct (In_nth l r [] Hr) as (j & _ & <-). apply H. Qed.
Lemma row_split next hi r : lrow next hi r ->
  lrow (next + 1) hi (seg_rest next r) /\ ssorted (seg_data next r) /\ (forall c, In c (seg_data next r) -> c / shard_width = next) /\
  (forall c, In c (row_columns r) <-> In c (seg_data next r) \/ In c (row_columns (seg_rest next r))).
Proof.
  intros [W L]. destruct r as [|g t]; cbn [seg_rest seg_data].
  - split; [apply lrow_nil|]. split; [constructor|]. split; [intros ? []|]. intros c. cbn. tauto.
  - inversion L as [|? ? Lg Lt]; subst. pose proof (row_wf_hd _ _ W) as (Sg & Dg & _). destruct (N.eqb_spec (g_shard g) next) as [E|E].
    + split; [split; [apply (row_wf_tl _ _ W)|]|]. { apply Forall_forall. intros x Hx. rewrite Forall_forall in Lt. pose proof (row_wf_lt _ _ _ W Hx). specialize (Lt _ Hx). lia. }
      split; [exact Sg|]. split; [intros c Hc; rewrite <- E; apply Dg, Hc|]. intros c. apply in_cols_cons.
    + split; [split; [exact W|]|]. { constructor; [lia|]. apply Forall_forall. intros x Hx. rewrite Forall_forall in Lt. pose proof (row_wf_lt _ _ _ W Hx). specialize (Lt _ Hx). lia. }
      split; [constructor|]. split; [intros ? []|]. intros c. cbn. tauto.
Qed.
Lemma lrow_shard lo hi r c : lrow lo hi r -> In c (row_columns r) -> lo <= c / shard_width < hi.
Proof. intros [W L] H. destruct (cols_shard r c W H) as (s & Hs & _ & E). rewrite Forall_forall in L. specialize (L _ Hs). rewrite <- E. exact L. Qed.
Lemma take_facts next hi segs bm segs' : Forall (lrow next hi) segs -> take_shard next 0 segs [] = (bm, segs') ->
  Forall (lrow (next + 1) hi) segs' /\ Forall ssorted bm /\ (forall c, value_at (planes segs) c = value_at bm c + value_at (planes segs') c) /\
  (forall c, c / shard_width <> next -> value_at bm c = 0).
Proof.
  intros L E. destruct (take_shard_spec _ _ 0%nat [] _ _ (le_n 0) E) as [-> Hn]. cbn [Nat.ltb Nat.leb] in Hn.
  assert (forall j, nth j bm [] = seg_data next (nth j segs [])) as Hn' by (intros j; rewrite Hn; f_equal; f_equal; lia). clear Hn.
  assert (forall j, nth j (map (seg_rest next) segs) [] = seg_rest next (nth j segs [])) as Hm by (intros j; exact (map_nth (seg_rest next) segs [] j)).
  split. { apply Forall_forall. intros r Hr. apply in_map_iff in Hr. destruct Hr as (r0 & <- & Hr). rewrite Forall_forall in L. apply (row_split next hi r0 (L _ Hr)). }
  split. { apply Forall_forall. intros b Hb. destruct (In_nth bm b [] Hb) as (j & _ & <-). rewrite Hn'. apply (row_split next hi _ (lrow_nth _ _ _ j L)). }
  assert (forall c, c / shard_width <> next -> value_at bm c = 0) as Hz.
  { intros c Hc. apply value_zero. intros j. unfold has. rewrite Hn'. destruct (row_split next hi _ (lrow_nth _ _ _ j L)) as (_ & _ & K & _).
    apply not_true_is_false. intros K2. apply in_smem in K2. exact (Hc (K _ K2)). }
  split; [|exact Hz]. intros c. destruct (N.eq_dec (c / shard_width) next) as [Ec|Ec].
  - rewrite (value_zero (planes (map (seg_rest next) segs))), N.add_0_r.
    + apply value_ext. intros j. apply eq_true_iff_eq. rewrite has_planes. unfold has. rewrite Hn'. fold (smem c (seg_data next (nth j segs []))). rewrite in_smem.
      destruct (row_split next hi _ (lrow_nth _ _ _ j L)) as (R & _ & _ & K). rewrite K. split; [|tauto]. intros [H|H]; [exact H|]. apply (lrow_shard _ _ _ _ R) in H. lia.
    + intros j. apply not_true_is_false. rewrite has_planes, Hm. destruct (row_split next hi _ (lrow_nth _ _ _ j L)) as (R & _ & _ & K). intros H. apply (lrow_shard _ _ _ _ R) in H. lia.
  - rewrite Hz by exact Ec. rewrite N.add_0_l. apply value_ext. intros j. apply eq_true_iff_eq. rewrite !has_planes, Hm. destruct (row_split next hi _ (lrow_nth _ _ _ j L)) as (_ & _ & D & K). rewrite K.
    split; [|tauto]. intros [H|H]; [|exact H]. apply D in H. congruence.
Qed.
Lemma store_facts next lo out dst : Forall (lrow lo next) dst -> lo <= next -> Forall ssorted out -> (forall c, c / shard_width <> next -> value_at out c = 0) ->
  Forall (lrow lo (next + 1)) (store_shard next 0 out dst) /\ forall c, value_at (planes (store_shard next 0 out dst)) c = value_at (planes dst) c + value_at out c.
Proof.
  intros L Hlo So Hz. assert (forall j c, In c (nth j out []) -> c / shard_width = next) as Hs.
  { intros j c Hc. destruct (N.eq_dec (c / shard_width) next) as [|K]; [assumption|]. specialize (Hz c K). apply value_zero_has with (j := j) in Hz. unfold has in Hz. fold (smem c (nth j out [])) in Hz. apply smem_false in Hz. contradiction. }
  assert (forall j, ssorted (nth j out [])) as Hss.
  { intros j. destruct (nth_in_or_default j out []) as [K|K]; [rewrite Forall_forall in So; apply So, K|rewrite K; constructor]. }
  assert (forall j, nth j (store_shard next 0 out dst) [] = if negb (sempty (nth j out [])) then nth j dst [] ++ [seg_of next (nth j out [])] else nth j dst []) as Hn.
  { intros j. rewrite store_shard_spec. cbn [Nat.leb andb]. replace (j - 0)%nat with j by lia. reflexivity. }
  assert (forall j c, In c (row_columns (nth j (store_shard next 0 out dst) [])) <-> In c (row_columns (nth j dst [])) \/ In c (nth j out [])) as Hc.
  { intros j c. rewrite Hn. destruct (sempty (nth j out [])) eqn:E; cbn [negb].
    - apply sempty_spec in E. rewrite E. cbn. tauto.
    - rewrite in_cols_app, cols_one. reflexivity. }
  split.
  - apply lrow_of_nth. intros j. rewrite Hn. pose proof (lrow_nth lo next dst j L) as [W B]. assert (lrow lo (next + 1) (nth j dst [])) as H0.
    { split; [exact W|]. eapply Forall_impl; [|exact B]. intros ? ?; cbv beta in *; lia. }
    destruct (negb (sempty (nth j out []))); [|exact H0]. destruct (seg_of_wf next (nth j out []) (Hss j) (Hs j)) as [Wg Eg]. split.
    + destruct W as [S F]. split.
      * clear -S B. induction S as [|x l S IH F]; [cbn; constructor; constructor|]. inversion B; subst. cbn. constructor; [apply IH; assumption|]. apply Forall_app. split; [exact F|]. constructor; [|constructor]. unfold seg_lt. cbn. lia.
      * apply Forall_app. split; [exact F|constructor; [exact Wg|constructor]].
    + apply Forall_app. split; [exact (proj2 H0)|]. constructor; [|constructor]. rewrite Eg. lia.
  - intros c. destruct (N.eq_dec (c / shard_width) next) as [Ec|Ec].
    + rewrite (value_zero (planes dst)), N.add_0_l.
      * apply value_ext. intros j. apply eq_true_iff_eq. rewrite has_planes, Hc. change (has out j c) with (smem c (nth j out [])). rewrite in_smem. split; [|tauto]. intros [H|H]; [|exact H].
        apply (lrow_shard _ _ _ _ (lrow_nth _ _ _ j L)) in H. lia.
      * intros j. apply not_true_is_false. rewrite has_planes. intros H. apply (lrow_shard _ _ _ _ (lrow_nth _ _ _ j L)) in H. lia.
    + rewrite Hz by exact Ec. rewrite N.add_0_r. apply value_ext. intros j. apply eq_true_iff_eq. rewrite !has_planes, Hc. split; [|tauto]. intros [H|H]; [exact H|]. apply Hs in H. congruence.
Qed.
Lemma concat_rest_le next l : (List.length (List.concat (map (seg_rest next) l)) <= List.length (List.concat l))%nat.
Proof. induction l as [|s l IH]; [exact (le_n 0)|]. cbn [map List.concat]. rewrite !app_length. destruct s as [|g t]; cbn [seg_rest]; [cbn; lia|]. destruct (g_shard g =? next); cbn [List.length]; lia. Qed.
Lemma concat_rest_lt next l g t : In (g :: t) l -> g_shard g = next -> (List.length (List.concat (map (seg_rest next) l)) < List.length (List.concat l))%nat.
Proof.
  intros H E. induction l as [|s l IH]; [destruct H|]. cbn [map List.concat]. rewrite !app_length. pose proof (concat_rest_le next l). destruct H as [->|H].
  - cbn [seg_rest]. subst next. rewrite N.eqb_refl. cbn [List.length]. lia.
  - specialize (IH H). destruct s as [|g' t']; cbn [seg_rest]; [cbn; lia|]. destruct (g_shard g' =? next); cbn [List.length]; lia.
Qed.
Lemma add_bsi_loop_spec fuel : forall lo xs ys dst, Forall (lrow lo max_u64) xs -> Forall (lrow lo max_u64) ys -> Forall (lrow 0 lo) dst -> lo <= max_u64 ->
  last_used dst -> (segments_of xs + segments_of ys <= fuel)%nat ->
  exists out, add_bsi_loop fuel xs ys dst = Some out /\ Forall (lrow 0 max_u64) out /\ last_used out /\
    forall c, value_at (planes out) c = value_at (planes dst) c + (value_at (planes xs) c + value_at (planes ys) c).
Proof.
  induction fuel as [|fuel IH]; intros lo xs ys dst Lx Ly Ld Hlo Hu Hf.
  all: set (next := next_shard (xs ++ ys)); destruct (next_shard_gen (xs ++ ys) max_u64) as (N1 & N2 & N3); fold (next_shard (xs ++ ys)) in N1, N2, N3; fold next in N1, N2, N3.
  all: assert (Forall (lrow lo max_u64) (xs ++ ys)) as Lxy by (apply Forall_app; split; assumption).
  all: assert (next = max_u64 -> exists out, Some dst = Some out /\ Forall (lrow 0 max_u64) out /\ last_used out /\
         forall c, value_at (planes out) c = value_at (planes dst) c + (value_at (planes xs) c + value_at (planes ys) c)) as Hend.
  1,3: intros En; exists dst; split; [reflexivity|];
       (split; [eapply Forall_impl; [|exact Ld]; intros r [W B]; split; [exact W|]; eapply Forall_impl; [|exact B]; intros ? ?; cbv beta in *; lia|]);
       (split; [exact Hu|]); intros c;
       assert (forall l, incl l (xs ++ ys) -> value_at (planes l) c = 0) as Hz
         by (intros l Hl; apply value_zero; intros j; apply not_true_is_false; rewrite has_planes; destruct (nth_in_or_default j l []) as [K|K]; [|rewrite K; intros []];
             apply Hl in K; destruct (nth j l []) as [|g t]; [intros []|]; rewrite Forall_forall in Lxy; destruct (Lxy _ K) as [_ B]; inversion B; subst; specialize (N3 _ _ K); lia);
       rewrite (Hz xs), (Hz ys) by (intros ? ?; apply in_or_app; auto); lia.
  - (* no fuel left *)
    cbn [add_bsi_loop]. fold next. destruct (N.eqb_spec next max_u64) as [E|E]; [exact (Hend E)|]. exfalso. destruct N2 as [N2|(g & t & Hg & _)]; [congruence|].
    assert (List.concat (xs ++ ys) = []) as Hn. { rewrite concat_app. unfold segments_of in Hf. destruct (List.concat xs); [|cbn in Hf; lia]. destruct (List.concat ys); [reflexivity|cbn in Hf; lia]. }
    apply in_split in Hg. destruct Hg as (u & v & Eg). rewrite Eg, concat_app in Hn. cbn in Hn. apply app_eq_nil in Hn. destruct Hn as [_ Hn]. discriminate.
  - cbn [add_bsi_loop]. fold next. destruct (N.eqb_spec next max_u64) as [E|E]; [exact (Hend E)|]. clear Hend. destruct N2 as [N2|(g & t & Hg & Eg)]; [congruence|].
    assert (lo <= next) as Hln. { rewrite Forall_forall in Lxy. destruct (Lxy _ Hg) as [_ B]. inversion B; subst. lia. }
    assert (forall l, incl l (xs ++ ys) -> Forall (lrow lo max_u64) l -> Forall (lrow next max_u64) l) as Hup.
    { intros l Hl Ll. apply Forall_forall. intros r Hr. rewrite Forall_forall in Ll. destruct (Ll _ Hr) as [W B]. split; [exact W|].
      destruct r as [|h r]; [constructor|]. pose proof (N3 _ _ (Hl _ Hr)) as Hh. inversion B as [|? ? Bh Br]; subst. constructor; [lia|].
      apply Forall_forall. intros y Hy. pose proof (row_wf_lt _ _ _ W Hy). rewrite Forall_forall in Br. specialize (Br _ Hy). lia. }
    assert (Forall (lrow next max_u64) xs) as Lx' by (apply Hup; [intros ? ?; apply in_or_app; auto|exact Lx]).
    assert (Forall (lrow next max_u64) ys) as Ly' by (apply Hup; [intros ? ?; apply in_or_app; auto|exact Ly]).
    destruct (take_shard next 0 xs []) as [xb xs'] eqn:Ex. destruct (take_shard next 0 ys []) as [yb ys'] eqn:Ey.
    destruct (take_facts _ _ _ _ _ Lx' Ex) as (Lx2 & Sx & Vx & Zx). destruct (take_facts _ _ _ _ _ Ly' Ey) as (Ly2 & Sy & Vy & Zy).
    set (outp := match xb, yb with [], _ => yb | _, [] => xb | _, _ => roaring_add xb yb end).
    assert (Forall ssorted outp /\ forall c, value_at outp c = value_at xb c + value_at yb c) as [So Vo].
    { unfold outp. destruct xb as [|a xb]; [split; [exact Sy|reflexivity]|]. destruct yb as [|b yb]; [split; [exact Sx|intros; cbn [value_at]; lia]|]. split.
      - apply roaring_add_sorted; [constructor|exact Sx|exact Sy].
      - intros c. unfold roaring_add. rewrite roaring_add_value. cbn [smem existsb]. lia. }
    assert (Forall (lrow 0 next) dst) as Ld'. { eapply Forall_impl; [|exact Ld]. intros r [W B]. split; [exact W|]. eapply Forall_impl; [|exact B]. intros ? ?; cbv beta in *; lia. }
    destruct (store_facts next 0 outp dst Ld' ltac:(lia) So) as [Ld2 Vd]. { intros c Hc. rewrite Vo, Zx, Zy by exact Hc. reflexivity. }
    destruct (IH (next + 1) xs' ys' (store_shard next 0 outp dst) Lx2 Ly2 Ld2) as (out & Eo & Lo & Uo & Vout).
    + lia.
    + apply last_store_shard, Hu.
    + destruct (take_shard_spec _ _ 0%nat [] _ _ (le_n 0) Ex) as [-> _]. destruct (take_shard_spec _ _ 0%nat [] _ _ (le_n 0) Ey) as [-> _]. unfold segments_of in *.
      apply in_app_or in Hg. pose proof (concat_rest_le next xs). pose proof (concat_rest_le next ys). destruct Hg as [Hg|Hg]; pose proof (concat_rest_lt _ _ _ _ Hg Eg); lia.
    + exists out. split; [exact Eo|]. split; [exact Lo|]. split; [exact Uo|]. intros c. rewrite Vout, Vd, Vo, Vx, Vy. lia.
Qed.
Lemma add_bsi_spec x y : Forall (lrow 0 max_u64) x -> Forall (lrow 0 max_u64) y ->
  exists out, add_bsi x y = Some out /\ Forall (lrow 0 max_u64) out /\ last_used out /\ forall c, value_at (planes out) c = value_at (planes x) c + value_at (planes y) c.
Proof.
  intros Lx Ly. destruct (add_bsi_loop_spec (segments_of x + segments_of y) 0 x y [] Lx Ly) as (out & E & L & U & V); [constructor|apply N.le_0_l|left; reflexivity|lia|].
  exists out. split; [exact E|]. split; [exact L|]. split; [exact U|]. intros c. rewrite V. cbn. lia.
Qed.
Lemma last_used_length l n : last_used l -> (forall c, value_at (planes l) c < 2 ^ N.of_nat n) -> (List.length l <= n)%nat.
Proof.
  intros [->|Hu] Hv; [cbn; lia|]. destruct l as [|a l]; [cbn; lia|]. destruct (row_columns (last (a :: l) [])) as [|c r] eqn:E; [congruence|].
  assert (has (planes (a :: l)) (List.length l) c = true) as H.
  { apply has_planes. replace (nth (List.length l) (a :: l) []) with (last (a :: l) []); [rewrite E; left; reflexivity|].
    clear. revert a. induction l as [|b l IH]; intros a; [reflexivity|]. first [exact (IH b)|exact (eq_sym (IH b))]. }
  apply has_value in H. specialize (Hv c). assert (2 ^ N.of_nat (List.length l) < 2 ^ N.of_nat n) as K by lia. apply N.pow_lt_mono_r_iff in K; [|lia]. cbn [List.length]. lia.
Qed.
