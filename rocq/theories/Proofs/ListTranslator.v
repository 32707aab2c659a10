(** A small translator for concrete examples: labels are numbered in order of first use. *)
From Verif.Model Require Import Base Labels.
From Verif.Spec Require Import Translator.
From Verif.Proofs Require Import BaseFacts.

Fixpoint index_of (k : string) (l : list string) (i : N) : option N :=
  match l with [] => None | x :: t => if String.eqb k x then Some i else index_of k t (i + 1) end.
Definition list_impl : tr_impl := TrImpl (list string)
  (fun s k => match index_of k s 0 with Some n => (s, n) | None => (s ++ [k], N.of_nat (List.length s)) end)
  (fun s k => index_of k s 0) (fun s n => nth_error s (N.to_nat n)) (fun s => s).
Definition list_inv (b : nat) (s : list string) : Prop := N.of_nat (List.length s) + N.of_nat b < two64.

Lemma index_of_spec k l : forall i n, index_of k l i = Some n -> i <= n /\ n < i + N.of_nat (List.length l) /\ nth_error l (N.to_nat (n - i)) = Some k.
Proof.
  induction l as [|x l IH]; intros i n H; cbn [index_of] in H; [discriminate|]. destruct (String.eqb_spec k x) as [->|NE].
  - apply some_inj in H. subst n. split; [lia|]. split; [cbn; lia|]. rewrite N.sub_diag. reflexivity.
  - apply IH in H as (H1 & H2 & H3). split; [lia|]. split; [cbn [List.length]; lia|].
    replace (N.to_nat (n - i)) with (S (N.to_nat (n - (i + 1)))) by lia. exact H3.
Qed.
Lemma index_of_app k l m : forall i, index_of k (l ++ m) i = match index_of k l i with Some n => Some n | None => index_of k m (i + N.of_nat (List.length l)) end.
Proof.
  induction l as [|x l IH]; intros i; cbn [app index_of List.length].
  - rewrite N.add_0_r. reflexivity.
  - destruct (String.eqb k x); [reflexivity|]. rewrite IH. destruct (index_of k l (i + 1)); [reflexivity|]. f_equal. lia.
Qed.
Lemma list_inv_down b s : list_inv (S b) s -> list_inv b s.
Proof. unfold list_inv. lia. Qed.
Lemma list_inv_snoc b s k : list_inv (S b) s -> list_inv b (s ++ [k]).
Proof. unfold list_inv. rewrite app_length. cbn [List.length]. lia. Qed.
Lemma list_laws : tr_laws list_impl list_inv.
Proof.
  apply tr_laws_intro; cbn [list_impl ti_state ti_translate ti_find ti_back ti_reopen].
  - intros b s k s' n Hi E. destruct (index_of k s 0) as [m|] eqn:F; apply pair_inj in E as [<- <-].
    + split; [apply list_inv_down; exact Hi|]. split; [exact F|]. split; [reflexivity|]. intros m' H. congruence.
    + split; [apply list_inv_snoc; exact Hi|]. split.
      * rewrite index_of_app, F. cbn [index_of]. rewrite String.eqb_refl. f_equal.
      * split; [|intros m H; discriminate]. intros k' NE. rewrite index_of_app. destruct (index_of k' s 0); [reflexivity|]. cbn [index_of].
        destruct (String.eqb_spec k' k); [congruence|reflexivity].
  - intros b s k1 k2 n _ F1 F2. apply index_of_spec in F1 as (_ & _ & F1), F2 as (_ & _ & F2). congruence.
  - intros b s k n _ F. apply index_of_spec in F as (_ & _ & F). rewrite N.sub_0_r in F. exact F.
  - intros b s Hi. split; [apply list_inv_down; exact Hi|reflexivity].
  - intros b s k n Hi F. apply index_of_spec in F as (_ & F & _). unfold list_inv in Hi. revert F Hi. generalize (List.length (A:=string) s). intros. lia.
  - intros b s Hi. apply list_inv_down. exact Hi.
Qed.

(** The same with every label in a shard of its own. *)
Definition wide_impl : tr_impl := TrImpl (list string)
  (fun s k => match index_of k s 0 with Some n => (s, n * 2^20) | None => (s ++ [k], N.of_nat (List.length s) * 2^20) end)
  (fun s k => option_map (fun n => n * 2^20) (index_of k s 0)) (fun s n => nth_error s (N.to_nat (n / 2^20))) (fun s => s).
Definition wide_inv (b : nat) (s : list string) : Prop := N.of_nat (List.length s) + N.of_nat b < 2^44.
Lemma wide_inv_down b s : wide_inv (S b) s -> wide_inv b s.
Proof. unfold wide_inv. lia. Qed.
Lemma wide_inv_snoc b s k : wide_inv (S b) s -> wide_inv b (s ++ [k]).
Proof. unfold wide_inv. rewrite app_length. cbn [List.length]. lia. Qed.
Lemma wide_find s k n : option_map (fun n => n * 2^20) (index_of k s 0) = Some n <-> exists i, index_of k s 0 = Some i /\ n = i * 2^20.
Proof. destruct (index_of k s 0) as [i|]; cbn [option_map]; split; [intros E; apply some_inj in E; eauto|intros (j & E & ->); congruence|discriminate|intros (j & E & _); discriminate]. Qed.
Lemma wide_laws : tr_laws wide_impl wide_inv.
Proof.
  apply tr_laws_intro; cbn [wide_impl ti_state ti_translate ti_find ti_back ti_reopen].
  - intros b s k s' n Hi E. destruct (index_of k s 0) as [m|] eqn:F; apply pair_inj in E as [<- <-].
    + split; [apply wide_inv_down; exact Hi|]. split; [rewrite F; reflexivity|]. split; [reflexivity|]. intros m' H. apply some_inj in H. auto.
    + split; [apply wide_inv_snoc; exact Hi|]. split.
      * rewrite index_of_app, F. cbn [index_of]. rewrite String.eqb_refl. reflexivity.
      * split; [|intros m H; discriminate]. intros k' NE. rewrite index_of_app. destruct (index_of k' s 0); [reflexivity|]. cbn [index_of].
        destruct (String.eqb_spec k' k); [congruence|reflexivity].
  - intros b s k1 k2 n _ F1 F2. apply wide_find in F1 as (i & F1 & E1), F2 as (j & F2 & E2). assert (i = j) by lia. subst j.
    apply index_of_spec in F1 as (_ & _ & F1), F2 as (_ & _ & F2). congruence.
  - intros b s k n _ F. apply wide_find in F as (i & F & ->). apply index_of_spec in F as (_ & _ & F). rewrite N.sub_0_r in F.
    rewrite N.div_mul by discriminate. exact F.
  - intros b s Hi. split; [apply wide_inv_down; exact Hi|reflexivity].
  - intros b s k n Hi F. apply wide_find in F as (i & F & ->). apply index_of_spec in F as (_ & F & _). unfold wide_inv in Hi. revert F Hi. generalize (List.length (A:=string) s).
    change two64 with (2^44 * 2^20). intros. apply N.mul_lt_mono_pos_r; [reflexivity|]. lia.
  - intros b s Hi. apply wide_inv_down. exact Hi.
Qed.
