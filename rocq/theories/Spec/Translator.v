(** What the transform, the store and the query path need of the label <-> column id translator:
    the interface (internal/store/store.go:58-69 Translate, scan.go:72-131 Find, shards look-ups of
    labels) and the laws C06-C08 establish for internal/translate.  [ti_reopen] is a process restart. *)
From Verif.Model Require Import Base Labels.

Record tr_impl := TrImpl {
  ti_state : Type;
  ti_translate : ti_state -> string -> ti_state * N;
  ti_find : ti_state -> string -> option N;
  ti_back : ti_state -> N -> option string;
  ti_reopen : ti_state -> ti_state }.

(** [inv b s]: [s] is a good state with room for [b] more operations (ids are 64 bit).
    A label that was given a column keeps it, over translations of other labels and over restarts.  (Two labels may
    have the same one.) *)
Record tr_stable (I : tr_impl) (inv : nat -> ti_state I -> Prop) : Prop := {
  tl_step : forall b s k s' n, inv (S b) s -> ti_translate I s k = (s', n) ->
    inv b s' /\ ti_find I s' k = Some n /\ (forall k', k' <> k -> ti_find I s' k' = ti_find I s k') /\
    (forall m, ti_find I s k = Some m -> m = n);
  tl_reopen : forall b s, inv (S b) s -> inv b (ti_reopen I s) /\
    (forall k, ti_find I (ti_reopen I s) k = ti_find I s k);
  tl_bound : forall b s k n, inv b s -> ti_find I s k = Some n -> n < two64;
  tl_weaken : forall b s, inv (S b) s -> inv b s }.

(** ... and no two labels have the same column, and the label of a column is known. *)
Record tr_laws (I : tr_impl) (inv : nat -> ti_state I -> Prop) : Prop := {
  tl_stable :> tr_stable I inv;
  tl_inj : forall b s k1 k2 n, inv b s -> ti_find I s k1 = Some n -> ti_find I s k2 = Some n -> k1 = k2;
  tl_back : forall b s k n, inv b s -> ti_find I s k = Some n -> ti_back I s n = Some k }.

(** Ids given to a set of labels. *)
Definition ids_of (I : tr_impl) (s : ti_state I) (P : label -> Prop) (col : N) : Prop :=
  exists l, P l /\ ti_find I s (encode l) = Some col.

Lemma tr_laws_intro (I : tr_impl) (inv : nat -> ti_state I -> Prop) :
  (forall b s k s' n, inv (S b) s -> ti_translate I s k = (s', n) ->
    inv b s' /\ ti_find I s' k = Some n /\ (forall k', k' <> k -> ti_find I s' k' = ti_find I s k') /\
    (forall m, ti_find I s k = Some m -> m = n)) ->
  (forall b s k1 k2 n, inv b s -> ti_find I s k1 = Some n -> ti_find I s k2 = Some n -> k1 = k2) ->
  (forall b s k n, inv b s -> ti_find I s k = Some n -> ti_back I s n = Some k) ->
  (forall b s, inv (S b) s -> inv b (ti_reopen I s) /\ (forall k, ti_find I (ti_reopen I s) k = ti_find I s k)) ->
  (forall b s k n, inv b s -> ti_find I s k = Some n -> n < two64) ->
  (forall b s, inv (S b) s -> inv b s) -> tr_laws I inv.
Proof. intros A B C D E F. split; [split; assumption|assumption|assumption]. Qed.
