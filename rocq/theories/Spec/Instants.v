(** The instants of a store's life at which a reader may look: before, between and after the transactions
    of its saves. *)
From Verif.Model Require Import Base Labels View Otlp Transform Batch Shards Dataframe Store.
From Verif.Spec Require Import Indexing Translator Frames Saves.
From Verif.Proofs Require Import TransformFacts TransformLaws.

(** The same save, not less far: at least as many views written; the same updates of shards committed, and
    possibly more (a shard whose update is under way is already open). *)
Definition further (ch ch' : choices) : Prop :=
  ch_pools ch' = ch_pools ch /\ ch_pool ch' = ch_pool ch /\ ch_views ch' = ch_views ch /\ ch_shards ch' = ch_shards ch /\
  (ch_views_done ch <= ch_views_done ch')%nat /\
  exists done rest, (ch_commits ch = done \/ ch_commits ch = done ++ [false]) /\ ch_commits ch' = done ++ rest.
Definition no_restart (es : list event) : Prop := forall keys, ~ In (ERestart keys) es.
(** A history up to some instant, and one up to the same or a later instant of the same process. *)
Inductive earlier : list event -> list event -> Prop :=
| earlier_between es more : no_restart more -> earlier es (es ++ more)
| earlier_within es l ch ch' more : further ch ch' -> no_restart more -> earlier (es ++ [ESave l ch]) (es ++ ESave l ch' :: more).

(** The labels a save translates, in order, before it writes anything. *)
Fixpoint save_keys (r : Z) (l : list sample) : list string :=
  match l with
  | [] => []
  | s :: t => encode (Label r PREFIX_UNKNOWN "" "") :: map encode (L_data (smp_data s)) ++ save_keys (last_signal r [s]) t
  end.
Section Instants.
Context (I : tr_impl).
Definition with_tr (st : store I) (t : ti_state I) : store I :=
  let c := st_ctx st in Store (Ctx t (c_min c) (c_max c) (c_pos c) (c_label c)) (st_frames st) (st_shards st).
(** What can be seen at an instant up to the end of the history [b]; the second case is during the
    translation of the labels of a save. *)
Inductive instant (s0 : ti_state I) : store I -> list event -> Prop :=
| instant_between a b : earlier a b -> instant s0 (run I (new_store I s0) a) b
| instant_translating a l ch j b : earlier (a ++ [ESave l ch]) b ->
    let st := run I (new_store I s0) a in
    instant s0 (with_tr st (translate_all I (st_tr st) (firstn j (save_keys (ctx_signal I (st_ctx st)) l)))) b.
End Instants.

(** Two answers of a scan, the first given at an instant, the second by reads spread over time: the same
    kind of answer, the same rows in the same order; only a row which at the instant was beyond the end of
    its record (C29: the content is unspecified) may have been filled since. *)
Definition same_row (p q : option data) : Prop := p = q \/ p = None.
Inductive same_answer : scan_rows_out -> scan_rows_out -> Prop :=
| same_error : same_answer RErr RErr
| same_zero : same_answer RZero RZero
| same_rows p q : Forall2 same_row p q -> same_answer (RRows p) (RRows q).
