(** The record of what a store was asked to save, and what came of it: the vocabulary of the end to end
    properties.  A history is a list of events (saves, restarts). *)
From Verif.Model Require Import Base Labels View Otlp Transform Batch Shards Dataframe Store.
From Verif.Spec Require Import Indexing Translator Frames.
From Verif.Proofs Require Import TransformFacts TransformLaws.

(** One sample given to a save, what processing it recorded, and the signal its marker label names. *)
Record filing := Filing { g_sample : sample; g_filed : filed; g_marker : Z }.
Fixpoint filings (r : Z) (l : list sample) (fs : list filed) : list filing :=
  match l, fs with
  | s :: l', f :: fs' => Filing s f r :: filings (last_signal r [s]) l' fs'
  | _, _ => []
  end.
(** The views a filing belongs to. *)
Definition views_of (g : filing) : list string := std_views (int64_of_u64 (f_min (g_filed g))).
(** The labels it is indexed under. *)
Definition labelled (g : filing) (l : label) : Prop :=
  documented_label (smp_data (g_sample g)) l \/ l = Label (g_marker g) PREFIX_UNKNOWN "" "".

(** One save: its filings, the flush of the data frames, and the shards whose update was committed. *)
Record past := Past { p_filings : list filing; p_flush : flush; p_shards : list N }.
Fixpoint committed (order : list (N * list string)) (commits : list bool) : list N :=
  match order, commits with
  | (k, _) :: order', true :: commits' => k :: committed order' commits'
  | _, _ => []
  end.

Section Trace.
Context (I : tr_impl).
Notation store := (store I).
Definition past_of (st : store) (l : list sample) (ch : choices) : past :=
  let fs := snd (process_samples (ti_translate I) (st_ctx st) l) in
  Past (filings (ctx_signal I (st_ctx st)) l fs)
       (Flush (combine l (map f_min fs)) (ch_pool ch) (ch_views ch) (ch_views_done ch))
       (if Nat.ltb (ch_views_done ch) (List.length (ch_views ch)) then [] else committed (ch_shards ch) (ch_commits ch)).
Fixpoint trace (st : store) (es : list event) : list past :=
  match es with
  | [] => []
  | e :: t => match e with ESave l ch => [past_of st l ch] | ERestart _ => [] end ++ trace (step I st e) t
  end.
(** The history is possible: the choices fit the maps they order, time stamps are 64 bit. *)
Definition event_ok (st : store) (e : event) : Prop :=
  match e with
  | ESave l ch => choices_ok I st l ch /\ forall s t1 t2, In s l -> In (t1, t2) (record_times (smp_data s)) -> t1 < two64 /\ t2 < two64
  | ERestart _ => True
  end.
Fixpoint possible (st : store) (es : list event) : Prop :=
  match es with [] => True | e :: t => event_ok st e /\ possible (step I st e) t end.
(** Translations needed. *)
Definition event_cost (e : event) : nat := match e with ESave l _ => cost l | ERestart keys => S (List.length keys) end.
Definition events_cost (es : list event) : nat := list_sum (map event_cost es).
End Trace.
Definition given (es : list event) : list sample := flat_map (fun e => match e with ESave l _ => l | ERestart _ => [] end) es.

(** The filing time of a payload: the smallest start time, a zero counting as "not set yet" (C18, C19), and
    the views it is filed under. *)
Definition filed_at (d : data) : N := fold_left fmin (map fst (record_times d)) 0.
Definition home (d : data) : list string := std_views (int64_of_u64 (filed_at d)).
(** The labels a scan asks for: those of its filters, or the signal's marker when there are none. *)
Definition asks (sc : scan) (l : label) : Prop :=
  (sc_filters sc = [] /\ l = Label (sc_scope sc) PREFIX_UNKNOWN "" "") \/
  (exists p v, In (FBase p v) (sc_filters sc) /\ l = Label (sc_scope sc) p v "") \/
  (exists p k v, In (FAttr p k v) (sc_filters sc) /\ l = Label (sc_scope sc) p k v).
