(** The limits within which the translator of the server works: a process meets at most 4092 labels that no sample before it had
    (besides the four labels that mark whole signals), and the labels a process meets differ in their hashes. *)
From Verif.Model Require Import Base Labels Otlp Transform Store.
From Verif.Spec Require Import Indexing Translator Saves.

(** The keys of the documented labels of the samples given to saves. *)
Definition labels_key (es : list event) (k : string) : Prop :=
  exists s l, In s (given es) /\ documented_label (smp_data s) l /\ k = encode l.
(** ... and the labels an interrupted save had translated. *)
Definition met (es : list event) (k : string) : Prop :=
  labels_key es k \/ exists keys, In (ERestart keys) es /\ In k keys.
(** The labels that mark whole signals (and the one of no signal, which the first sample of a process gets, see C17). *)
Definition signal_keys : list string := map (fun z => encode (Label z PREFIX_UNKNOWN "" "")) [0; RESOURCE_METRICS; RESOURCE_TRACES; RESOURCE_LOGS]%Z.

Definition process_fits (hash : string -> N) (before process : list event) : Prop :=
  (exists new, (List.length new <= 4092)%nat /\ forall k, met process k -> labels_key before k \/ In k new) /\
  (forall k k', met process k \/ In k signal_keys -> met process k' \/ In k' signal_keys -> hash k = hash k' -> k = k').

(** A process: from a start to the next one. *)
Definition is_start (before : list event) : Prop := before = [] \/ exists b keys, before = b ++ [ERestart keys].
Definition within_limits (hash : string -> N) (es : list event) : Prop :=
  forall before process rest, es = before ++ process ++ rest -> is_start before ->
    (forall e, In e (removelast process) -> match e with ERestart _ => False | _ => True end) -> process_fits hash before process.

(** ... without a limit on their number: only that the labels a process meets differ in their hashes. *)
Definition hashes_differ (hash : string -> N) (es : list event) : Prop :=
  forall before process rest, es = before ++ process ++ rest -> is_start before ->
    (forall e, In e (removelast process) -> match e with ERestart _ => False | _ => True end) ->
    forall k k', met process k \/ In k signal_keys -> met process k' \/ In k' signal_keys -> hash k = hash k' -> k = k'.
