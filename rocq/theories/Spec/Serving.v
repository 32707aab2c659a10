(** A server process joined with the store it writes to: the vocabulary of C84. *)
From Verif.Model Require Import Base Otlp Transform Shards Dataframe Store Service.
From Verif.Spec Require Import Translator.

(** The calls of SaveSamples in a part of a store's history, and whether each succeeded. *)
Fixpoint saves_made (I : tr_impl) (st : store I) (es : list event) : list (list sample * bool) :=
  match es with
  | [] => []
  | e :: t => match e with ESave l ch => [(l, snd (save I st l ch))] | ERestart _ => [] end ++ saves_made I (step I st e) t
  end.
(** The part [es] of a store's history was made by a server process now in state [s]: the process has not been
    restarted, and the calls are those of its flush loop, with the answers it got. *)
Definition written_by (I : tr_impl) (st : store I) (es : list event) (s : service) : Prop :=
  (forall keys, ~ In (ERestart keys) es) /\ saves_made I st es = sv_saves s.
(** The payloads of requests of the current process that were answered. *)
Definition answered (s : service) (r : request) : Prop := exists id, In (CDone r id) (sv_clients s).
(** The payloads of all answered requests. *)
Definition payloads (s : service) : list data := flat_map (fun c => match c with CDone q _ => [export q] | _ => [] end) (sv_clients s).
(** At rest: no request is being handled, the flush loop waits for its ticker, nothing is buffered. *)
Definition at_rest (s : service) : Prop := sv_mutex s = None /\ sv_flusher s = FIdle /\ sv_buffer s = [].
