(** What the users of pooled codecs do, and what a codec of one's own would have done. *)
From Verif.Model Require Import Base Codec.
Section Spec.
Context (target call : Type).
(** One use, as the gRPC library and this program make it: a writer that is written to and closed (or
    abandoned), a reader read up to its end (or abandoned, or copied out), or one of the functions. *)
Inductive use :=
| UWriter (t : target) (writes : list call) (close : option call)
| UReader (t : target) (reads : list call) (last : option call)
| UCopy (t : target) (reads : list call) (write_to : call)
| UCompress (t : target) (write close : call) (failed : bool)
| UDecompress (t : target) (write_to : call).
Definition goal (u : use) : target := match u with UWriter t _ _ | UReader t _ _ | UCopy t _ _ | UCompress t _ _ _ | UDecompress t _ => t end.
Definition opt_list {A} (o : option A) : list A := match o with Some a => [a] | None => [] end.
(** The calls the use makes, in order. *)
Definition calls (u : use) : list call :=
  match u with
  | UWriter _ ws c => ws ++ opt_list c
  | UReader _ rs c => rs ++ opt_list c
  | UCopy _ rs c => rs ++ [c]
  | UCompress _ w c failed => if failed then [w] else [w; c]
  | UDecompress _ c => [c]
  end.
(** The code that runs. *)
Definition program (u : use) : list (instr target call) :=
  match u with
  | UWriter t ws c => open_stream _ _ t ++ flat_map (stream_write target call) ws ++ match c with Some c => stream_close _ _ c | None => [] end
  | UReader t rs c => open_stream _ _ t ++ flat_map (fun r => stream_read target call r false) rs ++ match c with Some c => stream_read _ _ c true | None => [] end
  | UCopy t rs c => open_stream _ _ t ++ flat_map (fun r => stream_read target call r false) rs ++ stream_write_to _ _ c
  | UCompress t w c failed => compress_fn _ _ t w c failed
  | UDecompress t c => decompress_fn _ _ t c
  end.
(** A stream whose last call was made (Close, a failed Read, WriteTo) may still be used, against the rules:
    these are calls made on it afterwards. *)
Definition ended (u : use) : bool :=
  match u with UWriter _ _ (Some _) | UReader _ _ (Some _) | UCopy _ _ _ => true | _ => false end.
Definition misuse (u : use) (extra : list call) : list call := if ended u then extra else [].
Definition full_program (x : use * list call) : list (instr target call) := program (fst x) ++ map ICall (misuse (fst x) (snd x)).
(** What each call would meet in a codec nobody else uses: the own target and the own earlier calls. *)
Fixpoint alone (t : target) (past : list call) (cs : list call) : list (codec target call * call) :=
  match cs with [] => [] | c :: rest => ((Some t, past), c) :: alone t (past ++ [c]) rest end.
(** What the calls of a stream met. *)
Definition met (m : machine target call) (i : nat) : list (codec target call * call) :=
  map snd (filter (fun x => Nat.eqb (fst x) i) (m_log _ _ m)).
End Spec.
