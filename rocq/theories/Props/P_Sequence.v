(** C05: sample ids are never reused. *)
From Verif.Model Require Import Base KV Sequence.
From Verif.Proofs Require Import BaseFacts SequenceFacts.

(** Over every history of process starts, allocations, releases, failing transactions, crashes at any
    point and foreign writes, starting from a store without the counter, the ids handed out (in any
    process of the history) are strictly increasing.  The bound 2^44 is where the 64 bit counter
    could wrap, since each start can burn a lease of 2^20 ids. *)
Theorem C05_sample_ids_strictly_increasing : forall (d : kv) (ops : list seq_op) s' ids,
  kvget sample_seq_key d = None ->
  N.of_nat (List.length ops) < 2 ^ 44 ->
  seq_run (SeqState d None) ops = (s', ids) ->
  StronglySorted N.lt ids.
Proof. exact sample_ids_increase. Qed.
Print Assumptions C05_sample_ids_strictly_increasing.

Theorem C05_sample_ids_unique : forall (d : kv) (ops : list seq_op) s' ids,
  kvget sample_seq_key d = None ->
  N.of_nat (List.length ops) < 2 ^ 44 ->
  seq_run (SeqState d None) ops = (s', ids) ->
  NoDup ids.
Proof. intros d ops s' ids H0 H1 H2. apply ssorted_nodup. eapply sample_ids_increase; eauto. Qed.
Print Assumptions C05_sample_ids_unique.

(** A history with a clean shutdown and a crash: ids 0 1 | 2 | 3 burnt lease, restart at 2^20+2. *)
Example C05_history :
  snd (seq_run (SeqState [] None)
        [SOpen false; SNext false; SNext false; SRelease false; SCrash;
         SOpen false; SNext false; SCrash; SOpen true; SOpen false; SOther "x" "y"; SNext false])
  = [0; 1; 2; 1048578].
Proof. reflexivity. Qed.
