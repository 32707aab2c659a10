(** internal/shards/shards.go:201-233, get and Close, called by any number of goroutines.  A handle is a
    number; opening makes a new one.  The steps of a call are: look into the map under the read lock; open
    the database; enter it into the map under the write lock. *)
From Verif.Model Require Import Base.

(** Where a goroutine is inside get (internal/shards/shards.go:201-223). *)
Inductive pc := PCIdle | PCOpening (shard : N) | PCEntering (shard : N) (h : nat).
(** What the goroutines share; [o_opened]: every handle opened, with its shard (newest last); [o_results]: what the calls returned (internal/shards/shards.go:201-223). *)
Record opener := Opener { o_map : amap N nat; o_opened : list (N * nat); o_results : list (N * option nat); o_pc : nat -> pc }.
(** Goroutine [i] goes on; the others stay where they are in get (internal/shards/shards.go:201-223). *)
Definition set_pc (f : nat -> pc) (i : nat) (p : pc) : nat -> pc := fun j => if Nat.eqb j i then p else f j.
(** A process start: no shard is open (internal/shards/shards.go:32-41). *)
Definition opener_new : opener := Opener [] [] [] (fun _ => PCIdle).
(** One step of goroutine [i] in get (internal/shards/shards.go:201-223). *)
Inductive open_step (i : nat) : opener -> opener -> Prop :=
(* internal/shards/shards.go:202-207 *)
| open_known m shard h : o_pc m i = PCIdle -> aget N.eqb shard (o_map m) = Some h ->
    open_step i m (Opener (o_map m) (o_opened m) (o_results m ++ [(shard, Some h)]) (o_pc m))
(* internal/shards/shards.go:202-204, 208 *)
| open_unknown m shard : o_pc m i = PCIdle -> aget N.eqb shard (o_map m) = None ->
    open_step i m (Opener (o_map m) (o_opened m) (o_results m) (set_pc (o_pc m) i (PCOpening shard)))
(* internal/shards/shards.go:209-215 *)
| open_db m shard : o_pc m i = PCOpening shard ->
    open_step i m (Opener (o_map m) (o_opened m ++ [(shard, List.length (o_opened m))]) (o_results m) (set_pc (o_pc m) i (PCEntering shard (List.length (o_opened m)))))
(* internal/shards/shards.go:216-218 *)
| open_fails m shard : o_pc m i = PCOpening shard ->
    open_step i m (Opener (o_map m) (o_opened m) (o_results m ++ [(shard, None)]) (set_pc (o_pc m) i PCIdle))
(* internal/shards/shards.go:219-222 *)
| open_enter m shard h : o_pc m i = PCEntering shard h ->
    open_step i m (Opener (aset N.eqb shard h (o_map m)) (o_opened m) (o_results m ++ [(shard, Some h)]) (set_pc (o_pc m) i PCIdle)).
(** Any number of steps of get, each by a goroutine [who] allows (internal/shards/shards.go:201-223). *)
Inductive open_steps (who : opener -> nat -> Prop) : opener -> opener -> Prop :=
| opens_none m : open_steps who m m
| opens_more m m' m'' i : open_steps who m m' -> who m' i -> open_step i m' m'' -> open_steps who m m''.
(** Any goroutine at any time; or one call at a time, as the flush loop makes them (internal/store/store.go:87-101 is the
    only caller of Update, nothing calls View). *)
Definition anyone (m : opener) (i : nat) : Prop := True.
(** One call at a time, as the flush loop makes them (internal/service/service.go:82-101, internal/store/store.go:86-101). *)
Definition one_at_a_time (m : opener) (i : nat) : Prop := forall j, j <> i -> o_pc m j = PCIdle.
(** internal/shards/shards.go:225-233, Close: the handles closed. *)
Definition close_all (m : opener) : list nat := map snd (o_map m).
