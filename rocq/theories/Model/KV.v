(** The key-value store (github.com/dgraph-io/badger/v4): a finite map from byte strings to byte
    strings; a committed transaction is one atomic change of the map. *)
From Verif.Model Require Import Base.

(** External, badger.DB (opened at cmd/rq/main.go:84): a finite map; a committed transaction is one atomic change of it. *)
Definition kv := amap string string.
(** External, badger Txn.Get, as at internal/translate/translate.go:125. *)
Definition kvget (k : string) (d : kv) : option string := aget String.eqb k d.
(** External, badger Txn.Set, as at internal/translate/translate.go:76-108. *)
Definition kvset (k v : string) (d : kv) : kv := aset String.eqb k v d.
