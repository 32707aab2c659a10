(** The label translator as the server wires it (cmd/rq/main.go:89-93, internal/store/store.go:35-69): the prefix
    slice with its spare capacity, whose array the three key prefixes share (internal/translate/translate.go:19-29), the
    column cache keyed by a hash of the label in front of it, and scans that look labels up between the translations.  An
    implementation of the interface the store is modelled over (Spec/Translator.v). *)
From Verif.Model Require Import Base KV Slice Sequence Translate ColumnCache.
From Verif.Spec Require Import Translator.

(** What happens around one call of internal/store/store.go:58-69, Translate: the labels that scans have looked up
    (internal/store/scan.go:82,102,118 append to the shared slice) since the call before, the cache entries that have been
    evicted, and whether the cache admits the new entry; and, at a shutdown, whether cmd/rq/main.go:93 gets to close the
    translator. *)
Record around := Around { w_scans : list string; w_left : N -> bool; w_admit : bool; w_close : bool }.

(** cmd/rq/main.go:71-153: the translator, the cache, and how many calls there have been. *)
Record wired := Wired { w_state : c_state; w_calls : nat }.

(** internal/store/scan.go:82,102,118: look-ups of labels. *)
Definition w_look (grow : nat -> nat) (hash : string -> N) (s : c_state) (keys : list string) : c_state :=
  fold_left (fun s k => fst (c_step hash (production_config grow) s (COther (TFind k)))) keys s.

(** internal/store/store.go:58-69, Translate, in the state the scans and the cache have left.  The id is 0 when the
    translator reports an error (it never does here: no transaction fails). *)
Definition w_translate (grow : nat -> nat) (hash : string -> N) (world : nat -> around) (s : wired) (k : string) : wired * N :=
  let a := world (w_calls s) in
  let s1 := w_look grow hash (w_state s) (w_scans a) in
  let s2 := fst (c_step hash (production_config grow) s1 (CEvict (w_left a))) in
  match c_step hash (production_config grow) s2 (CTranslate k FNone (w_admit a)) with
  | (s3, Some (OKey _ n)) => (Wired s3 (S (w_calls s)), n)
  | (s3, _) => (Wired s3 (S (w_calls s)), 0)
  end.

(** internal/translate/translate.go:122-135, Find, as scans call it (its effect on the shared array is [w_look]). *)
Definition w_find (grow : nat -> nat) (s : wired) (k : string) : option N :=
  match ts_proc (cs_tr (w_state s)) with Some t => snd (tr_find grow t (ts_db (cs_tr (w_state s))) k) | None => None end.

(** internal/translate/translate.go:34-50, TranslateID. *)
Definition w_back (s : wired) (n : N) : option string :=
  match ts_proc (cs_tr (w_state s)) with Some t => translate_id t (ts_db (cs_tr (w_state s))) n | None => None end.

(** cmd/rq/main.go:71-93: the end of a process, which closes the translator or does not get to it, and the start of the
    next one, with an empty cache. *)
Definition w_reopen (grow : nat -> nat) (hash : string -> N) (world : nat -> around) (s : wired) : wired :=
  let c := production_config grow in
  let a := world (w_calls s) in
  let s1 := w_look grow hash (w_state s) (w_scans a) in
  let s2 := if w_close a then fst (c_step hash c s1 (COther (TClose false))) else s1 in
  let s3 := fst (c_step hash c s2 (COther TCrash)) in
  Wired (fst (c_step hash c s3 (COther (TOpen false)))) (S (w_calls s)).

(** cmd/rq/main.go:71-153: the translator of the server, as the store sees it. *)
Definition wired_impl (grow : nat -> nat) (hash : string -> N) (world : nat -> around) : tr_impl :=
  TrImpl wired (w_translate grow hash world) (w_find grow) w_back (w_reopen grow hash world).

(** cmd/rq/main.go:71-93: the first start, on the database [d]. *)
Definition wired_start (grow : nat -> nat) (hash : string -> N) (d : kv) : wired :=
  Wired (fst (c_step hash (production_config grow) (CState (TrState d None) []) (COther (TOpen false)))) 0.
