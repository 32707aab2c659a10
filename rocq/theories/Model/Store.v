(** internal/store: saving a list of samples and scanning (internal/store/store.go, internal/store/scan.go).
    The translator is a parameter (an implementation of [tr_impl]; C06-C10 are about the real one).
    Failures are choices: a transaction commits or not, the process stops anywhere. *)
From Verif.Model Require Import Base Labels View Otlp Transform Batch Rows Shards Dataframe Collapse.
From Verif.Spec Require Import Translator.

(** internal/store/store.go:78-103: what one SaveSamples call meets: recycled scratch times (any content), the iteration order of the two maps it ranges over, and how far it gets. [ch_views_done] transactions of DataFrame.Append commit; [ch_commits] are the outcomes of the shard updates, the call being cut short (crash) when the list runs out. *)
Record choices := Choices {
  ch_pools : list quantized_time;
  ch_pool : quantized_time;
  ch_views : list (string * list sample);
  ch_views_done : nat;
  ch_shards : list (N * list string);
  ch_commits : list bool }.

(** internal/transform/transform.go:53-57: the samples handed to the batch. *)
Fixpoint add_filed (pools : list quantized_time) (fs : list filed) (b : batch) : batch :=
  match fs with
  | [] => b
  | f :: t => add_filed (tl pools) t (batch_add (hd zero_qt pools) b (f_id f) (int64_of_u64 (f_min f)) (Some (f_cols f)))
  end.

(** internal/store/store.go:88-94: the callback adds every bitmap of the shard to the transaction. *)
Definition add_views (frags : fragments) (shard : N) (views : list string) (t : tx) : tx :=
  fold_left (fun t v => tx_add_roaring v (frag_get frags shard v) t) views t.
(** internal/store/store.go:86-101. *)
Fixpoint update_shards (frags : fragments) (s : shards) (order : list (N * list string)) (commits : list bool) : shards * bool :=
  match order with
  | [] => (s, true)
  | (k, vs) :: rest =>
      match commits with
      | [] => (s, false)
      | ok :: more => let '(s', r) := sh_update ok s k (fun t => (add_views frags k vs t, true)) in
                      if r then update_shards frags s' rest more else (s', false)
      end
  end.

(** proto/rq/v1/scan.proto:9-81. [FOther] is a filter without a value (or one of a later version). *)
Inductive scan_filter := FBase (prop : Z) (value : string) | FAttr (prop : Z) (key value : string) | FOther.
(** proto/rq/v1/scan.proto:9-30, message Scan. *)
Record scan := Scan { sc_scope : Z; sc_filters : list scan_filter; sc_times : scan_times; sc_limit : N; sc_reverse : bool }.

(** internal/store/scan.go:97-124: the label a filter asks for. *)
Definition filter_label (scope : Z) (f : scan_filter) : option label :=
  match f with
  | FBase prop value => Some (Label scope prop value "")
  | FAttr prop key value => Some (Label scope prop key value)
  | FOther => None
  end.

(** internal/store/scan.go:20-69: what a scan meets: the clock, and which reads of the store fail. *)
Record env := Env { e_wall : Z; e_find_fails : string -> bool; e_index_fails : bool; e_frame_fails : string -> bool }.
(** internal/store/scan.go:20-69: no read fails. *)
Definition calm (wall : Z) : env := Env wall (fun _ => false) false (fun _ => false).

(** internal/store/scan.go:20-69: what Scan hands to data.Collapse, a zero answer or an error. *)
Inductive scan_rows_out := RErr | RZero | RRows (l : list (option data)).
(** internal/store/scan.go:20-69: result of Scan, an error, or the (possibly nil) data, or a panic. *)
Inductive scan_out := SErr | SData (d : option data) | SPanic.

Section Store.
Context (I : tr_impl).
(** internal/store/store.go:22-33, Storage. *)
Record store := Store { st_ctx : ctx (ti_state I); st_frames : frames; st_shards : shards }.
(** internal/store/store.go:22-33: the translator. *)
Definition st_tr (st : store) : ti_state I := c_tr (st_ctx st).

(** internal/store/store.go:78-103, SaveSamples; the second component is false when an error is returned (or the call did
    not return). *)
Definition save (st : store) (l : list sample) (ch : choices) : store * bool :=
  let '(c, fs) := process_samples (ti_translate I) (st_ctx st) l in
  match snd (batch_build (add_filed (ch_pools ch) fs batch_new)), group_samples (ch_pool ch) (combine l (map f_min fs)) [] with
  | Some frags, Some _ =>
      let fr := append_steps (st_frames st) (firstn (ch_views_done ch) (ch_views ch)) in
      if Nat.ltb (ch_views_done ch) (List.length (ch_views ch)) then (Store c fr (st_shards st), false)
      else let '(sh, ok) := update_shards frags (st_shards st) (ch_shards ch) (ch_commits ch) in (Store c fr sh, ok)
  | _, _ => (Store c (st_frames st) (st_shards st), false)
  end.
(** internal/store/store.go:78-103: the orders really are orders of the two maps. *)
Definition choices_ok (st : store) (l : list sample) (ch : choices) : Prop :=
  let fs := snd (process_samples (ti_translate I) (st_ctx st) l) in
  (forall q, In q (ch_pools ch) -> String.length q = 10%nat) /\ String.length (ch_pool ch) = 10%nat /\
  (forall m, group_samples (ch_pool ch) (combine l (map f_min fs)) [] = Some m -> Permutation m (ch_views ch)) /\
  (forall frags, snd (batch_build (add_filed (ch_pools ch) fs batch_new)) = Some frags ->
     Permutation (map fst frags) (map fst (ch_shards ch)) /\
     forall k vs, In (k, vs) (ch_shards ch) -> exists m, aget N.eqb k frags = Some m /\ Permutation (map fst m) vs).

(** internal/store/store.go:78-103 and cmd/rq/main.go:71-153: a store over its life: saves, and restarts (after a shutdown or a crash; [keys] are labels the last, unfinished save had already translated). *)
Inductive event := ESave (l : list sample) (ch : choices) | ERestart (keys : list string).
(** internal/store/store.go:58-69, Translate of several labels. *)
Definition translate_all (s : ti_state I) (keys : list string) : ti_state I :=
  fold_left (fun s k => fst (ti_translate I s k)) keys s.
(** cmd/rq/main.go:71-153 builds a new Storage (internal/store/store.go:35-56) over the old data. *)
Definition restart (st : store) (keys : list string) : store :=
  Store (new_ctx (ti_reopen I (translate_all (st_tr st) keys))) (st_frames st) (sh_new (sh_disk (st_shards st))).
(** internal/store/store.go:78-103 and cmd/rq/main.go:71-153: one event. *)
Definition step (st : store) (e : event) : store :=
  match e with ESave l ch => fst (save st l ch) | ERestart keys => restart st keys end.
(** internal/store/store.go:78-103 and cmd/rq/main.go:71-153: a life. *)
Definition run (st : store) (es : list event) : store := fold_left step es st.
(** internal/store/store.go:35-56, NewStore over an empty database. *)
Definition new_store (s : ti_state I) : store := Store (new_ctx s) [] (sh_new []).

(** internal/store/scan.go:72-131, CompileFilters; None is an error other than "not found". *)
Definition find_col (fails : string -> bool) (s : ti_state I) (l : label) : option (option N) :=
  if fails (encode l) then None else Some (ti_find I s (encode l)).
(** internal/store/scan.go:97-131, the loop over the filters; None is an error other than not found. *)
Fixpoint compile_loop (fails : string -> bool) (s : ti_state I) (scope : Z) (fs : list scan_filter) (r : nset) : option nset :=
  match fs with
  | [] => Some r
  | f :: t => match filter_label scope f with
              | None => compile_loop fails s scope t r
              | Some l => match find_col fails s l with
                          | None => None
                          | Some None => Some []
                          | Some (Some c) => compile_loop fails s scope t (sadd c r)
                          end
              end
  end.
(** internal/store/scan.go:72-131, CompileFilters. *)
Definition compile_filters (fails : string -> bool) (s : ti_state I) (sc : scan) : option nset :=
  match sc_filters sc with
  | [] => match find_col fails s (Label (sc_scope sc) PREFIX_UNKNOWN "" "") with
          | None => None
          | Some None => Some []
          | Some (Some c) => Some [c]
          end
  | fs => compile_loop fails s (sc_scope sc) fs []
  end.

(** internal/store/scan.go:20-69, Scan up to the call of data.Collapse; [order] is the iteration order of the columns
    grouped by shard.  A failing frame read leaves a nil list (the error is assigned and then ignored).
    [sc_limit] and [sc_reverse] are not looked at. *)
Definition scan_rows (st : store) (e : env) (sc : scan) (order : nset -> list (N * list N)) : scan_rows_out :=
  let '(start, end_) := time_bounds (e_wall e) (sc_times sc) in
  match compile_filters (e_find_fails e) (st_tr st) sc with
  | None => RErr
  | Some columns =>
      if sempty columns then RZero
      else if e_index_fails e then RErr
      else match search start end_ with
      | None => RErr (* excluded by C15_search_terminates *)
      | Some vs =>
          match rows_loop (st_shards st) vs (order columns) None with
          | None => RZero
          | Some samples =>
              if sempty samples then RZero
              else
                let samples := match sc_range (sc_times sc) with
                               | None => match smax samples with Some m => [m] | None => samples end
                               | Some _ => samples
                               end in
                if existsb (Z.eqb (sc_scope sc)) [RESOURCE_METRICS; RESOURCE_LOGS; RESOURCE_TRACES]
                then match read_views (e_frame_fails e) (st_frames st) (sc_scope sc) samples vs with
                     | Some rows => RRows rows
                     | None => RRows []
                     end
                else RErr
          end
      end
  end.
(** internal/store/scan.go:50-69, the rest of Scan: a row beyond the end of its record has unspecified content (the arrow arrays are indexed without a check), modelled as a panic. *)
Definition finish (h : string -> N) (kvb : key_value -> string) (scope : Z) (r : scan_rows_out) : scan_out :=
  match r with
  | RErr => SErr
  | RZero => SData (zero_data scope)
  | RRows rows => match all_some rows with
                  | None => SPanic
                  | Some ds => match collapse h kvb ds with Some d => SData d | None => SPanic end
                  end
  end.
(** internal/store/scan.go:20-69, Scan. *)
Definition do_scan (h : string -> N) (kvb : key_value -> string) (st : store) (e : env) (sc : scan) (order : nset -> list (N * list N)) : scan_out :=
  finish h kvb (sc_scope sc) (scan_rows st e sc order).

(** internal/store/scan.go:151-163, Labels; internal/translate/translate.go TranslateBulkID fails at the first id without a label. *)
Definition labels_of (st : store) (view : string) (id : N) (order : list N) : option (list string) :=
  all_some (map (ti_back I (st_tr st)) (row_columns (sh_row (st_shards st) view id order))).
End Store.
Arguments Store {I}. Arguments st_ctx {I}. Arguments st_frames {I}. Arguments st_shards {I}. Arguments st_tr {I}.
