(** internal/data: merging the rows of a scan into one result (Collapse, CollapseMetrics, CollapseLogs,
    CollapseTrace, Sorter) and the empty result of a signal (Zero).
    Go pointers held by the maps of the sorter are modelled as positions in the result under
    construction.  [h] is xxhash.Sum64 of everything written to the digest since Reset; [kvb] is the
    protobuf encoding of one attribute.  Both are parameters. *)
From Verif.Model Require Import Base Labels Otlp.

(** Assignment through a pointer the sorter's maps hold (internal/data/metrics.go:39, 50, 55): the pointer is a position. *)
Definition upd {A} (i : nat) (f : A -> A) (l : list A) : list A :=
  match nth_error l i with Some a => firstn i l ++ f a :: skipn (S i) l | None => l end.

Section Hashes.
Context (h : string -> N) (kvb : key_value -> string).
(** internal/data/sort.go:114-119, attr. *)
Definition attr_bytes (kvs : list key_value) : string := String.concat "" (map kvb kvs).
(** internal/data/sort.go:58-65, hashResource: what is written. *)
Definition res_key (schema : string) (r : option resource) : string :=
  append schema (match r with Some r => attr_bytes (r_attrs r) | None => "" end).
(** internal/data/sort.go:67-79, hashScope: what is written after the resource hash. *)
Definition scope_key (schema : string) (s : option scope) : string :=
  append schema (match s with Some s => append (s_name s) (append (s_version s) (attr_bytes (s_attrs s))) | None => "" end).
(** internal/data/sort.go:58-65, hashResource. *)
Definition hash_resource (schema : string) (r : option resource) : N := h (res_key schema r).
(** internal/data/sort.go:67-79, hashScope, with hashNum (52-56). *)
Definition hash_scope (rh : N) (schema : string) (s : option scope) : N := h (append (u64be rh) (scope_key schema s)).
(** internal/data/sort.go:45-50, hashMetrics. *)
Definition hash_metric (sh : N) (name : string) : N := h (append (u64be sh) name).

Section Merge.
(** The three functions CollapseMetrics, CollapseLogs and CollapseTrace differ only in how the items of
    a scope that is already known are added: [ikey] is the metric's name, or None for log records and
    spans, which are appended without looking for an equal one; [imerge old new] adds the data points of
    a metric, None standing for the nil pointer panic when the kinds differ. *)
Context {A : Type} (ikey : A -> option string) (imerge : A -> A -> option A).

(** internal/data/sort.go:14-23, Sorter; [c_out] collects the resources in order of first appearance. *)
Record csort := CSort {
  c_out : list (resource_group A);
  c_res : amap N nat;
  c_ord : amap N nat;
  c_scope : amap N (nat * nat);
  c_item : amap N (nat * nat * nat) }.
(** internal/data/sort.go:35-43, newSorter, or one that was Reset (25-33). *)
Definition csort_new : csort := CSort [] [] [] [] [].

(** internal/data/metrics.go:27-30 and 40-43: registering the items of a scope placed at (ri, si). *)
Fixpoint reg_items (sh : N) (ri si k : nat) (l : list A) (m : amap N (nat * nat * nat)) : amap N (nat * nat * nat) :=
  match l with
  | [] => m
  | a :: t => reg_items sh ri si (S k) t
                (match ikey a with Some name => aset N.eqb (hash_metric sh name) (ri, si, k) m | None => m end)
  end.
(** internal/data/metrics.go:24-31: registering the scopes of a new resource. *)
Fixpoint reg_scopes (rh : N) (ri si : nat) (l : list (scope_group A)) (c : csort) : csort :=
  match l with
  | [] => c
  | s :: t => let sh := hash_scope rh (sg_schema s) (sg_scope s) in
              reg_scopes rh ri (S si) t
                (CSort (c_out c) (c_res c) (c_ord c) (aset N.eqb sh (ri, si) (c_scope c)) (reg_items sh ri si 0 (sg_items s) (c_item c)))
  end.

(** Assignment to a field of a scope of a resource, internal/data/metrics.go:50. *)
Definition on_scope (f : scope_group A -> scope_group A) (si : nat) (g : resource_group A) : resource_group A :=
  RGroup (rg_schema g) (rg_resource g) (upd si f (rg_scopes g)).
(** Assignment to the items of a scope, internal/data/metrics.go:50, internal/data/logs.go:38, internal/data/trace.go:38. *)
Definition on_items (f : list A -> list A) (s : scope_group A) : scope_group A := SGroup (sg_schema s) (sg_scope s) (f (sg_items s)).
(** What the pointer om of internal/data/metrics.go:48 points to. *)
Definition item_at (o : list (resource_group A)) (ri si k : nat) : option A :=
  match nth_error o ri with
  | Some g => match nth_error (rg_scopes g) si with Some s => nth_error (sg_items s) k | None => None end
  | None => None
  end.
(** The index append gives the new item at internal/data/metrics.go:50. *)
Definition scope_len (o : list (resource_group A)) (ri si : nat) : nat :=
  match nth_error o ri with
  | Some g => match nth_error (rg_scopes g) si with Some s => List.length (sg_items s) | None => 0%nat end
  | None => 0%nat
  end.

(** internal/data/metrics.go:47-69 (internal/data/logs.go:38, internal/data/trace.go:38): one item added to the known scope at (rj, sj). *)
Definition add_item (sh : N) (rj sj : nat) (a : A) (c : csort) : option csort :=
  let append_it := upd rj (on_scope (on_items (fun l => l ++ [a])) sj) (c_out c) in
  match ikey a with
  | None => Some (CSort append_it (c_res c) (c_ord c) (c_scope c) (c_item c))
  | Some name =>
      match aget N.eqb (hash_metric sh name) (c_item c) with
      | None => Some (CSort append_it (c_res c) (c_ord c) (c_scope c)
                        (aset N.eqb (hash_metric sh name) (rj, sj, scope_len (c_out c) rj sj) (c_item c)))
      | Some (ri, si, k) =>
          match item_at (c_out c) ri si k with
          | None => None
          | Some om => match imerge om a with
                       | None => None
                       | Some om' => Some (CSort (upd ri (on_scope (on_items (upd k (fun _ => om'))) si) (c_out c))
                                             (c_res c) (c_ord c) (c_scope c) (c_item c))
                       end
          end
      end
  end.
(** internal/data/metrics.go:46-70: the loop over the items of a known scope. *)
Fixpoint add_items (sh : N) (rj sj : nat) (l : list A) (c : csort) : option csort :=
  match l with
  | [] => Some c
  | a :: t => match add_item sh rj sj a c with Some c' => add_items sh rj sj t c' | None => None end
  end.

(** internal/data/metrics.go:35-70: one scope of a resource that is already known at [ri]. *)
Definition add_scope (rh : N) (ri : nat) (s : scope_group A) (c : csort) : option csort :=
  let sh := hash_scope rh (sg_schema s) (sg_scope s) in
  match aget N.eqb sh (c_scope c) with
  | None =>
      let si := match nth_error (c_out c) ri with Some g => List.length (rg_scopes g) | None => 0%nat end in
      Some (CSort (upd ri (fun g => RGroup (rg_schema g) (rg_resource g) (rg_scopes g ++ [s])) (c_out c))
              (c_res c) (c_ord c) (aset N.eqb sh (ri, si) (c_scope c)) (reg_items sh ri si 0 (sg_items s) (c_item c)))
  | Some (rj, sj) => add_items sh rj sj (sg_items s) c
  end.
(** internal/data/metrics.go:34-71: the loop over the scopes of a known resource. *)
Fixpoint add_scopes (rh : N) (ri : nat) (l : list (scope_group A)) (c : csort) : option csort :=
  match l with
  | [] => Some c
  | s :: t => match add_scope rh ri s c with Some c' => add_scopes rh ri t c' | None => None end
  end.

(** internal/data/metrics.go:15-71: one resource. *)
Definition add_resource (g : resource_group A) (c : csort) : option csort :=
  let rh := hash_resource (rg_schema g) (rg_resource g) in
  match aget N.eqb rh (c_res c) with
  | None =>
      let ri := List.length (c_out c) in
      Some (reg_scopes rh ri 0 (rg_scopes g)
              (CSort (c_out c ++ [g]) (aset N.eqb rh ri (c_res c)) (aset N.eqb rh (S ri) (c_ord c)) (c_scope c) (c_item c)))
  | Some ri => add_scopes rh ri (rg_scopes g) c
  end.
(** internal/data/metrics.go:13-73 (internal/data/logs.go:13-41, internal/data/trace.go:13-41): the loops over documents and resources. *)
Fixpoint add_resources (l : list (resource_group A)) (c : csort) : option csort :=
  match l with
  | [] => Some c
  | g :: t => match add_resource g c with Some c' => add_resources t c' | None => None end
  end.

(** internal/data/sort.go:85-112, Sort and Result: [rs] is the key set of [order] in the order the map iteration yields
    it, [id] the permutation of indices sort.Sort arrives at (any that Less accepts as sorted). *)
Definition res_at (c : csort) (hash : N) : option (resource_group A) :=
  match aget N.eqb hash (c_res c) with Some ri => nth_error (c_out c) ri | None => None end.
(** internal/data/sort.go:107, r.order[...]: 0 for a missing key. *)
Definition ord_at (c : csort) (hash : N) : nat := match aget N.eqb hash (c_ord c) with Some i => i | None => 0%nat end.
(** internal/data/sort.go:85-93, Result. *)
Definition sort_result (c : csort) (rs : list N) (id : list nat) : list (option (resource_group A)) :=
  map (fun i => res_at c (nth i rs 0)) id.
(** internal/data/sort.go:95-112, Sort, Less and Swap: [rs] and [id] are a possible outcome. *)
Definition sort_accepts (c : csort) (rs : list N) (id : list nat) : Prop :=
  Permutation (map fst (c_ord c)) rs /\ Permutation (seq 0 (List.length rs)) id /\
  StronglySorted (fun i j => Nat.ltb (ord_at c (nth j rs 0)) (ord_at c (nth i rs 0)) = false) id.

(** internal/data/metrics.go:9-76 CollapseMetrics, internal/data/logs.go:9-44 CollapseLogs, internal/data/trace.go:9-44 CollapseTrace; the sorted result is [c_out] (C53 shows it). *)
Definition collapse_groups (ds : list (list (resource_group A))) : option (list (resource_group A)) :=
  match add_resources (List.concat ds) csort_new with Some c => Some (c_out c) | None => None end.
End Merge.

(** internal/data/metrics.go:54-69: the getters return nil unless the metric holds data of that kind, and writing
    through nil panics.  A metric without data adds nothing. *)
Definition kind_eqb (a b : mkind) : bool :=
  match a, b with
  | KGauge, KGauge | KSum, KSum | KHistogram, KHistogram | KExpHistogram, KExpHistogram | KSummary, KSummary => true
  | _, _ => false
  end.
(** internal/data/metrics.go:54-69. *)
Definition merge_metric (om m : metric) : option metric :=
  match m_data m with
  | None => Some om
  | Some d => match m_data om with
              | Some od => if kind_eqb (md_kind od) (md_kind d)
                           then Some (Metric (m_name om) (m_desc om) (m_unit om)
                                        (Some (MData (md_kind od) (md_temporality od) (md_monotonic od) (md_points od ++ md_points d))))
                           else None
              | None => None
              end
  end.
(** internal/data/metrics.go:9-76. *)
Definition collapse_metrics := collapse_groups (fun m => Some (m_name m)) merge_metric.
(** internal/data/logs.go:9-44. *)
Definition collapse_logs := collapse_groups (A := log_record) (fun _ => None) (fun _ _ => None).
(** internal/data/trace.go:9-44. *)
Definition collapse_traces := collapse_groups (A := span) (fun _ => None) (fun _ _ => None).

(** GetMetrics of proto/rq/v1/scan.proto:83-89 as called at internal/data/data.go:23-52: nil when the payload is of another kind. *)
Definition get_metrics (d : data) := match d with DMetrics l => Some l | _ => None end.
(** GetLogs of proto/rq/v1/scan.proto:83-89 as called at internal/data/data.go:23-52. *)
Definition get_logs (d : data) := match d with DLogs l => Some l | _ => None end.
(** GetTraces of proto/rq/v1/scan.proto:83-89 as called at internal/data/data.go:23-52. *)
Definition get_traces (d : data) := match d with DTraces l => Some l | _ => None end.
(** The loops of internal/data/data.go:23-52 over the payloads; a nil payload panics when its field is read (internal/data/metrics.go:14). *)
Fixpoint all_some {A} (l : list (option A)) : option (list A) :=
  match l with
  | [] => Some []
  | Some a :: t => match all_some t with Some r => Some (a :: r) | None => None end
  | None :: _ => None
  end.

(** internal/data/data.go:10-21, Zero: None is the nil result. *)
Definition zero_data (r : Z) : option data :=
  if Z.eqb r RESOURCE_METRICS then Some (DMetrics [])
  else if Z.eqb r RESOURCE_LOGS then Some (DLogs [])
  else if Z.eqb r RESOURCE_TRACES then Some (DTraces []) else None.

(** internal/data/data.go:23-52, Collapse.  The outer option is None for a panic (ranging over the fields of a nil
    payload, or the kind conflict above), the inner None is the nil result. *)
Definition collapse (ts : list data) : option (option data) :=
  match ts with
  | [] => Some None
  | [d] => Some (Some d)
  | d :: _ =>
      match d with
      | DMetrics _ => match all_some (map get_metrics ts) with
                      | Some o => match collapse_metrics o with Some r => Some (Some (DMetrics r)) | None => None end
                      | None => None end
      | DLogs _ => match all_some (map get_logs ts) with
                   | Some o => match collapse_logs o with Some r => Some (Some (DLogs r)) | None => None end
                   | None => None end
      | DTraces _ => match all_some (map get_traces ts) with
                     | Some o => match collapse_traces o with Some r => Some (Some (DTraces r)) | None => None end
                     | None => None end
      | DNone => Some None
      end
  end.
End Hashes.
