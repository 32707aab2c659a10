(** internal/store/scan.go while a flush is under way.  Scans are answered by the goroutines of the gRPC
    server, SaveSamples runs in the flush loop (internal/service/service.go:77-101); nothing but the transactions of
    the two databases orders them.  A scan makes one badger transaction per label (internal/translate/translate.go:122-135),
    one rbf transaction per shard (internal/shards/shards.go:113-166) and one badger transaction per view
    (internal/dataframe/dataframe.go:101-138); [fd], [ix] and [fm] say what the first, second, ... of each kind sees.
    Simplification: Shards.rows holds the read lock over all shards, so the map of open shards cannot
    change between two of its reads; here each read may see a different one. *)
From Verif.Model Require Import Base Labels View Otlp Transform Batch Rows Shards Dataframe Collapse Store.
From Verif.Spec Require Import Translator.

Section ConcurrentScan.
Context (I : tr_impl).
(** internal/store/scan.go:92-131; compare [compile_loop] in Store.v. *)
Fixpoint compile_loop_at (fails : string -> bool) (fd : nat -> ti_state I) (i : nat) (scope : Z) (fs : list scan_filter) (r : nset) : option nset :=
  match fs with
  | [] => Some r
  | f :: t => match filter_label scope f with
              | None => compile_loop_at fails fd (S i) scope t r
              | Some l => match find_col I fails (fd i) l with
                          | None => None
                          | Some None => Some []
                          | Some (Some c) => compile_loop_at fails fd (S i) scope t (sadd c r)
                          end
              end
  end.
(** internal/store/scan.go:72-91. *)
Definition compile_filters_at (fails : string -> bool) (fd : nat -> ti_state I) (sc : scan) : option nset :=
  match sc_filters sc with
  | [] => match find_col I fails (fd 0%nat) (Label (sc_scope sc) PREFIX_UNKNOWN "" "") with
          | None => None
          | Some None => Some []
          | Some (Some c) => Some [c]
          end
  | fs => compile_loop_at fails fd 0 (sc_scope sc) fs []
  end.
(** internal/shards/shards.go:113-166; compare [rows_loop] in Shards.v. *)
Fixpoint rows_loop_at (ix : nat -> shards) (k : nat) (views : list string) (groups : list (N * list N)) (acc : option nset) : option nset :=
  match groups with
  | [] => acc
  | (g, cols) :: rest =>
      if is_open (ix k) g then
        let b := shard_match (ix k) views g cols in
        if sempty b then rows_loop_at ix (S k) views rest acc
        else match acc with
             | None => rows_loop_at ix (S k) views rest (Some b)
             | Some r => let r' := sinter r b in
                         if sempty r' && negb (sempty r) then Some r' else rows_loop_at ix (S k) views rest (Some r')
             end
      else match acc with Some _ => Some [] | None => None end
  end.
(** internal/dataframe/dataframe.go:81-99; compare [read_views] in Dataframe.v. *)
Fixpoint read_views_at (fault : string -> bool) (fm : nat -> frames) (k : nat) (signal : Z) (rows : nset) (vs : list string) : option (list (option data)) :=
  match vs with
  | [] => Some []
  | v :: t => match read_view fault (fm k) signal rows v with
              | None => None
              | Some a => match read_views_at fault fm (S k) signal rows t with None => None | Some b => Some (a ++ b) end
              end
  end.
(** internal/store/scan.go:20-70; compare [scan_rows] in Store.v. *)
Definition scan_rows_at (fd : nat -> ti_state I) (ix : nat -> shards) (fm : nat -> frames) (e : env) (sc : scan) (order : nset -> list (N * list N)) : scan_rows_out :=
  let '(start, end_) := time_bounds (e_wall e) (sc_times sc) in
  match compile_filters_at (e_find_fails e) fd sc with
  | None => RErr
  | Some columns =>
      if sempty columns then RZero
      else if e_index_fails e then RErr
      else match search start end_ with
      | None => RErr
      | Some vs =>
          match rows_loop_at ix 0 vs (order columns) None with
          | None => RZero
          | Some samples =>
              if sempty samples then RZero
              else
                let samples := match sc_range (sc_times sc) with
                               | None => match smax samples with Some m => [m] | None => samples end
                               | Some _ => samples
                               end in
                if existsb (Z.eqb (sc_scope sc)) [RESOURCE_METRICS; RESOURCE_LOGS; RESOURCE_TRACES]
                then match read_views_at (e_frame_fails e) fm 0 (sc_scope sc) samples vs with
                     | Some rows => RRows rows
                     | None => RRows []
                     end
                else RErr
          end
      end
  end.
End ConcurrentScan.
