(** What is expected of the stored sample data: flush histories, where rows should be. *)
From Verif.Model Require Import Base Labels View Otlp Transform Dataframe.

(** Ids strictly increase. *)
Definition increasing (l : list sample) : Prop := StronglySorted (fun a b => smp_id a < smp_id b) l.

(** One flush: the samples with their filing times (MinTs), the recycled scratch time, the order in which
    the views are written, and how many of them were written before the flush stopped (crash or error). *)
Record flush := Flush { fl_samples : list (sample * N); fl_pool : quantized_time; fl_order : list (string * list sample); fl_done : nat }.
Definition flush_ok (fl : flush) : Prop :=
  String.length (fl_pool fl) = 10%nat /\ (forall p, In p (fl_samples fl) -> snd p < two64) /\
  exists m, group_samples (fl_pool fl) (fl_samples fl) [] = Some m /\ Permutation m (fl_order fl).
Definition written (fl : flush) : list (string * list sample) := firstn (fl_done fl) (fl_order fl).
Definition run_flushes (fls : list flush) : frames := append_steps [] (flat_map written fls).
Definition all_samples (fls : list flush) : list sample := flat_map (fun fl => map fst (fl_samples fl)) fls.

(** The samples of a flush that belong to a view, in order; whether the view was reached. *)
Definition in_view (v : string) (p : sample * N) : bool := existsb (String.eqb v) (std_views (int64_of_u64 (snd p))).
Definition filed_in (v : string) (l : list (sample * N)) : list sample := map fst (filter (in_view v) l).
Definition reached (v : string) (fl : flush) : bool := existsb (fun g => String.eqb (fst g) v) (written fl).
(** The flushes of a view, oldest first: what reached it. *)
Definition view_history (v : string) (fls : list flush) : list (list sample) :=
  map (fun fl => filed_in v (fl_samples fl)) (filter (reached v) fls).

(** [rows] holds each sample of [all] at its place and blanks elsewhere. *)
Definition layout (rows : list data) (place : sample -> N) (all : list sample) : Prop :=
  (forall s, In s all -> nth_error rows (N.to_nat (place s)) = Some (smp_data s)) /\
  (forall i d, nth_error rows i = Some d -> (exists s, In s all /\ N.of_nat i = place s /\ d = smp_data s) \/
     ((forall s, In s all -> N.of_nat i <> place s) /\ d = DNone)).

(** Where the code puts a sample: at its id, except that the samples of a view's first flush are one row
    too low when the first of them has an id other than 0. *)
Definition row_number (first : N) (in_first_flush : bool) (id : N) : N :=
  if first =? 0 then id else if in_first_flush then id - 1 else id.
Definition first_id (h : list (list sample)) : N := match List.concat h with s :: _ => smp_id s | [] => 0 end.
Definition in_first (h : list (list sample)) (id : N) : bool :=
  match h with ss :: _ => existsb (fun s => smp_id s =? id) ss | [] => false end.
Definition place_in (h : list (list sample)) (s : sample) : N := row_number (first_id h) (in_first h (smp_id s)) (smp_id s).
