(** What merging results should preserve: every record under its resource and scope. *)
From Verif.Model Require Import Base Otlp.

(** Identity of a resource and of a scope: all fields except the count of dropped attributes; an absent
    resource or scope counts as an empty one. *)
Definition resource_id {A} (g : resource_group A) : string * list key_value :=
  (rg_schema g, match rg_resource g with Some r => r_attrs r | None => [] end).
Definition scope_id {A} (s : scope_group A) : string * (string * string * list key_value) :=
  (sg_schema s, match sg_scope s with Some x => (s_name x, s_version x, s_attrs x) | None => ("", "", []) end).

(** The records of a payload, each with the identity of its resource and scope.  [parts] lists the records
    of an item: the item itself for logs and spans, the data points for metrics. *)
Definition located {A B} (parts : A -> list B) (gs : list (resource_group A)) :=
  flat_map (fun g => flat_map (fun s => flat_map (fun a => map (fun b => (resource_id g, scope_id s, b)) (parts a)) (sg_items s)) (rg_scopes g)) gs.
Definition whole {A} (a : A) : list A := [a].
Definition points_of (m : metric) : list (string * mkind * point) :=
  match m_data m with Some d => map (fun p => (m_name m, md_kind d, p)) (md_points d) | None => [] end.

(** Occurrences in a payload: its resources, scopes and items. *)
Definition has_resource {A} (gs : list (resource_group A)) X : Prop := exists g, In g gs /\ resource_id g = X.
Definition has_scope {A} (gs : list (resource_group A)) X Y : Prop :=
  exists g s, In g gs /\ In s (rg_scopes g) /\ resource_id g = X /\ scope_id s = Y.
Definition has_item {A} (gs : list (resource_group A)) X Y (a : A) : Prop :=
  exists g s, In g gs /\ In s (rg_scopes g) /\ In a (sg_items s) /\ resource_id g = X /\ scope_id s = Y.

(** Data points with everything the metric says about them. *)
Definition meta_of (m : metric) : string * string * option (mkind * Z * bool) :=
  (m_desc m, m_unit m, option_map (fun d => (md_kind d, md_temporality d, md_monotonic d)) (m_data m)).
Definition full_points_of (m : metric) : list (string * (string * string * option (mkind * Z * bool)) * point) :=
  match m_data m with Some d => map (fun p => (m_name m, meta_of m, p)) (md_points d) | None => [] end.

(** The records of a payload of any signal. *)
Inductive record := IPoint (name : string) (kind : mkind) (p : point) | ILog (l : log_record) | ISpan (s : span).
Definition records (d : data) : list (string * list key_value * (string * (string * string * list key_value)) * record) :=
  match d with
  | DMetrics gs => map (fun x => (fst x, IPoint (fst (fst (snd x))) (snd (fst (snd x))) (snd (snd x)))) (located points_of gs)
  | DLogs gs => map (fun x => (fst x, ILog (snd x))) (located whole gs)
  | DTraces gs => map (fun x => (fst x, ISpan (snd x))) (located whole gs)
  | DNone => []
  end.

(** In every scope, metrics of one name hold the same kind of data. *)
Definition one_kind (gs : list (resource_group metric)) : Prop := forall X Y a b, has_item gs X Y a -> has_item gs X Y b -> m_name a = m_name b ->
  option_map md_kind (m_data a) = option_map md_kind (m_data b).
(** ... and say the same about themselves. *)
Definition one_meta (gs : list (resource_group metric)) : Prop := forall X Y a b, has_item gs X Y a -> has_item gs X Y b -> m_name a = m_name b -> meta_of a = meta_of b.
Definition metric_groups (d : data) := match d with DMetrics gs => gs | _ => [] end.
Definition log_groups (d : data) := match d with DLogs gs => gs | _ => [] end.
Definition span_groups (d : data) := match d with DTraces gs => gs | _ => [] end.
