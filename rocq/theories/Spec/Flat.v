(** The rows a metrics document should be flattened to: one per data point. *)
From Verif.Model Require Import Base Otlp Flatten.
Open Scope N_scope.

(** One data point with all that surrounds it, and the number shown for it. *)
Record occ := Occ { oc_resource : list key_value; oc_scope : list key_value; oc_metric : fmetric; oc_point : fpoint; oc_number : option N }.

Definition resource_attrs (g : resource_group fmetric) : list key_value := match rg_resource g with Some r => r_attrs r | None => [] end.
Definition scope_attrs (g : scope_group fmetric) : list key_value := match sg_scope g with Some s => s_attrs s | None => [] end.
Definition data_points (d : fdata) : list fpoint := match d with FGauge l | FSum _ _ l | FHist _ l | FExp _ l | FSummary l => l | FNoData => [] end.
Definition numeric_kind (d : fdata) : bool := match d with FGauge _ | FSum _ _ _ => true | _ => false end.

Section Flat.
Context (tr : string -> N) (digest : nset -> N) (float_of_int : Z -> N).
Definition own_number (p : fpoint) : option N := match fp_num p with Some (inl i) => Some (float_of_int i) | Some (inr d) => Some d | None => None end.
(** What each point of a list shows: its own number or else the one shown before it. *)
Fixpoint carry (before : option N) (l : list fpoint) : list (fpoint * option N) :=
  match l with
  | [] => []
  | p :: t => let g := match own_number p with Some x => Some x | None => before end in (p, g) :: carry g t
  end.
Definition numbered (d : fdata) : list (fpoint * option N) :=
  if numeric_kind d then carry None (data_points d) else map (fun p => (p, None)) (data_points d).
(** All points, in the order of the document. *)
Definition occs (l : list (resource_group fmetric)) : list occ :=
  flat_map (fun g => flat_map (fun s => flat_map (fun m =>
    map (fun pg => Occ (resource_attrs g) (scope_attrs s) m (fst pg) (snd pg)) (numbered (fm_data m))) (sg_items s)) (rg_scopes g)) l.

(** The labels of a list of attributes: key=value for every string value. *)
Definition labels_of (kv : list key_value) : list string :=
  flat_map (fun v => match kv_val v with Some (AVString s) => [append (kv_key v) (append "=" s)] | _ => [] end) kv.
(** The columns of a point: its metric's name and its own attributes. *)
Definition columns (o : occ) : nset := sof_list (map tr (append "__name__=" (fm_name (oc_metric o)) :: labels_of (fp_attrs (oc_point o)))).
(** The columns a point should have: also those of its resource and its scope. *)
Definition full_columns (o : occ) : nset :=
  sof_list (map tr (append "__name__=" (fm_name (oc_metric o)) :: labels_of (oc_resource o ++ oc_scope o ++ fp_attrs (oc_point o)))).

Definition row_of (id : N) (o : occ) : frow :=
  let m := oc_metric o in let p := oc_point o in
  {| w_id := id;
     w_kind := match fm_data m with FGauge _ => 0 | FSum _ _ _ => 1 | FHist _ _ => 2 | FExp _ _ => 3 | FSummary _ => 4 | FNoData => 0 end;
     w_name := fm_name m; w_desc := fm_desc m; w_unit := fm_unit m;
     w_start := fp_start p; w_time := fp_time p;
     w_gauge := oc_number o;
     w_hist := match fm_data m with FHist _ _ => Some (fp_body p) | _ => None end;
     w_exp := match fm_data m with FExp _ _ => Some (fp_body p) | _ => None end;
     w_summary := match fm_data m with FSummary _ => Some (fp_body p) | _ => None end;
     w_temporality := match fm_data m with FSum t _ _ | FHist t _ | FExp t _ => t | _ => 0%Z end;
     w_monotonic := match fm_data m with FSum _ mono _ => mono | _ => false end;
     w_exemplars := match fm_data m with FSummary _ => "" | _ => fp_exemplars p end;
     w_attrs := oc_resource o ++ oc_scope o ++ fp_attrs p;
     w_hash := digest (columns o) |}.
(** Rows with consecutive ids. *)
Fixpoint rows_from (id : N) (l : list occ) : list frow :=
  match l with [] => [] | o :: t => row_of id o :: rows_from (id + 1) t end.
End Flat.

(** Every attribute has a value; every number point has a number. *)
Definition attrs_present (kv : list key_value) : Prop := Forall (fun v => kv_val v <> None) kv.
Definition doc_present (l : list (resource_group fmetric)) : Prop :=
  Forall (fun g => attrs_present (resource_attrs g) /\ Forall (fun s => attrs_present (scope_attrs s) /\
    Forall (fun m => Forall (fun p => attrs_present (fp_attrs p)) (data_points (fm_data m))) (sg_items s)) (rg_scopes g)) l.
Definition doc_valued (l : list (resource_group fmetric)) : Prop :=
  Forall (fun g => Forall (fun s => Forall (fun m => numeric_kind (fm_data m) = true -> Forall (fun p => fp_num p <> None) (data_points (fm_data m)))
    (sg_items s)) (rg_scopes g)) l.
