(** What the printed text of attributes and of metrics should look like, said with joined lists. *)
From Verif.Model Require Import Base Quote Render.
From Verif.Spec Require Import Quoting.
Open Scope N_scope.
Local Infix "^^" := append (right associativity, at level 60).

Section Spec.
Context (is_print : N -> bool) (show_double : N -> string).
(** Strings quoted, arrays in brackets, lists of keys in braces, members separated by a comma and a blank. *)
Inductive shown : aval -> string -> Prop :=
| ShStr s t : quoted is_print s t -> shown (VStr s) ("""" ^^ t ^^ """")
| ShTrue : shown (VBool true) "true"
| ShFalse : shown (VBool false) "false"
| ShInt z : shown (VInt z) (show_Z z)
| ShDouble b : shown (VDouble b) (show_double b)
| ShBytes s : shown (VBytes s) (String.concat "" (map (fun c => hexdigits 2 (N_of_ascii c)) (list_ascii_of_string s)))
| ShUnset : shown VUnset ""
| ShArr l ts : Forall2 shown l ts -> shown (VArr l) ("[" ^^ String.concat ", " ts ^^ "]")
| ShKvNone : shown (VKv []) "{}"
| ShKv l ts : l <> [] ->
    Forall2 (fun kv t => exists v x, snd kv = Some v /\ shown v x /\ t = fst kv ^^ " = " ^^ x) l ts ->
    shown (VKv l) ("{ " ^^ String.concat ", " ts ^^ " }").
End Spec.

(** Every key has a value, at every depth. *)
Inductive complete : aval -> Prop :=
| CStr s : complete (VStr s) | CBool b : complete (VBool b) | CInt z : complete (VInt z)
| CDouble b : complete (VDouble b) | CBytes s : complete (VBytes s) | CUnset : complete VUnset
| CArr l : Forall complete l -> complete (VArr l)
| CKv l : Forall (fun kv => exists v, snd kv = Some v /\ complete v) l -> complete (VKv l).

(** Values made of strings, booleans, integers, arrays and nested lists, under keys without blanks. *)
Definition no_blank (k : string) : Prop := ~ In " "%char (list_ascii_of_string k).
Inductive plain : aval -> Prop :=
| PlStr s : plain (VStr s) | PlBool b : plain (VBool b) | PlInt z : plain (VInt z)
| PlArr l : Forall plain l -> plain (VArr l)
| PlKv l : Forall (fun kv => no_blank (fst kv) /\ exists v, snd kv = Some v /\ plain v) l -> plain (VKv l).

(** A column is two blanks wider than its widest cell; a row is its cells, each filled up with blanks to the width
    of its column. [width] is the number of characters of a cell. *)
Definition eol : string := byte 10.
Section Grid.
Context (width : string -> nat).
Definition col_width (cells : list string) : nat := 2 + list_max (map width cells).
Definition filled (w : nat) (c : string) : string := c ^^ string_of_list_ascii (repeat " "%char (w - width c)).
Definition grid3 (rows : list (string * string * string)) : string :=
  let w1 := col_width (map (fun r => fst (fst r)) rows) in
  let w2 := col_width (map (fun r => snd (fst r)) rows) in
  let w3 := col_width (map snd rows) in
  String.concat "" (map (fun r => filled w1 (fst (fst r)) ^^ filled w2 (snd (fst r)) ^^ filled w3 (snd r) ^^ eol) rows).
End Grid.

(** The blocks occur in the text one behind the other. *)
Fixpoint in_order (blocks : list string) (t : string) : Prop :=
  match blocks with [] => True | b :: bs => exists g r, t = g ^^ b ^^ r /\ in_order bs r end.

(** The parts of a document that should be found in its text, in order: a line for every resource (its schema), for
    every scope (its name) and for every metric (its name), and behind the name of a gauge or a sum the table of its
    points. [tx] gives the text of attributes, [tm] of a time, [vl] of a value in a unit, [unit_of] the unit of a metric. *)
Section Doc.
Context (width : string -> nat) (tx : list (string * option aval) -> string) (tm : N -> string)
        (vl : rpoint -> string -> string) (unit_of : rmetric -> string).
Definition row (unit : string) (p : rpoint) : string * string * string := (tm (rp_time p), vl p unit, tx (rp_attrs p)).
Definition points_of (d : rdata) : list rpoint := match d with RGauge l | RSum l | ROther l => l | RNone => [] end.
Definition points_table (m : rmetric) (l : list rpoint) : string :=
  grid3 width (("TIMESTAMP", "VALUE", "ATTRIBUTES") :: map (row (unit_of m)) l).
Definition metric_blocks (m : rmetric) : list string :=
  (rm_name m ^^ eol) :: match rm_data m with RGauge l | RSum l => [points_table m l] | _ => [] end.
Definition scope_blocks (s : rscope) : list string := ("--> " ^^ rs_name s ^^ eol) :: flat_map metric_blocks (rs_metrics s).
Definition resource_blocks (r : rresource) : list string := ("=== " ^^ rr_schema r ^^ eol) :: flat_map scope_blocks (rr_scopes r).

(** The whole text, letter by letter. What the options ask for comes behind the name; neighbours are separated by an
    empty line. *)
Definition metric_info (m : rmetric) : string :=
  let w := S (Nat.max (width (rm_desc m)) (width (unit_of m))) in
  "description  " ^^ filled width w (rm_desc m) ^^ eol ^^ "unit         " ^^ filled width w (unit_of m) ^^ eol.
Definition scope_info (s : rscope) : string :=
  "       scope.name " ^^ rs_name s ^^ eol ^^ "     scope.schema " ^^ rs_schema s ^^ eol ^^
  "    scope.version " ^^ rs_version s ^^ eol ^^ " scope.attributes " ^^ tx (rs_attrs s) ^^ eol.
Definition resource_info (r : rresource) : string :=
  "     resource.schema " ^^ rr_schema r ^^ eol ^^ " resource.attributes " ^^ tx (rr_attrs r) ^^ eol.
Definition metric_text (o : options) (m : rmetric) : string :=
  rm_name m ^^ eol ^^ (if o_metrics o then metric_info m else "") ^^
  match rm_data m with RGauge l | RSum l => points_table m l | _ => "" end.
Definition scope_text (o : options) (s : rscope) : string :=
  "--> " ^^ rs_name s ^^ eol ^^ (if o_scope o then scope_info s else "") ^^ String.concat eol (map (metric_text o) (rs_metrics s)).
Definition resource_text (o : options) (r : rresource) : string :=
  "=== " ^^ rr_schema r ^^ eol ^^ (if o_resource o then resource_info r else "") ^^ String.concat eol (map (scope_text o) (rr_scopes r)).
Definition document (o : options) (l : list rresource) : string := String.concat eol (map (resource_text o) l).
End Doc.

(** The unit of a metric: its own if it has one; nanoseconds if it has none and its description speaks of them;
    otherwise none. *)
Inductive metric_unit (m : rmetric) : string -> Prop :=
| UOwn : rm_unit m <> "" -> metric_unit m (rm_unit m)
| UNano a b : rm_unit m = "" -> rm_desc m = a ^^ "nanoseconds" ^^ b -> metric_unit m "ns"
| UNone : rm_unit m = "" -> (forall a b, rm_desc m <> a ^^ "nanoseconds" ^^ b) -> metric_unit m "".
(** The number of a point, as the bits of a double: an integer is converted, no value counts as 0. *)
Definition point_number (float_of_int : Z -> N) (p : rpoint) : N :=
  match rp_val p with Some (inl i) => float_of_int i | Some (inr b) => b | None => 0 end.

(** No attribute anywhere lacks its value. *)
Definition metric_complete (m : rmetric) : Prop := Forall (fun p => complete (VKv (rp_attrs p))) (points_of (rm_data m)).
Definition scope_complete (s : rscope) : Prop := complete (VKv (rs_attrs s)) /\ Forall metric_complete (rs_metrics s).
Definition resource_complete (r : rresource) : Prop := complete (VKv (rr_attrs r)) /\ Forall scope_complete (rr_scopes r).

(** Two and four decimal digits. *)
Definition d1 (n : Z) : ascii := ascii_of_N (48 + Z.to_N n).
Definition two (n : Z) : string := String (d1 (n / 10)) (String (d1 (n mod 10)) "").
Definition four (n : Z) : string := two (n / 100) ^^ two (n mod 100).
(** The time of day and the date, given a calendar (days since 1970-01-01 to year, month and day). *)
Definition clock_text (cal : Z -> Z * Z * Z) (secs : Z) : string :=
  let '(y, m, d) := cal (secs / 86400)%Z in
  let s := (secs mod 86400)%Z in
  four y ^^ "-" ^^ two m ^^ "-" ^^ two d ^^ " " ^^ two (s / 3600) ^^ ":" ^^ two (s / 60 mod 60) ^^ ":" ^^ two (s mod 60).
