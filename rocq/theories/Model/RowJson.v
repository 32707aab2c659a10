(** internal/rows/row.go:557-567, Row.MarshalJSON, and under it encoding/json of Go 1.22 (json.Marshal with HTML
    escaping on) for a list of uint64 and a list of strings. *)
From Verif.Model Require Import Base Rows RowTable Quote.
Open Scope N_scope.

(** External, encoding/json htmlSafeSet (called at internal/rows/row.go:566): bytes below 128 that are copied. *)
Definition html_safe (b : N) : bool :=
  within 32 127 b && negb ((b =? 34) || (b =? 38) || (b =? 60) || (b =? 62) || (b =? 92)).
(** External, encoding/json appendString (called at internal/rows/row.go:566): one turn of the loop. *)
Definition json_piece (p : piece) : string :=
  match p with
  | PRune r =>
      if r <? 128 then
        if html_safe r then String (chr r) ""
        else if (r =? 92) || (r =? 34) then String backslash (String (chr r) "")
        else if r =? 8 then String backslash "b"
        else if r =? 12 then String backslash "f"
        else if r =? 10 then String backslash "n"
        else if r =? 13 then String backslash "r"
        else if r =? 9 then String backslash "t"
        else String backslash (append "u00" (hex2 r))
      else if (r =? 8232) || (r =? 8233) then String backslash (append "u202" (String (lowerhex (N.land r 15)) ""))
      else encode r
  | PBad _ => String backslash "ufffd"
  end.
(** External, encoding/json appendString (called at internal/rows/row.go:566): the loop; every turn takes at least one byte. *)
Fixpoint json_body (fuel : nat) (s : string) : string :=
  match fuel, s with
  | S f, String c t => let '(p, t') := decode (N_of_ascii c) t in append (json_piece p) (json_body f t')
  | _, _ => ""
  end.
(** External, encoding/json appendString (called at internal/rows/row.go:566). *)
Definition json_string (s : string) : string :=
  String dquote (append (json_body (String.length s) s) (String dquote "")).
(** External, encoding/json arrayEncoder.encode (called at internal/rows/row.go:566): the elements with commas between them. *)
Fixpoint json_elems (l : list string) : string :=
  match l with
  | [] => ""
  | [x] => x
  | x :: t => append x (String "," (json_elems t))
  end.
(** External, encoding/json sliceEncoder.encode of a slice that is not nil (called at internal/rows/row.go:566). *)
Definition json_array (l : list string) : string := append "[" (append (json_elems l) "]").
(** internal/rows/row.go:557-567, MarshalJSON: the columns always, the keys unless there are none (omitempty). A nil row
    (None) crashes where its keys are read (564), after Columns answered nil. *)
Definition row_json (r : option full_row) : option string :=
  match r with
  | None => None
  | Some r =>
      Some (append "{""columns"":" (append (json_array (map show_N (row_columns (fr_segments r))))
        (append (match fr_keys r with [] => "" | ks => append ",""keys"":" (json_array (map json_string ks)) end) "}")))
  end.
