(** internal/arrow3: protobuf messages to Arrow columns and back (internal/arrow3/node.go, internal/arrow3/arrow3.go).
    Arrow builders and arrays (apache/arrow/go v17, external) are columns here; Parquet files are not
    modelled: a file gives back the columns that were written to it. *)
From Verif.Model Require Import Base.

(** google.golang.org/protobuf reflection: kinds, fields and messages.  [f_presence] is
    field.ContainingOneof() != nil: members of a oneof, and proto3 "optional" fields.
    Simplification: a field is identified by its position, not by its name (names are distinct within a
    message, so node.hash finds exactly that child); map fields are refused by the code and left out. *)
(** internal/arrow3/node.go:380-500, the cases of baseType that are not bytes. *)
Inductive scalar_kind := SEnum | SBool | SInt32 | SUint32 | SInt64 | SUint64 | SDouble | SFloat | SString.
(** protoreflect.Value of a scalar field (external), as used in internal/arrow3/node.go:379-523. *)
Inductive scalar := ScNum (z : Z) | ScStr (s : string).
(** internal/arrow3/node.go:186-195, 254-264: what createNode makes of a field descriptor. *)
Inductive kind := KScalar (k : scalar_kind) | KBytes | KAny | KMsg (fs : list field)
(* internal/arrow3/node.go:168, the descriptor of a field: IsList, ContainingOneof, kind. *)
with field := Field (f_list f_presence : bool) (f_kind : kind).

Section Arrow.
  (** common/v1 AnyValue is a recursive message: it is stored as its wire encoding.  [marshal] fails on
      strings that are not UTF-8. *)
  Variable any : Type.
  Variable marshal : any -> option string.
  Variable unmarshal : string -> any.

  (** Messages (protoreflect.Message, external; read at internal/arrow3/node.go:276-281).  A singular field is [FSingle None] when Has is false; a list is never "unset but there". *)
  Inductive value := VScalar (s : scalar) | VBytes (b : string) | VAny (a : any) | VMsg (l : list fval)
  (* The value of a field as Get and Has give it (internal/arrow3/node.go:279, 375). *)
  with fval := FSingle (v : option value) | FList (l : list value).

  (** Arrow builders and arrays (external, apache/arrow; internal/arrow3/node.go:153-159).  A list column has, per row, a validity bit and the length of the child column when the row was begun. *)
  Inductive col :=
  | ColScalar (l : list (option scalar)) | ColBytes (l : list (option string))
  | ColList (starts : list (bool * nat)) (child : col) | ColStruct (valid : list bool) (children : list col).
  (** External, Builder.Len (used by NewRecord, internal/arrow3/node.go:165-167). *)
  Definition col_len (c : col) : nat :=
    match c with ColScalar l => List.length l | ColBytes l => List.length l | ColList l _ => List.length l | ColStruct l _ => List.length l end.

  (** internal/arrow3/node.go:153-159, message.build: array builders, fresh, of the types set at 194-195, 264, 326-327, 380-548. *)
  Fixpoint new_col (k : kind) : col :=
    match k with
    | KScalar _ => ColScalar []
    | KBytes | KAny => ColBytes []
    | KMsg fs => ColStruct [] ((fix go fs := match fs with [] => [] | Field l _ k :: t => (if l then ColList [] (new_col k) else new_col k) :: go t end) fs)
    end.
  (** internal/arrow3/node.go:326-327 and 524-547: lists of elements. *)
  Definition new_field (f : field) : col := let '(Field l _ k) := f in if l then ColList [] (new_col k) else new_col k.

  (** internal/arrow3/node.go:21-23. *)
  Definition max_depth : nat := 10.
  (** internal/arrow3/node.go:169-171 and 259: createNode panics on fields nested [maxDepth] deep. *)
  Fixpoint fits (k : kind) (left : nat) : bool :=
    match left with
    | O => false
    | S n => match k with
             | KMsg fs => (fix go fs := match fs with [] => true | Field _ _ k :: t => fits k n && go t end) fs
             | _ => true
             end
    end.
  (** internal/arrow3/node.go:97-110 (build) and internal/arrow3/arrow3.go:19-38 (New, which turns the panic into an error). *)
  Definition new_schema (fs : list field) : option (list col) :=
    if forallb (fun f => let '(Field _ _ k) := f in fits k max_depth) fs then Some (map new_field fs) else None.

  (** External, Builder.AppendNull (called at internal/arrow3/node.go:201, 238, 274, 334, 356, 506, 532, 556); a struct builder appends a null to every child. *)
  Fixpoint append_null (c : col) : col :=
    match c with
    | ColScalar l => ColScalar (l ++ [None])
    | ColBytes l => ColBytes (l ++ [None])
    | ColList starts child => ColList (starts ++ [(false, col_len child)]) child
    | ColStruct valid children => ColStruct (valid ++ [false]) (map append_null children)
    end.

  (** Go conversion int32(v) (internal/arrow3/node.go:387, 416). *)
  Definition wrap_s (w : Z) (z : Z) : Z := (let r := z mod 2 ^ w in if r <? 2 ^ (w - 1) then r else r - 2 ^ w)%Z.
  (** internal/arrow3/node.go:381-500: int32(v), uint32(v); the rest store the value as it is.  Floats are their bits. *)
  Definition conv (k : scalar_kind) (s : scalar) : scalar :=
    match k, s with
    | SEnum, ScNum z | SInt32, ScNum z => ScNum (wrap_s 32 z)
    | SUint32, ScNum z => ScNum (z mod 2 ^ 32)
    | _, _ => s
    end.
  (** External, protoreflect: Message.Get of an unset scalar (internal/arrow3/node.go:279, 375). *)
  Definition default_scalar (k : scalar_kind) : scalar := match k with SString => ScStr "" | _ => ScNum 0 end.

  (** The Append of the scalar builders (internal/arrow3/node.go:384-490). *)
  Definition push_scalar (s : option scalar) (c : col) : col := match c with ColScalar l => ColScalar (l ++ [s]) | _ => c end.
  (** The Append of the binary builder (internal/arrow3/node.go:208, 509). *)
  Definition push_bytes (b : option string) (c : col) : col := match c with ColBytes l => ColBytes (l ++ [b]) | _ => c end.

  (** internal/arrow3/node.go:241-247, 337-343, 535-541: appending elements until one fails. *)
  Fixpoint append_all (av : value -> col -> col * bool) (l : list value) (c : col) : col * bool :=
    match l with
    | [] => (c, true)
    | v :: t => let '(c', ok) := av v c in if ok then append_all av t c' else (c', false)
    end.
  (** One field; [av] appends one element.  Lists: internal/arrow3/node.go:230-252, 326-349, 524-548 (an empty list is not
      Has); presence: 350-362, 549-563; a scalar without presence that is not set is appended as its default. *)
  Definition write_cell (is_list presence : bool) (k : kind) (av : value -> col -> col * bool) (fv : fval) (c : col) : col * bool :=
    if is_list then
      match fv, c with
      | FList (x :: xs), ColList starts child =>
          let '(child', ok) := append_all av (x :: xs) child in
          (ColList (starts ++ [(true, col_len child)]) child', ok)
      | _, _ => (append_null c, true)
      end
    else
      match fv with
      | FSingle (Some v) => av v c
      | _ => match k with
             | KScalar sk => if presence then (append_null c, true) else (push_scalar (Some (conv sk (default_scalar sk))) c, true)
             | _ => (append_null c, true)
             end
      end.
  (** node.setup of an element (internal/arrow3/node.go:197-212 AnyValue, 266-288 message, 380-523 baseType) with
      set = true.  The flag is false when an error was returned; nothing is undone then. *)
  Fixpoint append_value (k : kind) (v : value) (c : col) {struct k} : col * bool :=
    match k, v with
    | KScalar sk, VScalar s => (push_scalar (Some (conv sk s)) c, true)
    | KBytes, VBytes b => (push_bytes (Some b) c, true)
    | KAny, VAny a => match marshal a with Some bs => (push_bytes (Some bs) c, true) | None => (c, false) end
    | KMsg fs, VMsg l =>
        match c with
        | ColStruct valid children =>
            let '(children, ok) :=
              (fix go (fs : list field) (l : list fval) (cs : list col) {struct fs} : list col * bool :=
                 match fs, l, cs with
                 | Field is_list presence k :: fs, fv :: l, c :: cs =>
                     let '(c', ok) := write_cell is_list presence k (append_value k) fv c in
                     if ok then let '(cs', ok') := go fs l cs in (c' :: cs', ok') else (c' :: cs, false)
                 | _, _, _ => (cs, true)
                 end) fs l children in
            (ColStruct (valid ++ [true]) children, ok)
        | _ => (c, true)
        end
    | _, _ => (c, true)
    end.

  (** internal/arrow3/node.go:372-377, WriteMessage (Schema.Append): every field is written and errors are ignored. *)
  Fixpoint write_message (fs : list field) (l : list fval) (cs : list col) : list col :=
    match fs, l, cs with
    | Field is_list presence k :: fs, fv :: l, c :: cs => fst (write_cell is_list presence k (append_value k) fv c) :: write_message fs l cs
    | _, _, _ => cs
    end.

  (** External, Builder.NewArray (called by NewRecord, internal/arrow3/node.go:165-167): a struct array slices its children to its own length, which panics when a child is shorter. *)
  Fixpoint array_ok (c : col) : bool :=
    match c with
    | ColScalar _ | ColBytes _ => true
    | ColList _ child => array_ok child
    | ColStruct valid children => forallb (fun ch => Nat.leb (List.length valid) (col_len ch) && array_ok ch) children
    end.
  (** internal/arrow3/node.go:165-167, RecordBuilder.NewRecord (external): panics unless all columns have the same length. *)
  Definition new_record (cs : list col) : option (list col) :=
    match cs with
    | [] => Some []
    | c :: _ => if forallb (fun ch => Nat.eqb (col_len ch) (col_len c) && array_ok ch) cs then Some cs else None
    end.

  (** External, Array.IsNull (called at internal/arrow3/node.go:60, 300). *)
  Definition is_null (c : col) (row : nat) : bool :=
    match c with
    | ColScalar l => match nth row l None with None => true | _ => false end
    | ColBytes l => match nth row l None with None => true | _ => false end
    | ColList l _ => negb (fst (nth row l (false, O)))
    | ColStruct l _ => negb (nth row l false)
    end.
  (** External, List.ValueOffsets (called at internal/arrow3/node.go:67, 306). *)
  Definition offsets (starts : list (bool * nat)) (child : col) (row : nat) : nat * nat :=
    (snd (nth row starts (false, O)), snd (nth (S row) starts (false, col_len child))).
  (** Equality of scalars, for the external Message.Set (internal/arrow3/node.go:86, 321). *)
  Definition scalar_eqb (a b : scalar) : bool :=
    match a, b with ScNum x, ScNum y => Z.eqb x y | ScStr x, ScStr y => String.eqb x y | _, _ => false end.
  (** External, protoreflect Message.Set of a singular field (internal/arrow3/node.go:86, 321): without presence the default value is the unset field. *)
  Definition set_single (presence : bool) (k : kind) (v : value) : fval :=
    if presence then FSingle (Some v)
    else match k, v with
         | KScalar sk, VScalar s => if scalar_eqb s (default_scalar sk) then FSingle None else FSingle (Some v)
         | KBytes, VBytes b => if String.eqb b "" then FSingle None else FSingle (Some v)
         | _, _ => FSingle (Some v)
         end.
  (** The loops over a list's elements, internal/arrow3/node.go:72-80 and 311-315, which a panic ends. *)
  Definition map_opt {A B} (f : A -> option B) : list A -> option (list B) :=
    fix go l := match l with [] => Some [] | x :: t => match f x, go t with Some y, Some ys => Some (y :: ys) | _, _ => None end end.

  (** One field of a message at a row; [rv] reads one element (internal/arrow3/node.go:54-90 and 293-323).  None: a panic. *)
  Definition read_cell (is_list presence : bool) (k : kind) (rv : col -> nat -> option value) (c : col) (row : nat) : option fval :=
    if is_null c row then Some (if is_list then FList [] else FSingle None)
    else if is_list then
      match c with
      | ColList starts child =>
          let '(s, e) := offsets starts child row in
          match map_opt (rv child) (seq s (e - s)) with Some l => Some (FList l) | None => None end
      | _ => None
      end
    else match rv c row with Some v => Some (set_single presence k v) | None => None end.
  (** node.encode at a row that is not null (internal/arrow3/node.go:213-228, 289-325, 380-523). *)
  Fixpoint read_value (k : kind) (c : col) (row : nat) {struct k} : option value :=
    match k, c with
    | KScalar _, ColScalar l => match nth_error l row with Some (Some s) => Some (VScalar s) | _ => None end
    | KBytes, ColBytes l => match nth_error l row with Some (Some b) => Some (VBytes b) | _ => None end
    | KAny, ColBytes l => match nth_error l row with Some (Some b) => Some (VAny (unmarshal b)) | _ => None end
    | KMsg fs, ColStruct _ children =>
        match (fix go (fs : list field) (cs : list col) {struct fs} : option (list fval) :=
           match fs, cs with
           | Field is_list presence k :: fs, c :: cs =>
               match read_cell is_list presence k (read_value k) c row, go fs cs with Some y, Some ys => Some (y :: ys) | _, _ => None end
           | [], [] => Some []
           | _, _ => None
           end) fs children with Some l => Some (VMsg l) | None => None end
    | _, _ => None
    end.
  (** internal/arrow3/node.go:42-95, unmarshal (Schema.Proto), one row of a record. *)
  Fixpoint read_message (fs : list field) (cs : list col) (row : nat) : option (list fval) :=
    match fs, cs with
    | Field is_list presence k :: fs, c :: cs =>
        match read_cell is_list presence k (read_value k) c row, read_message fs cs row with Some y, Some ys => Some (y :: ys) | _, _ => None end
    | [], [] => Some []
    | _, _ => None
    end.
End Arrow.
Arguments VScalar {any}. Arguments VBytes {any}. Arguments VAny {any}. Arguments VMsg {any}. Arguments FSingle {any}. Arguments FList {any}.
