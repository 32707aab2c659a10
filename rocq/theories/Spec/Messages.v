(** Which trees are protobuf messages of a given type, in the canonical form in which two messages are
    equal iff proto.Equal says so. *)
From Verif.Model Require Import Base Arrow.

Definition in_range (k : scalar_kind) (s : scalar) : Prop :=
  match k, s with
  | SString, ScStr _ => True
  | SEnum, ScNum z | SInt32, ScNum z => (- 2 ^ 31 <= z < 2 ^ 31)%Z
  | SUint32, ScNum z => (0 <= z < 2 ^ 32)%Z
  | SInt64, ScNum z => (- 2 ^ 63 <= z < 2 ^ 63)%Z
  | SUint64, ScNum z | SDouble, ScNum z => (0 <= z < 2 ^ 64)%Z (* a double by its bits *)
  | SFloat, ScNum z => (0 <= z < 2 ^ 32)%Z
  | SBool, ScNum z => z = 0%Z \/ z = 1%Z
  | _, _ => False
  end.
Section Messages.
  Variable any : Type.
  (** Which AnyValue trees can be written at all: those all of whose strings are UTF-8. *)
  Variable writable : any -> Prop.
  (** Without presence, a field holding its default value is an unset field. *)
  Definition not_default (k : kind) (v : value any) : Prop :=
    match k, v with
    | KScalar SString, VScalar s => s <> ScStr ""
    | KScalar _, VScalar s => s <> ScNum 0
    | KBytes, VBytes b => b <> ""%string
    | _, _ => True
    end.
  Definition is_field (is_list presence : bool) (k : kind) (is_value : value any -> Prop) (fv : fval any) : Prop :=
    match is_list, fv with
    | true, FList l => Forall is_value l
    | false, FSingle None => True
    | false, FSingle (Some v) => is_value v /\ (presence = false -> not_default k v)
    | _, _ => False
    end.
  Fixpoint is_value (k : kind) (v : value any) : Prop :=
    match k, v with
    | KScalar sk, VScalar s => in_range sk s
    | KBytes, VBytes _ => True
    | KAny, VAny a => writable a
    | KMsg fs, VMsg l =>
        (fix go (fs : list field) (l : list (fval any)) : Prop :=
           match fs, l with
           | [], [] => True
           | Field is_list presence k :: fs, fv :: l => is_field is_list presence k (is_value k) fv /\ go fs l
           | _, _ => False
           end) fs l
    | _, _ => False
    end.
  Definition is_message (fs : list field) (m : list (fval any)) : Prop := is_value (KMsg fs) (VMsg m).
End Messages.

(** A field that is [n] messages below the type. *)
Inductive nested : kind -> nat -> Prop :=
| nested_here k : nested k 0
| nested_below l p k fs n : In (Field l p k) fs -> nested k n -> nested (KMsg fs) (S n).
