(** What the current writer of arena [i] has written, from the calls alone. *)
From Verif.Model Require Import Base Arena.
Definition writes_to (i : nat) (p : bytes) (o : op) : bytes :=
  match o with
  | ONewWriter j => if Nat.eqb j i then [] else p
  | OWrite j bs _ => if Nat.eqb j i then p ++ bs else p
  | OMarshal j enc _ ok => if Nat.eqb j i then (if ok then enc else []) else p
  | OCompress j _ _ ok chunks zok => if Nat.eqb j i then (if ok && zok then List.concat (map fst chunks) else []) else p
  | ORelease j => if Nat.eqb j i then [] else p
  | ONew _ | OBytes _ => p
  end.
Definition written (i : nat) (l : list op) : bytes := fold_left (writes_to i) l [].
