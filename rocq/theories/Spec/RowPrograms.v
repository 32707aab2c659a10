(** Programs over rows of columns, as a caller of internal/rows sees them: rows are numbered in the order they are
    made; a call makes a new row, changes one in place, or forgets one.  What the rows mean is given by plain sets. *)
From Coq Require Import NArith List Arith Sorted.
Import ListNotations.
Open Scope N_scope.

Inductive call :=
| CNew (cols : list N)                    (* NewRow(cols...) *)
| CBitmap (cols : list N)                 (* NewRowFromBitmap of a bitmap of these columns *)
| CSegment (shard : N) (cols : list N)    (* a row of one segment, as the shards package makes it *)
| CSet (x : nat) (i : N)                  (* x.SetBit(i) *)
| CMerge (x y : nat)                      (* x.Merge(y) *)
| CIntersect (x y : nat)                  (* x.Intersect(y), a new row *)
| CUnion (x : nat) (ys : list nat)        (* x.Union(ys...), a new row *)
| CDifference (x : nat) (ys : list nat)   (* x.Difference(ys...), a new row *)
| CXor (x y : nat)                        (* x.Xor(y), a new row *)
| CClone (x : nat)                        (* x.Clone(), a new row *)
| CFreeze (x : nat)                       (* x.Freeze() *)
| CDrop (x : nat).                        (* x is not used any more *)

(** Rows as plain sets; a dropped row has none. *)
Definition sets := list (option (N -> Prop)).
Definition set_at (x : nat) (s : sets) : option (N -> Prop) :=
  match nth_error s x with Some o => o | None => None end.
Fixpoint all_at (xs : list nat) (s : sets) : option (list (N -> Prop)) :=
  match xs with
  | [] => Some []
  | x :: t => match set_at x s, all_at t s with Some p, Some ps => Some (p :: ps) | _, _ => None end
  end.
Fixpoint put {A} (x : nat) (v : A) (l : list A) : list A :=
  match x, l with
  | _, [] => []
  | O, _ :: t => v :: t
  | S n, h :: t => h :: put n v t
  end.

(** What a call does to the sets: None when it uses a row that does not exist. *)
Definition meaning (c : call) (s : sets) : option sets :=
  match c with
  | CNew cols | CBitmap cols | CSegment _ cols => Some (s ++ [Some (fun v => In v cols)])
  | CSet x i => match set_at x s with Some p => Some (put x (Some (fun v => v = i \/ p v)) s) | None => None end
  | CMerge x y => match set_at x s, set_at y s with
      | Some p, Some q => Some (put x (Some (fun v => p v \/ q v)) s) | _, _ => None end
  | CIntersect x y => match set_at x s, set_at y s with
      | Some p, Some q => Some (s ++ [Some (fun v => p v /\ q v)]) | _, _ => None end
  | CUnion x ys => match set_at x s, all_at ys s with
      | Some p, Some qs => Some (s ++ [Some (fun v => p v \/ exists q, In q qs /\ q v)]) | _, _ => None end
  | CDifference x ys => match set_at x s, all_at ys s with
      | Some p, Some qs => Some (s ++ [Some (fun v => p v /\ forall q, In q qs -> ~ q v)]) | _, _ => None end
  | CXor x y => match set_at x s, set_at y s with
      | Some p, Some q => Some (s ++ [Some (fun v => (p v /\ ~ q v) \/ (q v /\ ~ p v))]) | _, _ => None end
  | CClone x => match set_at x s with Some p => Some (s ++ [Some p]) | None => None end
  | CFreeze x => match set_at x s with Some p => Some s | None => None end
  | CDrop x => match set_at x s with Some p => Some (put x None s) | None => None end
  end.
Fixpoint meanings (cs : list call) (s : sets) : option sets :=
  match cs with
  | [] => Some s
  | c :: t => match meaning c s with Some s' => meanings t s' | None => None end
  end.

(** The columns a call may be given: a bitmap's columns are listed in order and lie below the last shard, a segment's
    columns lie in its shard. *)
Definition sensible (c : call) : Prop :=
  match c with
  | CBitmap cols => StronglySorted N.lt cols /\ forall v, In v cols -> v < 2^64 - 2^20
  | CSegment k cols => StronglySorted N.lt cols /\ forall v, In v cols -> v / 2^20 = k
  | _ => True
  end.

(** Which rows may still share parts.  A union or a symmetric difference shares with its operands and with everything
    they share with; a difference with its left operand only; merging y into x makes x share with y.  An
    intersection, a clone and a row made from columns share with nothing. *)
Record sharing := Sharing { s_next : nat; s_dropped : list nat; s_pairs : list (nat * nat) }.
Definition partners (x : nat) (l : list (nat * nat)) : list nat :=
  flat_map (fun '(a, b) => (if Nat.eqb a x then [b] else []) ++ (if Nat.eqb b x then [a] else [])) l.
Definition from (n : nat) (xs : list nat) (l : list (nat * nat)) : list (nat * nat) :=
  flat_map (fun x => (n, x) :: map (fun z => (n, z)) (partners x l)) xs.
Definition track (c : call) (k : sharing) : sharing :=
  match c with
  | CNew _ | CBitmap _ | CSegment _ _ | CIntersect _ _ | CClone _ => Sharing (S (s_next k)) (s_dropped k) (s_pairs k)
  | CUnion x ys => Sharing (S (s_next k)) (s_dropped k) (from (s_next k) (x :: ys) (s_pairs k) ++ s_pairs k)
  | CXor x y => Sharing (S (s_next k)) (s_dropped k) (from (s_next k) [x; y] (s_pairs k) ++ s_pairs k)
  | CDifference x _ => Sharing (S (s_next k)) (s_dropped k) (from (s_next k) [x] (s_pairs k) ++ s_pairs k)
  | CMerge x y => Sharing (s_next k) (s_dropped k) (from x [y] (s_pairs k) ++ s_pairs k)
  | CDrop x => Sharing (s_next k) (x :: s_dropped k) (s_pairs k)
  | CSet _ _ | CFreeze _ => k
  end.
(** A row is changed in place only while no other row in use may share parts with it. *)
Definition allowed (c : call) (k : sharing) : Prop :=
  match c with
  | CSet x _ | CMerge x _ => forall z, In z (partners x (s_pairs k)) -> z = x \/ In z (s_dropped k)
  | _ => True
  end.
Fixpoint careful_from (cs : list call) (k : sharing) : Prop :=
  match cs with
  | [] => True
  | c :: t => sensible c /\ allowed c k /\ careful_from t (track c k)
  end.
Definition careful (cs : list call) : Prop := careful_from cs (Sharing 0 [] []).
Definition all_sensible (cs : list call) : Prop := Forall sensible cs.
