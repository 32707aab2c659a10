(** What a request would see if it were the only one: its own object, new each time it gets one. *)
From Verif.Model Require Import Base Pool.

Section Alone.
  Context {T op R : Type} (fresh : T) (act : op -> T -> T * list R).
  (** The steps of request [h]. *)
  Definition mine (h : nat) (e : event op) : bool :=
    match e with ENew i _ => Nat.eqb i h | EUse i _ => Nat.eqb i h | ERelease i => Nat.eqb i h | EForget _ => false end.
  (** What its methods return, [t] being the object it holds. *)
  Fixpoint alone (t : option T) (l : list (event op)) : list R :=
    match l with
    | [] => []
    | ENew _ _ :: l => alone (Some fresh) l
    | EUse _ o :: l => match t with Some t => let '(t', r) := act o t in r ++ alone (Some t') l | None => [] end
    | ERelease _ :: l => alone None l
    | EForget _ :: l => alone t l
    end.
  (** Requests get an object before they use and release it, and do not get a second one before that. *)
  Fixpoint orderly (holds : bool) (l : list (event op)) : Prop :=
    match l with
    | [] => True
    | ENew _ _ :: l => holds = false /\ orderly true l
    | EUse _ _ :: l => holds = true /\ orderly true l
    | ERelease _ :: l => holds = true /\ orderly false l
    | EForget _ :: l => orderly holds l
    end.
End Alone.
(** What the methods returned to request [h]. *)
Definition results_of {R} (h : nat) (log : list (nat * R)) : list R := map snd (filter (fun p => Nat.eqb (fst p) h) log).

(** Requests sharing a pool of such objects never notice: in every interleaving in which each request is orderly,
    every call succeeds and returns what it would return if the request were the only one. *)
Definition isolated {T op R} (fresh : T) (act : op -> T -> T * list R) (clean : T -> T) : Prop :=
  forall l, (forall h, orderly false (filter (mine h) l)) ->
  exists w, run fresh act clean start l = Some w /\ forall h, results_of h (w_log w) = alone fresh act None (filter (mine h) l).
(** The same for some of the results: those that [vis] shows. *)
Definition isolated_up_to {T op R S} (vis : R -> list S) (fresh : T) (act : op -> T -> T * list R) (clean : T -> T) : Prop :=
  forall l, (forall h, orderly false (filter (mine h) l)) ->
  exists w, run fresh act clean start l = Some w /\ forall h, flat_map vis (results_of h (w_log w)) = flat_map vis (alone fresh act None (filter (mine h) l)).

(** The same when no request ever does certain things. *)
Definition isolated_without {T op R} (never : op -> Prop) (fresh : T) (act : op -> T -> T * list R) (clean : T -> T) : Prop :=
  forall l, (forall h, orderly false (filter (mine h) l)) -> (forall h o, In (EUse h o) l -> ~ never o) ->
  exists w, run fresh act clean start l = Some w /\ forall h, results_of h (w_log w) = alone fresh act None (filter (mine h) l).
