(** What a user expects of [IndexCollection], written without reference to how it works. *)
From Verif Require Import Base IndexModel.
From Verif Require Export SetSpec.
Local Open Scope Z_scope.

(** The mathematical elements of a collection, in order. *)
Definition elems (c : icol) : list key := map norm (cont c).

(** The elementary requests of a call, one per listed element. *)
Definition requests (o : icop) : list (request key) :=
  match o with
  | OAdd v => [Put (norm v)]
  | ODiscard v => [Take (norm v)]
  | OUpdate vs => map (fun v => Put (norm v)) vs
  | ODiff vs => map (fun v => Take (norm v)) vs
  end.

(** The values that a call would insert. *)
Definition inserted (o : icop) : list pyval :=
  match o with OAdd v => [v] | OUpdate vs => vs | _ => [] end.

(** A value is acceptable to a collection: a numpy or native value of the collection's type, or any
    native value of the type [T] fixed by the first insertion. *)
Definition acceptable (c : icol) (T : pyty) (v : pyval) : Prop :=
  match etype c with
  | Some t => t = T /\ key_ty (norm v) = T
  | None => type_of v = T /\ key_ty (norm v) = T
  end.

(** Collections that can arise: constructed in any way, then modified by any calls. *)
Inductive reachable : icol -> Prop :=
| reach_none : reachable (fst (ic_init DNone))
| reach_list : forall l, reachable (fst (ic_init (DList l)))
| reach_copy : forall c, reachable c -> reachable (fst (ic_init (DColl c)))
| reach_step : forall c o, reachable c -> reachable (fst (ic_step c o))
| reach_pop : forall c, reachable c -> reachable (fst (ic_pop c))
| reach_clear : forall c, reachable c -> reachable (ic_clear c).

(** Strict order on elements: integers by value, strings lexicographically. *)
Definition key_lt (a b : key) : Prop := key_compare a b = Lt.

(** What a collection can become by later calls on it. *)
Inductive later (c : icol) : icol -> Prop :=
| later_now : later c c
| later_step : forall c' o, later c c' -> later c (fst (ic_step c' o))
| later_pop : forall c', later c c' -> later c (fst (ic_pop c'))
| later_clear : forall c', later c c' -> later c (ic_clear c').
