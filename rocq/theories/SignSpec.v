(** What it is for BMDR and SPAL not to depend on the names of the two classes. *)
From Verif Require Import Base MiscModel QueryModel BatchModel.
From Coq Require Import QArith.
Local Open Scope Z_scope.

(** Two labellings that divide the instances alike *)
Definition same_classes (y y' : list Z) : Prop :=
  length y = length y' /\
  forall i j a b a' b', nth_error y i = Some a -> nth_error y j = Some b -> nth_error y' i = Some a' -> nth_error y' j = Some b' ->
    (a = b <-> a' = b').

(** Equal numbers, and numbers of opposite sign, entry by entry *)
Definition equal (l l' : list Q) : Prop := Forall2 (fun a b => b == a)%Q l l'.
Definition opposite (l l' : list Q) : Prop := Forall2 (fun a b => b == - a)%Q l l'.

(** The routines treat opposite vectors alike: the solutions of a linear system are opposite, the stopping test says the same. *)
Definition odd (num : numeric) : Prop :=
  (forall A r r', opposite r r' -> opposite (inv_dot num A r) (inv_dot num A r')) /\
  (forall A r r', opposite r r' -> opposite (pinv_dot num A r) (pinv_dot num A r')) /\
  (forall t t' z z' o o' d d', opposite t t' -> opposite z z' -> opposite o o' -> opposite d d' ->
     converged num t z o d = converged num t' z' o' d') /\
  (forall a b, (a == b)%Q -> (sqrt num a == sqrt num b)%Q).

(** The same program, up to how its numbers are written *)
Definition same_program (p p' : qp) : Prop :=
  qp_P p = qp_P p' /\ equal (qp_q p) (qp_q p') /\
  match qp_sum p, qp_sum p' with Some (w, b), Some (w', b') => equal w w' /\ b = b' | None, None => True | _, _ => False end.
(** The solver and the sorting look at the numbers only. *)
Definition by_value (np : numpy) (s : solver) : Prop :=
  (forall gp p p', same_program p p' -> s gp p = s gp p') /\
  (forall l l', equal l l' -> argsort np l = argsort np l').
