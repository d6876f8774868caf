(** What the graph should be, written without reference to the model's functions. *)
From Verif Require Import Base MiscModel MiscSpec QueryModel GraphModel.
From Coq Require Import QArith.
Local Open Scope Z_scope.

(** [near i] are [k] different other points. *)
Definition neighbours_ok (n k : nat) (near : nat -> list nat) : Prop :=
  forall i, (i < n)%nat -> NoDup (near i) /\ length (near i) = k /\ forall j, In j (near i) -> (j < n)%nat /\ j <> i.
(** One is among the nearest of the other. *)
Definition linked (near : nat -> list nat) (i j : nat) : Prop := In j (near i) \/ In i (near j).
(** The weight of a link. *)
Definition weight (x : points) (i j : nat) : Q := expo x (- (dist x i j * gamma x)).
(** The contract of a metric and of the exponential. *)
Definition measured (x : points) : Prop :=
  (forall i j, dist x i j == dist x j i)%Q /\ (forall i j, 0 <= dist x i j)%Q /\ (0 < gamma x)%Q /\
  (forall a b, a == b -> expo x a == expo x b)%Q /\ (forall a, 0 < expo x a)%Q /\ (forall a, a <= 0 -> expo x a <= 1)%Q.
