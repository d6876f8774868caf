(** What a label hierarchy says about unknown labels, without reference to the model. A parent relation
    [R p c] reads: [p] is the parent of [c]; whoever has label [c] has label [p]. *)
From Coq Require Import List ZArith.
From Verif Require Import CostSpec.
Import ListNotations.
Local Open Scope Z_scope.

(** Ancestor or self. *)
Inductive above (R : nat -> nat -> Prop) : nat -> nat -> Prop :=
| above_self : forall a, above R a a
| above_step : forall a b c, R a b -> above R b c -> above R a c.

(** [n] instances, [C] labels, each 1 or -1. *)
Definition labelling (n C : nat) (y : list (list Z)) : Prop :=
  matrix_of n C y /\ forall i j, (i < n)%nat -> (j < C)%nat -> label_of y i j = 1 \/ label_of y i j = -1.

(** No instance has a label without its parents. *)
Definition consistent (R : nat -> nat -> Prop) (n : nat) (y : list (list Z)) : Prop :=
  forall i p c, (i < n)%nat -> R p c -> label_of y i c = 1 -> label_of y i p = 1.

(** The labels of the known pairs and the hierarchy leave only one possibility for the pair [p]. *)
Definition settled (R : nat -> nat -> Prop) (n C : nat) (known : list (nat * nat)) (y : list (list Z)) (p : nat * nat) : Prop :=
  forall y', labelling n C y' -> consistent R n y' ->
    (forall q, In q known -> label_of y' (fst q) (snd q) = label_of y (fst q) (snd q)) ->
    label_of y' (fst p) (snd p) = label_of y (fst p) (snd p).

(** No label is above itself in a proper way. *)
Definition acyclic (R : nat -> nat -> Prop) : Prop := forall a b, R a b -> ~ above R b a.
