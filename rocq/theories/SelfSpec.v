(** Terms for the claims about a collection given to its own methods. *)
From Verif Require Import Base IndexModel IndexSpec.

(** [l'] consists of the second, fourth, sixth … element of [l]. *)
Definition every_second {A} (l l' : list A) : Prop :=
  forall i, nth_error l' i = nth_error l (2 * i + 1).

(** No element is in both. *)
Definition disjoint {A} (l l' : list A) : Prop := forall x, In x l -> In x l' -> False.
