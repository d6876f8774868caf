(** What it means that two ways of selecting agree, up to ties; independent of the model. *)
From Verif Require Import Base.
From Coq Require Import Permutation QArith.
Local Open Scope Z_scope.

(** From the same pool, listed in any order, both select as many instances, and whatever is selected by one only is tied with
    something selected by the other only. *)
Definition swapped (tied : Z -> Z -> Prop) (sel sel' : list Z) : Prop :=
  forall x, In x sel -> ~ In x sel' -> exists y, In y sel' /\ ~ In y sel /\ tied x y.
Definition interchangeable (choose choose' : list Z -> Z -> res (list Z)) (tied : Z -> Z -> Prop) : Prop :=
  forall U U' b, NoDup U -> Permutation U U' -> 0 < b ->
    exists sel sel', choose U b = Ok sel /\ choose' U' b = Ok sel' /\ length sel = length sel' /\
      swapped tied sel sel' /\ swapped tied sel' sel.

(** [row'] holds the numbers of [row] with the classes listed in the order [order]. *)
Definition listed (order : list nat) (row : list Q) : list Q := map (fun j => nth j row 0%Q) order.
(** Different names stay different. *)
Definition renames (f : Z -> Z) (votes : list Z) : Prop := forall u v, In u votes -> In v votes -> f u = f v -> u = v.
