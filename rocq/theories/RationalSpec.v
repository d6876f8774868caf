(** What it means that a way of selecting is consistent between pools and batch sizes; independent of the model. *)
From Verif Require Import Base.
Local Open Scope Z_scope.

(** [choose pool batch]: the instances selected. As many different members of the pool as asked for, or all of them. *)
Definition batches (choose : list Z -> Z -> res (list Z)) : Prop :=
  forall U b, NoDup U -> 0 < b ->
    exists sel, choose U b = Ok sel /\ NoDup sel /\ incl sel U /\ Z.of_nat (length sel) = Z.min b (Z.of_nat (length U)).

(** An instance selected from a pool is selected again from any part [V] of the pool that contains it, with any batch size
    that is smaller by at most the number of the selected instances [D] that were taken away; unless another instance
    selected instead is tied with it. *)
Definition steady (choose : list Z -> Z -> res (list Z)) (tied : Z -> Z -> Prop) : Prop :=
  forall U V b c D sel sel' x,
    NoDup U -> NoDup V -> incl V U -> 0 < b -> 0 < c ->
    choose U b = Ok sel -> choose V c = Ok sel' ->
    NoDup D -> (forall y, In y D -> In y sel /\ ~ In y V) -> b <= c + Z.of_nat (length D) ->
    In x sel -> In x V ->
    In x sel' \/ exists y, In y sel' /\ y <> x /\ tied x y.

Definition consistent (choose : list Z -> Z -> res (list Z)) (tied : Z -> Z -> Prop) : Prop := batches choose /\ steady choose tied.

(** No two instances of the pool are tied. *)
Definition no_ties (tied : Z -> Z -> Prop) (U : list Z) : Prop := forall x y, In x U -> In y U -> x <> y -> ~ tied x y.
