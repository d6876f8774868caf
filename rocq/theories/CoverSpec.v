(** How well a set of points represents the data: the radius within which every point has one of them. *)
From Verif Require Import Base QueryModel QuerySpec.
From Coq Require Import QArith.
Local Open Scope Z_scope.

(** A distance between the first [n] points. *)
Definition metric (n : nat) (dist : nat -> nat -> Q) : Prop :=
  forall p q, (p < n)%nat -> (q < n)%nat -> (0 <= dist p q)%Q /\ (dist p p == 0)%Q /\ (dist p q == dist q p)%Q /\
    forall m, (m < n)%nat -> (dist p q <= dist p m + dist m q)%Q.
(** The training points [x] and [y] are at most [r] apart. *)
Definition within (train : list Z) (dist : nat -> nat -> Q) (r : Q) (x y : Z) : Prop :=
  exists p q, nth_error train p = Some x /\ nth_error train q = Some y /\ (dist p q <= r)%Q.
(** Every training point has one of [C] within [r]. *)
Definition covers (train : list Z) (dist : nat -> nat -> Q) (r : Q) (C : list Z) : Prop :=
  forall x, In x train -> exists c, In c C /\ within train dist r x c.

(** Successive calls on one strategy object, what each returned being labelled before the next: from the labelled set [L] to [L']. *)
Inductive core_rounds (train : list Z) : coreset -> list Z -> coreset -> list Z -> Prop :=
| cr_none s L : core_rounds train s L s L
| cr_call s L U batch s1 got s' L' :
    split_into train L U -> 0 <= batch <= Z.of_nat (length U) -> coreset_select s L U batch = (s1, Ok got) ->
    core_rounds train s1 (L ++ got) s' L' -> core_rounds train s L s' L'.
Definition new_core (train : list Z) (dist : nat -> nat -> Q) : coreset :=
  {| ctrain := train; cdist := dist; min_distances := None; already_selected := [] |}.
