(** Distances measured in two ways that order them alike. *)
From Verif Require Import Base QueryModel.
From Coq Require Import QArith.
Local Open Scope Z_scope.

(** [f] makes other distances out of distances and keeps their order, as squaring does. *)
Definition same_order (f : Q -> Q) : Prop :=
  (forall x, 0 <= x -> 0 <= f x)%Q /\ (forall x y, 0 <= x -> 0 <= y -> (x <= y <-> f x <= f y))%Q.

(** A new selector, and what it returns in a series of calls, each with the labelled and unlabelled indexes and the batch size. *)
Definition new_coreset (train : list Z) (dist : nat -> nat -> Q) : coreset :=
  {| ctrain := train; cdist := dist; min_distances := None; already_selected := [] |}.
Fixpoint core_results (s : coreset) (calls : list (list Z * list Z * Z)) : list (res (list Z)) :=
  match calls with
  | [] => []
  | (L, U, batch) :: calls' => let r := coreset_select s L U batch in snd r :: core_results (fst r) calls'
  end.
