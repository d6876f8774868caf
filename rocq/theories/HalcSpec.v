(** Words for C116. *)
From Verif Require Import Base CostModel CostSpec HalcModel MiscSpec.
From Coq Require Import QArith Qabs.
Local Open Scope Z_scope.

(** The squared distance of two rows with [d] features. *)
Definition square_distance (d : nat) (a b : list Q) : Q :=
  fold_right Qplus 0%Q (map (fun k => ((nth k a 0 - nth k b 0) * (nth k a 0 - nth k b 0))%Q) (seq 0 d)).

(** [near]: the [k] rows (all, if there are fewer) nearest to row [i]. *)
Definition nearest (X : list (list Q)) (d k i : nat) (near : list nat) : Prop :=
  NoDup near /\ List.length near = Nat.min k (List.length X) /\ (forall a, In a near -> (a < List.length X)%nat) /\
  forall a b, In a near -> (b < List.length X)%nat -> ~ In b near ->
    (square_distance d (nth i X []) (nth a X []) <= square_distance d (nth i X []) (nth b X []))%Q.

(** What an instance says about label [j]: its label if it is known, the prediction otherwise. *)
Definition opinion (y : list (list Z)) (predicted : nat -> nat -> Z) (lab : list (nat * nat)) (j k : nat) : Z :=
  if pair_mem (k, j) lab then nth j (nth k y []) 0 else predicted k j.

Definition positive_votes (f : nat -> Z) (l : list nat) : nat := count (fun k => 0 <? f k) l.
Definition negative_votes (f : nat -> Z) (l : list nat) : nat := count (fun k => f k <? 0) l.

(** The entry of a matrix. *)
Definition value_at {A} (d : A) (m : list (list A)) (i j : nat) : A := nth j (nth i m []) d.

(** The labels of [n] instances for [C] classes. *)
Definition label_matrix (n C : nat) (y : list (list Z)) : Prop := List.length y = n /\ Forall (fun r => List.length r = C) y.
(** [order] sorts the distances from each of the instances. *)
Definition sorts_distances (X : list (list Q)) (order : nat -> list nat) : Prop :=
  forall i, (i < List.length X)%nat -> sorts (nth i (distances X) []) (order i).
(** How uncertain the classifier of label [j] is about instance [i]: [None] for minus infinity. *)
Definition uncertainty_of (weights : list Q) (decision : nat -> nat -> Q) (lab unl : list (nat * nat)) (i j : nat) : option Q :=
  if pair_mem (i, j) lab then None
  else if pair_mem (i, j) unl then Some (Qabs (nth j weights 0 / decision i j))%Q else Some 0%Q.
(** Twice, and the sum, where [None] is minus infinity. *)
Definition twice (u : option Q) : option Q := match u with Some q => Some (q * 2)%Q | None => None end.
Definition added (u v : option Q) : option Q := match u, v with Some p, Some q => Some (p + q)%Q | _, _ => None end.
