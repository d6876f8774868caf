(** Specification of budgeted selection, without reference to the model. *)
From Coq Require Import List ZArith QArith Permutation.
Import ListNotations.
Local Open Scope Z_scope.

(** The members of [l] at the positions flagged in [fl]. *)
Definition chosen {A} (fl : list bool) (l : list A) : list A := map snd (filter fst (combine fl l)).

Definition total_cost (l : list Z) : Z := fold_right Z.add 0 l.
Definition sum_q (l : list Q) : Q := fold_right Qplus 0%Q l.

(** [l] holds finite values only and they add up to [w]. *)
Definition worth (l : list (option Q)) (w : Q) : Prop := exists q, l = map Some q /\ (w == sum_q q)%Q.

(** [fl] is a choice among items of the given costs that fits in the capacity. *)
Definition fits (costs : list Z) (capacity : Z) (fl : list bool) : Prop :=
  length fl = length costs /\ total_cost (chosen fl costs) <= capacity.

(** [fl] fits, is worth [w], and nothing that fits is worth more. *)
Definition optimal (values : list (option Q)) (costs : list Z) (capacity : Z) (fl : list bool) (w : Q) : Prop :=
  fits costs capacity fl /\ worth (chosen fl values) w /\
  forall fl' w', fits costs capacity fl' -> worth (chosen fl' values) w' -> (w' <= w)%Q.

(** Value to be minimised of a choice, with [None] for +infinity: a choice that costs nothing or more than the
    budget is worthless. *)
Definition cost_of (costs : list Q) (s : list bool) : Q := sum_q (chosen s costs).
Definition value_is (values costs : list Q) (budget : Q) (s : list bool) (v : option Q) : Prop :=
  match v with
  | Some x => ~ cost_of costs s == 0 /\ (cost_of costs s <= budget)%Q /\ x == sum_q (chosen s values)
  | None => cost_of costs s == 0 \/ (budget < cost_of costs s)%Q
  end%Q.

(** [a] is at most [b], [None] being +infinity. *)
Definition at_most (a b : option Q) : Prop :=
  match a, b with
  | _, None => True
  | None, Some _ => False
  | Some a, Some b => (a <= b)%Q
  end.

(** Flipping the positions marked in a mask. *)
Definition flips (mask s s' : list bool) : Prop :=
  length s' = length s /\ forall i, (i < length s)%nat -> nth i s' false = xorb (nth i s false) (nth i mask false).

(** One step up or down the label tree. *)
Definition child (tree : list (list Z)) (j d : nat) : Prop := nth d (nth j tree []) 0 = 1.
Definition label_of (y : list (list Z)) (i j : nat) : Z := nth j (nth i y []) 0.

(** [p] follows from a queried pair: a child label of a positive one or a parent label of a negative one. *)
Definition implied (tree y : list (list Z)) (queried : list (nat * nat)) (p : nat * nat) : Prop :=
  exists j, In (fst p, j) queried /\
    ((label_of y (fst p) j = 1 /\ child tree j (snd p)) \/ (label_of y (fst p) j = -1 /\ child tree (snd p) j)).

Definition matrix_of {A} (n m : nat) (a : list (list A)) : Prop := length a = n /\ Forall (fun r => length r = m) a.

(** Cost of a list of instance-label pairs when label [j] costs [nth j costs]. *)
Definition pairs_cost (costs : list Q) (l : list (nat * nat)) : Q := sum_q (map (fun p => nth (snd p) costs 0%Q) l).
Definition pairs_cost_z (costs : list Z) (l : list (nat * nat)) : Z :=
  total_cost (map (fun p => nth (snd p) costs 0) l).

(** [order] lists the positions of a column by increasing value, -infinity first. *)
Definition le_neg (a b : option Q) : Prop :=
  match a, b with
  | None, _ => True
  | Some _, None => False
  | Some a, Some b => (a <= b)%Q
  end.
Definition increasing (col : nat -> option Q) (n : nat) (order : list nat) : Prop :=
  Permutation order (seq 0 n) /\
  forall a b, (a < b < length order)%nat -> le_neg (col (nth a order 0%nat)) (col (nth b order 0%nat)).
