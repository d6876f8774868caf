(** Words for C120. *)
From Verif Require Import Base IndexModel MLModel MLSpec OracleModel SplitModel ToolModel GivenModel.
From Coq Require Import QArith.
Local Open Scope Z_scope.

(** A matrix with [n] rows and [m] columns, neither of them none. *)
Definition matrix (n m : nat) (y : list (list Z)) : Prop :=
  (0 < n)%nat /\ (0 < m)%nat /\ List.length y = n /\ Forall (fun r => List.length r = m) y.
Definition value (y : list (list Z)) (p : Z * Z) : Z := nth (Z.to_nat (snd p)) (nth (Z.to_nat (fst p)) y []) 0.
Definition inside (n m : nat) (p : Z * Z) : Prop := 0 <= fst p < Z.of_nat n /\ 0 <= snd p < Z.of_nat m.
Definition pair_at (p : Z * Z) : mlidx := IPair (fst p) (snd p).

(** Costs for [n] rows and [m] columns: none, one for each column, or an array with one for each element. *)
Definition usable (n m : nat) (c : mcost) : Prop :=
  match c with
  | MCNone => True
  | MCVec _ l => List.length l = m
  | MCMat arr rows => arr = true /\ List.length rows = n /\ Forall (fun r => List.length r = m) rows
  end.
Definition price (c : mcost) (p : Z * Z) : Q :=
  match c with
  | MCNone => 1
  | MCVec _ l => nth (Z.to_nat (snd p)) l 0
  | MCMat _ rows => nth (Z.to_nat (snd p)) (nth (Z.to_nat (fst p)) rows []) 0
  end%Q.

(** The oracle answers every list of elements with the values in the matrix, at these costs. *)
Definition answers (o : moracle Z) (n m : nat) (y : list (list Z)) (c : mcost) : Prop :=
  forall ps, ps <> [] -> Forall (inside n m) ps ->
    mo_query o (map pair_at ps) = Ok (map (fun p => [value y p]) ps, map (fun p => [price c p]) ps).

(** The label sets of a split: lists of instances, lists of (instance, label) indexes. *)
Definition instances (l : list Z) : list item := map (fun i => Scalar (KInt i)) l.
Definition elements (l : list (Z * Z)) : list item := map (fun p => Tup [fst p; snd p]) l.
(** The split of a toolbox has the same number of folds in all its parts. *)
Definition even {A} (q : quad (list A)) : Prop :=
  List.length (q_train q) = List.length (q_label q) /\ List.length (q_test q) = List.length (q_label q) /\
  List.length (q_unlabel q) = List.length (q_label q).
