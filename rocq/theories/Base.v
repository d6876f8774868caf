(** Shared vocabulary of all models: Python exceptions as values, list helpers. *)
From Coq Require Export List ZArith Bool Lia Arith Permutation Sorted.
Export ListNotations.

(** The exception classes that the modelled code can raise. *)
Inductive exn :=
| TypeErr | ValueErr | AssertErr | KeyErr | IndexErr | AttrErr | ZeroDivErr
| NotImplErr | NameErr | FileErr | GenericErr.

(** Result of a Python call: a value or a raised exception. *)
Inductive res (A : Type) :=
| Ok (a : A)
| Err (e : exn).
Arguments Ok {A} a.
Arguments Err {A} e.

Definition bind {A B} (r : res A) (f : A -> res B) : res B :=
  match r with Ok a => f a | Err e => Err e end.
Definition rmap {A B} (f : A -> B) (r : res A) : res B :=
  match r with Ok a => Ok (f a) | Err e => Err e end.
Notation "x <- r ;; k" := (bind r (fun x => k)) (at level 61, r at next level, right associativity).

(** [for x in xs: ...] collecting results, stopping at the first exception. *)
Fixpoint mapM {A B} (f : A -> res B) (l : list A) : res (list B) :=
  match l with
  | [] => Ok []
  | x :: l' => y <- f x ;; ys <- mapM f l' ;; Ok (y :: ys)
  end.

Definition guard (b : bool) (e : exn) : res unit := if b then Ok tt else Err e.

(** Python list indexing with a non-negative position: [l[i]]. *)
Definition py_nth {A} (l : list A) (i : nat) : res A :=
  match nth_error l i with Some x => Ok x | None => Err IndexErr end.

(** Sum of a list of integers. *)
Definition zsum (l : list Z) : Z := fold_right Z.add 0%Z l.

(** Number of elements satisfying a test. *)
Definition count {A} (f : A -> bool) (l : list A) : nat := length (filter f l).

(** [range(n)] *)
Definition range (n : nat) : list nat := seq 0 n.

(** [range(n)] over integers. *)
Definition zrange (n : Z) : list Z := map Z.of_nat (seq 0 (Z.to_nat n)).
