(** What AFASMC minimises, in the words of its paper: the squared error on the observed entries and that of the linear model. *)
From Verif Require Import Base ProxModel.
From Coq Require Import QArith.
Local Open Scope Q_scope.

Definition plus (A B : mat) : mat := fun i j => A i j + B i j.
Definition minus (A B : mat) : mat := fun i j => A i j - B i j.
(** The inner product and the squared norm of arrays of shape [n], [m]. *)
Definition inner (n m : nat) (A B : mat) : Q := sumn n (fun i => sumn m (fun j => A i j * B i j)).
Definition norm2 (n m : nat) (A : mat) : Q := inner n m A A.
(** Half the squared error on the observed entries, and [lam] times that of the labels predicted from the completed rows. *)
Definition loss (n m : nat) (mask X : mat) (y : nat -> Q) (lam : Q) (w : nat -> Q) (b : Q) (Z : mat) : Q :=
  norm2 n m (fun i j => mask i j * (Z i j - X i j)) / 2 +
  lam * sumn n (fun i => (sumn m (fun j => Z i j * w j) + b - y i) * (sumn m (fun j => Z i j * w j) + b - y i)).
(** 1 for an observed entry, 0 for the others. *)
Definition zero_one_mask (mask : mat) : Prop := forall i j, mask i j == 0 \/ mask i j == 1.
(** The curvature of the loss: no step size below its inverse is ever refused. *)
Definition curvature (m : nat) (lam : Q) (w : nat -> Q) : Q := 1 + 2 * lam * sumn m (fun j => w j * w j).
(** [svd V t] is the array that minimises half the squared distance to [V] plus [t] times the penalty. *)
Definition proximal (n m : nat) (penalty : mat -> Q) (svd : mat -> Q -> mat * Q) : Prop :=
  forall V t Z, 0 <= t ->
    norm2 n m (minus (fst (svd V t)) V) / 2 + t * penalty (fst (svd V t)) <= norm2 n m (minus Z V) / 2 + t * penalty Z.
