(** What QUIRE's evaluation should be, written without reference to the code. *)
From Verif Require Import Base MiscModel MiscSpec QueryModel QuireModel MLQuerySpec.
From Coq Require Import QArith Qabs.
Local Open Scope Z_scope.

Definition symmetric_on (n : nat) (f : nat -> nat -> Q) : Prop := forall a b, (a < n)%nat -> (b < n)%nat -> (f a b == f b a)%Q.

(** No combination of the instances [l] has a negative norm. *)
Definition semidefinite_on (l : list nat) (f : nat -> nat -> Q) : Prop :=
  forall x : nat -> Q, (0 <= total (map (fun i => total (map (fun j => x i * x j * f i j) l)) l))%Q.

(** The regularised kernel, whose inverse is [lap]. *)
Definition regularised (K : list (list Q)) (lam : Q) (a b : nat) : Q := (at_ K a b + (if Nat.eqb a b then lam else 0))%Q.

(** An object for a symmetric kernel over [n] instances, with exact inverse. *)
Definition quire_ok (n : nat) (o : quire) : Prop :=
  (0 < lmbda o)%Q /\ symmetric_on n (at_ (kern o)) /\ inverse_of (lap o) n (regularised (kern o) (lmbda o)).

(** Positions of the labelled and the unlabelled instances: each of the [n] once. *)
Definition parts (n : nat) (Lx Ux : list nat) : Prop := Permutation (Lx ++ Ux) (range n).

(** The energy of an assignment: the labels of the labelled instances and [z] for the unlabelled ones. *)
Definition label_energy (o : quire) (Lx Ux : list nat) (z : list Q) : Q :=
  let v := map (fun l => (l, nth l (labels o) 0%Q)) Lx ++ combine Ux z in
  total (map (fun p => total (map (fun q => snd p * snd q * at_ (lap o) (fst p) (fst q)) v)) v)%Q.

(** The positions other than [i]. *)
Definition without (k i : nat) : list nat := filter (fun c => negb (Nat.eqb c i)) (range k).

(** Determinant by expansion along the first row. *)
Fixpoint drop_at {A} (j : nat) (l : list A) : list A :=
  match l, j with [], _ => [] | _ :: l', O => l' | a :: l', S j' => a :: drop_at j' l' end.
Fixpoint determinant (k : nat) (M : list (list Q)) : Q :=
  match k with
  | O => 1%Q
  | S k' => total (map (fun j => (if Nat.even j then 1 else - (1)) * at_ M 0 j * determinant k' (map (drop_at j) (tl M)))%Q (range k))
  end.
