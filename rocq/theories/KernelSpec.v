(** What kernel matrices should be, written without reference to the code. *)
From Verif Require Import Base MiscModel MiscSpec.
From Coq Require Import QArith.
Local Open Scope Q_scope.

(** Rows of [d] numbers each. *)
Definition data (d : nat) (X : list (list Q)) : Prop := X <> [] /\ (0 < d)%nat /\ forall x, In x X -> length x = d.
(** Inner product and squared distance, coordinate by coordinate. *)
Definition inner (d : nat) (x y : list Q) : Q := total (map (fun k => nth k x 0 * nth k y 0) (range d)).
Definition distance2 (d : nat) (x y : list Q) : Q := total (map (fun k => (nth k x 0 - nth k y 0) * (nth k x 0 - nth k y 0)) (range d)).
(** What is used of the exponential. *)
Definition exponential (expo : Q -> Q) : Prop :=
  (forall a b, a == b -> expo a == expo b) /\ expo 0 == 1 /\ (forall a, 0 < expo a) /\ (forall a, a <= 0 -> expo a <= 1).
(** [K] holds [f] for all pairs of rows. *)
Definition kernel_of (X : list (list Q)) (f : list Q -> list Q -> Q) (K : list (list Q)) : Prop :=
  length K = length X /\
  forall i x, nth_error X i = Some x -> exists row, nth_error K i = Some row /\ length row = length X /\
    forall j y, nth_error X j = Some y -> exists k, nth_error row j = Some k /\ k == f x y.
