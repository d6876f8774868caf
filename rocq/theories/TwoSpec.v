(** Uncertainty for two classes, and when two selections are the same. *)
From Verif Require Import Base QueryModel QuerySpec.
From Coq Require Import QArith Qabs.
Local Open Scope Z_scope.

(** The predictions for two classes: row [i] is [p i] and one minus it, neither of them zero. *)
Definition two_classes (p : nat -> Q) (rows : list (list Q)) : Prop :=
  forall i row, nth_error rows i = Some row -> exists a b, row = [a; b] /\ (0 < a)%Q /\ (0 < b)%Q /\ (a + b == 1)%Q /\ (a == p i)%Q.
(** How far a probability is from one half. *)
Definition off_half (p : Q) : Q := Qabs (p - (1 # 2)).
(** The entropy of two probabilities is smaller the farther they are from one half. *)
Definition entropy_falls (lg : Q -> Q) : Prop :=
  forall a b c d, (0 < a)%Q -> (0 < b)%Q -> (a + b == 1)%Q -> (0 < c)%Q -> (0 < d)%Q -> (c + d == 1)%Q -> (off_half a < off_half c)%Q ->
    (- (c * lg (c + (1 # 1000000000)) + d * lg (d + (1 # 1000000000))) < - (a * lg (a + (1 # 1000000000)) + b * lg (b + (1 # 1000000000))))%Q.
(** Four bounds that hold of the natural logarithm, whose values there are 0.000000001, -0.000000009, -13.8 and -18.3. *)
Definition log_bounds (lg : Q -> Q) : Prop :=
  (forall x, x == (1000000001 # 1000000000) -> lg x <= (1 # 1000000000))%Q /\
  (forall x, x == (999999991 # 1000000000) -> - (1 # 100000000) <= lg x)%Q /\
  (forall x, x == (1001 # 1000000000) -> lg x <= - (13))%Q /\
  (forall x, x == (11 # 1000000000) -> - (19) <= lg x)%Q.
