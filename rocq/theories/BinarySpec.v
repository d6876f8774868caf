(** Words for C117. *)
From Verif Require Import Base BinaryModel.
From Coq Require Import QArith.
Local Open Scope Z_scope.

(** All training instances have the value [c] for label [j]. *)
Definition constant (Y : table) (j : nat) (c : Z) : Prop := lines Y <> [] /\ forall r, In r (lines Y) -> nth j r 0 = c.
(** Both values occur. *)
Definition mixed (Y : table) (j : nat) : Prop :=
  exists r r', In r (lines Y) /\ In r' (lines Y) /\ nth j r 0 <> nth j r' 0.
Definition labels_in (Y : table) (vs : list Z) : Prop := forall r j, In r (lines Y) -> (j < wide Y)%nat -> In (nth j r 0) vs.

(** What SVC and LogisticRegression promise for labels with the two values [lo] and [hi]: one decision value for each row,
    positive exactly for the rows predicted [hi]. *)
Definition decides {M} (b : base M) (lo hi : Z) : Prop :=
  b_kind M b <> IsOther /\
  forall X y m X', b_fit M b X y = Ok m -> (forall z, In z y -> z = lo \/ z = hi) ->
    exists p v, b_predict M b m X' = Ok p /\ b_decision M b m X' = Ok (D1 v) /\ length p = length X' /\ length v = length X' /\
      forall i, (i < length X')%nat -> (nth i p 0 = lo \/ nth i p 0 = hi) /\ (nth i p 0 = hi <-> (0 < nth i v 0)%Q).
(** [m] is what the classifier makes of label [j]. *)
Definition fitted_on {M} (b : base M) (X : matrix) (Y : table) (j : nat) (m : M) : Prop :=
  b_fit M b (rows_of X) (column_of Y j) = Ok m.
