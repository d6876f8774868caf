(** Specification vocabulary for comparing the ranking measures with each other. *)
From Verif Require Import Base MiscSpec MetricSpec.
From Coq Require Import QArith.
Local Open Scope Z_scope.

(** Every relevant label of the row is scored above every irrelevant one. *)
Definition row_separated (y : list Z) (s : list Q) : Prop :=
  forall j k u v, rel y j -> irr y k -> nth_error s j = Some u -> nth_error s k = Some v -> (v < u)%Q.
(** ... in every row. *)
Definition separated (a : list (list Z)) (s : list (list Q)) : Prop :=
  forall i y t, nth_error a i = Some y -> nth_error s i = Some t -> row_separated y t.
(** The row has this many relevant labels. *)
Definition relevants (y : list Z) (v : Q) : Prop := exists k, how_many (rel y) k /\ (v == nat_q k)%Q.
(** The two rows of scores put their labels in the same order, ties included. *)
Definition row_alike (s t : list Q) : Prop :=
  List.length s = List.length t /\
  forall i j a b c d, nth_error s i = Some a -> nth_error s j = Some b -> nth_error t i = Some c -> nth_error t j = Some d ->
    ((a <= b)%Q <-> (c <= d)%Q).
(** Every positive sample is scored above every negative one. *)
Definition split_by_score (p : Z) (y : list Z) (s : list Q) : Prop :=
  forall i j, pos_sample p y i -> neg_sample p y j -> above s i j.
