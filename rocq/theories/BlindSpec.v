(** What it means that a selection does not look at the labels of the unlabelled data: two label arrays that agree on the
    labelled data cannot be told apart.  Written without reference to the code. *)
From Coq Require Import List ZArith.
Import ListNotations.
Local Open Scope Z_scope.

(** The entry of an array at an index; a negative one counts from the end. *)
Definition label_at {A} (y : list A) (i : Z) : option A :=
  if i <? 0 then (if 0 <=? Z.of_nat (length y) + i then nth_error y (Z.to_nat (Z.of_nat (length y) + i)) else None)
  else nth_error y (Z.to_nat i).
Definition cell_at {A} (y : list (list A)) (i j : Z) : option A :=
  match label_at y i with Some r => label_at r j | None => None end.

(** The two arrays have the same length and the same labels for the listed instances; elsewhere they may differ in any way. *)
Definition same_labels {A} (L : list Z) (y y' : list A) : Prop :=
  length y = length y' /\ forall i, In i L -> label_at y i = label_at y' i.

(** The same for the listed pairs of instance and label; the matrices have the same shape. *)
Definition same_entries {A} (L : list (Z * Z)) (y y' : list (list A)) : Prop :=
  map (@length A) y = map (@length A) y' /\ forall i j, In (i, j) L -> cell_at y i j = cell_at y' i j.

(** The two arrays mention the same labels. *)
Definition same_classes (y y' : list Z) : Prop := forall c, In c y <-> In c y'.

(** All rows have equally many labels. *)
Definition one_size (y : list (list Z)) : Prop :=
  exists s, y <> [] /\ forall r, In r y -> fold_right Z.add 0 r = s.
