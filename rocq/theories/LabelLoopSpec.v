(** Terms for the claims about labelling a pool by hand. *)
From Verif Require Import Base IndexModel IndexSpec MLModel StateModel OracleModel RepoModel QueryModel BlindModel NoisyLoopSpec LabelLoopModel.
From Coq Require Import QArith.
Local Open Scope Z_scope.

(** Data for the loop: at least one labelled instance, a label for each of them, the same positive number of features
    everywhere, and a stand-in label for every instance of the pool. *)
Definition fit_data (X_lab : list vec) (y_lab : list Z) (X_unlab : list vec) (place : list Z) : Prop :=
  X_lab <> [] /\ List.length y_lab = List.length X_lab /\ List.length place = List.length X_unlab /\
  exists d, (0 < d)%nat /\ forall x, In x X_lab \/ In x X_unlab -> List.length x = d.

(** A label given by hand: the instance (its position in the pool), its features and the label. *)
Record given := { g_at : nat; g_x : vec; g_label : Z }.
Definition at_of (g : given) : Z := Z.of_nat (g_at g).

(** The labels given so far, in order: each for an instance of the pool, by the labelling code when shown its features,
    and no instance twice. *)
Definition given_by (lbl : nat -> list vec -> res Z) (X_unlab : list vec) (gs : list given) : Prop :=
  NoDup (map g_at gs) /\
  forall t g, nth_error gs t = Some g -> nth_error X_unlab (g_at g) = Some (g_x g) /\ lbl t [g_x g] = Ok (g_label g).

(** The indexes of the instances labelled at first, which stand after those of the pool. *)
Definition first_indexes (X_unlab X_lab : list vec) : list Z :=
  map (fun i => Z.of_nat (List.length X_unlab + i)) (seq 0 (List.length X_lab)).

(** The labels the strategy holds: those given by hand, and elsewhere what it was made with. *)
Definition labels_with (y0 : list Z) (gs : list given) (y : list Z) : Prop :=
  List.length y = List.length y0 /\
  (forall g, In g gs -> nth_error y (g_at g) = Some (g_label g)) /\
  forall i, ~ In i (map g_at gs) -> nth_error y i = nth_error y0 i.

(** A classifier as scikit-learn's: a row of at least two probabilities for every instance, or one number each for the
    measure distance_to_boundary. *)
Definition answers_rows {M} (k : learner vec M) (ms : measure) : Prop :=
  forall m xs,
    match ms with
    | Boundary => exists v, outputs k m xs = Vec v /\ List.length v = List.length xs
    | _ => exists cols r, outputs k m xs = Mat cols r /\ (2 <= cols)%nat /\ List.length r = List.length xs /\ Forall (fun x => List.length x = cols) r
    end.

(** The instances of a pool of [n] that have no label yet, in order. *)
Definition unlabelled (n : nat) (gs : list given) : list Z :=
  map Z.of_nat (filter (fun i => if in_dec Nat.eq_dec i (map g_at gs) then false else true) (seq 0 n)).
