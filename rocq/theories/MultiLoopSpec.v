(** Terms for the claims about the multi-label main loop. *)
From Verif Require Import Base IndexModel MLModel MLSpec StateModel StateSpec MultiLoopModel.
From Coq Require Import String QArith.
Local Open Scope Z_scope.

(** A selection the loop can use: not empty, made of indexes of one or two components, with instances of
    the data and labels in range, and asking only for entries of the training set. *)
Definition usable (n m : nat) (L U : mlic) (l : list mlidx) : Prop :=
  l <> [] /\
  (forall x, In x l -> (forall i j, x <> ILong i j) /\ 0 <= ins_of x < Z.of_nat n /\
                       scalar_ok (Z.of_nat m) x = true) /\
  (forall p, denoted_by (Z.of_nat m) l p -> In p (pairs L) \/ In p (pairs U)).

(** All entries asked for are unlabelled; at least one is. *)
Definition fresh (m : nat) (U : mlic) (l : list mlidx) : Prop :=
  forall p, denoted_by (Z.of_nat m) l p -> In p (pairs U).
Definition productive (m : nat) (U : mlic) (l : list mlidx) : Prop :=
  exists p, denoted_by (Z.of_nat m) l p /\ In p (pairs U).

(** No entry in both. *)
Definition apart (L U : mlic) : Prop := forall p, In p (pairs L) -> In p (pairs U) -> False.

(** Two collections over [m] labels with no common entry, and with instances among the [n] of the data. *)
Definition inside (n : nat) (c : mlic) : Prop := forall p, In p (pairs c) -> 0 <= fst p < Z.of_nat n.
Definition division (n m : nat) (L U : mlic) : Prop :=
  ml_reachable (Z.of_nat m) L /\ ml_reachable (Z.of_nat m) U /\ apart L U /\ inside n L /\ inside n U.

(** Whatever list the strategy returns on such collections has the property [P]. *)
Definition always {M} (n m : nat) (strat : nat -> M -> mlic -> mlic -> res answer)
    (P : mlic -> mlic -> list mlidx -> Prop) : Prop :=
  forall k t L U l, division n m L U -> strat k t L U = Ok (Picked l) -> P L U l.

(** What the selection [l] reveals for training: one row per instance, in the order of first mention, with its features,
    its labels where they were asked for, and [unknown] elsewhere. *)
Definition reveals {A B} (X : list B) (y : list (list A)) (m : nat) (unknown : A)
    (l : list mlidx) (xs : list B) (mat : list (list A)) : Prop :=
  let ids := first_occ (map ins_of l) in
  List.length xs = List.length ids /\ has_shape mat (List.length ids) m /\
  forall r i, nth_error ids r = Some i ->
    nth_error xs r = nth_error X (Z.to_nat i) /\
    forall b, (b < m)%nat ->
      (denoted_by (Z.of_nat m) l (i, Z.of_nat b) -> cell mat r b = cell y (Z.to_nat i) b) /\
      (~ denoted_by (Z.of_nat m) l (i, Z.of_nat b) -> cell mat r b = Some unknown).

(** The model [t'] comes from [t] by one incremental fit per selection, on what it reveals. *)
Inductive trained {A B M} (X : list B) (y : list (list A)) (m : nat) (unknown : A)
    (fit : M -> list B -> list (list A) -> res M) : M -> list (list mlidx) -> M -> Prop :=
| tr_none : forall t, trained X y m unknown fit t [] t
| tr_more : forall t l xs mat t1 ls t2, reveals X y m unknown l xs mat -> fit t xs mat = Ok t1 ->
    trained X y m unknown fit t1 ls t2 -> trained X y m unknown fit t (l :: ls) t2.

(** The selections recorded. *)
Definition selections (s : sio mlic mlidx) : list (list mlidx) := map queried (s_states s).

(** A selection whose entries are counted right by the loop: distinct single pairs, or one whole
    instance. *)
Definition countable (l : list mlidx) : Prop :=
  (NoDup l /\ forall x, In x l -> exists i j, x = IPair i j) \/ exists i, l = [IOne i].

(** The data and the split given to the loop: a table of labels with [m] columns, as many instances, and a
    division of entries. *)
Definition setting {A B} (X : list B) (y : list (list A)) (m : nat) (L U : mlic) : Prop :=
  has_shape y (List.length y) m /\ List.length X = List.length y /\ division (List.length y) m L U.

(** The number of entries. *)
Definition size (c : mlic) : Z := Z.of_nat (List.length (pairs c)).

(** No selection asks for an entry labelled from the start, or asked for by an earlier one. *)
Definition once (m : nat) (L : mlic) (sels : list (list mlidx)) : Prop :=
  (forall k l p, nth_error sels k = Some l -> denoted_by (Z.of_nat m) l p -> ~ In p (pairs L)) /\
  (forall k k' l l' p, (k < k')%nat -> nth_error sels k = Some l -> nth_error sels k' = Some l' ->
     denoted_by (Z.of_nat m) l p -> denoted_by (Z.of_nat m) l' p -> False).
