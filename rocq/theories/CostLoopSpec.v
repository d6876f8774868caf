(** Terms for the claims about the cost-sensitive main loop. *)
From Verif Require Import Base IndexModel MLModel MLSpec CostModel CostSpec StateModel StateSpec CostLoopModel.
From Coq Require Import QArith Sorted.
Local Open Scope Z_scope.

(** A pair of natural numbers is in the collection. *)
Definition holds (c : mlic) (p : nat * nat) : Prop := In (Z.of_nat (fst p), Z.of_nat (snd p)) (pairs c).

(** The data: [n] instances, [C] labels, a label tree; the instances of the training set are among them. *)
Definition data {B} (X : list B) (y tree : list (list Z)) (n C : nat) (train : list nat) : Prop :=
  List.length X = n /\ matrix_of n C y /\ matrix_of C C tree /\ Forall (fun i => (i < n)%nat) train.

(** A collection of pairs of [n] instances and [C] labels. *)
Definition collection (n C : nat) (c : mlic) : Prop :=
  ml_reachable (Z.of_nat C) c /\ forall q, In q (pairs c) -> 0 <= fst q < Z.of_nat n.

(** The two collections have no pair in common; for [division], they are together the pairs of the training instances. *)
Definition apart (L U : mlic) : Prop := forall q, In q (pairs L) -> ~ In q (pairs U).
Definition division (n C : nat) (train : list nat) (L U : mlic) : Prop :=
  collection n C L /\ collection n C U /\ apart L U /\
  forall p, holds L p \/ holds U p <-> In (fst p) train /\ (snd p < C)%nat.

(** What a strategy may return: pairs of the data ([in_data]), pairs of the training instances ([in_train]), unlabelled pairs
    ([in_pool]). It may raise, and it may return an empty list. *)
Definition in_data (n C : nat) (l : list (nat * nat)) : Prop := forall p, In p l -> (fst p < n)%nat /\ (snd p < C)%nat.
Definition in_train (train : list nat) (l : list (nat * nat)) : Prop := forall p, In p l -> In (fst p) train.

(** Whatever list the strategy returns in a state [J] on two collections without a common pair, the unlabelled pairs being of
    training instances, has the property [P]. *)
Definition of_train (train : list nat) (c : mlic) : Prop := forall p, holds c p -> In (fst p) train.
Definition answers {M T} (n C : nat) (train : list nat) (strat : T -> list M -> mlic -> mlic -> T * res (list (nat * nat))) (J : T -> Prop)
    (P : mlic -> mlic -> list (nat * nat) -> Prop) : Prop :=
  forall t ms L U, J t -> collection n C L -> collection n C U -> apart L U -> of_train train U ->
    J (fst (strat t ms L U)) /\ forall l, snd (strat t ms L U) = Ok l -> P L U l.

(** What one query brings: the pairs asked for, and those that the label tree adds to them. *)
Definition brought (tree y : list (list Z)) (asked : list (nat * nat)) (p : nat * nat) : Prop :=
  In p asked \/ implied tree y asked p.

(** What classifier [j] is fitted to when the pairs of [L] are labelled: the instances that have label [j] in [L], in increasing
    order, and their labels. *)
Definition shown {B} (X : list B) (y : list (list Z)) (L : mlic) (j : nat) (xs : list B) (ys : list Z) : Prop :=
  exists ids, StronglySorted lt ids /\ (forall i, In i ids <-> holds L (i, j)) /\
    Forall2 (fun i x => nth_error X i = Some x) ids xs /\ ys = map (fun i => label_of y i j) ids.
Definition fitted {B M} (X : list B) (y : list (list Z)) (C : nat) (fit : nat -> list B -> list Z -> res M) (L : mlic) (ms : list M) : Prop :=
  List.length ms = C /\
  forall j m, nth_error ms j = Some m -> exists xs ys, shown X y L j xs ys /\ fit j xs ys = Ok m.

(** What [get_workspace] rebuilds from the record: everything, or the first [k] queries. *)
Definition rebuilt (s : sio mlic mlidx) := sio_workspace (ml_update true) (ml_difference_update true) s None.
Definition rebuilt_at (s : sio mlic mlidx) (k : nat) :=
  sio_workspace (ml_update true) (ml_difference_update true) s (Some (Z.of_nat k)).
Definition same_pairs (c c' : mlic) : Prop := forall q, In q (pairs c) <-> In q (pairs c').

(** [L], [U] after the queries [asks], from [L0], [U0]. *)
Definition after (tree y : list (list Z)) (L0 U0 : mlic) (asks : list (list (nat * nat))) (L U : mlic) : Prop :=
  (forall p, holds L p <-> holds L0 p \/ exists a, In a asks /\ brought tree y a p) /\
  (forall p, holds U p <-> holds U0 p /\ ~ exists a, In a asks /\ brought tree y a p).

(** The number of recorded queries. *)
Definition turns (s : sio mlic mlidx) : nat := List.length (s_states s).
(** The price of a set of labels when label [j] costs [nth j costs]. *)
Definition price (costs : list Q) (l : list (nat * nat)) : Q := pairs_cost costs l.

(** The data, a division of the training pairs with something left to ask for, and one classifier per label. *)
Definition setting {B M} (X : list B) (y tree : list (list Z)) (n C : nat) (train : list nat) (L U : mlic) (ms : list M) : Prop :=
  data X y tree n C train /\ division n C train L U /\ pairs U <> [] /\ List.length ms = C.

(** A strategy that asks for something while there is something unlabelled; classifiers that can be fitted and judged. *)
Definition forthcoming {M T} (n C : nat) (train : list nat) (strat : T -> list M -> mlic -> mlic -> T * res (list (nat * nat))) (J : T -> Prop) : Prop :=
  forall t ms L U, J t -> List.length ms = C -> collection n C L -> collection n C U -> apart L U -> of_train train U -> pairs U <> [] ->
    exists l, snd (strat t ms L U) = Ok l /\ l <> [].
Definition trainable {B M} (fit : nat -> list B -> list Z -> res M) (score : list M -> res Q) : Prop :=
  (forall j xs ys, exists m, fit j xs ys = Ok m) /\ forall ms, exists q, score ms = Ok q.

(** The draws of a call on a pool of [m] pairs: one per pair, each among the pairs that are left. *)
Definition fair_draws (t : nat -> nat -> list nat) : Prop :=
  forall k m, List.length (t k m) = m /\ forall i, (i < m)%nat -> (nth i (t k m) 0 < m - i)%nat.

(** [order] sorts every column of any score of that size. *)
Definition sorter (n C : nat) (orders : list (list (option Q)) -> list (list nat)) : Prop :=
  forall sc : nat -> nat -> option Q,
    let o := orders (map (fun i => map (fun j => sc i j) (seq 0 C)) (seq 0 n)) in
    List.length o = C /\ forall j, (j < C)%nat -> increasing (fun i => sc i j) n (nth j o []).
