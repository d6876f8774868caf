(** Specification vocabulary for the metrics, independent of the model's helpers. *)
From Verif Require Import Base MiscSpec.
From Coq Require Import QArith.
Local Open Scope Z_scope.

(** Exactly [k] things satisfy [P]. *)
Definition how_many {A} (P : A -> Prop) (k : nat) : Prop :=
  exists l, NoDup l /\ List.length l = k /\ forall x, In x l <-> P x.

(** A natural number as a rational, and a ratio of two. *)
Definition nat_q (n : nat) : Q := inject_Z (Z.of_nat n).
Definition ratio (k n : nat) : Q := (nat_q k / nat_q n)%Q.

(** [n] rows of [m] entries. *)
Definition matrix {A} (rows : list (list A)) (n m : nat) : Prop :=
  List.length rows = n /\ Forall (fun r => List.length r = m) rows.
(** The entry in row [i], column [j]. *)
Definition cell {A} (rows : list (list A)) (i j : nat) (x : A) : Prop :=
  exists r, nth_error rows i = Some r /\ nth_error r j = Some x.
(** At most two different values occur. *)
Definition two_valued (rows : list (list Z)) : Prop :=
  exists u v, forall i j x, cell rows i j x -> x = u \/ x = v.

(** [P] relates a row's data to the row's figure; [q] is the average of the figures, weighted if weights are given. *)
Definition averages {A} (P : A -> Q -> Prop) (rows : list A) (w : option (list Q)) (q : Q) : Prop :=
  exists vs, Forall2 P rows vs /\
  match w with
  | None => (q == mean vs)%Q
  | Some w => (q * total w == total (map (fun p => fst p * snd p) (combine vs w)))%Q
  end.
(** 1 if [P] holds and 0 otherwise. *)
Definition indicates (P : Prop) (q : Q) : Prop := (P -> (q == 1)%Q) /\ (~ P -> (q == 0)%Q).

(** ** One row of labels and scores *)
Definition rel (y : list Z) (j : nat) : Prop := exists v, nth_error y j = Some v /\ v <> 0.
Definition irr (y : list Z) (j : nat) : Prop := nth_error y j = Some 0.
(** Label [j] is scored at least as high as [q]. *)
Definition scored (s : list Q) (q : Q) (j : nat) : Prop := exists x, nth_error s j = Some x /\ (q <= x)%Q.
(** No label, or every label, is relevant. *)
Definition trivial (y : list Z) : Prop := (forall j, ~ rel y j) \/ (forall j, ~ irr y j).

(** How far one has to go down the ranking to cover the relevant labels. *)
Definition coverage (ys : list Z * list Q) (v : Q) : Prop :=
  let (y, s) := ys in
  ((forall j, ~ rel y j) -> (v == 0)%Q) /\
  (forall j q, rel y j -> nth_error s j = Some q ->
     (forall i x, rel y i -> nth_error s i = Some x -> (q <= x)%Q) ->
     exists k, how_many (scored s q) k /\ (v == nat_q k)%Q).

(** The share of misordered (relevant, irrelevant) pairs. *)
Definition misorder (ys : list Z * list Q) (v : Q) : Prop :=
  let (y, s) := ys in
  (trivial y -> (v == 0)%Q) /\
  (~ trivial y -> exists p n k, how_many (rel y) p /\ how_many (irr y) n /\
     how_many (fun ij => rel y (fst ij) /\ irr y (snd ij) /\
                         exists a, nth_error s (fst ij) = Some a /\ scored s a (snd ij)) k /\
     (v == ratio k (p * n))%Q).

(** The average, over the relevant labels, of the share of relevant ones among those scored as high. *)
Definition precision (ys : list Z * list Q) (v : Q) : Prop :=
  let (y, s) := ys in
  (trivial y -> (v == 1)%Q) /\
  (~ trivial y -> exists js qs, NoDup js /\ (forall j, In j js <-> rel y j) /\
     Forall2 (fun j q => exists x a b, nth_error s j = Some x /\
                how_many (fun i => rel y i /\ scored s x i) a /\ how_many (scored s x) b /\ (q == ratio a b)%Q) js qs /\
     (v == mean qs)%Q).

(** ** Labels and scores of many samples *)
(** Sample [i] is positive (negative): its label is (is not) [p]. *)
Definition pos_sample (p : Z) (y : list Z) (i : nat) : Prop := nth_error y i = Some p.
Definition neg_sample (p : Z) (y : list Z) (i : nat) : Prop := exists v, nth_error y i = Some v /\ v <> p.
(** Sample [i] is scored above (the same as) sample [j]. *)
Definition above (s : list Q) (i j : nat) : Prop :=
  exists a b, nth_error s i = Some a /\ nth_error s j = Some b /\ (b < a)%Q.
Definition level (s : list Q) (i j : nat) : Prop :=
  exists a b, nth_error s i = Some a /\ nth_error s j = Some b /\ (a == b)%Q.
(** The positive label in force: the given one, or 1 if the labels are 0/1 or -1/1. *)
Definition pos_in_force (y : list Z) (given : option Z) (p : Z) : Prop :=
  match given with
  | Some g => p = g
  | None => p = 1 /\ y <> [] /\ ((forall v, In v y -> v = 0 \/ v = 1) \/ (forall v, In v y -> v = -1 \/ v = 1))
  end.

(** ** Rankings with ties broken by position *)
(** Label [i] is ranked at or above label [j]: a higher score, or the same score and no earlier position. *)
Definition at_or_above (s : list Q) (j i : nat) : Prop :=
  exists a b, nth_error s i = Some a /\ nth_error s j = Some b /\ ((b < a)%Q \/ ((b == a)%Q /\ (j <= i)%nat)).
(** The average, over the labels 1, of the share of labels 1 among those ranked at or above; 0 for a trivial row. *)
Definition tied_precision (ys : list Z * list Q) (v : Q) : Prop :=
  let (y, s) := ys in
  (trivial y -> (v == 0)%Q) /\
  (~ trivial y -> exists js qs, NoDup js /\ (forall j, In j js <-> rel y j) /\
     Forall2 (fun j q => exists a b, how_many (fun i => rel y i /\ at_or_above s j i) a /\
                                     how_many (at_or_above s j) b /\ (q == ratio a b)%Q) js qs /\
     (v == mean qs)%Q).
(** All labels are 0 or 1. *)
Definition zero_one (rows : list (list Z)) : Prop := forall i j x, cell rows i j x -> x = 0 \/ x = 1.
