(** Specification vocabulary for the selection strategies, independent of the model. *)
From Verif Require Import Base MiscModel MiscSpec QueryModel.
From Coq Require Import QArith Qabs.
Local Open Scope Z_scope.

(** What is assumed of numpy: [argsort] sorts, ties in any order, and [partition] rearranges a row so that at
    each of the given positions stands what would stand there after sorting. *)
Definition partitioned (ks : list nat) (row out : list Q) : Prop :=
  Permutation row out /\
  forall k i, In k ks -> (i < length row)%nat ->
    ((i < k)%nat -> (nth i out 0 <= nth k out 0)%Q) /\ ((k < i)%nat -> (nth k out 0 <= nth i out 0)%Q).
Definition numpy_ok (np : numpy) : Prop :=
  (forall l, sorts l (argsort np l)) /\
  (forall ks row, (forall k, In k ks -> (k < length row)%nat) -> partitioned ks row (partition np ks row)).

(** [sel] consists of the elements of [U] at [k] different positions, and no position left out has a better
    score than one taken. *)
Definition best_batch {A} (U : list A) (score : nat -> Q) (k : nat) (sel : list A) : Prop :=
  exists ps, NoDup ps /\ length ps = k /\
    Forall2 (fun p x => nth_error U p = Some x) ps sel /\
    forall p q, In p ps -> (q < length U)%nat -> ~ In q ps -> (score q <= score p)%Q.

(** The largest of the numbers of a row, and the difference of the two largest. *)
Definition largest (row : list Q) (x : Q) : Prop := In x row /\ Forall (fun y => (y <= x)%Q) row.
Definition top_gap (row : list Q) (d : Q) : Prop :=
  exists a b rest, Permutation row (a :: b :: rest) /\ (b <= a)%Q /\ Forall (fun x => (x <= b)%Q) rest /\ (d == a - b)%Q.

(** How uncertain a row of probabilities is, by each measure; [lg] is the logarithm. *)
Definition floor6 (p : Q) : Q := if Qlt_le_dec 0 p then p else (1 # 1000000)%Q.
Inductive uncertain (lg : Q -> Q) : measure -> list Q -> Q -> Prop :=
| u_least row p x : largest row p -> (x == 1 - p)%Q -> uncertain lg LeastConfident row x
| u_margin row d x : top_gap row d -> (x == - d)%Q -> uncertain lg Margin row x
| u_entropy row x :
    (x == - total (map (fun p => floor6 p * lg (floor6 p + (1 # 1000000000))) row))%Q -> uncertain lg Entropy row x.

(** Entropy without the floor. *)
Inductive uncertain_raw (lg : Q -> Q) : measure -> list Q -> Q -> Prop :=
| ur_least row x : uncertain lg LeastConfident row x -> uncertain_raw lg LeastConfident row x
| ur_margin row x : uncertain lg Margin row x -> uncertain_raw lg Margin row x
| ur_entropy row x :
    (x == - total (map (fun p => p * lg (p + (1 # 1000000000))) row))%Q -> uncertain_raw lg Entropy row x.

(** [train] is split into the labelled and the unlabelled. *)
Definition split_into (train L U : list Z) : Prop :=
  NoDup train /\ NoDup U /\ (forall x, In x train <-> In x L \/ In x U) /\ forall x, In x L -> ~ In x U.

(** [ps] are the positions in [train] of the elements of [l]. *)
Definition located (train : list Z) (l : list Z) (ps : list nat) : Prop :=
  Forall2 (fun x p => nth_error train p = Some x) l ps.

(** ** Farthest-first traversal *)

(** The distance from [p] to the nearest of [centers]. *)
Definition to_nearest (dist : nat -> nat -> Q) (p : nat) (centers : list nat) (x : Q) : Prop :=
  (exists c, In c centers /\ x == dist p c)%Q /\ forall c, In c centers -> (x <= dist p c)%Q.

(** Each point is farthest from the centers and the points before it, among the points that are neither. *)
Inductive farthest_first (dist : nat -> nat -> Q) (n : nat) : list nat -> list nat -> Prop :=
| ff_nil centers : farthest_first dist n centers []
| ff_cons centers p ps :
    (p < n)%nat -> ~ In p centers ->
    (forall q x y, (q < n)%nat -> ~ In q centers -> to_nearest dist q centers x -> to_nearest dist p centers y -> (x <= y)%Q) ->
    farthest_first dist n (p :: centers) ps ->
    farthest_first dist n centers (p :: ps).

(** ** Greedy choice by density *)

(** The density of everything next to [s] drops by the density of [s]. *)
Definition drop (nbrs : nat -> list nat) (s : nat) (d : nat -> Q) : nat -> Q :=
  fun q => if in_dec Nat.eq_dec q (nbrs s) then (d q - d s)%Q else d q.

(** From densities [d] and the positions [rest], choosing [ps] in turn leads to densities [d']. *)
Inductive densest_first (nbrs : nat -> list nat) : (nat -> Q) -> (nat -> Prop) -> list nat -> (nat -> Q) -> Prop :=
| df_nil d (rest : nat -> Prop) : densest_first nbrs d rest [] d
| df_cons (d : nat -> Q) (rest : nat -> Prop) p ps d' :
    rest p -> (forall q, rest q -> (d q < d p)%Q \/ ((d q == d p)%Q /\ (p <= q)%nat)) ->
    densest_first nbrs (drop nbrs p d) (fun q => rest q /\ q <> p) ps d' ->
    densest_first nbrs d rest (p :: ps) d'.

(** ** Committees *)

(** Entropy of the votes of a committee: over the labels that got a vote, minus the sum of share times
    logarithm of share (the count raised by 1e-9 within the logarithm). *)
Definition vote_score (lg : Q -> Q) (votes : list Z) (x : Q) : Prop :=
  forall labels, NoDup labels -> (forall v, In v labels <-> In v votes) ->
    let share v := inject_Z (Z.of_nat (count_occ Z.eq_dec votes v)) in
    let size := inject_Z (Z.of_nat (length votes)) in
    (x == - total (map (fun v => share v / size * lg ((share v + (1 # 1000000000)) / size)) labels))%Q.

(** Divergence of the members' probabilities from their mean, summed over classes and members. *)
Definition kl_score (lg : Q -> Q) (cols : nat) (rows : list (list Q)) (x : Q) : Prop :=
  (x == total (map (fun j => total (map (fun p => p * lg ((p + (1 # 1000000000)) / (mean (column 0 rows j) + (1 # 1000000000)))) (column 0 rows j)))
               (seq 0 cols)))%Q.

Definition unanimous (votes : list Z) : Prop := forall x y, In x votes -> In y votes -> x = y.

(** Negative below 1 and not from 1 on, as a logarithm is. *)
Definition log_signs (lg : Q -> Q) : Prop := (forall x, 0 < x < 1 -> lg x < 0)%Q /\ (forall x, 1 <= x -> 0 <= lg x)%Q.
(** The inequality of the logarithm, zero at 1. *)
Definition log_bound (lg : Q -> Q) : Prop := (forall x, 0 < x -> 1 - 1 / x <= lg x)%Q /\ (forall x, x == 1 -> lg x == 0)%Q.
