(** Model of the graph of [QueryInstanceGraphDensity] (alipy/query_strategy/query_labels.py 921-958): construction of the
    weights and densities, and the object they make. The selection is [QueryModel.density_select].

    Simplifications: floats are exact rationals; [kneighbors_graph], the metric and [np.exp] are arguments; the training
    indexes are positions of existing rows. *)
From Verif Require Import Base MiscModel QueryModel.
From Coq Require Import QArith.
Local Open Scope Z_scope.

(** Rows and columns of a sparse matrix. *)
Definition matrix := nat -> nat -> Q.
Definition put (M : matrix) (i j : nat) (v : Q) : matrix := fun a b => if Nat.eqb a i && Nat.eqb b j then v else M a b.

(** What is given: the number of training points, the [k] nearest neighbours of each (manhattan distance, without the
    point itself), the distance of the chosen metric, [1 / n_features] and the exponential. *)
Record points := { size : nat; nearest_of : nat -> nat -> list nat; dist : nat -> nat -> Q; gamma : Q; expo : Q -> Q }.

(** 934 [kneighbors_graph]: needs more points than neighbours. *)
Definition knn_graph (x : points) (k : nat) : res matrix :=
  if Nat.leb (size x) k then Err ValueErr
  else Ok (fun i j => if mem j (nearest_of x k i) then 1%Q else 0%Q).
(** 937-938: the entries that are not zero, row by row. *)
Definition nonzero (n : nat) (M : matrix) : list (nat * nat) :=
  flat_map (fun i => map (pair i) (filter (fun j => negb (Qeq_bool (M i j) 0)) (range n))) (range n).
(** 942-949 *)
Definition weigh (x : points) (M : matrix) (e : nat * nat) : matrix :=
  let w := expo x (- dist x (fst e) (snd e) * gamma x)%Q in
  put (put M (fst e) (snd e) w) (snd e) (fst e) w.
Definition positive (q : Q) : bool := negb (Qle_bool q 0).
(** 955-957; [None] for a division by zero, which gives NaN. *)
Definition node_density (n : nat) (M : matrix) (i : nat) : option Q :=
  let c := length (filter (fun j => positive (M i j)) (range n)) in
  if Nat.eqb c 0 then None else Some (fold_right Qplus 0 (map (M i) (range n)) / inject_Z (Z.of_nat c))%Q.

(** 932-958, with [n_neighbor] neighbours. *)
Definition compute_graph (x : points) (k : nat) : res (matrix * list (option Q)) :=
  M <- knn_graph x k ;;
  let M' := fold_left (weigh x) (nonzero (size x) M) M in
  Ok (M', map (node_density (size x) M') (range (size x))).

(** 921-930 [__init__] with the default of ten neighbours: the graph [select] works on (its neighbours are those with a
    positive weight, 1000) and the densities. *)
Definition graph_new (x : points) (train : list Z) : res (graph * list (option Q)) :=
  r <- compute_graph x 10 ;;
  Ok ({| gtrain := train; gneighbors := fun i => filter (fun j => positive (fst r i j)) (range (size x)) |}, snd r).
