(** What QueryCostSensitiveHALC (query_strategy/cost_sensitive.py) takes for the informativeness of a pair of an instance and
    a label: __init__, _cal_Distance, cal_uncertainty, cal_relevance, cal_Informativeness, select.

    Simplifications: features, weights and decision values are exact rationals and a decision value is not zero; distances are
    squared (only their order is used); the label sets are lists of pairs inside of the label matrix (C08 for the masks); the
    labels are integers; the scalars and one-element arrays of 333-335 are added up as numbers (NumPy before 1.24). *)
From Verif Require Import Base CostModel MiscModel.
From Coq Require Import QArith Qabs.
Local Open Scope Z_scope.

(** 266-272; [None]: the default. *)
Definition halc_weights (n_samples n_classes : nat) (weights : option (list Q)) : res (list Q) :=
  match weights with
  | None => Ok (repeat 1%Q n_classes)
  | Some w => _ <- guard (Nat.eqb n_samples (List.length w)) AssertErr ;; Ok w
  end.

(** 285, squared: one row of [rest_data - query_mat]. *)
Fixpoint sq_diff (a b : list Q) : Q :=
  match a, b with
  | x :: a', z :: b' => ((x - z) * (x - z) + sq_diff a' b')%Q
  | _, _ => 0%Q
  end.
(** 279-286: row [i], whose entries up to [i] are zero. *)
Definition half_row (X : list (list Q)) (i : nat) : list Q :=
  repeat 0%Q (S i) ++ map (fun r => sq_diff r (nth i X [])) (skipn (S i) X).
(** 276-288 *)
Definition distances (X : list (list Q)) : list (list Q) :=
  let n := List.length X in
  let half := map (half_row X) (seq 0 n) in
  map (fun i => map (fun j => (nth j (nth i half []) 0 + nth i (nth j half []) 0)%Q) (seq 0 n)) (seq 0 n).

Section Halc.
  Variables (n_samples n_classes : nat) (y : list (list Z)) (tree : list (list nat)) (weights : list Q).
  (** [models[j].decision_function([X[i]])], [models[j].predict([X[i]])]. *)
  Variables (decision : nat -> nat -> Q) (predicted : nat -> nat -> Z).
  (** [np.argsort(self.Distance[i])] (misc.py 157). *)
  Variable order : nat -> list nat.
  Variables lab unl : list (nat * nat).

  (** 306-320, entry (i, j). *)
  Definition uncertainty_at (i j : nat) : res (option Q) :=
    u <- (if pair_mem (i, j) unl then w <- py_nth weights j ;; Ok (Qabs (w / decision i j)) else Ok 0%Q) ;;   (* 316-318 *)
    Ok (if pair_mem (i, j) lab then None else Some u).                                   (* 319 *)
  Definition cal_uncertainty : res (list (list (option Q))) :=
    mapM (fun i => mapM (fun j => uncertainty_at i j) (seq 0 n_classes)) (seq 0 n_samples).

  (** 329-335: the votes of the neighbours. *)
  Definition vote (j k : nat) : res Z :=
    if pair_mem (k, j) lab then g <- entry y k j ;; Ok (Z.sgn g) else Ok (Z.sgn (predicted k j)).
  (** 322-336 *)
  Definition cal_relevance (i j : nat) : res Z :=
    near <- nsmallestarg (order i) 5 ;;                                                  (* 328 *)
    vs <- mapM (vote j) near ;;
    Ok (Z.sgn (zsum vs)).

  Definition double (u : option Q) : option Q := option_map (fun q => q * 2)%Q u.
  (** 366-375, entry (i, j); the value of 363 stays for a pair that is not unlabelled (376 writes to a copy). [None]: the
      descendants were not finished after [fuel] steps. *)
  Definition information_at (fuel : nat) (U : list (list (option Q))) (i j : nat) : res (option (option Q)) :=
    if pair_mem (i, j) unl then
      flag <- cal_relevance i j ;;
      row <- py_nth U i ;;
      u <- py_nth row j ;;
      if flag =? 1 then Ok (Some (double u))                                             (* 372-373 *)
      else if flag =? -1 then                                                            (* 374-375 *)
        d <- cal_Udes fuel tree row j ;;
        Ok (option_map (plus_neg u) d)
      else Ok (Some (Some 0%Q))
    else Ok (Some (Some 0%Q)).

  Fixpoint all_done {A} (l : list (option A)) : option (list A) :=
    match l with
    | [] => Some []
    | Some x :: l' => option_map (cons x) (all_done l')
    | None :: _ => None
    end.
  (** 355-377 *)
  Definition cal_information (fuel : nat) : res (option (list (list (option Q)))) :=
    U <- cal_uncertainty ;;
    rows <- mapM (fun i => mapM (fun j => information_at fuel U i j) (seq 0 n_classes)) (seq 0 n_samples) ;;
    Ok (all_done (map all_done rows)).

  (** 433-468, with the costs per class. *)
  Definition halc_select (fuel : nat) (costs : list Z) (budget : nat) (orders : list (list nat)) : res (option (list (nat * nat))) :=
    s <- cal_information fuel ;;
    match s with
    | None => Ok None
    | Some s => rmap Some (knapsack_select s costs budget orders)
    end.
End Halc.
