(** Model of query_strategy/cost_sensitive.py: the two subset selectors, the hierarchical completion of
    labels, and the selection step of the three cost-sensitive strategies.

    Simplifications: values are exact rationals; the value -infinity, which the strategies give to pairs that
    are already labelled, is [None]; item costs and the capacity of the knapsack are integers (other costs
    cannot index its table); instance and label positions are natural numbers. *)
From Verif Require Import Base.
From Coq Require Import QArith.
Local Open Scope Z_scope.

(** ** select_Knapsack_01, 27-65 *)

(** [x + v], where [v] may be -infinity. *)
Definition plus_value (x : Q) (v : option Q) : option Q := option_map (Qplus x) v.

(** [max(a, b)]: the first argument unless the second is larger. *)
Definition py_max (a : Q) (b : option Q) : Q :=
  match b with Some b => if Qle_bool b a then a else b | None => a end.

(** 53-57, the inner loop: row i+1 of the table from row i. *)
Definition next_row (capacity : Z) (row : list Q) (v : option Q) (c : Z) : res (list Q) :=
  mapM (fun j =>
          if j - c <? 0 then py_nth row (Z.to_nat j)                        (* 54-55 *)
          else y <- py_nth row (Z.to_nat j) ;;
               x <- py_nth row (Z.to_nat (j - c)) ;;
               Ok (py_max y (plus_value x v)))                              (* 57 *)
       (zrange (capacity + 1)).

(** 52, the outer loop: all rows of the table. *)
Fixpoint fill (capacity : Z) (row : list Q) (items : list (option Q * Z)) : res (list (list Q)) :=
  match items with
  | [] => Ok [row]
  | (v, c) :: items' =>
      row' <- next_row capacity row v c ;;
      rows <- fill capacity row' items' ;;
      Ok (row :: rows)
  end.

(** 60-64: the loop from the last item to the first; each step sees rows i and i+1 and item i. *)
Fixpoint backtrack (steps : list ((list Q * list Q) * (option Q * Z))) (j : Z) (flag : list bool)
  : res (list bool) :=
  match steps with
  | [] => Ok flag
  | ((row, row'), (v, c)) :: steps' =>
      if 0 <=? j - c then
        a <- py_nth row' (Z.to_nat j) ;;
        b <- py_nth row (Z.to_nat (j - c)) ;;
        if match plus_value b v with Some s => Qeq_bool a s | None => false end
        then backtrack steps' (j - c) (true :: flag)                        (* 62-64 *)
        else backtrack steps' j (false :: flag)
      else backtrack steps' j (false :: flag)
  end.

(** 47-65 *)
Definition select_Knapsack_01 (infor_value : list (option Q)) (costs : list Z) (capacity : Z)
  : res (Q * list bool) :=
  _ <- guard (Nat.eqb (length infor_value) (length costs)) AssertErr ;;     (* 47 *)
  _ <- guard (-1 <=? capacity) ValueErr ;;                                  (* 49: np.zeros with a negative size *)
  _ <- guard (0 <=? capacity) IndexErr ;;                                   (* 65: row of size 0 *)
  let items := combine infor_value costs in
  rows <- fill capacity (repeat 0%Q (Z.to_nat (capacity + 1))) items ;;
  flag <- backtrack (rev (combine (combine rows (tl rows)) items)) capacity [] ;;
  best <- py_nth (last rows []) (Z.to_nat capacity) ;;
  Ok (best, flag).

(** ** select_POSS, 67-149 *)

(** Values to be minimised; [None] is +infinity. *)
Definition v_le (a b : option Q) : bool :=
  match b, a with
  | None, _ => true
  | Some _, None => false
  | Some b, Some a => Qle_bool a b
  end.
Definition v_lt (a b : option Q) : bool := negb (v_le b a).
Definition q_lt (a b : Q) : bool := negb (Qle_bool b a).

(** [np.sum(offspring * x)] *)
Fixpoint sum_on (s : list bool) (x : list Q) : Q :=
  match s, x with
  | true :: s', a :: x' => (a + sum_on s' x')%Q
  | false :: s', _ :: x' => sum_on s' x'
  | _, _ => 0%Q
  end.

(** A member of the population with its fitness. *)
Definition member : Type := list bool * (option Q * Q).

(** 110: [np.abs(parent - mask)] on 0/1 vectors. *)
Definition mutate (parent mask : list bool) : list bool := map (fun p => xorb (fst p) (snd p)) (combine parent mask).

(** 112-118 *)
Definition fitness (infor_value costs : list Q) (budget : Q) (s : list bool) : option Q * Q :=
  let c := sum_on s costs in
  (if Qeq_bool c 0 || q_lt budget c then None else Some (sum_on s infor_value), c).

(** 122-124: [a] is better than [b] in one coordinate and not worse in the other. *)
Definition beats (a b : option Q * Q) : bool :=
  (v_lt (fst a) (fst b) && Qle_bool (snd a) (snd b)) || (v_le (fst a) (fst b) && q_lt (snd a) (snd b)).

(** 129-136: [a] is at least as large as [b] in both coordinates. *)
Definition no_better (a b : option Q * Q) : bool := v_le (fst b) (fst a) && Qle_bool (snd b) (snd a).

(** 108-136, one round; the draw is the position of the parent and the mutation mask. *)
Definition poss_round (infor_value costs : list Q) (budget : Q) (pop : list member) (draw : nat * list bool)
  : res (list member) :=
  parent <- py_nth pop (fst draw) ;;
  let s := mutate (fst parent) (snd draw) in
  let f := fitness infor_value costs budget s in
  if existsb (fun m => beats (snd m) f) pop then Ok pop                     (* 125-126 *)
  else Ok (filter (fun m => negb (no_better (snd m) f)) pop ++ [(s, f)]).

Fixpoint poss_rounds (infor_value costs : list Q) (budget : Q) (pop : list member) (draws : list (nat * list bool))
  : res (list member) :=
  match draws with
  | [] => Ok pop
  | d :: draws' => pop' <- poss_round infor_value costs budget pop d ;;
                   poss_rounds infor_value costs budget pop' draws'
  end.

(** [np.argmin]: the first position of a smallest value. *)
Fixpoint argmin_from (best : nat) (bv : option Q) (i : nat) (l : list (option Q)) : nat :=
  match l with
  | [] => best
  | v :: l' => if v_lt v bv then argmin_from i v (S i) l' else argmin_from best bv (S i) l'
  end.
Definition argmin (l : list (option Q)) : res nat :=
  match l with
  | [] => Err ValueErr
  | v :: l' => Ok (argmin_from 0 v 1 l')
  end.

(** 96-149; the number of draws stands for the number of rounds, which is any real number's worth (107). *)
Definition select_POSS (infor_value costs : list Q) (budget : Q) (draws : list (nat * list bool))
  : res (option Q * list bool) :=
  _ <- guard (Nat.eqb (length infor_value) (length costs)) AssertErr ;;     (* 96 *)
  pop <- poss_rounds infor_value costs budget
           [(repeat false (length infor_value), (None, 0%Q))] draws ;;      (* 98-103 *)
  (* 143-144: the position is counted among the members within budget ... *)
  i <- argmin (map (fun m => fst (snd m)) (filter (fun m => Qle_bool (snd (snd m)) budget) pop)) ;;
  (* 145-146: ... and used among all members. *)
  m <- py_nth pop i ;;
  Ok (fst (snd m), fst m).

(** ** hierarchical_multilabel_mark, 151-230 *)

(** Sets of pairs are lists without repetition; [update] of one pair. *)
Definition pair_mem (p : nat * nat) (s : list (nat * nat)) : bool :=
  existsb (fun q => Nat.eqb (fst p) (fst q) && Nat.eqb (snd p) (snd q)) s.
Definition pair_add (s : list (nat * nat)) (p : nat * nat) : list (nat * nat) :=
  if pair_mem p s then s else s ++ [p].

(** [m[i][j]] *)
Definition entry {A} (m : list (list A)) (i j : nat) : res A := row <- py_nth m i ;; py_nth row j.

(** Loops that stop at the first exception. *)
Fixpoint foldM {S A} (f : S -> A -> res S) (s : S) (l : list A) : res S :=
  match l with [] => Ok s | x :: l' => s' <- f s x ;; foldM f s' l' end.

(** 214-225, for one pair. *)
Definition mark_pair (n_classes : nat) (tree y : list (list Z)) (label_index add : list (nat * nat))
                     (p : nat * nat) : res (list (nat * nat)) :=
  v <- entry y (fst p) (snd p) ;;
  if v =? 1 then                                                            (* 216-220 *)
    foldM (fun add d =>
             t <- entry tree (snd p) d ;;
             Ok (if (t =? 1) && negb (pair_mem (fst p, d) label_index) then pair_add add (fst p, d) else add))
          add (seq 0 n_classes)
  else if v =? -1 then                                                      (* 221-225 *)
    foldM (fun add u =>
             t <- entry tree u (snd p) ;;
             Ok (if (t =? 1) && negb (pair_mem (fst p, u) label_index) then pair_add add (fst p, u) else add))
          add (seq 0 n_classes)
  else Ok add.

(** 208-230, after the conversion of the arguments; the pairs are visited in the order of the list. *)
Definition hierarchical_mark (n_classes : nat) (multilabel_index label_index : list (nat * nat))
                             (tree y : list (list Z)) : res (list (nat * nat)) :=
  _ <- guard (Nat.eqb (length tree) n_classes && forallb (fun r => Nat.eqb (length r) n_classes) tree) AssertErr ;;
  add <- foldM (mark_pair n_classes tree y label_index) [] multilabel_index ;;
  Ok (fold_left pair_add add multilabel_index).                             (* 227-229 *)

(** 180-195, 227-230: the queried pairs arrive as a collection, which is updated in place, or as a list or
    array, which is copied.  Result: what the caller's variable holds afterwards, and the returned set. *)
Definition mark_call (is_collection : bool) (n_classes : nat) (multilabel_index label_index : list (nat * nat))
                     (tree y : list (list Z)) : res (list (nat * nat) * list (nat * nat)) :=
  r <- hierarchical_mark n_classes multilabel_index label_index tree y ;;
  Ok (if is_collection then r else multilabel_index, r).

(** ** QueryCostSensitiveRandom.select, 471-544 *)

(** 517-526, without an oracle. *)
Definition class_costs (n_classes : nat) (cost : option (list Q)) : res (list Q) :=
  match cost with
  | None => Ok (repeat 1%Q n_classes)
  | Some c => if Nat.eqb (length c) n_classes then Ok c else Err AssertErr
  end.

(** 531-542; a draw is a position in the list of the pairs that are left ([np.random.choice] of an empty
    range is a ValueError); [None]: the loop is still running after the given draws. *)
Fixpoint random_loop (costs : list Q) (budget : Q) (left got : list (nat * nat)) (spent : Q) (draws : list nat)
  : res (option (list (nat * nat))) :=
  match left with
  | [] => Err ValueErr
  | _ =>
      match draws with
      | [] => Ok None
      | r :: draws' =>
          p <- py_nth left r ;;
          c <- py_nth costs (snd p) ;;
          if q_lt budget (spent + c)%Q then Ok (Some got)                   (* 538-539 *)
          else random_loop costs budget
                 (filter (fun q => negb (Nat.eqb (fst p) (fst q) && Nat.eqb (snd p) (snd q))) left)
                 (got ++ [p]) (spent + c)%Q draws'
      end
  end.
Definition cost_random_select (n_classes : nat) (cost : option (list Q)) (budget : Q)
                              (unlabel_index : list (nat * nat)) (draws : list nat)
  : res (option (list (nat * nat))) :=
  costs <- class_costs n_classes cost ;;
  random_loop costs budget unlabel_index [] 0%Q draws.

(** ** The selection of QueryCostSensitiveHALC (433-468) and QueryCostSensitivePerformance (624-653) *)

(** 443-454 and 631-643 for class [j]; [order] is [np.argsort] of column [j].  [np.where] returns a tuple of
    one array, so [len(useless_index)] is 1, and [score[sort_index][j]] is row [j] of the sorted rows, which
    must exist. *)
Definition class_candidates (budget : nat) (order : list nat) (j : nat) : res (list (nat * nat)) :=
  let sort_index := firstn budget (rev order) in
  _ <- py_nth sort_index j ;;
  Ok (map (fun k => (k, j)) (firstn (budget - 1) sort_index)).

(** 438-468 and 627-653. *)
Definition knapsack_select (score : list (list (option Q))) (costs : list Z) (budget : nat)
                           (orders : list (list nat)) : res (list (nat * nat)) :=
  cands <- mapM (fun jo => class_candidates budget (snd jo) (fst jo))
                (combine (seq 0 (length orders)) orders) ;;
  let pairs := concat cands in
  values <- mapM (fun p => entry score (fst p) (snd p)) pairs ;;
  cs <- mapM (fun p => py_nth costs (snd p)) pairs ;;
  r <- select_Knapsack_01 values cs (Z.of_nat budget) ;;
  Ok (map snd (filter fst (combine (snd r) pairs))).

(** 672-687, Performance: the uncertainty matrix; labelled pairs get -infinity.  [u i j] is |1/decision|. *)
Definition performance_score (n_samples n_classes : nat) (unlabelled : list (nat * nat)) (u : nat -> nat -> Q)
  : list (list (option Q)) :=
  map (fun i => map (fun j => if pair_mem (i, j) unlabelled then Some (u i j) else None) (seq 0 n_classes))
      (seq 0 n_samples).

(** 363-377, HALC: [Infor[j_label][j] = -np.infty] writes to a copy, so labelled pairs keep the value 0 of
    line 363.  [info i j] is the informativeness computed at 371-375 (-infinity when a labelled leaf is
    below [j]). *)
Definition halc_score (n_samples n_classes : nat) (unlabelled : list (nat * nat)) (info : nat -> nat -> option Q)
  : list (list (option Q)) :=
  map (fun i => map (fun j => if pair_mem (i, j) unlabelled then info i j else Some 0%Q) (seq 0 n_classes))
      (seq 0 n_samples).

(** ** QueryCostSensitiveHALC.cal_Udes, 339-353 *)

(** [x + y] on values that may be -infinity. *)
Definition plus_neg (x y : option Q) : option Q :=
  match x, y with Some x, Some y => Some (x + y)%Q | _, _ => None end.

(** 346-352; [u] is the row of uncertainties of the instance.  The loop at 349 runs over the entries of the
    row, not over its positions, and uses each entry as a label.  The result is [None] when the given number of
    iterations of the outer loop was not enough. *)
Fixpoint udes_loop (fuel : nat) (tree : list (list nat)) (u : list (option Q)) (que : list nat) (acc : option Q)
  : res (option (option Q)) :=
  match que, fuel with
  | [], _ => Ok (Some acc)
  | _, O => Ok None
  | t :: que', S fuel' =>
      row <- py_nth tree t ;;
      if existsb (fun e => negb (Nat.eqb e 0)) row then                     (* 348 *)
        more <- mapM (fun i => e <- py_nth row i ;; Ok (if Nat.eqb e 1 then [i] else [])) row ;;  (* 349-351 *)
        udes_loop fuel' tree u (que' ++ concat more) acc
      else
        x <- py_nth u t ;;
        udes_loop fuel' tree u que' (plus_neg acc x)                        (* 353 *)
  end.
Definition cal_Udes (fuel : nat) (tree : list (list nat)) (u : list (option Q)) (j : nat) : res (option (option Q)) :=
  udes_loop fuel tree u [j] (Some 0%Q).
