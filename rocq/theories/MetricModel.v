(** Model of metrics/performance.py.

    Labels are integers, scores and weights exact rationals (no NaN, no infinity).  A target is a vector or a
    matrix given by its rows; numpy matrices are rectangular, which the theorems assume where it matters. *)
From Verif Require Import Base MiscModel.
From Coq Require Import QArith.
Local Open Scope Z_scope.

Inductive target := T1 (v : list Z) | T2 (rows : list (list Z)).

(** 32-50 *)
Definition num_samples (t : target) : nat := match t with T1 v => List.length v | T2 r => List.length r end.
(** [np.ravel] *)
Definition ravel (t : target) : list Z := match t with T1 v => v | T2 r => List.concat r end.
(** [len(np.unique(l))] *)
Definition n_unique (l : list Z) : nat := List.length (nodup Z.eq_dec l).

(** 53-61: [check_consistent_length(a, b, sample_weight)], given by the lengths. *)
Definition same_length (n m : nat) (w : option (list Q)) : bool :=
  (Nat.eqb n m && match w with Some w => Nat.eqb (List.length w) n | None => true end)%bool.

(** 64-75 *)
Inductive ttype := Binary | Multiclass | Multilabel.
Definition type_of_target (y : target) : res ttype :=
  if Nat.leb (n_unique (ravel y)) 2 then
    match y with
    | T1 _ => Ok Binary
    | T2 [] => Err IndexErr                                   (* y[0] *)
    | T2 (r :: _) => if Nat.ltb 1 (List.length r) then Ok Multilabel else Ok Binary
    end
  else Ok Multiclass.

(** 129-189 *)
Definition check_targets (y_true y_pred : target) : res (ttype * target * target) :=
  _ <- guard (same_length (num_samples y_true) (num_samples y_pred) None) ValueErr ;;      (* 156 *)
  t <- type_of_target y_true ;;
  p <- type_of_target y_pred ;;
  let flat ty := Ok (ty, T1 (ravel y_true), T1 (ravel y_pred)) in
  match t, p with
  | Multilabel, Multilabel => Ok (Multilabel, y_true, y_pred)                              (* 184-187 *)
  | Multilabel, _ | _, Multilabel => Err ValueErr                                          (* 164-166 *)
  | Binary, Binary => flat (if Nat.ltb 2 (n_unique (ravel y_true ++ ravel y_pred)) then Multiclass else Binary)
  | _, _ => flat Multiclass
  end.

(** [np.average(xs, weights=w)] *)
Definition average (xs : list Q) (w : option (list Q)) : res fl :=
  match w with
  | None => Ok (fdiv (qsum xs) (qlen xs))
  | Some w => if Qeq_bool (qsum w) 0 then Err ZeroDivErr
              else Ok (Num (qsum (map (fun p => fst p * snd p)%Q (combine xs w)) / qsum w))
  end.
Definition b2q (b : bool) : Q := if b then 1 else 0.
Definition row_eqb (a b : list Z) : bool := if list_eq_dec Z.eq_dec a b then true else false.

(** 192-219.  In the multi-label case the difference of the two sparse matrices stores exactly the entries that
    differ, and a different number of columns is a ValueError. *)
Definition accuracy_score (y_true y_pred : target) (w : option (list Q)) : res fl :=
  c <- check_targets y_true y_pred ;;
  match c with
  | (ty, yt, yp) =>
      _ <- guard (same_length (num_samples yt) (num_samples yp) w) ValueErr ;;             (* 211 *)
      match ty, yt, yp with
      | Multilabel, T2 a, T2 b =>
          _ <- guard (Nat.eqb (List.length (hd [] a)) (List.length (hd [] b))) ValueErr ;;
          average (map (fun p => b2q (row_eqb (fst p) (snd p))) (combine a b)) w
      | _, a, b => average (map (fun p => b2q (fst p =? snd p)) (combine (ravel a) (ravel b))) w
      end
  end.

(** 222-261 *)
Definition fsub (a : Q) (b : fl) : fl :=
  match b with Num b => Num (a - b) | Inf s => Inf (negb s) | NaN => NaN end.
Definition zero_one_loss (y_true y_pred : target) (normalize : bool) (w : option (list Q)) : res fl :=
  score <- accuracy_score y_true y_pred w ;;
  if normalize then Ok (fsub 1 score)
  else Ok (fsub (match w with Some w => qsum w | None => inject_Z (Z.of_nat (num_samples y_true)) end) score).

(** [np.sum(y_true != y_pred)] with numpy broadcasting of a column against a vector.  Two matrices of different
    widths: an exception (older numpy compares to a single True). *)
Definition n_diff_list (a b : list Z) : nat := count (fun p => negb (fst p =? snd p)) (combine a b).
Definition n_diff (y_true y_pred : target) : res nat :=
  match y_true, y_pred with
  | T1 a, T1 b => Ok (n_diff_list a b)
  | T2 a, T2 b =>
      if Nat.eqb (List.length (hd [] a)) (List.length (hd [] b))
      then Ok (n_diff_list (List.concat a) (List.concat b))
      else Err ValueErr
  | T1 a, T2 b | T2 b, T1 a =>
      let m := List.length (hd [] b) in
      if Nat.eqb m 1 then                                      (* (n,) against (n,1): all pairs *)
        Ok (count (fun p => negb (fst p =? snd p)) (list_prod a (List.concat b)))
      else if (Nat.eqb m (List.length a))%bool then            (* (m,) against (n,m): every row *)
        Ok (list_sum (map (n_diff_list a) b))
      else if Nat.eqb (List.length a) 1 then                   (* (1,) against (1,m) *)
        Ok (count (fun x => negb (x =? hd 0 a)) (List.concat b))
      else Err ValueErr
  end.

(** 492-528 *)
Definition hamming_loss (y_true y_pred : target) : res fl :=
  c <- check_targets y_true y_pred ;;
  d <- n_diff y_true y_pred ;;
  match c, y_true with
  | (Multilabel, _, _), T2 a =>
      Ok (fdiv (inject_Z (Z.of_nat d)) (inject_Z (Z.of_nat (List.length a * List.length (hd [] a)))))
  | _, _ => Ok (fdiv (inject_Z (Z.of_nat d)) (inject_Z (Z.of_nat (num_samples y_true))))
  end.

(** ** 298-489: threshold counts, precision-recall and ROC *)

(** Stable sorting ([kind="mergesort"]): insertion sort. *)
Fixpoint insert {A} (le : A -> A -> bool) (x : A) (l : list A) : list A :=
  match l with [] => [x] | y :: l' => if le x y then x :: l else y :: insert le x l' end.
Fixpoint isort {A} (le : A -> A -> bool) (l : list A) : list A :=
  match l with [] => [] | x :: l' => insert le x (isort le l') end.

(** 335-343: the accepted class sets when no positive label is given. *)
Definition binary_classes (y : list Z) : bool :=
  match y with
  | [] => false
  | _ => forallb (fun v => (v =? 0) || (v =? 1))%bool y || forallb (fun v => (v =? -1) || (v =? 1))%bool y
  end.

(** One threshold: 352-358. *)
Definition counts_at (ys : list bool) (ss : list Q) (t : Q) : nat * nat :=
  let prob := map (fun s => Qle_bool t s) ss in                                         (* 352, 354 *)
  let result := map (fun p => eqb (fst p) (snd p)) (combine ys prob) in                 (* 353 *)
  let tp := map (fun p => fst p && snd p)%bool (combine result prob) in                 (* 355 *)
  let fp := map (fun p => negb (fst p) && snd p)%bool (combine result prob) in          (* 356 *)
  (count (fun b => b) fp, count (fun b => b) tp).

(** 298-359.  [is_array]: y_true is a numpy array; a Python list compared with a number gives a single False, which
    cannot be indexed (347).  Result: fps, tps, thresholds. *)
Definition get_fps_tps_thresholds (is_array : bool) (y_true : list Z) (y_score : list Q) (pos_label : option Z)
  : res (list nat * list nat * list Q) :=
  _ <- guard (same_length (List.length y_true) (List.length y_score) None) ValueErr ;;
  pos <- match pos_label with
         | None => if binary_classes y_true then Ok 1 else Err ValueErr
         | Some p => Ok p
         end ;;
  _ <- guard is_array IndexErr ;;
  let sorted := rev (isort (fun a b => Qle_bool (snd a) (snd b)) (combine (map (fun v => v =? pos) y_true) y_score)) in
  let ys := map fst sorted in
  let ss := map snd sorted in
  let cs := map (counts_at ys ss) ss in
  Ok (map fst cs, map snd cs, ss).

(** [tps.searchsorted(v)]: the first position whose value is at least [v]. *)
Fixpoint searchsorted (l : list nat) (v : nat) : nat :=
  match l with [] => O | x :: l' => if Nat.leb v x then O else S (searchsorted l' v) end.
(** [l[i::-1]] for a position [i] of [l]. *)
Definition backwards {A} (l : list A) (i : nat) : list A := rev (firstn (S i) l).
Definition qn (n : nat) : Q := inject_Z (Z.of_nat n).

(** 362-402 *)
Definition precision_recall_curve (is_array : bool) (y_true : list Z) (y_score : list Q) (pos_label : option Z)
  : res (list fl * list fl * list Q) :=
  r <- get_fps_tps_thresholds is_array y_true y_score pos_label ;;
  match r with
  | (fps, tps, thresholds) =>
      let precision := map (fun p => match fdiv (qn (snd p)) (qn (snd p + fst p)) with NaN => Num 0 | f => f end)
                           (combine fps tps) in                                        (* 397-398 *)
      _ <- guard (negb (match tps with [] => true | _ => false end)) IndexErr ;;       (* tps[-1] *)
      let total := last tps O in
      let recall := map (fun t => fdiv (qn t) (qn total)) tps in                       (* 399 *)
      let i := searchsorted tps total in                                               (* 400 *)
      Ok (backwards precision i ++ [Num 1], backwards recall i ++ [Num 0], backwards thresholds i)
  end.

(** 405-462.  The first threshold is the highest score, so the test of line 443 is "not both counts are zero". *)
Definition roc_curve (is_array : bool) (y_true : list Z) (y_score : list Q) (pos_label : option Z)
  : res (list Q * list Q * list Q) :=
  r <- get_fps_tps_thresholds is_array y_true y_score pos_label ;;
  match r with
  | (fps, tps, thresholds) =>
      p <- (if (match tps with [] => true | _ => false end || negb (Nat.eqb (hd O fps) 0) || negb (Nat.eqb (hd O tps) 0))%bool
            then match thresholds with
                 | [] => Err IndexErr                                                  (* 448 *)
                 | t :: _ => Ok (O :: fps, O :: tps, (t + 1)%Q :: thresholds)
                 end
            else Ok (fps, tps, thresholds)) ;;
      match p with
      | (fps, tps, thresholds) =>
          if Nat.leb (last fps O) 0 then Err ValueErr                                  (* 450 *)
          else if Nat.leb (last tps O) 0 then Err ValueErr                             (* 456 *)
          else Ok (map (fun x => qn x / qn (last fps O))%Q fps,
                   map (fun x => qn x / qn (last tps O))%Q tps, thresholds)
      end
  end.

(** 109-110, 120: sorting the points by [x], then [y], and the trapezoidal rule. *)
Definition lex_le (a b : Q * Q) : bool :=
  (negb (Qle_bool (fst b) (fst a)) || (Qeq_bool (fst a) (fst b) && Qle_bool (snd a) (snd b)))%bool.
Fixpoint trapz (l : list (Q * Q)) : Q :=
  match l with
  | a :: ((b :: _) as l') => ((fst b - fst a) * (snd a + snd b) / 2 + trapz l')%Q
  | _ => 0%Q
  end.
Definition auc (x y : list Q) : res Q :=
  _ <- guard (Nat.eqb (List.length x) (List.length y)) ValueErr ;;
  _ <- guard (Nat.leb 2 (List.length x)) ValueErr ;;                                    (* 101-103 *)
  Ok (trapz (isort lex_le (combine x y))).

(** 465-489 *)
Definition roc_auc_score (is_array : bool) (y_true : list Z) (y_score : list Q) (pos_label : option Z) : res Q :=
  r <- roc_curve is_array y_true y_score pos_label ;;
  auc (fst (fst r)) (snd (fst r)).

(** ** 531-731: multi-label metrics; y_score is a matrix given by its rows. *)

Definition shape {A} (rows : list (list A)) : nat * nat := (List.length rows, List.length (hd [] rows)).
Definition shape_eqb (a b : nat * nat) : bool := (Nat.eqb (fst a) (fst b) && Nat.eqb (snd a) (snd b))%bool.

(** [np.sum(y_true - y_pred, axis=1)] for one row; a prediction with one column is broadcast. *)
Definition row_diff (r p : list Z) : Z :=
  match p with
  | [x] => zsum (map (fun y => y - x) r)
  | _ => zsum (map (fun q => fst q - snd q) (combine r p))
  end.
(** 531-558 *)
Definition one_error (y_true : target) (y_pred : list (list Z)) (w : option (list Q)) : res fl :=
  _ <- guard (same_length (num_samples y_true) (List.length y_pred) w) ValueErr ;;
  ty <- type_of_target y_true ;;
  match y_true, ty with
  | T1 _, _ => Err ValueErr                                                             (* 553 *)
  | T2 a, Multilabel =>
      _ <- guard (orb (Nat.eqb (List.length (hd [] y_pred)) 1) (shape_eqb (shape a) (shape y_pred))) ValueErr ;;
      Ok (fdiv (qn (count (fun q => row_diff (fst q) (snd q) =? 0) (combine a y_pred))) (qn (List.length a)))
  | T2 _, _ => Err ValueErr                                                             (* 554-555 *)
  end.

(** Scores of the relevant (non-zero) labels. *)
Definition relevant (y : list Z) (s : list Q) : list Q :=
  map snd (filter (fun p => negb (fst p =? 0)) (combine y s)).
Definition irrelevant (y : list Z) (s : list Q) : list Q :=
  map snd (filter (fun p => fst p =? 0) (combine y s)).

(** 561-595 *)
Definition coverage_row (y : list Z) (s : list Q) : nat :=
  match relevant y s with
  | [] => O                                                                             (* masked, filled with 0 *)
  | q :: l => let m := fold_left qmin l q in count (fun x => Qle_bool m x) s
  end.
Definition coverage_error (y_true : target) (y_score : list (list Q)) (w : option (list Q)) : res fl :=
  _ <- guard (same_length (num_samples y_true) (List.length y_score) w) ValueErr ;;
  ty <- type_of_target y_true ;;
  match y_true, ty with
  | T2 a, Multilabel =>
      _ <- guard (shape_eqb (shape a) (shape y_score)) GenericErr ;;                    (* numpy.ma.MaskError *)
      average (map (fun p => qn (coverage_row (fst p) (snd p))) (combine a y_score)) w
  | _, _ => Err ValueErr
  end.

(** [np.unique] of scores: ascending, without repetition. *)
Fixpoint uinsert (x : Q) (l : list Q) : list Q :=
  match l with
  | [] => [x]
  | y :: l' => if Qeq_bool x y then l else if Qle_bool x y then x :: l else y :: uinsert x l'
  end.
Definition unique_scores (l : list Q) : list Q := fold_right uinsert [] l.
Definition bincount (u : list Q) (l : list Q) : list nat := map (fun x => count (Qeq_bool x) l) u.
Fixpoint cumsum (acc : nat) (l : list nat) : list nat :=
  match l with [] => [] | x :: l' => (acc + x)%nat :: cumsum (acc + x) l' end.
Definition dot (a b : list nat) : nat := list_sum (map (fun p => fst p * snd p)%nat (combine a b)).

(** 642-666 for one sample. *)
Definition ranking_row (n_labels : nat) (y : list Z) (s : list Q) : Q :=
  let u := unique_scores s in
  let true_at := bincount u (relevant y s) in
  let all_at := bincount u s in
  let false_at := map (fun p => fst p - snd p)%nat (combine all_at true_at) in
  let loss := dot (cumsum 0 true_at) false_at in
  let pos := List.length (relevant y s) in
  if (Nat.eqb pos 0 || Nat.eqb pos n_labels)%bool then 0%Q
  else (qn loss / qn ((n_labels - pos) * pos))%Q.
Definition label_ranking_loss (y_true : target) (y_score : list (list Q)) (w : option (list Q)) : res fl :=
  _ <- guard (same_length (num_samples y_true) (List.length y_score) w) ValueErr ;;
  ty <- type_of_target y_true ;;
  match y_true, ty with
  | T2 a, Multilabel =>
      _ <- guard (shape_eqb (shape a) (shape y_score)) ValueErr ;;
      average (map (fun p => ranking_row (List.length (hd [] a)) (fst p) (snd p)) (combine a y_score)) w
  | _, _ => Err ValueErr
  end.

(** [rankdata(., 'max')] of the negated scores: the number of scores at least as high. *)
Definition rank_max (all : list Q) (s : Q) : nat := count (fun x => Qle_bool s x) all.
(** 709-724 for one sample: None for the rows of line 712. *)
Definition lrap_row (n_labels : nat) (y : list Z) (s : list Q) : option Q :=
  let rel := relevant y s in
  if (Nat.eqb (List.length rel) 0 || Nat.eqb (List.length rel) n_labels)%bool then None
  else Some (qmean (map (fun x => qn (rank_max rel x) / qn (rank_max s x))%Q rel)).
(** 671-731 *)
Definition lrap_score (y_true : target) (y_score : list (list Q)) (w : option (list Q)) : res fl :=
  _ <- guard (same_length (num_samples y_true) (List.length y_score) w) ValueErr ;;
  match y_true with
  | T1 _ => Err ValueErr                                                                (* 694-695 *)
  | T2 a =>
      _ <- guard (shape_eqb (shape a) (shape y_score)) ValueErr ;;
      ty <- type_of_target y_true ;;
      match ty with
      | Multiclass => Err ValueErr                                                      (* 699-701 *)
      | _ =>
          let rows := map (fun p => lrap_row (List.length (hd [] a)) (fst p) (snd p)) (combine a y_score) in
          match w with
          | None => Ok (fdiv (qsum (map (fun o => match o with Some x => x | None => 1%Q end) rows)) (qn (List.length a)))
          | Some w => Ok (fdiv (qsum (map (fun p => match fst p with Some x => x * snd p | None => 1 end)%Q (combine rows w)))
                               (qsum w))
          end
      end
  end.

(** ** 734-912 *)

(** 832-840 for one class; [None] when a class has no positive or no negative instance (a division by zero). *)
Definition class_auc (y : list Z) (s : list Q) : res Q :=
  let P := map snd (filter (fun p => fst p =? 1) (combine y s)) in
  let N := map snd (filter (fun p => negb (fst p =? 1)) (combine y s)) in
  _ <- guard (negb (Nat.eqb (List.length P * List.length N) 0)) ZeroDivErr ;;
  Ok (qn (count (fun p => negb (Qle_bool (fst p) (snd p))) (list_prod P N)) / qn (List.length P * List.length N))%Q.
Definition zcol (rows : list (list Z)) (j : nat) : list Z := map (fun r => nth j r 0) rows.
(** 779-841; no columns: a division by zero. *)
Definition micro_auc_score (y_true : target) (y_score : list (list Q)) (w : option (list Q)) : res Q :=
  _ <- guard (same_length (num_samples y_true) (List.length y_score) w) ValueErr ;;
  match y_true with
  | T1 _ => Err ValueErr
  | T2 a =>
      _ <- guard (shape_eqb (shape a) (shape y_score)) ValueErr ;;
      ty <- type_of_target y_true ;;
      match ty with
      | Multiclass => Err ValueErr
      | _ =>
          let m := snd (shape y_score) in
          aucs <- mapM (fun j => class_auc (zcol a j) (qcol y_score j)) (seq 0 m) ;;
          _ <- guard (negb (Nat.eqb m 0)) ZeroDivErr ;;
          Ok (qsum aucs / qn m)%Q
      end
  end.

(** 755-770 [sort]: the positions in ascending order of their values, found by repeatedly taking the first minimum. *)
Definition sort_index (s : list Q) : list nat :=
  map fst (isort (fun a b => Qle_bool (snd a) (snd b)) (combine (seq 0 (List.length s)) s)).
(** 773-776; [None] does not occur for a position of the list. *)
Fixpoint find_index (a : nat) (b : list nat) : nat :=
  match b with [] => O | x :: b' => if Nat.eqb a x then O else S (find_index a b') end.
(** 734-742 *)
Definition positions (f : Z -> bool) (y : list Z) : list nat :=
  map fst (filter (fun p => f (snd p)) (combine (seq 0 (List.length y)) y)).
(** 902-911 for one sample. *)
Definition ap_row (y : list Z) (s : list Q) : fl :=
  let index := sort_index s in
  let labels := positions (fun v => v =? 1) y in
  let locs := map (fun l => find_index l index) labels in                               (* 905, 909 *)
  let m := List.length s in
  let indicator := map (fun k => existsb (Nat.eqb k) locs) (seq 0 m) in                 (* 903-906 *)
  let summary := qsum (map (fun loc => qn (count (fun b => b) (skipn loc indicator)) / qn (m - loc))%Q locs) in
  fdiv summary (qlen labels).
(** Adding a NaN to a number. *)
Definition fadd (a b : fl) : fl :=
  match a, b with Num x, Num y => Num (x + y) | NaN, _ | _, NaN => NaN | Inf s, _ | _, Inf s => Inf s end.
(** 844-912; no samples: a division by zero. *)
Definition average_precision_score (y_true : target) (y_score : list (list Q)) (w : option (list Q)) : res fl :=
  _ <- guard (same_length (num_samples y_true) (List.length y_score) w) ValueErr ;;
  match y_true with
  | T1 _ => Err ValueErr
  | T2 a =>
      _ <- guard (shape_eqb (shape a) (shape y_score)) ValueErr ;;
      ty <- type_of_target y_true ;;
      match ty with
      | Multiclass => Err ValueErr
      | _ =>
          let m := Z.of_nat (snd (shape y_score)) in
          let kept := filter (fun p => negb (zsum (fst p) =? m) && negb (zsum (fst p) =? 0))%bool (combine a y_score) in (* 891 *)
          match fold_left fadd (map (fun p => ap_row (fst p) (snd p)) kept) (Num 0) with
          | Num q => Ok (fdiv q (qn (List.length a)))
          | f => Ok f
          end
      end
  end.
