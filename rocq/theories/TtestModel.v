(** Model of [BaseAnalyser.paired_ttest] (alipy/utils/interface.py, lines 264-317).

    Simplifications: numbers are exact rationals (no rounding, no NaN or infinity in the samples);
    arrays have at most two dimensions, the rows of a matrix have one length. *)
From Coq Require Import QArith.
From Verif Require Import Base.
Local Open Scope Q_scope.

(** The argument [a] or [b]: a number, a 1-D or a 2-D array (rows of length [k]). *)
Inductive arr :=
| Scalar (x : Q)
| Vec (l : list Q)
| Mat (k : nat) (rows : list (list Q)).

(** [np.ravel]. *)
Definition ravel (a : arr) : list Q :=
  match a with Scalar x => [x] | Vec l => l | Mat _ rows => concat rows end.

(** [len(a)]. *)
Definition py_len (a : arr) : res nat :=
  match a with
  | Scalar _ => Err TypeErr
  | Vec l => Ok (length l)
  | Mat _ rows => Ok (length rows)
  end.

Fixpoint qsum (l : list Q) : Q :=
  match l with [] => 0 | x :: l' => x + qsum l' end.

(** [d = a - b] of two 1-D arrays of one length. *)
Definition diffs (a b : list Q) : list Q := map (fun p => fst p - snd p) (combine a b).

Definition qlen (l : list Q) : Q := inject_Z (Z.of_nat (length l)).
Definition qmean (l : list Q) : Q := qsum l / qlen l.
(** [np.var(d, ddof=1)]. *)
Definition qvar1 (l : list Q) : Q :=
  qsum (map (fun x => (x - qmean l) * (x - qmean l)) l) / (qlen l - 1).

(** What the p-value of [scipy.stats.ttest_rel] is computed from: not a number (no data, one pair, or
    0/0), an infinite statistic (a non-zero mean with variance zero), or the square of the statistic
    [mean / sqrt(var / n)]. *)
Inductive stat := SNaN | SInf | SFin (t2 : Q).

Definition ttest_stat (d : list Q) : stat :=
  match d with
  | [] | [_] => SNaN
  | _ => if Qeq_bool (qvar1 d) 0
         then if Qeq_bool (qmean d) 0 then SNaN else SInf
         else SFin (qmean d * qmean d / (qvar1 d / qlen d))
  end.

(** External: [tail df t2 alpha] tells whether the two-sided p-value of Student's distribution with
    [df] degrees of freedom, at a statistic of square [t2], is at most [alpha]. *)
Definition student := nat -> Q -> Q -> bool.

(** Lines 314-315: [pvalue <= alpha]; a comparison with NaN is false, the p-value of an infinite
    statistic is 0. *)
Definition decide (tail : student) (n : nat) (s : stat) (alpha : Q) : Z :=
  match s with
  | SNaN => 0
  | SInf => if Qle_bool 0 alpha then 1 else 0
  | SFin t2 => if tail (n - 1)%nat t2 alpha then 1 else 0
  end.

(** [scipy.stats.ttest_rel] of two 1-D arrays: unequal lengths raise ValueError. *)
Definition rel1 (tail : student) (a b : list Q) (alpha : Q) : res Z :=
  if Nat.eqb (length a) (length b)
  then Ok (decide tail (length a) (ttest_stat (diffs a b)) alpha)
  else Err ValueErr.

(** [ttest_rel] of a 1-D array and a matrix with equally many rows: the difference is broadcast. No
    rows: the p-value is NaN. One row: one difference per column, each NaN; [int] of an array needs
    one element. More rows: the matrix must have one column or as many as rows, and the p-value is an
    array with several elements, which [int] rejects. *)
Definition rel_mat (n k : nat) : res Z :=
  match n with
  | O => Ok 0%Z
  | S O => if Nat.eqb k 1 then Ok 0%Z else Err TypeErr
  | _ => if Nat.eqb k 1 || Nat.eqb k n then Err TypeErr else Err ValueErr
  end.

(** interface.py 300-317 [paired_ttest]. *)
Definition paired_ttest (tail : student) (a b : arr) (alpha : Q) : res Z :=
  match a with
  | Scalar _ => Err IndexErr                                                  (* 305: sh[0] of () *)
  | Vec l =>                                                                  (* 303-304 *)
      m <- py_len b ;;                                                        (* 310 *)
      if Nat.eqb (length l) m
      then match b with
           | Scalar _ => Err TypeErr
           | Vec l' => rel1 tail l l' alpha
           | Mat k _ => rel_mat (length l) k
           end
      else Err AssertErr
  | Mat k rows =>
      if Nat.eqb (length rows) 1 || Nat.eqb k 1                               (* 305-307 *)
      then m <- py_len b ;;                                                   (* 310 *)
           if Nat.eqb (length rows) m then rel1 tail (ravel a) (ravel b) alpha else Err AssertErr
      else Err GenericErr                                                     (* 309 *)
  end.
