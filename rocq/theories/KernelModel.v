(** Model of the kernel matrices of alipy/utils/misc.py ([get_gaussian_kernel_mat] 34-60, [calc_kernel_matrix] 161-204) and of
    the label arrays of BMDR and SPAL by type (alipy/query_strategy/query_labels.py 1086-1095, 1356-1365).

    Simplifications: floats are exact rationals, infinities and NaN explicit ([fl]); the exponential is an argument; sklearn's
    [rbf_kernel], [polynomial_kernel] and [linear_kernel] are their documented formulas; the degree is a natural number;
    keyword arguments are options. *)
From Verif Require Import Base MiscModel BatchModel.
From Coq Require Import QArith.
Local Open Scope Z_scope.

(** [x.dot(y)] *)
Definition dotp (x y : list Q) : Q := qsum (map (fun p => fst p * snd p)%Q (combine x y)).
(** A table of the values of [f] for all pairs of rows. *)
Definition pairs {A} (f : list Q -> list Q -> A) (X : list (list Q)) : list (list A) := map (fun x => map (f x) X) X.
(** [check_array]: a rectangular array with rows and columns. *)
Definition sound (X : list (list Q)) : bool :=
  match X with [] => false | x :: _ => negb (Nat.eqb (length x) 0) && forallb (fun r => Nat.eqb (length r) (length x)) X end.

(** [np.exp] *)
Definition fexp (expo : Q -> Q) (x : fl) : fl :=
  match x with Num q => Num (expo q) | Inf true => Num 0 | Inf false => Inf false | NaN => NaN end.
(** 53-60 [get_gaussian_kernel_mat] with [check_arr]; [tmp] are the squared norms of the rows. *)
Definition gaussian (expo : Q -> Q) (sigma : Q) (X : list (list Q)) : res (list (list fl)) :=
  if sound X then
    let tmp := fun x => qsum (map (fun a => a * a)%Q x) in
    Ok (pairs (fun x y => fexp expo (fdiv (- tmp x * 1 - 1 * tmp y + 2 * dotp x y) (2 * (sigma * sigma)))) X)
  else Err ValueErr.

(** sklearn: [exp(-gamma ||x - y||^2)], [(gamma <x, y> + coef0) ^ degree], [<x, y>] *)
Definition sq_diff (x y : list Q) : Q := qsum (map (fun p => (fst p - snd p) * (fst p - snd p))%Q (combine x y)).
Fixpoint qpow (x : Q) (n : nat) : Q := match n with O => 1%Q | S n' => (x * qpow x n')%Q end.

Record kwargs := { kw_gamma : option Q; kw_coef0 : option Q; kw_degree : option nat }.
Definition pop {A} (d : A) (o : option A) : A := match o with Some a => a | None => d end.
Inductive choice := CRbf | CPoly | CLinear | CCall (f : list (list Q) -> list (list Q) -> list (list Q)) | CElse.

(** 188-204 [calc_kernel_matrix] *)
Definition calc_kernel (expo : Q -> Q) (X : list (list Q)) (k : choice) (kw : kwargs) : res (list (list Q)) :=
  match k with
  | CRbf => if sound X then Ok (pairs (fun x y => expo (- pop 1 (kw_gamma kw) * sq_diff x y)%Q) X) else Err ValueErr
  | CPoly => if sound X then Ok (pairs (fun x y => qpow (pop 1 (kw_gamma kw) * dotp x y + pop 1 (kw_coef0 kw))%Q (pop 3%nat (kw_degree kw))) X)
             else Err ValueErr
  | CLinear => if sound X then Ok (pairs dotp X) else Err ValueErr
  | CCall f => Ok (f X X)
  | CElse => Err NotImplErr
  end.

(** ** Label arrays of BMDR and SPAL: what storing an integer in an array of integers or of booleans keeps. *)
Inductive dtype := DInt | DBool.
Definition store (t : dtype) (v : Z) : Z := match t with DInt => v | DBool => if v =? 0 then 0 else 1 end.
(** 1087-1095, 1357-1365: the classes are overwritten in the copy of the array, which keeps its type; false is 0 and true 1. *)
Definition typed_labels (t : dtype) (y : list Z) : res (list Z) :=
  match unique_labels y with
  | [a; b] =>
      if (a =? -1) && (b =? 1) then Ok y
      else Ok (map (fun v => if v =? a then store t 1 else if v =? b then store t (-1) else v) y)
  | _ => Err ValueErr
  end.
(** 1101-1116, 1374-1389: the kernels of the strategies; the keyword [gamma_ker] takes the place of [gamma]. *)
Definition of_data (expo : Q -> Q) (X : list (list Q)) (kw : kwargs) (k : kernel) : list (list Q) :=
  let c := match k with Rbf => CRbf | Poly => CPoly | Linear => CLinear | _ => CElse end in
  match calc_kernel expo X c kw with Ok K => K | Err _ => [] end.
