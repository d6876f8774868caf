(** Model of utils/misc.py (randperm, nlargestarg, nsmallestarg, check_one_to_one_correspondence, unpack)
    and of data_manipulate/datapreprocess.py.

    Simplifications: numbers are exact rationals, without NaN or infinity in the inputs. *)
From Verif Require Import Base IndexModel SplitModel.
From Coq Require Import QArith.
Local Open Scope Z_scope.

(** ** misc.py 63-105 [randperm] *)

(** The first argument: an int, a numpy scalar holding an int, a pair, or anything else; the second:
    absent, an int, or anything else (a numpy integer is not an [int]). *)
Inductive rp_n := NInt (z : Z) | NNp (z : Z) | NTuple (a : option Z) (b : Z) | NOther.
Inductive rp_k := RNone | RInt (z : Z) | ROther.

(** 82-95: first and last number. *)
Definition rp_bounds (n : rp_n) : res (Z * Z) :=
  match n with
  | NInt z | NNp z => Ok (0, z)                                             (* 82-84, 91-93 *)
  | NTuple a b => Ok (match a with Some a => a | None => 0 end, b)          (* 85-90 *)
  | NOther => Err TypeErr                                                   (* 94-95 *)
  end.

(** [np.arange(a, b+1)] *)
Definition arange (a b : Z) : list Z := map (fun i => a + i) (zrange (b - a + 1)).

(** [sh] is the shuffled array. *)
Definition randperm_gen (n : rp_n) (k : rp_k) (sh : list Z) : res (list Z) :=
  ab <- rp_bounds n ;;
  let size := snd ab - fst ab + 1 in
  match k with
  | ROther => Err TypeErr                                                   (* 99-100 *)
  | RNone => if size >? size then Err ValueErr else Ok (py_slice_to sh size) (* 97-98 *)
  | RInt k => if k >? size then Err ValueErr                                (* 101-102 *)
              else Ok (py_slice_to sh k)                                    (* 104-106 *)
  end.

(** ** misc.py 116-159 *)

(** [np.argsort] is given as its result [order]. *)
Definition nlargestarg (order : list nat) (n : Z) : res (list nat) :=
  _ <- guard (0 <? n) AssertErr ;;                                          (* 132 *)
  Ok (py_slice_from order (Z.of_nat (List.length order) - n)).              (* 135 *)
Definition nsmallestarg (order : list nat) (n : Z) : res (list nat) :=
  _ <- guard (0 <? n) AssertErr ;;                                          (* 155 *)
  Ok (py_slice_to order n).                                                 (* 158 *)

(** ** misc.py 207-260 *)

(** An argument: None, a list, array or collection, or a single value. *)
Inductive arg (A : Type) := ANone | AList (l : list A) | AOne (a : A).
Arguments ANone {A}. Arguments AList {A} l. Arguments AOne {A} a.

(** 223-243; [seen]: [itemlen] once [first_not_none] is False. *)
Fixpoint check_one_to_one_from {A} (seen : option nat) (args : list (arg A)) : bool :=
  match args with
  | [] => true
  | ANone :: args' => check_one_to_one_from seen args'
  | item :: args' =>
      match seen with
      | None => check_one_to_one_from (Some (match item with AList l => List.length l | _ => 1%nat end)) args'
      | Some n =>
          match item with
          | AList l => if Nat.eqb (List.length l) n then check_one_to_one_from seen args' else false
          | _ => if Nat.eqb n 1 then check_one_to_one_from seen args' else false
          end
      end
  end.
Definition check_one_to_one {A} (args : list (arg A)) : bool := check_one_to_one_from None args.

(** 246-260 *)
Definition unpack {A} (args : list (arg A)) : list (arg A) :=
  map (fun a => match a with AList [x] => AOne x | a => a end) args.

(** ** datapreprocess.py *)

(** Floating-point results: a number, an infinity or NaN. *)
Inductive fl := Num (q : Q) | Inf (neg : bool) | NaN.
Definition fdiv (a b : Q) : fl :=
  if Qeq_bool b 0 then (if Qeq_bool a 0 then NaN else Inf (negb (Qle_bool 0 a))) else Num (a / b).

(** What is passed: a vector, a matrix (rows) or a sparse matrix. *)
Inductive xin := XVec (l : list Q) | XMat (rows : list (list Q)) | XSparse.

Definition qmin (a b : Q) : Q := if Qle_bool a b then a else b.
Definition qmax (a b : Q) : Q := if Qle_bool a b then b else a.
(** [np.nanmin], [np.nanmax] of one column; a ValueError on nothing. *)
Definition qreduce (f : Q -> Q -> Q) (l : list Q) : res Q :=
  match l with [] => Err ValueErr | q :: l' => Ok (fold_left f l' q) end.
(** The [j]-th column. *)
Definition qcol (rows : list (list Q)) (j : nat) : list Q := map (fun r => nth j r 0%Q) rows.
Definition qwidth (rows : list (list Q)) : nat := match rows with r :: _ => List.length r | [] => O end.
(** A computation on every column, given column by column. *)
Definition by_columns {A} (rows : list (list Q)) (f : list Q -> res A) : res (list A) :=
  mapM (fun j => f (qcol rows j)) (seq 0 (qwidth rows)).

(** 17-32 *)
Definition handle_zero (scale : Q) : Q := if Qeq_bool scale 0 then 1 else scale.

(** 72-80 for one column: smallest value and extent. *)
Definition extent (col : list Q) : res (Q * Q) :=
  mn <- qreduce qmin col ;; mx <- qreduce qmax col ;; Ok (mn, handle_zero (mx - mn)).
Definition rescale (lo hi : Q) (e : Q * Q) (x : Q) : Q := ((x - fst e) / snd e * (hi - lo) + lo)%Q.

(** 35-81 [minmax_scale] *)
Definition minmax_scale (X : xin) (lo hi : Q) : res xin :=
  if Qle_bool hi lo then Err ValueErr                                       (* 62-64 *)
  else
    match X with
    | XSparse => Err TypeErr                                                (* 66-68 *)
    | XVec l => e <- extent l ;; Ok (XVec (map (rescale lo hi e) l))
    | XMat [] => Err ValueErr
    | XMat rows =>
        es <- by_columns rows extent ;;
        Ok (XMat (map (fun r => map (fun p => rescale lo hi (fst p) (snd p)) (combine es r)) rows))
    end.

Definition qsum (l : list Q) : Q := fold_right Qplus 0%Q l.
Definition qlen {A} (l : list A) : Q := inject_Z (Z.of_nat (List.length l)).
Definition qmean (l : list Q) : Q := (qsum l / qlen l)%Q.
Definition qvar (l : list Q) : Q := qmean (map (fun x => (x - qmean l) * (x - qmean l))%Q l).

(** 84-117 [StandardScale], for non-empty data. *)
Definition standard_scale (X : xin) : res (list (list fl)) :=
  match X with
  | XSparse => Err TypeErr                                                  (* 103-105 *)
  | XVec l => Ok [map (fun x => fdiv (x - qmean l) (qvar l)) l]             (* a vector, given as one row *)
  | XMat rows =>
      st <- by_columns rows (fun c => Ok (qmean c, qvar c)) ;;              (* 112-113 *)
      Ok (map (fun r => map (fun p => fdiv (snd p - fst (fst p)) (snd (fst p))) (combine st r)) rows)
  end.
