(** Model of the evaluation computed by [QueryInstanceQUIRE] (alipy/query_strategy/query_labels.py 780-883). The choice
    from the evaluations is [QueryModel.quire_select].

    Simplifications: floats are exact rationals; [np.linalg.inv] and [np.linalg.det] are arguments; the kernel values are
    given. An evaluation in which a division by zero occurs is an arbitrary [odd] float. *)
From Verif Require Import Base MiscModel QueryModel.
From Coq Require Import QArith Qabs.
Local Open Scope Z_scope.

Definition at_ (M : list (list Q)) (i j : nat) : Q := nth j (nth i M []) 0%Q.
(** [M[np.ix_(rows, cols)]] *)
Definition block (M : list (list Q)) (rows cols : list nat) : list (list Q) := map (fun i => map (at_ M i) cols) rows.
Definition table (rows cols : nat) (f : nat -> nat -> Q) : list (list Q) := map (fun i => map (f i) (range cols)) (range rows).
(** [c * np.eye(k)] *)
Definition scaled_eye (c : Q) (k : nat) : list (list Q) := table k k (fun a b => if Nat.eqb a b then c else 0%Q).
Definition sum_to (k : nat) (f : nat -> Q) : Q := fold_right Qplus 0%Q (map f (range k)).
(** [np.dot] of two matrices, the second with [k] rows and [cols] columns. *)
Definition dot (k cols : nat) (A C : list (list Q)) : list (list Q) :=
  map (fun r => map (fun j => sum_to k (fun i => nth i r 0 * at_ C i j)%Q) (range cols)) A.

(** 780-810: [kern], [lap] and [lmbda] of the object; [labels] are those of the training instances. *)
Record quire := { kern : list (list Q); lap : list (list Q); lmbda : Q; labels : list Q }.
Definition quire_new (inv : list (list Q) -> list (list Q)) (K : list (list Q)) (lam : Q) (y : list Q) : quire :=
  let n := length K in
  {| kern := K; lap := inv (table n n (fun a b => at_ K a b + (if Nat.eqb a b then lam else 0))%Q); lmbda := lam; labels := y |}.   (* 810 *)

(** 848-853: called [inv_Laa] in the code. *)
Definition inv_laa (inv : list (list Q) -> list (list Q)) (o : quire) (Lx Ux : list nat) : list (list Q) :=
  let k := length Ux in let l := length Lx in
  let M3 := dot l l (block (kern o) Ux Lx) (inv (scaled_eye (lmbda o) l)) in              (* 849-850 *)
  let M2 := dot l k M3 (block (kern o) Lx Ux) in                                          (* 851 *)
  table k k (fun a b => (if Nat.eqb a b then lmbda o else 0) + at_ (kern o) (nth a Ux 0%nat) (nth b Ux 0%nat) - at_ M2 a b)%Q.   (* 852-853 *)

(** 864-865: the entries of [inv_Luu]; [np.dot] of a vector with itself is a number. *)
Definition inv_luu (C : list (list Q)) (k i a b : nat) : Q :=
  let others := filter (fun c => negb (Nat.eqb c i)) (range k) in
  (at_ C a b - 1 / at_ C i i * fold_right Qplus 0 (map (fun c => at_ C c i * at_ C c i) others))%Q.

(** 857-878: the evaluation of the [i]-th unlabelled instance. *)
Definition quire_eva (inv : list (list Q) -> list (list Q)) (det : list (list Q) -> Q) (odd : nat -> fl) (o : quire) (Lx Ux : list nat) (i : nat) : fl :=
  let C := inv_laa inv o Lx Ux in
  let k := length Ux in
  let L := lap o in
  let s := nth i Ux 0%nat in
  let others := filter (fun c => negb (Nat.eqb c i)) (range k) in
  let u a := nth a Ux 0%nat in
  if Qeq_bool (at_ C i i) 0 || Qeq_bool (at_ L s s) 0 then odd i
  else
    let tmp := fold_right Qplus 0%Q (map (fun l =>
         ((at_ L s l - fold_right Qplus 0 (map (fun b =>
              fold_right Qplus 0 (map (fun a => at_ L s (u a) * inv_luu C k i a b) others) * at_ L (u b) l) others))
          * nth l (labels o) 0)%Q) Lx) in                                                  (* 866-876 *)
    Num (at_ L s s - det (block L Ux Ux) / at_ L s s + 2 * Qabs tmp)%Q.                    (* 847, 877-878 *)

(** 812-883 [select]: the positions in the training set of the labelled and unlabelled indexes, the evaluations, the choice.
    The positions are distinct for distinct indexes, so an evaluation belongs to its position. *)
Fixpoint index_of (x : nat) (l : list nat) : nat := match l with [] => 0 | y :: l' => if Nat.eqb x y then 0 else S (index_of x l') end.
Definition quire_query (inv : list (list Q) -> list (list Q)) (det : list (list Q) -> Q) (odd : nat -> fl) (o : quire) (train : list Z) (L U : list Z) : res (list Z) :=
  if (length U <=? 1)%nat then Ok U
  else lx <- mapM (fun i => py_nth (np_where train i) 0) L ;;                              (* 836 *)
       ux <- mapM (fun i => py_nth (np_where train i) 0) U ;;                              (* 837 *)
       quire_select train (fun p => quire_eva inv det odd o lx ux (index_of p ux)) L U.
