(** Specification vocabulary for the helpers and for preprocessing, independent of the model. *)
From Verif Require Import Base MiscModel.
From Coq Require Import QArith.
Local Open Scope Z_scope.

(** First and last number that [randperm]'s first argument denotes. *)
Inductive bounds : rp_n -> Z -> Z -> Prop :=
| b_int z : bounds (NInt z) 0 z
| b_np z : bounds (NNp z) 0 z
| b_pair a b : bounds (NTuple (Some a) b) a b
| b_none b : bounds (NTuple None b) 0 b.

(** [l] has the numbers from [a] to [b], each once, in some order. *)
Definition mixed (a b : Z) (l : list Z) : Prop := NoDup l /\ forall x, In x l <-> a <= x <= b.

(** [order] sorts [a]: a permutation of the positions along which the values do not decrease. *)
Definition sorts (a : list Q) (order : list nat) : Prop :=
  Permutation order (seq 0 (List.length a)) /\
  StronglySorted (fun i j => (nth i a 0 <= nth j a 0)%Q) order.

(** How many things an argument stands for. *)
Definition size {A} (a : arg A) : nat := match a with ANone => 0 | AList l => List.length l | AOne _ => 1 end.

(** Matrix with [m] columns and at least one row. *)
Definition rect (rows : list (list Q)) (m : nat) : Prop := rows <> [] /\ Forall (fun r => List.length r = m) rows.
(** The entry in row [i], column [j]. *)
Definition at_ (rows : list (list Q)) (i j : nat) (x : Q) : Prop :=
  exists r, nth_error rows i = Some r /\ nth_error r j = Some x.

(** Columns, their mean and their (population) variance. *)
Definition column {A} (d : A) (rows : list (list A)) (j : nat) : list A := map (fun r => nth j r d) rows.
Definition total (l : list Q) : Q := fold_right Qplus 0%Q l.
Definition mean (l : list Q) : Q := (total l / inject_Z (Z.of_nat (List.length l)))%Q.
Definition variance (l : list Q) : Q := mean (map (fun x => (x - mean l) * (x - mean l))%Q l).
