(** Specification vocabulary for the data splitters, independent of the model. *)
From Verif Require Import Base IndexModel SplitModel.
From Coq Require Import QArith Qabs.
Local Open Scope Z_scope.

(** [z] is the integer nearest to [q], the even one in case of a tie. *)
Definition nearest_even (q : Q) (z : Z) : Prop :=
  (Qabs (q - inject_Z z) <= 1 # 2)%Q /\ ((Qabs (q - inject_Z z) == 1 # 2)%Q -> Z.Even z).

(** The shuffled positions of [n] things. *)
Definition shuffle (n : nat) (sh : list nat) : Prop := Permutation sh (seq 0 n).

(** How many elements a Python slice [l[0:c]] of a list of length [n] has. *)
Definition slice_size (n : nat) (c : Z) : nat :=
  Z.to_nat (if c <? 0 then Z.of_nat n + c else Z.min (Z.of_nat n) c).

(** Everything that was given has [n] instances, and something was given. *)
Definition data_size (X : option nat) (y : option ylab) (names : option (list pyval)) (n : nat) : Prop :=
  (X <> None \/ y <> None \/ names <> None) /\
  (forall m, X = Some m -> m = n) /\
  (forall l, y = Some (YVec l) -> List.length l = n) /\
  (forall l, y = Some (YMat l) -> List.length l = n) /\
  (forall l, names = Some l -> List.length l = n).

(** The names of the instances: those given, or 0, ..., n-1. *)
Definition instances (names : option (list pyval)) (n : nat) : list key :=
  match names with Some l => map norm l | None => map KInt (zrange (Z.of_nat n)) end.

(** All names are integers or all are strings. *)
Definition uniform (names : option (list pyval)) : Prop :=
  forall l v w, names = Some l -> In v l -> In w l -> key_ty (norm v) = key_ty (norm w).

(** Value of instance [i] under label vector / label matrix [y]. *)
Definition class_of (y : list Z) (i : Z) (c : Z) : Prop := 0 <= i /\ nth_error y (Z.to_nat i) = Some c.
Definition label_of (y : list (list Z)) (i : Z) (j : nat) (v : Z) : Prop :=
  0 <= i /\ exists row, nth_error y (Z.to_nat i) = Some row /\ nth_error row j = Some v.

(** A label matrix with [m] columns and at least one row. *)
Definition rectangular {A} (y : list (list A)) (m : nat) : Prop :=
  y <> [] /\ Forall (fun row => List.length row = m) y.

(** The cells an entry stands for, out of [m] columns. *)
Definition cells_of (m : nat) (e : entry) : list (nat * nat) :=
  match e with Row i => map (fun j => (i, j)) (seq 0 m) | Cell i j => [(i, j)] end.
Definition cells (m : nat) (es : list entry) : list (nat * nat) := flat_map (cells_of m) es.
Definition grid (m : nat) (rows : list nat) : list (nat * nat) := list_prod rows (seq 0 m).

(** The matrix split has [n] rows and [m] columns: as the shape says, or as the (non-empty) matrix has. *)
Definition shape_is (mat : option (list (list Z))) (shape : option (nat * nat)) (n m : nat) : Prop :=
  shape = Some (n, m) \/
  (shape = None /\ exists y, mat = Some y /\ rectangular y m /\ List.length y = n /\ (0 < m)%nat).

(** The [k]-th sets of the folds are the integer rows, all with [m] members. *)
Definition table {F} (part : F -> list key) (fs : list F) (rows : list (list Z)) (m : nat) : Prop :=
  map part fs = map (map KInt) rows /\ Forall (fun r => List.length r = m) rows.

(** What an array keeps of a table when dimensions of length one are dropped. *)
Inductive squeezed : list (list Z) -> loaded -> Prop :=
| sq_mat rows m : (2 <= List.length rows)%nat -> (2 <= m)%nat -> Forall (fun r => List.length r = m) rows -> squeezed rows (LMat rows)
| sq_row r : (2 <= List.length r)%nat -> squeezed [r] (LVec r)
| sq_col rows l : (2 <= List.length rows)%nat -> rows = map (fun z => [z]) l -> squeezed rows (LVec l)
| sq_one z : squeezed [[z]] (LNum z)
| sq_empty rows : Forall (fun r => r = []) rows -> squeezed rows (LVec []).
