(** What it means to hand the same instances to a metric in another way: in another order, with the classes under
    other names, with the scores on another scale. *)
From Verif Require Import Base MiscModel.
From Coq Require Import QArith Permutation.

(** The same figure, as a value; the same exception otherwise. *)
Definition same_figure (x y : fl) : Prop :=
  match x, y with
  | Num p, Num q => (p == q)%Q
  | Inf s, Inf t => s = t
  | NaN, NaN => True
  | _, _ => False
  end.
Definition same_answer (r r' : res fl) : Prop :=
  match r, r' with
  | Ok x, Ok y => same_figure x y
  | Err e, Err e' => e = e'
  | _, _ => False
  end.

(** Every instance keeps its row of [a], its row of [b] and its weight; the instances come in another order. *)
Definition reordered {A B} (a : list A) (b : list B) (w : option (list Q)) (a' : list A) (b' : list B) (w' : option (list Q)) : Prop :=
  List.length a = List.length b /\ List.length a' = List.length b' /\
  match w, w' with
  | None, None => Permutation (combine a b) (combine a' b')
  | Some v, Some v' => List.length v = List.length a /\ List.length v' = List.length a' /\
                       Permutation (combine (combine a b) v) (combine (combine a' b') v')
  | _, _ => False
  end.

(** The columns of a table taken in the order [js]. *)
Definition columns_as {A} (js : list nat) (rows rows' : list (list A)) : Prop :=
  Forall2 (fun r r' => List.length r' = List.length js /\ forall k j, nth_error js k = Some j -> nth_error r' k = nth_error r j) rows rows'.

(** A change of scale which keeps the order. *)
Definition increasing (f : Q -> Q) : Prop := forall x y, (x < y)%Q <-> (f x < f y)%Q.
(** The scores of every instance are put on a scale of that instance's own. *)
Definition rescaled (s s' : list (list Q)) : Prop := Forall2 (fun r r' => exists f, increasing f /\ r' = map f r) s s'.
(** Different classes get different names. *)
Definition renaming (f : Z -> Z) : Prop := forall x y, f x = f y -> x = y.
(** No two labels of an instance have the same score. *)
Definition untied (s : list (list Q)) : Prop :=
  forall r i j x y, In r s -> nth_error r i = Some x -> nth_error r j = Some y -> (x == y)%Q -> i = j.
(** The same value, or the same exception. *)
Definition same_value (r r' : res Q) : Prop :=
  match r, r' with
  | Ok x, Ok y => (x == y)%Q
  | Err e, Err e' => e = e'
  | _, _ => False
  end.
