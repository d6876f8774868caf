(** Specification vocabulary for the order in which the folds of a method are given to the analyser. *)
From Verif Require Import Base MiscModel MiscSpec StateModel AnalyserModel AnalyserSpec.
From Coq Require Import String QArith Permutation.

(** Two floats are the same finite number. *)
Definition agree (x y : fl) : Prop := exists q, is_num x q /\ is_num y q.
(** The same methods, each with the same folds in some other order. *)
Definition reordered {A} (ts ts' : list (string * list A)) : Prop :=
  Forall2 (fun t t' => fst t = fst t' /\ Permutation (snd t) (snd t')) ts ts'.
(** The same figures: number of queries, number of folds, mean and variance. *)
Definition same_figures (s s' : summary) : Prop :=
  su_len s = su_len s' /\ su_folds s = su_folds s' /\ agree (su_mean s) (su_mean s') /\ agree (su_var s) (su_var s').
(** The same curve: name, positions and heights. *)
Definition same_curve (c c' : curve) : Prop :=
  fst (fst c) = fst (fst c') /\ Forall2 Qeq (snd (fst c)) (snd (fst c')) /\ Forall2 agree (snd c) (snd c').
