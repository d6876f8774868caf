(** Specification vocabulary for the labels a whole experiment depends on. *)
From Verif Require Import Base IndexModel MLModel MLSpec StateModel StateSpec ExpModel.
From Coq Require Import ZArith.

Section Labels.
  Context {Y : Type}.

  (** Two labellings that give the listed instances the same labels. *)
  Definition agree (y y' : key -> Y) (l : list pyval) : Prop := forall v, In v l -> y (norm v) = y' (norm v).

  (** A strategy that sees the labels of the labelled instances only; a performance that comes from the labels the model was fitted
      to and the labels of the test instances. *)
  Definition blind_strategy {H} (strat : (key -> Y) -> list pyval -> H -> icol -> icol -> list pyval) : Prop :=
    forall y y' h L U, agree y y' (cont L) -> strat y (cont L) h L U = strat y' (cont L) h L U.
  Definition fair_performance (perf : (key -> Y) -> list pyval -> list pyval -> sval pyval) : Prop :=
    forall y y' d t, agree y y' d -> agree y y' t -> perf y d t = perf y' d t.

  (** The labellings agree on what an experiment has used of a fold up to its [t]-th query. *)
  Definition agree_until (t : nat) (y y' : key -> Y) (f : fold) (r : list (entry pyval)) : Prop :=
    agree y y' (cont (fold_L f)) /\ agree y y' (f_test f) /\ forall e, In e (firstn t r) -> agree y y' (queried e).
End Labels.

(** Two tables of labels that agree on the entries (instance, label) of a collection. *)
Definition agree_entries {A} (y y' : list (list A)) (c : mlic) : Prop :=
  forall i b, In (i, Z.of_nat b) (pairs c) -> cell y (Z.to_nat i) b = cell y' (Z.to_nat i) b.
