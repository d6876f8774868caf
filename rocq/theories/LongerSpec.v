(** Specification vocabulary for comparing experiments that stop at different points. *)
From Verif Require Import Base StateModel ExpModel.
From Coq Require Import QArith.

(** [r'] goes on from where [r] ends. *)
Definition continues {A} (r r' : list A) : Prop := exists more, r' = r ++ more.
(** The same kind of criterion with the same starting time, the second with the higher limit. *)
Definition looser (c c' : scrit) : Prop :=
  sc_name c = sc_name c' /\ sc_start c = sc_start c' /\
  match sc_value c, sc_value c' with Some v, Some v' => (v <= v')%Q | None, None => True | _, _ => False end.
