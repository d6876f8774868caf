(** A call with a batch against two calls with its parts; independent of the model. *)
From Verif Require Import Base.
From Coq Require Import QArith.

(** A call that changes a state and reports a list: the call with [vs ++ ws] succeeds exactly if the call with [vs] and
    then the one with [ws] do; the final state is the same and the reports are joined. *)
Definition in_two {S V W} (call : S -> list V -> S * res (list W)) (s : S) (vs ws : list V) : Prop :=
  forall t w, call s (vs ++ ws) = (t, Ok w) <->
    exists s1 w1 w2, call s vs = (s1, Ok w1) /\ call s1 ws = (t, Ok w2) /\ w = w1 ++ w2.

(** Both parts of optional columns are given, or neither is. *)
Definition joined {A} (a b ab : option (list A)) : Prop :=
  match a, b with
  | Some x, Some y => ab = Some (x ++ y)
  | None, None => ab = None
  | _, _ => False
  end.
