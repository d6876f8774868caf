(** Terms for the claims about comparing strategies. *)
From Verif Require Import Base IndexModel IndexSpec StateModel StateSpec ExpModel ExpSpec CompareModel.
From Coq Require Import String QArith.
Local Open Scope Z_scope.

(** When the last call that returned came to its end; [t0] if there is none. *)
Definition last_end (t0 : Q) (done : list (call * res result)) : Q :=
  fold_left (fun t p => match snd p with Ok _ => k_end (fst p) | Err _ => t end) done t0.

(** A call in which nothing raises, on a fold with labelled indexes [ls] and unlabelled indexes [us]. *)
Definition calm (perf : list pyval -> list pyval -> res (sval pyval)) (k : call) (ls us : list Z) : Prop :=
  is_fold (k_fold k) ls us /\ (forall t, k_save k t = Ok tt) /\ (forall d te, exists p, perf d te = Ok p) /\
  forall d h L U, exists sel, k_strat k d h L U = Ok sel /\ (cont U <> [] -> sel <> [] /\ forall x, In x sel -> In (norm x) (elems U)).

(** A strategy that asks for one instance at a time. *)
Definition one_by_one (k : call) : Prop := forall d h L U sel, k_strat k d h L U = Ok sel -> exists x, sel = [x].
