(** What it means for a container to behave as a mathematical set under a history of requests. *)
From Verif Require Import Base.

(** One elementary effect requested by the caller: put [k] in, or take [k] out. *)
Inductive request (K : Type) := Put (k : K) | Take (k : K).
Arguments Put {K} k.
Arguments Take {K} k.

Definition about {K} (r : request K) : K := match r with Put k | Take k => k end.

(** The last request about [k] in a history, if any. *)
Inductive last_request {K} (k : K) : list (request K) -> option (request K) -> Prop :=
| lr_none : forall rs, (forall r, In r rs -> about r <> k) -> last_request k rs None
| lr_some : forall pre r post, about r = k -> (forall r', In r' post -> about r' <> k) ->
    last_request k (pre ++ r :: post) (Some r).

(** Membership a mathematical set has after the requests [rs], starting from [S]. *)
Definition set_after {K} (S : K -> Prop) (rs : list (request K)) (k : K) : Prop :=
  forall o, last_request k rs o ->
  match o with
  | Some (Put _) => True
  | Some (Take _) => False
  | None => S k
  end.
