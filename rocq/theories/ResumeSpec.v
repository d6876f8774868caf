(** What a user expects of an interrupted round, for index collections. *)
From Verif Require Import Base IndexModel IndexSpec StateModel StateSpec ResumeModel.
Local Open Scope Z_scope.

(** The elements recorded as queried, in order. *)
Definition recorded (s : sio icol pyval) : list key := map norm (flat_map queried (s_states s)).
(** The contract of a strategy: when it is asked, it selects distinct unlabelled elements, of the type of the others. *)
Definition permitted (T : pyty) (r : round icol pyval) (ev : revent pyval) : Prop :=
  match ev with
  | Go sel _ _ => r_pc r = QSelect ->
      NoDup (map norm sel) /\ forall v, In v sel -> In (norm v) (elems (r_U r)) /\ key_ty (norm v) = T
  | Crash _ => True
  end.
Fixpoint obeys (train test : list pyval) (L0 U0 : icol) (T : pyty) (r : round icol pyval) (evs : list (revent pyval)) : Prop :=
  match evs with
  | [] => True
  | ev :: evs => permitted T r ev /\ obeys train test L0 U0 T (r_step ic_update ic_difference_update train test L0 U0 r ev) evs
  end.
(** No interruption while the file is being written. *)
Fixpoint gentle (train test : list pyval) (L0 U0 : icol) (r : round icol pyval) (evs : list (revent pyval)) : Prop :=
  match evs with
  | [] => True
  | ev :: evs => (match ev with Crash _ => r_pc r <> QPart /\ r_pc r <> QWrite | _ => True end) /\
                 gentle train test L0 U0 (r_step ic_update ic_difference_update train test L0 U0 r ev) evs
  end.
(** [a] is [b] with some elements left out. *)
Inductive thinned {A} : list A -> list A -> Prop :=
| thin_nil : thinned [] []
| thin_keep a x y : thinned x y -> thinned (a :: x) (a :: y)
| thin_drop a x y : thinned x y -> thinned x (a :: y).
(** The initial sets: disjoint index collections, the labelled one not empty, of elements of one type. *)
Definition initial (T : pyty) (L0 U0 : icol) : Prop :=
  reachable L0 /\ reachable U0 /\ (exists k, In k (elems L0)) /\ (forall k, In k (elems L0) -> key_ty k = T) /\
  forall k, In k (elems L0) -> ~ In k (elems U0).
