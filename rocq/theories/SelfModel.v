(** A collection given to its own methods, and rounds of a loop in which the selection is the
    collection of unlabelled items itself. *)
From Verif Require Import Base IndexModel MLModel.
Local Open Scope Z_scope.

(** interface.py 115-116 [__iter__] returns the iterator of the inner list, and a list iterator holds a
    position into the live list: at each turn it gives the element at its position, if there still is
    one, and moves on by one. index_collections.py 186-187 and 207-208: [for item in other] when [other]
    is the collection that the body changes. [None] means that the loop has not ended within the
    given number of turns. *)
Fixpoint live_loop (f : icol -> pyval -> icol * res (list warning)) (turns pos : nat) (c : icol)
  : option (icol * res (list warning)) :=
  match nth_error (cont c) pos with
  | None => Some (c, Ok [])                                   (* StopIteration *)
  | Some v =>
      match turns with
      | O => None
      | S n =>
          match f c v with
          | (c1, Err e) => Some (c1, Err e)
          | (c1, Ok w) =>
              match live_loop f n (S pos) c1 with
              | None => None
              | Some (c2, Err e) => Some (c2, Err e)
              | Some (c2, Ok w') => Some (c2, Ok (w ++ w'))
              end
          end
      end
  end.

(** index_collections.py 190-209 [c.update(c)]. *)
Definition ic_update_self (turns : nat) (c : icol) := live_loop ic_add turns 0 c.

(** index_collections.py 169-188 [c.difference_update(c)]. *)
Definition ic_difference_self (turns : nat) (c : icol) := live_loop ic_discard turns 0 c.

(** index_collections.py 378-403, 405-430 with [other] the collection itself: the indexes are flattened
    into a new list (multi_label_tools.py 92-105) before the loop starts. *)
Definition ml_update_self (c : mlic) := ml_update false c (mcont c).
Definition ml_difference_self (c : mlic) := ml_difference_update false c (mcont c).

(** What a selection returns: the caller's collection of unlabelled items itself (multi_label.py 452-453,
    561-562, 1189-1190, 1196-1197, query_features.py 444-445, 551-552, 621-622, query_type.py 129-130), or a new list or array. *)
Inductive chosen (A : Type) := Itself | Listed (l : list A).
Arguments Itself {A}. Arguments Listed {A} l.

(** The two updates of one round of a loop over single-label collections (al_experiment.py 407-408 and the
    loops of examples/): [label_ind.update(select_ind)], then [unlab_ind.difference_update(select_ind)]. *)
Definition ic_round (turns : nat) (lab unl : icol) (s : chosen pyval) : option (icol * icol) :=
  match s with
  | Listed vs =>
      Some (fst (ic_update lab vs), fst (ic_difference_update unl vs))
  | Itself =>
      match ic_difference_self turns unl with
      | None => None
      | Some (unl1, _) => Some (fst (ic_update lab (cont unl)), unl1)
      end
  end.

(** The same for multi-label collections (examples/AL_settings/multi label.py 54-55,
    feature_querying.py 44-45); an error in the first update keeps the second from being reached. *)
Definition ml_round (lab unl : mlic) (s : chosen mlidx) : (mlic * mlic) * res unit :=
  let '(chk, vs) := match s with Listed vs => (true, vs) | Itself => (false, mcont unl) end in
  match ml_update chk lab vs with
  | (lab1, Err e) => ((lab1, unl), Err e)
  | (lab1, Ok _) =>
      match ml_difference_update chk unl vs with
      | (unl1, Err e) => ((lab1, unl1), Err e)
      | (unl1, Ok _) => ((lab1, unl1), Ok tt)
      end
  end.

(** The call [c.difference_update(c)] made [r] times in a row. *)
Fixpoint difference_self_times (r turns : nat) (c : icol) : option icol :=
  match r with
  | O => Some c
  | S r' =>
      match ic_difference_self turns c with
      | Some (c1, Ok _) => difference_self_times r' turns c1
      | _ => None
      end
  end.
