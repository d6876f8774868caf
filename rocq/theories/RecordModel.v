(** Reading the recorded states of a [StateIO] (alipy/experiment/state_io.py). *)
From Verif Require Import Base IndexModel MLModel StateModel.
Local Open Scope Z_scope.

(** state_io.py 325-326 [__getitem__] with an integer: the element itself, negative positions from the end. *)
Definition sio_item {C E} (s : sio C E) (i : Z) : res (entry E) :=
  match py_index (List.length (s_states s)) i with
  | None => Err IndexErr
  | Some p => py_nth (s_states s) p
  end.

(** 296-298 [num_of_query], 322-323 [__len__], 331-332 [__iter__]. *)
Definition sio_count {C E} (s : sio C E) : nat := List.length (s_states s).
Definition sio_iter {C E} (s : sio C E) : list (entry E) := s_states s.
