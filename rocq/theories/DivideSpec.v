(** What a split is when its positions get names; independent of the model's functions. *)
From Verif Require Import Base IndexModel SplitModel.
Local Open Scope Z_scope.

(** The name of a position. *)
Definition called (names : list key) (k : key) : key := match k with KInt z => nth (Z.to_nat z) names k | KStr _ => k end.
(** The fold with names in place of positions. *)
Definition name_fold (names : list key) (f : fold key key) : fold key key :=
  {| f_train := map (called names) (f_train f); f_test := map (called names) (f_test f);
     f_label := map (called names) (f_label f); f_unlabel := map (called names) (f_unlabel f) |}.
(** What a call gave, with names in place of positions: the same exception, the same endless search, or the same folds. *)
Definition name_result (names : list key) (r : option (res (list (fold key key)))) : option (res (list (fold key key))) :=
  match r with
  | None => None
  | Some (Err e) => Some (Err e)
  | Some (Ok fs) => Some (Ok (map (name_fold names) fs))
  end.
(** A call that asks for more folds goes the same way as far as the smaller one goes. *)
Definition extends {A} (less more : option (res (list A))) : Prop :=
  match less with
  | None => more = None
  | Some (Err e) => more = Some (Err e)
  | Some (Ok fs) => forall fs', more = Some (Ok fs') -> firstn (List.length fs) fs' = fs
  end.
