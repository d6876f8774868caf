(** Objects a toolbox makes (toolbox.py) for label matrices and features: label sets by [MultiLabelIndexCollection]
    (549-576), oracles by [get_clean_oracle] (305-322), threaded experiments by [get_ace_threading] (495-531) with the
    constructor of [aceThreading] (utils/multi_thread.py 64-120).

    Simplifications: an array of more than one dimension given as a label set is left out; the toolbox holds the contents of
    its split and not references; the empty tuple is left out; the folder for the results can be made. *)
From Verif Require Import Base IndexModel MLModel OracleModel SplitModel ToolModel GivenModel.
From Verif Require ThreadModel.
From Coq Require Import String QArith.
Local Open Scope Z_scope.

(** ** Label sets, 549-576 *)
(** [self._y.shape] *)
Definition shape_of (y : ylab) : list Z :=
  match y with YVec l => [Z.of_nat (List.length l)] | YMat m => [Z.of_nat (List.length m); columns m] end.
(** The [label_mat_shape] argument. *)
Definition label_shape (y : ylab) (given : option (list Z)) : list Z := match given with Some s => s | None => shape_of y end.
Definition tb_labels (y : ylab) (a : list el) (given : option (list Z)) : res mlic :=
  first <- py_nth a 0 ;;                                                                (* 570 *)
  if is_tup first then
    size <- py_nth (label_shape y given) 1 ;; as_labels (Some size) (AList a)           (* 571-572 *)
  else Err TypeErr.                     (* 574: construct_by_1d_array has no parameter [data], index_collections.py 543 *)

(** ** Oracles, 305-322 *)
(** The oracle of a toolbox that asks for features or has a label matrix; the others are [ToolModel.tb_oracle]. *)
Definition tb_matrix_oracle {P} (b : tbox P) (by_example : bool) (cost : mcost) : res (option (moracle Z)) :=
  match b_query b, b_y b with
  | Features, _ =>
      match b_X b with None => Err AttrErr | Some X => rmap Some (mo_init X None None cost) end   (* 314-315 *)
  | AllLabels, YMat m =>
      if by_example then
        match b_X b with None => Err AttrErr | Some X => rmap Some (mo_init m (Some X) None cost) end   (* 318-320 *)
      else rmap Some (mo_init m None None MCNone)                                       (* 318 *)
  | PartLabels, _ => Ok None
  | _, _ => Err NotImplErr
  end.

(** ** Threaded experiments *)
Definition el_of (i : item) : res el :=
  match i with
  | Scalar k => Ok (EKey k)
  | Tup [] => Err GenericErr
  | Tup [i] => Ok (ETup (IOne i))
  | Tup [i; j] => Ok (ETup (IPair i j))
  | Tup (i :: j :: _) => Ok (ETup (ILong i j))
  end.
Definition y_columns (y : ylab) : option Z := match y with YVec _ => None | YMat m => Some (columns m) end.
(** What a round is made from: the training and testing instances, the labelled and the unlabelled set. *)
Record round := { r_train : list item; r_test : list item; r_label : made; r_unlabel : made }.
(** multi_thread.py 87-104: one round. *)
Definition make_round (y : ylab) (q : quad (list (list item))) (i : nat) : res round :=
  tr <- py_nth (q_train q) i ;; te <- py_nth (q_test q) i ;;
  l <- py_nth (q_label q) i ;; u <- py_nth (q_unlabel q) i ;;
  l' <- mapM el_of l ;; u' <- mapM el_of u ;;
  s <- thread_sets (y_columns y) (AList l') (AList u') ;;
  Ok {| r_train := tr; r_test := te; r_label := fst s; r_unlabel := snd s |}.

(** toolbox.py 519-531 and multi_thread.py 64-120: the rounds and the greatest number of threads. *)
Definition tb_threads (b : stored) (target : option (list string)) (max_thread : option Z) : res (list round * Z) :=
  _ <- guard (b_flag b) GenericErr ;;                                                   (* 519-520 *)
  match b_split b with
  | None => Err GenericErr                                                              (* 521-522 *)
  | Some q =>
      let n := List.length (q_label q) in
      _ <- guard (Nat.eqb (List.length (q_train q)) (List.length (q_test q)) && Nat.eqb (List.length (q_test q)) n
                  && Nat.eqb n (List.length (q_unlabel q))) AssertErr ;;                (* 81-82 *)
      rs <- mapM (make_round (b_y b) q) (seq 0 n) ;;
      k <- match max_thread with
           | None => Ok (Z.of_nat n)                                                    (* 106-107 *)
           | Some k => _ <- guard (0 <? k) AssertErr ;; Ok k                            (* 109-110 *)
           end ;;
      _ <- match target with Some names => ThreadModel.set_target_function names | None => Ok tt end ;;   (* 118-120 *)
      Ok (rs, k)
  end.
